(** * Executions of the OpenMP regions of get_connections_in_layer and
      get_connections_between_layer (/repo/sources/thermal_data.c 776-835,
      881-1018).

    Every thread has its own list (connection_list_init, inserts at the end);
    iterations are handed out in chunks of any size and in any order (this
    covers schedule(dynamic, 100) and schedule(static)); at the end each thread
    merges its list into the global one inside a critical section. The lists are
    the linked lists of DList.v: register 0 is dimensions->connections_list,
    register S t the local list of thread t. One step is one insertion or one
    merge: threads are interleaved in any way. *)
From Coq Require Import ZArith List Bool QArith.
From Verif Require Import Base DList NonUniform.
Import ListNotations.
Local Open Scope Z_scope.

(** State of a region: iterations not yet handed out, those of each thread, what
    each thread still has to insert in its current iteration, whether it has
    merged, and the lists in memory. *)
Record par := mkPar {
  pr_pool : list Z; pr_todo : nat -> list Z; pr_pending : nat -> list conn; pr_merged : nat -> bool;
  pr_mem : lstate conn
}.

Definition upd {A} (f : nat -> A) (t : nat) (x : A) : nat -> A := fun u => if Nat.eqb u t then x else f u.

(** Entry of the region. *)
Definition par_start (r : region) (mem : lstate conn) : par :=
  mkPar (rg_iterations r) (fun _ => []) (fun _ => []) (fun _ => false) mem.

(** Steps of thread t among n threads. *)
Inductive par_step (r : region) (n : nat) : par -> par -> Prop :=
| ps_take : forall t a chunk b todo pending merged mem, (t < n)%nat ->
    par_step r n (mkPar (a ++ chunk ++ b) todo pending merged mem)
                 (mkPar (a ++ b) (upd todo t (todo t ++ chunk)) pending merged mem)
| ps_begin : forall t i is pool todo pending merged mem, (t < n)%nat ->
    pending t = [] -> todo t = i :: is ->
    par_step r n (mkPar pool todo pending merged mem)
                 (mkPar pool (upd todo t is) (upd pending t (rg_body r i)) merged mem)
| ps_insert : forall t c cs pool todo pending merged mem mem', (t < n)%nat ->
    pending t = c :: cs -> lstep mem (LInsEnd (S t) c) = Ok mem' ->
    par_step r n (mkPar pool todo pending merged mem)
                 (mkPar pool todo (upd pending t cs) merged mem')
| ps_merge : forall t todo pending merged mem mem', (t < n)%nat ->
    todo t = [] -> pending t = [] -> merged t = false -> lstep mem (LMerge 0%nat (S t)) = Ok mem' ->
    par_step r n (mkPar [] todo pending merged mem)
                 (mkPar [] todo pending (upd merged t true) mem').

Inductive par_steps (r : region) (n : nat) : par -> par -> Prop :=
| pss_refl : forall p, par_steps r n p p
| pss_step : forall p q s, par_step r n p q -> par_steps r n q s -> par_steps r n p s.

(** All the threads have left the region. *)
Definition par_done (n : nat) (p : par) : Prop :=
  pr_pool p = [] /\ forall t, (t < n)%nat -> pr_todo p t = [] /\ pr_pending p t = [] /\ pr_merged p t = true.

(** The regions one after the other, each with its own number of threads. *)
Inductive par_run : list region -> lstate conn -> lstate conn -> Prop :=
| pr_nil : forall mem, par_run [] mem mem
| pr_cons : forall r rs n mem p mem', (0 < n)%nat -> par_steps r n (par_start r mem) p -> par_done n p ->
    par_run rs (pr_mem p) mem' -> par_run (r :: rs) mem mem'.
