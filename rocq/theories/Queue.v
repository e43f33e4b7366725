(** * Model of /repo/sources/powers_queue.c *)
From Coq Require Import ZArith List QArith.
From Verif Require Import Base.
Import ListNotations.
Local Open Scope Z_scope.

(** Power_t is a double; values are only moved around here. *)
Definition power : Type := Q.
Definition power0 : power := 0%Q.

(** struct PowersQueue, include/powers_queue.h 63-96.  [q_mem = None] models a
    NULL [Memory] pointer. Quantity_t fields are [Z] in [0, 2^32). *)
Record queue := mkQueue {
  q_mem   : option (list power);
  q_cap   : Z;
  q_size  : Z;
  q_start : Z;
  q_end   : Z
}.

(** powers_queue_init, powers_queue.c 45-52. *)
Definition queue_init : queue := mkQueue None 0 0 0 0.

(** powers_queue_destroy, powers_queue.c 76-83 (free of the memory is implicit). *)
Definition queue_destroy (q : queue) : queue := queue_init.

(** powers_queue_build, powers_queue.c 56-72.  Simplification: calloc does not
    fail; calloc(0) is taken to return a non-NULL zero-sized block (as glibc). *)
Definition queue_build (q : queue) (capacity : Z) : queue :=
  let q := queue_destroy q in
  mkQueue (Some (repeat power0 (Z.to_nat capacity))) capacity
          (q_size q) (q_start q) (q_end q).

(** is_empty_powers_queue, powers_queue.c 190-193. *)
Definition queue_is_empty (q : queue) : bool := q_size q =? 0.

(** is_full_powers_queue, powers_queue.c 197-200. *)
Definition queue_is_full (q : queue) : bool := q_size q =? q_cap q.

(** C's [a % b] on uint32_t: undefined for b = 0. *)
Definition umod (a b : Z) : outcome Z := if b =? 0 then UB else Ok (a mod b).

(** powers_queue_copy, powers_queue.c 87-115, parameterised by the put
    operation it calls.  [copy_loop] is the while loop of lines 109-114. *)
Fixpoint copy_loop (put : queue -> power -> outcome queue)
         (tocopy : nat) (dst src : queue) (index : Z) : outcome queue :=
  match tocopy with
  | O => Ok dst
  | S n =>
    match q_mem src with
    | None => UB
    | Some m =>
      do v <- arr_get m index ;
      do dst' <- put dst v ;
      do index' <- umod (u32 (index + 1)) (q_cap src) ;
      copy_loop put n dst' src index'
    end
  end.

Definition queue_copy_with (put : queue -> power -> outcome queue)
           (dst src : queue) : outcome queue :=
  let dst :=
    if (q_cap dst <? q_cap src) || (match q_mem dst with None => true | _ => false end)
    then queue_build (queue_destroy dst) (q_cap src)
    else mkQueue (q_mem dst) (q_cap dst) 0 0 0 in
  if queue_is_empty src then Ok dst
  else copy_loop put (Z.to_nat (q_size src)) dst src (q_start src).

(** put_into_powers_queue, powers_queue.c 204-240.  The C function is mutually
    recursive with powers_queue_copy; recursion is bounded by [fuel]. *)
Fixpoint queue_put_f (fuel : nat) (q : queue) (p : power) : outcome queue :=
  match fuel with
  | O => NoFuel
  | S f =>
    match q_mem q with
    | None => Ok q
    | Some _ =>
      do q' <- (if queue_is_full q
                then queue_copy_with (queue_put_f f)
                       (queue_build queue_init (u32 (q_cap q * 2))) q
                else Ok q) ;
      match q_mem q' with
      | None => UB
      | Some m =>
        do m' <- arr_set m (q_end q') p ;
        do e' <- umod (u32 (q_end q' + 1)) (q_cap q') ;
        Ok (mkQueue (Some m') (q_cap q') (u32 (q_size q' + 1)) (q_start q') e')
      end
    end
  end.

(** Recursion depth two is enough: theorem [queue_put_spec] shows [NoFuel] is
    never reached from a well-formed queue. *)
Definition queue_put (q : queue) (p : power) : outcome queue := queue_put_f 2 q p.

Definition queue_copy (dst src : queue) : outcome queue :=
  queue_copy_with queue_put dst src.

(** powers_queue_clone, powers_queue.c 132-145 (malloc succeeds). *)
Definition queue_clone (src : queue) : outcome queue := queue_copy queue_init src.

(** get_from_powers_queue, powers_queue.c 244-267; returns value and new queue. *)
Definition queue_get (q : queue) : outcome (power * queue) :=
  match q_mem q with
  | None => Ok (power0, q)
  | Some m =>
    if queue_is_empty q then Ok (power0, q)
    else
      do v <- arr_get m (q_start q) ;
      do s' <- umod (u32 (q_start q + 1)) (q_cap q) ;
      Ok (v, mkQueue (q_mem q) (q_cap q) (u32 (q_size q - 1)) s' (q_end q))
  end.

(** ** A client program over several queues (registers). *)
Inductive qop :=
| OBuild (r : nat) (cap : Z)      (* powers_queue_build *)
| OPut (r : nat) (p : power)      (* put_into_powers_queue *)
| OGet (r : nat)                  (* get_from_powers_queue *)
| OCopy (dst src : nat)           (* powers_queue_copy *)
| ODestroy (r : nat).             (* powers_queue_destroy *)

Definition qstate := nat -> queue.
Definition set_reg {A} (s : nat -> A) (r : nat) (q : A) : nat -> A :=
  fun r' => if Nat.eqb r' r then q else s r'.

Definition qstep (s : qstate) (o : qop) : outcome (option power * qstate) :=
  match o with
  | OBuild r c => Ok (None, set_reg s r (queue_build (s r) c))
  | OPut r p => do q <- queue_put (s r) p ; Ok (None, set_reg s r q)
  | OGet r => do vq <- queue_get (s r) ; Ok (Some (fst vq), set_reg s r (snd vq))
  | OCopy d r => do q <- queue_copy (s d) (s r) ; Ok (None, set_reg s d q)
  | ODestroy r => Ok (None, set_reg s r (queue_destroy (s r)))
  end.

Fixpoint qrun (s : qstate) (ops : list qop) : outcome (list (option power) * qstate) :=
  match ops with
  | [] => Ok ([], s)
  | o :: os =>
    do vs <- qstep s o ;
    do rs <- qrun (snd vs) os ;
    Ok (fst vs :: fst rs, snd rs)
  end.
