(** * Properties C01-C06: powers queues and generic lists.
    Only statements; proofs are in QueueProofs.v / DListProofs.v. *)
From Coq Require Import ZArith List QArith Bool Lia.
From Verif Require Import Base Queue QueueSpec QueueProofs DList DListProofs.
Import ListNotations.
Local Open Scope Z_scope.

(** C01 + C03 (positive capacity).  Every program over queues that respects the
    usage rules [valid_qops] runs without undefined behaviour ([Ok]: no index
    outside the buffer, no modulo by zero) and every value returned by a get is
    the one the FIFO specification [sqrun] returns. *)
Theorem C01_queue_fifo : forall ops,
    valid_qops (fun _ => None) ops ->
    2 * Z.of_nat (length ops) < two32 ->
    exists s', qrun (fun _ => queue_init) ops = Ok (fst (sqrun (fun _ => None) ops), s').
Proof. exact qrun_refines. Qed.
Print Assumptions C01_queue_fifo.

(** Single operation forms, for a queue holding [l]. *)
Theorem C01_put_appends : forall q l p,
    qrep q l -> 2 * Z.of_nat (length l) < two32 ->
    exists q', queue_put q p = Ok q' /\ qrep q' (l ++ [p]).
Proof. exact queue_put_spec. Qed.

Theorem C01_get_takes_oldest : forall q x l,
    qrep q (x :: l) -> exists q', queue_get q = Ok (x, q') /\ qrep q' l.
Proof. exact queue_get_spec. Qed.

Theorem C01_get_empty : forall q, qrep q [] -> queue_get q = Ok (power0, q).
Proof. exact queue_get_empty. Qed.

(** C02 *)
Theorem C02_queue_copy : forall dst src l,
    qrep src l -> (dst = queue_init \/ exists ld, qrep dst ld) ->
    exists dst', queue_copy dst src = Ok dst' /\ qrep dst' l.
Proof. exact queue_copy_spec. Qed.
Print Assumptions C02_queue_copy.

(** C03: a queue built with capacity 0 leads to undefined behaviour at the first put. *)
Theorem C03_capacity_zero_is_unsafe : forall q p, queue_put (queue_build q 0) p = UB.
Proof. exact put_cap0_ub. Qed.
Print Assumptions C03_capacity_zero_is_unsafe.

(** Witness: a program with growth, copy over a non-empty queue and independence. *)
Definition queue_demo : list qop :=
  [OBuild 0 1; OPut 0 1%Q; OPut 0 2%Q; OGet 0; OPut 0 3%Q; OPut 0 4%Q;
   OBuild 1 5; OPut 1 9%Q; OCopy 1 0; OGet 1; OGet 0; OGet 0; OGet 0; OGet 0; OGet 1; OGet 2].

Example queue_demo_valid :
  valid_qops (fun _ => None) queue_demo /\ 2 * Z.of_nat (length queue_demo) < two32.
Proof. split; [cbn; repeat split; try discriminate; unfold two32; lia|vm_compute; reflexivity]. Qed.

Example queue_demo_result :
  fst (sqrun (fun _ => None) queue_demo)
  = [None; None; None; Some 1%Q; None; None; None; None; None; Some 2%Q; Some 2%Q; Some 3%Q;
     Some 4%Q; Some 0%Q; Some 3%Q; Some 0%Q].
Proof. reflexivity. Qed.

Example queue_rep_inhabited : qrep (queue_build queue_init 10) [].
Proof. apply build_rep. unfold two32. lia. Qed.

(** C04: any program over generic lists; both traversals and the size. *)
Theorem C04_list_structure : forall (A : Type) (ops : list (lop A)),
    Forall valid_lop ops ->
    exists s', lrun lstart ops = Ok s' /\
      forall r, walk_forward (ls_heap s') (ls_reg s' r) = Ok (slrun ops r)
             /\ walk_backward (ls_heap s') (ls_reg s' r) = Ok (rev (slrun ops r))
             /\ l_size (ls_reg s' r) = u32 (Z.of_nat (length (slrun ops r))).
Proof. exact @lrun_refines. Qed.
Print Assumptions C04_list_structure.

(** C05: merge at any point of any program. *)
Theorem C05_list_merge : forall (A : Type) (ops : list (lop A)) r1 r2,
    Forall valid_lop ops -> r1 <> r2 ->
    exists s s', lrun lstart ops = Ok s /\ lstep s (LMerge r1 r2) = Ok s' /\
      exists xs ys,
        walk_forward (ls_heap s) (ls_reg s r1) = Ok xs /\
        walk_forward (ls_heap s) (ls_reg s r2) = Ok ys /\
        walk_forward (ls_heap s') (ls_reg s' r1) = Ok (xs ++ ys) /\
        walk_backward (ls_heap s') (ls_reg s' r1) = Ok (rev (xs ++ ys)) /\
        l_size (ls_reg s' r1) = u32 (Z.of_nat (length xs + length ys)) /\
        walk_forward (ls_heap s') (ls_reg s' r2) = Ok [] /\
        walk_backward (ls_heap s') (ls_reg s' r2) = Ok [] /\
        l_size (ls_reg s' r2) = 0.
Proof. exact @merge_program. Qed.
Print Assumptions C05_list_merge.

(** C06 *)
Theorem C06_list_find : forall (A : Type) (ops : list (lop A)) (eq : A -> bool),
    Forall valid_lop ops ->
    exists s', lrun lstart ops = Ok s' /\
      forall r xs, walk_forward (ls_heap s') (ls_reg s' r) = Ok xs ->
        (forall x, list_find eq (ls_heap s') (ls_reg s' r) = Ok (Some x) <->
                   exists before after, xs = before ++ x :: after /\ eq x = true /\
                                        Forall (fun y => eq y = false) before) /\
        (list_find eq (ls_heap s') (ls_reg s' r) = Ok None <->
         Forall (fun y => eq y = false) xs).
Proof. exact @find_program. Qed.
Print Assumptions C06_list_find.

Definition list_demo : list (lop nat) :=
  [LInsEnd 0 1; LInsBegin 0 2; LInsEnd 1 3; LInsEnd 1 4; LMerge 0 1; LCopy 2 0; LInsEnd 2 7;
   LMerge 1 2; LDestroy 0]%nat.
Example list_demo_valid : Forall valid_lop list_demo.
Proof. repeat constructor; discriminate. Qed.
Example list_demo_result : slrun list_demo 1%nat = [2;1;3;4;7]%nat /\ slrun list_demo 0%nat = [].
Proof. split; reflexivity. Qed.
