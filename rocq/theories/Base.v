(** * Base: shared vocabulary of the model.

    - [u32]: wrap-around of [uint32_t] (types.h: Quantity_t, CellIndex_t,
      MessageWord_t are all [uint32_t], /repo/include/types.h).
    - [outcome]: result of a C function that may run into undefined behaviour
      ([UB]: out-of-bounds access, division by zero, NULL dereference) or, for
      recursive functions modelled with fuel, run out of fuel ([NoFuel]).
    - arrays: a C array is a [list] with bounds-checked access by [Z] index. *)
From Coq Require Import ZArith List Lia Bool.
Import ListNotations.
Local Open Scope Z_scope.

Definition two32 : Z := 4294967296.
Definition u32 (x : Z) : Z := x mod two32.

Lemma u32_id : forall x, 0 <= x < two32 -> u32 x = x.
Proof. intros x H. unfold u32. apply Z.mod_small. exact H. Qed.

Lemma u32_range : forall x, 0 <= u32 x < two32.
Proof. intros x. unfold u32. apply Z.mod_pos_bound. reflexivity. Qed.

Inductive outcome (A : Type) : Type :=
| Ok (a : A)
| UB
| NoFuel.
Arguments Ok {A} _.
Arguments UB {A}.
Arguments NoFuel {A}.

Definition bind {A B} (m : outcome A) (f : A -> outcome B) : outcome B :=
  match m with Ok a => f a | UB => UB | NoFuel => NoFuel end.

Notation "'do' x <- m ; f" := (bind m (fun x => f))
  (at level 200, x pattern, m at level 100, f at level 200, right associativity).

(** Return codes of the library, /repo/include/types.h 405-411. *)
Inductive error_t := TDICE_SUCCESS | TDICE_FAILURE.

Definition error_eqb (a b : error_t) : bool :=
  match a, b with
  | TDICE_SUCCESS, TDICE_SUCCESS => true
  | TDICE_FAILURE, TDICE_FAILURE => true
  | _, _ => false
  end.

(** ** Arrays *)
Section Arr.
  Context {A : Type}.

  (** C read [a[i]]: undefined behaviour outside the array. *)
  Definition arr_get (l : list A) (i : Z) : outcome A :=
    if (0 <=? i) && (i <? Z.of_nat (length l))
    then match nth_error l (Z.to_nat i) with Some x => Ok x | None => UB end
    else UB.

  Fixpoint list_set (l : list A) (n : nat) (x : A) : list A :=
    match l, n with
    | [], _ => []
    | _ :: t, O => x :: t
    | h :: t, S m => h :: list_set t m x
    end.

  (** C write [a[i] = x]: undefined behaviour outside the array. *)
  Definition arr_set (l : list A) (i : Z) (x : A) : outcome (list A) :=
    if (0 <=? i) && (i <? Z.of_nat (length l))
    then Ok (list_set l (Z.to_nat i) x)
    else UB.

  Lemma list_set_length : forall l n x, length (list_set l n x) = length l.
  Proof.
    induction l as [|h t IH]; intros [|n] x; simpl; auto.
  Qed.

  Lemma list_set_nth_same : forall l n x d,
      (n < length l)%nat -> nth n (list_set l n x) d = x.
  Proof.
    induction l as [|h t IH]; intros [|n] x d H; simpl in *; try lia; auto.
    apply IH. lia.
  Qed.

  Lemma list_set_nth_other : forall l n m x d,
      n <> m -> nth m (list_set l n x) d = nth m l d.
  Proof.
    induction l as [|h t IH]; intros [|n] [|m] x d H; simpl; auto; try lia.
  Qed.

  Lemma list_set_nth_error_same : forall l n x,
      (n < length l)%nat -> nth_error (list_set l n x) n = Some x.
  Proof.
    induction l as [|h t IH]; intros [|n] x H; simpl in *; try lia; auto.
    apply IH. lia.
  Qed.

  Lemma list_set_nth_error_other : forall l n m x,
      n <> m -> nth_error (list_set l n x) m = nth_error l m.
  Proof.
    induction l as [|h t IH]; intros [|n] [|m] x H; simpl; auto; try lia.
  Qed.

  Lemma arr_get_ok : forall l i d,
      0 <= i < Z.of_nat (length l) -> arr_get l i = Ok (nth (Z.to_nat i) l d).
  Proof.
    intros l i d H. unfold arr_get.
    replace (0 <=? i) with true by (symmetry; apply Z.leb_le; lia).
    replace (i <? Z.of_nat (length l)) with true by (symmetry; apply Z.ltb_lt; lia).
    simpl. rewrite (nth_error_nth' l d) by lia. reflexivity.
  Qed.

  Lemma arr_set_ok : forall l i x,
      0 <= i < Z.of_nat (length l) -> arr_set l i x = Ok (list_set l (Z.to_nat i) x).
  Proof.
    intros l i x H. unfold arr_set.
    replace (0 <=? i) with true by (symmetry; apply Z.leb_le; lia).
    replace (i <? Z.of_nat (length l)) with true by (symmetry; apply Z.ltb_lt; lia).
    reflexivity.
  Qed.
End Arr.

Lemma nth_ext' : forall {A} (l1 l2 : list A) d,
    length l1 = length l2 ->
    (forall i, (i < length l1)%nat -> nth i l1 d = nth i l2 d) -> l1 = l2.
Proof. intros A l1 l2 d H H0. apply (nth_ext l1 l2 d d H H0). Qed.

Lemma nth_map_seq : forall {A} (f : nat -> A) n i d,
    (i < n)%nat -> nth i (map f (seq 0 n)) d = f i.
Proof.
  intros A f n i d H.
  rewrite nth_indep with (d' := f 0%nat) by (rewrite map_length, seq_length; exact H).
  rewrite map_nth. rewrite seq_nth by exact H. reflexivity.
Qed.
