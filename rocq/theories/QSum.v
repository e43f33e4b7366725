(** * Sums of rationals *)
From Coq Require Import ZArith List QArith Lqa Lia Permutation.
Import ListNotations.
Local Open Scope Q_scope.

(** Sum of a list of rationals. *)
Definition qsum (l : list Q) : Q := fold_right Qplus 0 l.

Lemma qsum_nil : qsum [] = 0. Proof. reflexivity. Qed.
Lemma qsum_cons : forall x l, qsum (x :: l) = x + qsum l. Proof. reflexivity. Qed.

Lemma qsum_app : forall a b, qsum (a ++ b) == qsum a + qsum b.
Proof.
  induction a as [|x t IH]; intros b.
  - cbn [app]. rewrite qsum_nil. ring.
  - cbn [app]. rewrite !qsum_cons, IH. ring.
Qed.

Lemma qsum_ext : forall {A} (f g : A -> Q) l,
    (forall x, In x l -> f x == g x) -> qsum (map f l) == qsum (map g l).
Proof.
  intros A f g. induction l as [|x t IH]; intros H; [reflexivity|].
  cbn [map]. rewrite !qsum_cons, IH by (intros y Hy; apply H; right; exact Hy).
  rewrite (H x) by (left; reflexivity). reflexivity.
Qed.

Lemma qsum_plus : forall {A} (f g : A -> Q) l,
    qsum (map (fun x => f x + g x) l) == qsum (map f l) + qsum (map g l).
Proof.
  intros A f g. induction l as [|x t IH]; [cbn [map]; rewrite !qsum_nil; ring|].
  cbn [map]. rewrite !qsum_cons, IH. ring.
Qed.

Lemma qsum_scale : forall {A} (f : A -> Q) k l,
    qsum (map (fun x => k * f x) l) == k * qsum (map f l).
Proof.
  intros A f k. induction l as [|x t IH]; [cbn [map]; rewrite !qsum_nil; ring|].
  cbn [map]. rewrite !qsum_cons, IH. ring.
Qed.

Lemma qsum_scale_r : forall {A} (f : A -> Q) k l,
    qsum (map (fun x => f x * k) l) == qsum (map f l) * k.
Proof.
  intros A f k. induction l as [|x t IH]; [cbn [map]; rewrite !qsum_nil; ring|].
  cbn [map]. rewrite !qsum_cons, IH. ring.
Qed.

Lemma qsum_opp : forall {A} (f : A -> Q) l,
    qsum (map (fun x => - f x) l) == - qsum (map f l).
Proof.
  intros A f. induction l as [|x t IH]; [cbn [map]; rewrite !qsum_nil; ring|].
  cbn [map]. rewrite !qsum_cons, IH. ring.
Qed.

Lemma qsum_zero : forall {A} (f : A -> Q) l, (forall x, In x l -> f x == 0) -> qsum (map f l) == 0.
Proof.
  intros A f. induction l as [|x t IH]; intros H; [reflexivity|].
  cbn [map]. rewrite qsum_cons, IH by (intros y Hy; apply H; right; exact Hy).
  rewrite (H x) by (left; reflexivity). ring.
Qed.

Lemma qsum_nonneg : forall {A} (f : A -> Q) l, (forall x, In x l -> 0 <= f x) -> 0 <= qsum (map f l).
Proof.
  intros A f. induction l as [|x t IH]; intros H; [cbn [map]; rewrite qsum_nil; lra|].
  cbn [map]. rewrite qsum_cons.
  assert (0 <= f x) by (apply H; left; reflexivity).
  assert (0 <= qsum (map f t)) by (apply IH; intros y Hy; apply H; right; exact Hy). lra.
Qed.

Lemma qsum_le : forall {A} (f g : A -> Q) l,
    (forall x, In x l -> f x <= g x) -> qsum (map f l) <= qsum (map g l).
Proof.
  intros A f g. induction l as [|x t IH]; intros H; [cbn [map]; rewrite !qsum_nil; lra|].
  cbn [map]. rewrite !qsum_cons.
  assert (f x <= g x) by (apply H; left; reflexivity).
  assert (qsum (map f t) <= qsum (map g t)) by (apply IH; intros y Hy; apply H; right; exact Hy). lra.
Qed.

Lemma qsum_perm : forall a b, Permutation a b -> qsum a == qsum b.
Proof.
  intros a b P. induction P.
  - reflexivity.
  - rewrite !qsum_cons, IHP. reflexivity.
  - rewrite !qsum_cons. ring.
  - rewrite IHP1, IHP2. reflexivity.
Qed.

Lemma qsum_flat_map : forall {A B} (f : A -> list B) (g : B -> Q) l,
    qsum (map g (flat_map f l)) == qsum (map (fun a => qsum (map g (f a))) l).
Proof.
  intros A B f g. induction l as [|x t IH]; [reflexivity|].
  cbn [flat_map map]. rewrite map_app, qsum_app, IH, qsum_cons. reflexivity.
Qed.

Lemma qsum_swap : forall {A B} (f : A -> B -> Q) la lb,
    qsum (map (fun a => qsum (map (f a) lb)) la) == qsum (map (fun b => qsum (map (fun a => f a b) la)) lb).
Proof.
  intros A B f. induction la as [|a t IH]; intros lb.
  - cbn [map]. rewrite qsum_nil. symmetry. apply qsum_zero. reflexivity.
  - cbn [map]. rewrite qsum_cons, IH.
    rewrite <- qsum_plus. apply qsum_ext. intros b _. rewrite qsum_cons. reflexivity.
Qed.

(** Sum with a single non-zero term. *)
Lemma qsum_single : forall {A} (f : A -> Q) l x,
    NoDup l -> In x l -> (forall y, In y l -> y <> x -> f y == 0) -> qsum (map f l) == f x.
Proof.
  intros A f. induction l as [|a t IH]; intros x Hnd Hin H; [destruct Hin|].
  inversion Hnd as [|? ? Hni Hnd']; subst. cbn [map]. rewrite qsum_cons.
  destruct Hin as [->|Hin].
  - rewrite qsum_zero; [ring|]. intros y Hy. apply H; [right; exact Hy|]. intros ->. contradiction.
  - rewrite (IH x Hnd' Hin) by (intros y Hy Hne; apply H; [right; exact Hy|exact Hne]).
    rewrite (H a); [ring|left; reflexivity|]. intros ->. contradiction.
Qed.

Lemma qsum_repeat : forall x n, qsum (repeat x n) == x * inject_Z (Z.of_nat n).
Proof.
  intros x. induction n as [|n IH]; [cbn [repeat]; rewrite qsum_nil; change (inject_Z (Z.of_nat 0)) with 0; ring|].
  cbn [repeat]. rewrite qsum_cons, IH. rewrite Nat2Z.inj_succ. unfold Z.succ. rewrite inject_Z_plus. ring.
Qed.

Lemma qsum_const : forall {A} (c : Q) (l : list A),
    qsum (map (fun _ => c) l) == c * inject_Z (Z.of_nat (length l)).
Proof.
  intros A c l. induction l as [|x t IH]; [cbn [map length]; rewrite qsum_nil; change (inject_Z (Z.of_nat 0)) with 0; ring|].
  cbn [map length]. rewrite qsum_cons, IH. rewrite Nat2Z.inj_succ. unfold Z.succ. rewrite inject_Z_plus. ring.
Qed.

(** Telescoping over consecutive integers. *)
Lemma qsum_telescope : forall (f : nat -> Q) n a,
    qsum (map (fun i => f (S i) - f i) (seq a n)) == f (a + n)%nat - f a.
Proof.
  intros f. induction n as [|n IH]; intros a.
  - cbn [seq map]. rewrite qsum_nil, Nat.add_0_r. ring.
  - cbn [seq map]. rewrite qsum_cons, IH. replace (S a + n)%nat with (a + S n)%nat by lia. ring.
Qed.
