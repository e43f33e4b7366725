(** * Linear systems of heat balance: comparison of solutions *)
From Coq Require Import ZArith List Bool QArith Lia Lqa Permutation.
From Verif Require Import Base QSum.
Import ListNotations.

(** A sum over [l] of a function that vanishes outside [s]. *)
Lemma qsum_support : forall {A} (f : A -> Q) (s l : list A),
    NoDup s -> NoDup l -> (forall x, In x s -> In x l) -> (forall x, In x l -> ~ In x s -> (f x == 0)%Q) ->
    (qsum (map f l) == qsum (map f s))%Q.
Proof.
  intros A f s. induction s as [|a s IH]; intros l Ns Nl I Z.
  - rewrite qsum_zero; [reflexivity|]. intros x Hx. apply Z; [assumption|intros []].
  - destruct (in_split a l (I a (or_introl eq_refl))) as (l1 & l2 & ->).
    inversion Ns; subst. rewrite map_app. cbn [map]. rewrite qsum_app. rewrite !qsum_cons.
    assert (Nl' : NoDup (l1 ++ l2)) by (apply NoDup_remove_1 in Nl; exact Nl).
    assert (Na : ~ In a (l1 ++ l2)) by (apply NoDup_remove_2 in Nl; exact Nl).
    rewrite <- (IH (l1 ++ l2)); [rewrite map_app, qsum_app; ring|assumption|assumption| |].
    + intros x Hx. specialize (I x (or_intror Hx)). apply in_app_iff in I. apply in_app_iff.
      destruct I as [I|[->|I]]; auto. contradiction.
    + intros x Hx Nx. apply Z; [apply in_app_iff; apply in_app_iff in Hx; cbn; tauto|].
      intros [<-|H]; auto.
Qed.

Section Net.
  Context {A : Type}.
  Variables (cells : list A) (b : A -> Q) (nb : A -> list (A * Q)).
  (** Heat leaving cell [a] per unit of time at temperatures [x]. *)
  Definition outflow (x : A -> Q) (a : A) : Q :=
    (b a * x a + qsum (map (fun p => snd p * (x a - x (fst p))) (nb a)))%Q.

  Hypothesis B : forall a, In a cells -> (0 < b a)%Q.
  Hypothesis N : forall a p, In a cells -> In p (nb a) -> In (fst p) cells /\ (0 <= snd p)%Q.

  Lemma exists_min : forall (x : A -> Q) l, l <> [] -> exists a, In a l /\ forall c, In c l -> (x a <= x c)%Q.
  Proof.
    intros x l. induction l as [|a l IH]; [congruence|]. intros _.
    destruct l as [|a2 l].
    - exists a. split; [left; reflexivity|]. intros c [<-|[]]. lra.
    - destruct IH as (m & Hm & Min); [discriminate|].
      destruct (Qlt_le_dec (x a) (x m)) as [L|L].
      + exists a. split; [left; reflexivity|]. intros c [<-|Hc]; [lra|]. specialize (Min c Hc). lra.
      + exists m. split; [right; assumption|]. intros c [<-|Hc]; [lra|auto].
  Qed.

  (** If nothing flows in, nothing is below zero. *)
  Lemma positive_solution : forall z, (forall a, In a cells -> (0 <= outflow z a)%Q) ->
      forall a, In a cells -> (0 <= z a)%Q.
  Proof.
    intros z H a Ha.
    destruct (exists_min z cells) as (m & Hm & Min); [intros E; rewrite E in Ha; destruct Ha|].
    assert (0 <= z m)%Q as Zm; [|specialize (Min a Ha); lra].
    specialize (H m Hm). unfold outflow in H.
    assert (qsum (map (fun p => snd p * (z m - z (fst p))) (nb m)) <= 0)%Q as S.
    { assert (0 <= - qsum (map (fun p => snd p * (z m - z (fst p))) (nb m)))%Q; [|lra].
      rewrite <- qsum_opp. apply qsum_nonneg. intros p Hp. destruct (N m p Hm Hp) as (I & G).
      specialize (Min _ I). assert (0 <= snd p * (z (fst p) - z m))%Q by (apply Qmult_le_0_compat; lra). lra. }
    specialize (B m Hm). destruct (Qlt_le_dec (z m) 0) as [L|L]; [|assumption].
    assert (0 < b m * (- z m))%Q by (apply Qmult_lt_0_compat; lra). lra.
  Qed.

  Lemma outflow_minus : forall x y a, (outflow (fun a => x a - y a) a == outflow x a - outflow y a)%Q.
  Proof.
    intros x y a. unfold outflow.
    rewrite (qsum_ext _ (fun p => snd p * (x a - x (fst p)) + - (snd p * (y a - y (fst p))))%Q) by (intros; ring).
    rewrite qsum_plus, qsum_opp. ring.
  Qed.
  Lemma outflow_const : forall k a, (outflow (fun _ => k) a == b a * k)%Q.
  Proof. intros k a. unfold outflow. rewrite qsum_zero; [ring|]. intros; ring. Qed.

  Lemma comparison : forall x y, (forall a, In a cells -> (outflow x a <= outflow y a)%Q) ->
      forall a, In a cells -> (x a <= y a)%Q.
  Proof.
    intros x y H a Ha.
    pose proof (positive_solution (fun a => y a - x a)%Q) as P. cbv beta in P.
    assert (0 <= y a - x a)%Q; [|lra]. apply P; [|assumption].
    intros c Hc. rewrite outflow_minus. specialize (H c Hc). lra.
  Qed.
  Lemma uniqueness : forall x y, (forall a, In a cells -> (outflow x a == outflow y a)%Q) ->
      forall a, In a cells -> (x a == y a)%Q.
  Proof.
    intros x y H a Ha. apply Qle_antisym; apply comparison; try assumption; intros c Hc; rewrite (H c Hc); lra.
  Qed.
  Lemma below_bound : forall x k, (forall a, In a cells -> (outflow x a <= b a * k)%Q) ->
      forall a, In a cells -> (x a <= k)%Q.
  Proof.
    intros x k H a Ha. apply (comparison x (fun _ => k)); [|assumption]. intros c Hc. rewrite outflow_const. auto.
  Qed.
  Lemma above_bound : forall x k, (forall a, In a cells -> (b a * k <= outflow x a)%Q) ->
      forall a, In a cells -> (k <= x a)%Q.
  Proof.
    intros x k H a Ha. apply (comparison (fun _ => k) x); [|assumption]. intros c Hc. rewrite outflow_const. auto.
  Qed.
End Net.
