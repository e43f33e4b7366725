(** * Contacts between cells of the non-uniform grid *)
From Coq Require Import ZArith List Bool QArith Qabs Qminmax Lia Lqa.
From Verif Require Import Base QSum Dims Floorplan Stack NonUniform NuSpec NuGeomProofs.
Import ListNotations.
Local Open Scope Z_scope.

Definition meets (a0 a1 b0 b1 : Q) : Prop := (a0 < b1 /\ b0 < a1)%Q.

Lemma meets_point : forall a0 a1 b0 b1, (a0 < a1)%Q -> (b0 < b1)%Q -> (meets a0 a1 b0 b1 <-> exists x, a0 <= x < a1 /\ b0 <= x < b1)%Q.
Proof.
  intros a0 a1 b0 b1 A B. unfold meets. split.
  - intros (C & D). exists (Qmax a0 b0). destruct (qmax_cases a0 b0) as [(E & ?)|(E & ?)]; rewrite E; lra.
  - intros (x & ? & ?). lra.
Qed.

Lemma disjoint_iff : forall a b, proper a -> proper b ->
    (disjoint a b <-> ~ (meets (r_x0 a) (r_x1 a) (r_x0 b) (r_x1 b) /\ meets (r_y0 a) (r_y1 a) (r_y0 b) (r_y1 b))).
Proof.
  intros a b (AX & AY) (BX & BY). split.
  - intros D (M & N). apply meets_point in M; auto. apply meets_point in N; auto. destruct M as (x & X1 & X2). destruct N as (y & Y1 & Y2).
    apply (D x y); split; assumption.
  - intros N x y (I1 & I2) (J1 & J2). apply N. split; apply meets_point; auto; eexists; split; eassumption.
Qed.

(** Position of two intervals known up to 1/500. *)
Lemma interval_cases : forall a0 a1 b0 b1, (a0 < a1)%Q -> (b0 < b1)%Q -> apart a0 b1 -> apart a1 b0 ->
   ((a0 == b1 \/ a1 == b0) \/
    (a0 - b1 <= -(1#500) /\ 1#500 <= a1 - b0) \/
    (1#500 <= a0 - b1 /\ 1#500 <= a1 - b0) \/
    (a0 - b1 <= -(1#500) /\ a1 - b0 <= -(1#500)))%Q.
Proof.
  intros a0 a1 b0 b1 A B [C|[C|C]] [D|[D|D]]; try (left; tauto); try (left; right; exact D); right; try (left; lra); try (right; left; lra); right; right; lra.
Qed.

Lemma mul_big : forall u v, (1#500 <= u -> 1#500 <= v -> 4#1000000 <= u * v)%Q.
Proof. intros u v U V. assert (0 <= (u - (1#500)) * (v - (1#500)))%Q by (apply Qmult_le_0_compat; lra). lra. Qed.

Lemma prod_cases : forall u v, (u == 0 \/ v == 0 -> u * v == 0)%Q.
Proof. intros u v [H|H]; rewrite H; ring. Qed.

Lemma abs_small : forall u, Qlt_bool (Qabs u) EPSILON = true <-> (- (1#1000000) < u < 1#1000000)%Q.
Proof.
  intros u. rewrite qlt_true. change EPSILON with (1#1000000)%Q. rewrite Qabs_Qlt_condition. reflexivity.
Qed.
Lemma abs_big : forall u, Qlt_bool EPSILON (Qabs u) = true <-> (u < - (1#1000000) \/ 1#1000000 < u)%Q.
Proof.
  intros u. rewrite qlt_true. change EPSILON with (1#1000000)%Q. destruct (Qlt_le_dec u 0).
  - rewrite Qabs_neg by lra. lra.
  - rewrite Qabs_pos by lra. lra.
Qed.

Definition abs_false (u : Q) : (u <= - (1#1000000) \/ 1#1000000 <= u)%Q -> Qlt_bool (Qabs u) EPSILON = false.
Proof. intros H. destruct (Qlt_bool (Qabs u) EPSILON) eqn:E; [|reflexivity]. apply abs_small in E. lra. Qed.

Section Pair.
  Variables (a b : rect).
  Hypotheses (PA : proper a) (PB : proper b) (RES : resolved_pair a b).
  Let x0 := (r_x0 a - r_x1 b)%Q. Let x1 := (r_x1 a - r_x0 b)%Q.
  Let y0 := (r_y0 a - r_y1 b)%Q. Let y1 := (r_y1 a - r_y0 b)%Q.

  (** Along one axis: touching (product 0), meeting (product very negative) or
      apart (product very positive and both ends far). *)
  Definition touch (u v : Q) : Prop := (u == 0 \/ v == 0)%Q.
  Definition over (u v : Q) : Prop := (u <= -(1#500) /\ 1#500 <= v)%Q.
  Definition far (u v : Q) : Prop := (1#500 <= u /\ 1#500 <= v \/ u <= -(1#500) /\ v <= -(1#500))%Q.

  Lemma touch_prod : forall u v, touch u v -> (u * v == 0)%Q.
  Proof. exact prod_cases. Qed.
  Lemma over_prod : forall u v, over u v -> (u * v <= -(4#1000000))%Q.
  Proof. intros u v (A & B). pose proof (mul_big (- u) v ltac:(lra) B). lra. Qed.
  Lemma far_prod : forall u v, far u v -> (4#1000000 <= u * v)%Q.
  Proof. intros u v [(A & B)|(A & B)]; [apply mul_big; assumption|]. pose proof (mul_big (- u) (- v) ltac:(lra) ltac:(lra)). lra. Qed.

  Lemma x_cases : touch x0 x1 \/ over x0 x1 \/ far x0 x1.
  Proof.
    destruct PA as (A & _), PB as (B & _), RES as (R1 & R2 & _). unfold touch, over, far, x0, x1.
    destruct (interval_cases _ _ _ _ A B R1 R2) as [[H|H]|[H|[H|H]]]; [left; left; lra|left; right; lra|right; left; exact H|right; right; left; exact H|right; right; right; exact H].
  Qed.
  Lemma y_cases : touch y0 y1 \/ over y0 y1 \/ far y0 y1.
  Proof.
    destruct PA as (_ & A), PB as (_ & B), RES as (_ & _ & R1 & R2). unfold touch, over, far, y0, y1.
    destruct (interval_cases _ _ _ _ A B R1 R2) as [[H|H]|[H|[H|H]]]; [left; left; lra|left; right; lra|right; left; exact H|right; right; left; exact H|right; right; right; exact H].
  Qed.
End Pair.

Lemma some_small : forall u v p q, touch u v ->
   (Qlt_bool (Qabs u) EPSILON || Qlt_bool (Qabs p) EPSILON || Qlt_bool (Qabs v) EPSILON || Qlt_bool (Qabs q) EPSILON = true).
Proof.
  intros u v p q [H|H].
  - assert (E : Qlt_bool (Qabs u) EPSILON = true) by (apply abs_small; lra). rewrite E. reflexivity.
  - assert (E : Qlt_bool (Qabs v) EPSILON = true) by (apply abs_small; lra). rewrite E. rewrite !orb_true_r. reflexivity.
Qed.
Lemma some_small' : forall u v p q, touch p q ->
   (Qlt_bool (Qabs u) EPSILON || Qlt_bool (Qabs p) EPSILON || Qlt_bool (Qabs v) EPSILON || Qlt_bool (Qabs q) EPSILON = true).
Proof.
  intros u v p q [H|H].
  - assert (E : Qlt_bool (Qabs p) EPSILON = true) by (apply abs_small; lra). rewrite E, orb_true_r. reflexivity.
  - assert (E : Qlt_bool (Qabs q) EPSILON = true) by (apply abs_small; lra). rewrite E. rewrite !orb_true_r. reflexivity.
Qed.
Lemma none_small : forall u v p q, (over u v \/ far u v) -> (over p q \/ far p q) ->
   (Qlt_bool (Qabs u) EPSILON || Qlt_bool (Qabs p) EPSILON || Qlt_bool (Qabs v) EPSILON || Qlt_bool (Qabs q) EPSILON = false).
Proof. intros u v p q A B. rewrite !abs_false; [reflexivity| | | |]; unfold over, far in *; lra. Qed.

Definition no_x (t : Z) : bool := (t =? 1) || (t =? 2) || (t =? 3).
Definition no_y (t : Z) : bool := (t =? 1) || (t =? 3).

(** Two disjoint cells of a layer. *)
Theorem in_layer_spec : forall type layer i j a b, proper a -> proper b -> disjoint a b -> resolved_pair a b ->
    (forall l, side_x a b l -> if no_x type then in_layer_pair type layer i j a b = [] else
       exists v, in_layer_pair type layer i j a b = [mkConn i j layer layer v 1] /\ (l <= v)%Q /\ (v == l <-> ~ nested (r_y0 a) (r_y1 a) (r_y0 b) (r_y1 b))%Q) /\
    (forall l, side_y a b l -> if no_y type then in_layer_pair type layer i j a b = [] else
       exists v, in_layer_pair type layer i j a b = [mkConn i j layer layer v 2] /\ (l <= v)%Q /\ (v == l <-> ~ nested (r_x0 a) (r_x1 a) (r_x0 b) (r_x1 b))%Q) /\
    ((forall l, ~ side_x a b l) -> (forall l, ~ side_y a b l) -> in_layer_pair type layer i j a b = []).
Proof.
  intros type layer i j a b PA PB DIS RES. apply disjoint_iff in DIS; auto.
  pose proof (x_cases a b PA PB RES) as XC. pose proof (y_cases a b PA PB RES) as YC. destruct PA as (AX & AY), PB as (BX & BY).
  unfold in_layer_pair, minkowski, m0, m1, m2, m3. fold (no_x type). fold (no_y type).
  set (x0 := (r_x0 a - r_x1 b)%Q) in *. set (x1 := (r_x1 a - r_x0 b)%Q) in *. set (y0 := (r_y0 a - r_y1 b)%Q) in *. set (y1 := (r_y1 a - r_y0 b)%Q) in *.
  split; [|split].
  - intros l (S1 & L & LE). pose proof LE as LE'. unfold common_y, common in LE.
    assert (M : meets (r_y0 a) (r_y1 a) (r_y0 b) (r_y1 b)) by (unfold meets; destruct (qmin_cases (r_y1 a) (r_y1 b)) as [(E1 & ?)|(E1 & ?)]; destruct (qmax_cases (r_y0 a) (r_y0 b)) as [(E2 & ?)|(E2 & ?)]; rewrite E1, E2 in LE; lra).
    destruct M as (M1 & M2).
    assert (T : touch x0 x1) by (unfold touch, x0, x1; destruct S1 as [E|E]; [right|left]; lra).
    assert (O : over y0 y1) by (destruct YC as [[Y|Y]|[Y|Y]]; [exfalso; unfold y0 in Y; lra|exfalso; unfold y1 in Y; lra|exact Y|exfalso; unfold far, y0, y1 in Y; lra]).
    pose proof (touch_prod _ _ T) as P1. pose proof (over_prod _ _ O) as P2.
    rewrite (some_small _ _ _ _ T). assert (N : Qlt_bool (x0 * x1 + y0 * y1) (- EPSILON) = true) by (apply qlt_true; change EPSILON with (1#1000000)%Q; lra). rewrite N. cbn [andb].
    assert (K : Qlt_bool (Qabs (x0 * x1)) EPSILON = true) by (apply abs_small; lra). rewrite K.
    destruct (no_x type); [reflexivity|]. eexists. split; [reflexivity|]. rewrite qle_min_spec.
    pose proof (uncapped_spec (r_y0 a) (r_y1 a) (r_y0 b) (r_y1 b) AY BY M1 M2) as U. cbv zeta in U. fold y0 y1 in U. change (common (r_y0 a) (r_y1 a) (r_y0 b) (r_y1 b)) with (common_y a b) in U. rewrite <- LE' in U. exact U.
  - intros l (S1 & L & LE). pose proof LE as LE'. unfold common_x, common in LE.
    assert (M : meets (r_x0 a) (r_x1 a) (r_x0 b) (r_x1 b)) by (unfold meets; destruct (qmin_cases (r_x1 a) (r_x1 b)) as [(E1 & ?)|(E1 & ?)]; destruct (qmax_cases (r_x0 a) (r_x0 b)) as [(E2 & ?)|(E2 & ?)]; rewrite E1, E2 in LE; lra).
    destruct M as (M1 & M2).
    assert (T : touch y0 y1) by (unfold touch, y0, y1; destruct S1 as [E|E]; [right|left]; lra).
    assert (O : over x0 x1) by (destruct XC as [[Y|Y]|[Y|Y]]; [exfalso; unfold x0 in Y; lra|exfalso; unfold x1 in Y; lra|exact Y|exfalso; unfold far, x0, x1 in Y; lra]).
    pose proof (touch_prod _ _ T) as P1. pose proof (over_prod _ _ O) as P2.
    rewrite (some_small' _ _ _ _ T). assert (N : Qlt_bool (x0 * x1 + y0 * y1) (- EPSILON) = true) by (apply qlt_true; change EPSILON with (1#1000000)%Q; lra). rewrite N. cbn [andb].
    rewrite (abs_false (x0 * x1)) by lra.
    assert (K : Qlt_bool (Qabs (y0 * y1)) EPSILON = true) by (apply abs_small; lra). rewrite K.
    destruct (no_y type); [reflexivity|]. eexists. split; [reflexivity|]. rewrite qle_min_spec.
    pose proof (uncapped_spec (r_x0 a) (r_x1 a) (r_x0 b) (r_x1 b) AX BX M1 M2) as U. cbv zeta in U. fold x0 x1 in U. change (common (r_x0 a) (r_x1 a) (r_x0 b) (r_x1 b)) with (common_x a b) in U. rewrite <- LE' in U. exact U.
  - intros NX NY.
    assert (G : touch x0 x1 -> over y0 y1 -> False).
    { intros T (O1 & O2). apply (NX (common_y a b)). split; [unfold touch, x0, x1 in T; destruct T; [right|left]; lra|]. split; [|reflexivity].
      unfold common_y, common, y0, y1 in *. destruct (qmin_cases (r_y1 a) (r_y1 b)) as [(E1 & ?)|(E1 & ?)]; destruct (qmax_cases (r_y0 a) (r_y0 b)) as [(E2 & ?)|(E2 & ?)]; rewrite E1, E2; lra. }
    assert (G' : touch y0 y1 -> over x0 x1 -> False).
    { intros T (O1 & O2). apply (NY (common_x a b)). split; [unfold touch, y0, y1 in T; destruct T; [right|left]; lra|]. split; [|reflexivity].
      unfold common_x, common, x0, x1 in *. destruct (qmin_cases (r_x1 a) (r_x1 b)) as [(E1 & ?)|(E1 & ?)]; destruct (qmax_cases (r_x0 a) (r_x0 b)) as [(E2 & ?)|(E2 & ?)]; rewrite E1, E2; lra. }
    assert (F : forall s, (0 <= s)%Q -> Qlt_bool s (- EPSILON) = false) by (intros s Hs; apply qlt_false; change EPSILON with (1#1000000)%Q; lra).
    destruct XC as [X|X]; destruct YC as [Y|Y].
    + rewrite F, andb_false_r; [reflexivity|]. rewrite (touch_prod _ _ X), (touch_prod _ _ Y). lra.
    + destruct Y as [Y|Y]; [exfalso; auto|]. rewrite F, andb_false_r; [reflexivity|]. rewrite (touch_prod _ _ X). pose proof (far_prod _ _ Y). lra.
    + destruct X as [X|X]; [exfalso; auto|]. rewrite F, andb_false_r; [reflexivity|]. rewrite (touch_prod _ _ Y). pose proof (far_prod _ _ X). lra.
    + rewrite (none_small _ _ _ _ X Y). reflexivity.
Qed.

(** Two cells of two layers. *)
Theorem between_spec : forall layer i j a b, proper a -> proper b -> resolved_pair a b ->
    ((exists x y, inside a x y /\ inside b x y) ->
       exists v, between_pair layer i j a b = [mkConn i j (layer - 1) layer v 0] /\ (v == common_x a b * common_y a b)%Q /\ (0 < v)%Q) /\
    (disjoint a b -> between_pair layer i j a b = []).
Proof.
  intros layer i j a b PA PB RES. pose proof (disjoint_iff a b PA PB) as DI.
  pose proof (x_cases a b PA PB RES) as XC. pose proof (y_cases a b PA PB RES) as YC. destruct PA as (AX & AY), PB as (BX & BY).
  unfold between_pair, overlap_area, minkowski, m0, m1, m2, m3.
  set (x0 := (r_x0 a - r_x1 b)%Q) in *. set (x1 := (r_x1 a - r_x0 b)%Q) in *. set (y0 := (r_y0 a - r_y1 b)%Q) in *. set (y1 := (r_y1 a - r_y0 b)%Q) in *.
  split.
  - intros (x & y & (I1 & I2) & (J1 & J2)).
    assert (OX : over x0 x1) by (destruct XC as [[Y|Y]|[Y|Y]]; [exfalso; unfold x0 in Y; lra|exfalso; unfold x1 in Y; lra|exact Y|exfalso; unfold far, x0, x1 in Y; lra]).
    assert (OY : over y0 y1) by (destruct YC as [[Y|Y]|[Y|Y]]; [exfalso; unfold y0 in Y; lra|exfalso; unfold y1 in Y; lra|exact Y|exfalso; unfold far, y0, y1 in Y; lra]).
    pose proof (over_prod _ _ OX) as PX. pose proof (over_prod _ _ OY) as PY.
    assert (E1 : Qlt_bool EPSILON (Qabs (x0 * x1)) = true) by (apply abs_big; lra).
    assert (E2 : Qlt_bool EPSILON (Qabs (y0 * y1)) = true) by (apply abs_big; lra).
    assert (E3 : Qlt_bool (x0 * x1) (- EPSILON) = true) by (apply qlt_true; change EPSILON with (1#1000000)%Q; lra).
    assert (E4 : Qlt_bool (y0 * y1) (- EPSILON) = true) by (apply qlt_true; change EPSILON with (1#1000000)%Q; lra).
    rewrite E1, E2, E3, E4. cbn [andb]. eexists. split; [reflexivity|].
    assert (VX : (qle_min (qle_min (Qabs x0) (Qabs x1)) (qle_min (r_x1 a - r_x0 a) (r_x1 b - r_x0 b)) == common_x a b)%Q).
    { rewrite !qle_min_spec. apply common_spec; auto; lra. }
    assert (VY : (qle_min (qle_min (Qabs y0) (Qabs y1)) (qle_min (r_y1 a - r_y0 a) (r_y1 b - r_y0 b)) == common_y a b)%Q).
    { rewrite !qle_min_spec. apply common_spec; auto; lra. }
    rewrite VX, VY. split; [reflexivity|].
    assert (CX : (0 < common_x a b)%Q) by (unfold common_x, common; destruct (qmin_cases (r_x1 a) (r_x1 b)) as [(F1 & ?)|(F1 & ?)]; destruct (qmax_cases (r_x0 a) (r_x0 b)) as [(F2 & ?)|(F2 & ?)]; rewrite F1, F2; lra).
    assert (CY : (0 < common_y a b)%Q) by (unfold common_y, common; destruct (qmin_cases (r_y1 a) (r_y1 b)) as [(F1 & ?)|(F1 & ?)]; destruct (qmax_cases (r_y0 a) (r_y0 b)) as [(F2 & ?)|(F2 & ?)]; rewrite F1, F2; lra).
    nra.
  - intros DIS. apply DI in DIS.
    assert (F : forall s, (0 <= s)%Q -> Qlt_bool s (- EPSILON) = false) by (intros s Hs; apply qlt_false; change EPSILON with (1#1000000)%Q; lra).
    destruct XC as [X|[X|X]].
    + rewrite (F (x0 * x1)%Q), !andb_false_r; [reflexivity|]. rewrite (touch_prod _ _ X). lra.
    + destruct YC as [Y|[Y|Y]].
      * rewrite (F (y0 * y1)%Q), !andb_false_r; [reflexivity|]. rewrite (touch_prod _ _ Y). lra.
      * exfalso. apply DIS. unfold over, meets, x0, x1, y0, y1 in *. repeat split; lra.
      * rewrite (F (y0 * y1)%Q), !andb_false_r; [reflexivity|]. pose proof (far_prod _ _ Y). lra.
    + rewrite (F (x0 * x1)%Q), !andb_false_r; [reflexivity|]. pose proof (far_prod _ _ X). lra.
Qed.
