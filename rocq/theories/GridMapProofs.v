From Coq Require Import ZArith List Bool QArith Qminmax Lia Lqa ZifyBool.
From Verif Require Import Base Dims DimsProofs Floorplan FloorplanProofs QSum NonUniform NuSpec NuGeomProofs EnumProofs GridMap GridMapSpec.
Import ListNotations.
Local Open Scope Z_scope.

Lemma std_max_spec : forall a b, (std_max a b == Qmax a b)%Q.
Proof.
  intros a b. unfold std_max. destruct (Qlt_bool a b) eqn:E.
  - apply Qlt_bool_iff in E. rewrite Q.max_r by lra. reflexivity.
  - assert (~ (a < b)%Q) by (intros H; apply Qlt_bool_iff in H; congruence). rewrite Q.max_l by (apply Qnot_lt_le; assumption). reflexivity.
Qed.
Lemma std_min_spec : forall a b, (std_min a b == Qmin a b)%Q.
Proof.
  intros a b. unfold std_min. destruct (Qlt_bool b a) eqn:E.
  - apply Qlt_bool_iff in E. rewrite Q.min_r by lra. reflexivity.
  - assert (~ (b < a)%Q) by (intros H; apply Qlt_bool_iff in H; congruence). rewrite Q.min_l by (apply Qnot_lt_le; assumption). reflexivity.
Qed.
Lemma max_props : forall a b, (a <= Qmax a b /\ b <= Qmax a b /\ (Qmax a b == a \/ Qmax a b == b))%Q.
Proof. intros a b. split; [apply Q.le_max_l|]. split; [apply Q.le_max_r|]. destruct (Q.max_dec a b) as [H|H]; auto. Qed.
Lemma min_props : forall a b, (Qmin a b <= a /\ Qmin a b <= b /\ (Qmin a b == a \/ Qmin a b == b))%Q.
Proof. intros a b. split; [apply Q.le_min_l|]. split; [apply Q.le_min_r|]. destruct (Q.min_dec a b) as [H|H]; auto. Qed.

(** Length of the intersection of two intervals. *)
Definition ov1 (a b p q : Q) : Q := Qmax 0 (Qmin b q - Qmax a p).
Lemma overlap_ov1 : forall a b, (overlap a b == ov1 (r_x0 a) (r_x1 a) (r_x0 b) (r_x1 b) * ov1 (r_y0 a) (r_y1 a) (r_y0 b) (r_y1 b))%Q.
Proof. reflexivity. Qed.
Ltac mm :=
  repeat match goal with
  | |- context [Qmax ?a ?b] => let A := fresh in let B := fresh in let C := fresh in let m := fresh "m" in
      destruct (max_props a b) as (A & B & C); set (m := Qmax a b) in *; clearbody m
  | |- context [Qmin ?a ?b] => let A := fresh in let B := fresh in let C := fresh in let m := fresh "m" in
      destruct (min_props a b) as (A & B & C); set (m := Qmin a b) in *; clearbody m
  | H : context [Qmax ?a ?b] |- _ => let A := fresh in let B := fresh in let C := fresh in let m := fresh "m" in
      destruct (max_props a b) as (A & B & C); set (m := Qmax a b) in *; clearbody m
  | H : context [Qmin ?a ?b] |- _ => let A := fresh in let B := fresh in let C := fresh in let m := fresh "m" in
      destruct (min_props a b) as (A & B & C); set (m := Qmin a b) in *; clearbody m
  end.
Ltac mlra := mm; repeat match goal with H : (_ == _)%Q \/ (_ == _)%Q |- _ => destruct H end; lra.
Lemma ov1_sym : forall a b p q, (ov1 a b p q == ov1 p q a b)%Q.
Proof. intros a b p q. unfold ov1. rewrite (Q.min_comm b q), (Q.max_comm a p). reflexivity. Qed.
Lemma ov1_add : forall a b p q r, (a <= b -> p <= q -> q <= r -> ov1 a b p q + ov1 a b q r == ov1 a b p r)%Q.
Proof. intros a b p q r A B C. unfold ov1. mlra. Qed.
Lemma ov1_all : forall a b p q, (a <= b -> p <= a -> b <= q -> ov1 a b p q == b - a)%Q.
Proof. intros a b p q A B C. unfold ov1. mlra. Qed.
Lemma ov1_self : forall a b p, (a <= b -> ov1 a b p p == 0)%Q.
Proof. intros a b p A. unfold ov1. mlra. Qed.
Lemma overlap_sym : forall a b, (overlap a b == overlap b a)%Q.
Proof. intros a b. rewrite !overlap_ov1. rewrite (ov1_sym (r_x0 a)), (ov1_sym (r_y0 a)). reflexivity. Qed.
Lemma overlap_nonneg : forall a b, (0 <= overlap a b)%Q.
Proof. intros a b. unfold overlap. apply Qmult_le_0_compat; apply Q.le_max_l. Qed.

(** One candidate. *)
Lemma cand_spec : forall up s t f j i h k, let a := cell_rect up s j i in let b := cell_rect up t k h in
    candidate up s t f j i h k = [] /\ (overlap a b == 0)%Q /\ ~ meet a b \/
    exists q, candidate up s t f j i h k = [mkFrag k h q] /\ (q == f * overlap a b)%Q /\ (0 < overlap a b)%Q /\ meet a b.
Proof.
  intros up s t f j i h k a b. unfold candidate.
  assert (BT : forall g r, (bottom_of up g r == r_y0 (cell_rect up g r i) /\ top_of up g r == r_y1 (cell_rect up g r i))%Q).
  { intros g r. unfold bottom_of, top_of, cell_rect. cbn [r_y0 r_y1]. destruct up; [split; reflexivity|]. split; [reflexivity|]. replace (gr_nr g - 1 - r + 1) with (gr_nr g - r) by lia. reflexivity. }
  set (xa := std_max (left_of s i) (left_of t h)). set (xb := std_min (right_of s i) (right_of t h)).
  set (ya := std_max (bottom_of up s j) (bottom_of up t k)). set (yb := std_min (top_of up s j) (top_of up t k)).
  assert (XA : (xa == Qmax (r_x0 a) (r_x0 b))%Q) by apply std_max_spec. assert (XB : (xb == Qmin (r_x1 a) (r_x1 b))%Q) by apply std_min_spec.
  assert (YA : (ya == Qmax (r_y0 a) (r_y0 b))%Q). { unfold ya. rewrite std_max_spec. destruct (BT s j) as (-> & _). destruct (BT t k) as (-> & _). reflexivity. }
  assert (YB : (yb == Qmin (r_y1 a) (r_y1 b))%Q). { unfold yb. rewrite std_min_spec. destruct (BT s j) as (_ & ->). destruct (BT t k) as (_ & ->). reflexivity. }
  assert (OV : (overlap a b == Qmax 0 (xb - xa) * Qmax 0 (yb - ya))%Q) by (unfold overlap; rewrite XA, XB, YA, YB; reflexivity).
  assert (ME : meet a b <-> (xa < xb /\ ya < yb)%Q).
  { rewrite XA, XB, YA, YB. split.
    - intros (x & y & ((A & B) & C & D) & (A' & B') & C' & D'). split; mlra.
    - intros (X & Y). exists (Qmax (r_x0 a) (r_x0 b)), (Qmax (r_y0 a) (r_y0 b)). unfold inside. split; (split; [split; mlra|split; mlra]). }
  clearbody xa xb ya yb. destruct (Qle_bool xb xa) eqn:EX; [|destruct (Qle_bool yb ya) eqn:EY].
  - apply Qle_bool_iff in EX. left. split; [reflexivity|]. split; [|intros M; apply ME in M; lra]. rewrite OV, Q.max_l by lra. ring.
  - apply Qle_bool_iff in EY. left. split; [reflexivity|]. split; [|intros M; apply ME in M; lra]. rewrite OV, (Q.max_l 0 (yb - ya)) by lra. ring.
  - assert (X : (xa < xb)%Q) by (apply Qnot_le_lt; intros H; apply Qle_bool_iff in H; congruence). assert (Y : (ya < yb)%Q) by (apply Qnot_le_lt; intros H; apply Qle_bool_iff in H; congruence).
    rewrite !Q.max_r in OV by lra. right. eexists. split; [reflexivity|]. split; [rewrite OV; ring|]. split; [|apply ME; split; assumption]. rewrite OV. apply Qmult_lt_0_compat; lra.
Qed.

(** All fragments of a cell. *)
Lemma fragments_spec : forall up s t f j i, let a := cell_rect up s j i in let frs := fragments up s t f j i in
    NoDup (map (fun fr => (fr_r fr, fr_c fr)) frs) /\
    (forall fr, In fr frs -> of_grid t (fr_r fr) (fr_c fr) /\ meet a (cell_rect up t (fr_r fr) (fr_c fr)) /\ (fr_feature fr == f * overlap a (cell_rect up t (fr_r fr) (fr_c fr)))%Q) /\
    (forall k h, of_grid t k h -> meet a (cell_rect up t k h) -> exists fr, In fr frs /\ fr_r fr = k /\ fr_c fr = h).
Proof.
  intros up s t f j i a frs. unfold frs, fragments. split; [|split].
  - assert (COL : forall h fr, In fr (flat_map (fun k => candidate up s t f j i h k) (zrange 0 (gr_nr t - 1))) -> fr_c fr = h).
    { intros h fr I. apply in_flat_map in I. destruct I as (k & _ & I). destruct (cand_spec up s t f j i h k) as [(E & _)|(q & E & _)]; rewrite E in I; [destruct I|destruct I as [<-|[]]]. reflexivity. }
    assert (ROW : forall h ks, NoDup ks -> NoDup (map (fun fr => (fr_r fr, fr_c fr)) (flat_map (fun k => candidate up s t f j i h k) ks))).
    { intros h ks N. induction N as [|k ks NI N IH]; [constructor|]. cbn [flat_map]. destruct (cand_spec up s t f j i h k) as [(E & _)|(q & E & _)]; rewrite E; [exact IH|]. cbn [app map]. constructor; [|exact IH].
      intros I. apply in_map_iff in I. destruct I as (fr & E2 & I). apply in_flat_map in I. destruct I as (k2 & I2 & I). destruct (cand_spec up s t f j i h k2) as [(E3 & _)|(q3 & E3 & _)]; rewrite E3 in I; [destruct I|destruct I as [<-|[]]]. cbn in E2. apply NI. replace k with k2 by congruence. exact I2. }
    pose proof (zrange_NoDup 0 (gr_nc t - 1)) as N. induction N as [|h hs NI N IH]; [constructor|]. cbn [flat_map]. rewrite map_app.
    assert (DJ : forall x, In x (map (fun fr => (fr_r fr, fr_c fr)) (flat_map (fun k => candidate up s t f j i h k) (zrange 0 (gr_nr t - 1)))) -> ~ In x (map (fun fr => (fr_r fr, fr_c fr)) (flat_map (fun h => flat_map (fun k => candidate up s t f j i h k) (zrange 0 (gr_nr t - 1))) hs))).
    { intros x I1 I2. apply in_map_iff in I1. destruct I1 as (fr & <- & I1). apply in_map_iff in I2. destruct I2 as (fr2 & E & I2). apply in_flat_map in I2. destruct I2 as (h2 & J & I2). apply COL in I1. apply COL in I2. apply NI. replace h with h2 by congruence. exact J. }
    revert DJ. generalize (ROW h (zrange 0 (gr_nr t - 1)) (zrange_NoDup _ _)) IH. generalize (map (fun fr => (fr_r fr, fr_c fr)) (flat_map (fun k => candidate up s t f j i h k) (zrange 0 (gr_nr t - 1)))) (map (fun fr => (fr_r fr, fr_c fr)) (flat_map (fun h0 => flat_map (fun k => candidate up s t f j i h0 k) (zrange 0 (gr_nr t - 1))) hs)). clear.
    intros l1 l2 N1 N2 DJ. induction N1 as [|x l1 NI N1 IH]; [exact N2|]. cbn [app]. constructor; [|apply IH; intros y Y; apply DJ; right; exact Y]. intros I. apply in_app_or in I. destruct I as [I|I]; [contradiction|]. apply (DJ x (or_introl eq_refl) I).
  - intros fr I. apply in_flat_map in I. destruct I as (h & Ih & I). apply in_flat_map in I. destruct I as (k & Ik & I). apply in_zrange in Ih, Ik.
    destruct (cand_spec up s t f j i h k) as [(E & _)|(q & E & EQ & _ & M)]; rewrite E in I; [destruct I|destruct I as [<-|[]]]. cbn [fr_r fr_c fr_feature]. split; [split; lia|]. split; [exact M|exact EQ].
  - intros k h (K & H) M. destruct (cand_spec up s t f j i h k) as [(_ & _ & N)|(q & E & _)]; [contradiction|]. exists (mkFrag k h q). split; [|split; reflexivity].
    apply in_flat_map. exists h. split; [apply in_zrange; lia|]. apply in_flat_map. exists k. split; [apply in_zrange; lia|]. rewrite E. left. reflexivity.
Qed.

Lemma swap_grid : forall g f, (qsum (map (fun c => qsum (map (fun r => f r c) (zrange 0 (gr_nr g - 1)))) (zrange 0 (gr_nc g - 1))) == over_grid g f)%Q.
Proof. intros g f. unfold over_grid. symmetry. apply (qsum_swap (fun r c => f r c)). Qed.

(** Weighted sums over the fragments are sums over the grid. *)
Lemma fragments_sum : forall up s t f j i (phi : Z -> Z -> Q),
    (qsum (map (fun fr => fr_feature fr * phi (fr_r fr) (fr_c fr)) (fragments up s t f j i)) ==
     over_grid t (fun k h => f * overlap (cell_rect up s j i) (cell_rect up t k h) * phi k h))%Q.
Proof.
  intros up s t f j i phi. unfold fragments. rewrite qsum_flat_map. rewrite <- swap_grid. apply qsum_ext. intros h _. rewrite qsum_flat_map. apply qsum_ext. intros k _.
  destruct (cand_spec up s t f j i h k) as [(E & O & _)|(q & E & EQ & _)]; rewrite E; cbn [map qsum fold_right fr_r fr_c fr_feature]; [rewrite O; ring|rewrite EQ; ring].
Qed.

(** One dimension: an interval is shared among the steps of a row of equal steps. *)
Lemma ov1_proper : forall a b p q p' q', (p == p' -> q == q' -> ov1 a b p q == ov1 a b p' q')%Q.
Proof. intros a b p q p' q' P Q. unfold ov1. rewrite P, Q. reflexivity. Qed.
Lemma steps_sum : forall a b x0 w n, (a <= b -> 0 <= w ->
    qsum (map (fun c => ov1 a b (x0 + qz (Z.of_nat c) * w) (x0 + qz (Z.of_nat c + 1) * w)) (seq 0 n)) == ov1 a b x0 (x0 + qz (Z.of_nat n) * w))%Q.
Proof.
  intros a b x0 w n AB W. induction n as [|n IH].
  - cbn [seq map qsum fold_right]. change (qz (Z.of_nat 0)) with 0%Q. rewrite (ov1_proper a b x0 (x0 + 0 * w) x0 x0) by ring. rewrite ov1_self by exact AB. reflexivity.
  - rewrite seq_S, map_app, qsum_app, IH. cbn [map qsum fold_right Nat.add]. rewrite Qplus_0_r. rewrite Nat2Z.inj_succ. change (Z.succ (Z.of_nat n)) with (Z.of_nat n + 1).
    apply ov1_add; [exact AB| |].
    + assert (0 <= qz (Z.of_nat n))%Q by (unfold qz, Qle, inject_Z; cbn; lia). pose proof (Qmult_le_0_compat _ _ H W). lra.
    + rewrite qz_plus. change (qz 1) with 1%Q. lra.
Qed.
Lemma row_sum : forall a b x0 x n, (a <= b)%Q -> (0 < x)%Q -> 1 <= n -> (x0 <= a)%Q -> (b <= x0 + x)%Q ->
    (qsum (map (fun c => ov1 a b (x0 + qz c * (x / qz n)) (x0 + qz (c + 1) * (x / qz n))) (zrange 0 (n - 1))) == b - a)%Q.
Proof.
  intros a b x0 x n AB X N A B. pose proof (qz_pos n ltac:(lia)) as NP. assert (W : (0 <= x / qz n)%Q) by (apply Qle_shift_div_l; lra).
  pose proof (steps_sum a b x0 (x / qz n)%Q (Z.to_nat n) AB W) as S. rewrite Z2Nat.id in S by lia.
  rewrite (ov1_proper a b x0 (x0 + qz n * (x / qz n)) x0 (x0 + x)) in S by (reflexivity || (field; lra)). rewrite ov1_all in S by assumption. rewrite <- S.
  unfold zrange. replace (Z.to_nat (n - 1 - 0 + 1)) with (Z.to_nat n) by lia. rewrite map_map. apply qsum_ext. intros c _. rewrite Z.add_0_l. reflexivity.
Qed.
(** The same counted backwards. *)
Lemma sum_rev : forall (f : Z -> Q) n, (qsum (map (fun k => f (n - 1 - k)%Z) (zrange 0 (n - 1))) == qsum (map f (zrange 0 (n - 1))))%Q.
Proof.
  intros f n. rewrite <- (map_map (fun k => n - 1 - k) f). apply qsum_perm. apply Permutation.Permutation_map. apply Permutation.NoDup_Permutation.
  - apply FinFun.Injective_map_NoDup; [intros x y; lia|apply zrange_NoDup].
  - apply zrange_NoDup.
  - intros k. rewrite in_map_iff. split.
    + intros (y & <- & I). apply in_zrange in I. apply in_zrange. lia.
    + intros I. apply in_zrange in I. exists (n - 1 - k). split; [lia|apply in_zrange; lia].
Qed.

(** The cells of a grid share the area of every rectangle within it. *)
Lemma cover_sum : forall up t a, sound t -> (r_x0 a <= r_x1 a)%Q -> (r_y0 a <= r_y1 a)%Q -> within a (whole t) ->
    (over_grid t (fun k h => overlap a (cell_rect up t k h)) == rect_area a)%Q.
Proof.
  intros up t a ((X & Y) & NR & NC) AX AY (W1 & W2 & W3 & W4). cbn [whole r_x0 r_x1 r_y0 r_y1] in *. unfold over_grid.
  set (ox := fun h : Z => ov1 (r_x0 a) (r_x1 a) (gr_x0 t + qz h * (gr_x t / qz (gr_nc t))) (gr_x0 t + qz (h + 1) * (gr_x t / qz (gr_nc t)))).
  set (oy := fun k : Z => ov1 (r_y0 a) (r_y1 a) (gr_y0 t + qz k * (gr_y t / qz (gr_nr t))) (gr_y0 t + qz (k + 1) * (gr_y t / qz (gr_nr t)))).
  assert (SX : (qsum (map ox (zrange 0 (gr_nc t - 1))) == r_x1 a - r_x0 a)%Q) by (apply row_sum; assumption).
  assert (SY : (qsum (map (fun k => oy (if up then k else gr_nr t - 1 - k)%Z) (zrange 0 (gr_nr t - 1))) == r_y1 a - r_y0 a)%Q).
  { destruct up; [apply row_sum; assumption|]. rewrite (sum_rev oy). apply row_sum; assumption. }
  unfold rect_area. rewrite <- SX, <- SY. rewrite Qmult_comm. rewrite <- qsum_scale_r. apply qsum_ext. intros k _. rewrite <- qsum_scale. apply qsum_ext. intros h _. rewrite overlap_ov1. unfold ox, oy, cell_rect. cbn [r_x0 r_x1 r_y0 r_y1]. ring.
Qed.

(** ** The matrices *)
Lemma zrange_nth : forall n k, 0 <= k < n -> nth_error (zrange 0 (n - 1)) (Z.to_nat k) = Some k.
Proof.
  intros n k K. unfold zrange. rewrite nth_error_map. rewrite (nth_error_nth' _ 0%nat) by (rewrite seq_length; lia). rewrite seq_nth by lia. cbn [option_map]. f_equal. lia.
Qed.
Lemma flat_index : forall C R r c, 0 <= r < R -> 0 <= c < C -> 0 <= r * C + c < R * C /\ (r * C + c) / C = r /\ (r * C + c) mod C = c.
Proof.
  intros C R r c H K. split; [nia|]. split.
  - rewrite Z.add_comm, Z.div_add by lia. rewrite Z.div_small by lia. lia.
  - rewrite Z.add_comm, Z.mod_add by lia. apply Z.mod_small. lia.
Qed.
Lemma flat_inv : forall C R n, 0 <= n < R * C -> 0 < C -> 0 <= n / C < R /\ 0 <= n mod C < C /\ n = n / C * C + n mod C.
Proof.
  intros C R n N CP. pose proof (Z.mod_pos_bound n C CP). pose proof (Z.div_mod n C ltac:(lia)). split; [split; [apply Z.div_pos; lia|apply Z.div_lt_upper_bound; lia]|]. split; [lia|]. lia.
Qed.
Lemma mat_at_ok : forall {A} (m : cmatrix A) r c a, 0 <= r < mx_rows m -> 0 <= c < mx_cols m -> nth_error (mx_data m) (Z.to_nat (r * mx_cols m + c)) = Some a -> mat_at m r c = Val a.
Proof. intros A m r c a R C E. unfold mat_at. rewrite E. destruct (_ || _) eqn:B; [lia|reflexivity]. Qed.
Lemma map_at : forall up s t f j i, of_grid s j i -> mat_at (map_grids s t f up) j i = Val (fragments up s t f j i).
Proof.
  intros up s t f j i (J & I). apply mat_at_ok; [exact J|exact I|]. cbn [map_grids mx_data mx_cols]. destruct (flat_index (gr_nc s) (gr_nr s) j i J I) as (B & D & M).
  rewrite nth_error_map, zrange_nth by exact B. cbn [option_map]. rewrite D, M. reflexivity.
Qed.

Lemma flat_sum : forall C R (phi : Z -> Z -> Q), 0 < C -> 0 <= R ->
    (qsum (map (fun n => phi (n / C)%Z (n mod C)%Z) (zrange 0 (R * C - 1)%Z)) == qsum (map (fun r => qsum (map (phi r) (zrange 0 (C - 1)%Z))) (zrange 0 (R - 1)%Z)))%Q.
Proof.
  intros C R phi CP RP. rewrite <- (Z2Nat.id R RP). induction (Z.to_nat R) as [|n IH].
  - replace (Z.of_nat 0 * C - 1) with (-1) by lia. reflexivity.
  - rewrite (zrange_split 0 (Z.of_nat n * C - 1) (Z.of_nat (S n) * C - 1)) by nia. rewrite (zrange_split 0 (Z.of_nat n - 1) (Z.of_nat (S n) - 1)) by lia. rewrite !map_app, !qsum_app, IH.
    apply Qplus_comp; [reflexivity|]. replace (zrange (Z.of_nat n - 1 + 1) (Z.of_nat (S n) - 1)) with [Z.of_nat n] by (replace (Z.of_nat n - 1 + 1) with (Z.of_nat n) by lia; replace (Z.of_nat (S n) - 1) with (Z.of_nat n) by lia; rewrite zrange_cons by lia; rewrite zrange_nil by lia; reflexivity).
    cbn [map qsum fold_right]. rewrite Qplus_0_r.
    replace (zrange (Z.of_nat n * C - 1 + 1) (Z.of_nat (S n) * C - 1)) with (map (fun i => Z.of_nat n * C + i) (zrange 0 (C - 1))) by (rewrite zrange_plus; f_equal; lia).
    rewrite map_map. apply qsum_ext. intros c I. apply in_zrange in I. destruct (flat_index C (Z.of_nat n + 1) (Z.of_nat n) c ltac:(lia) ltac:(lia)) as (_ & D & M). rewrite D, M. reflexivity.
Qed.

Lemma cmap_ok : forall {A} (f : A -> cpp Q) (g : A -> Q) l, (forall a, In a l -> exists q, f a = Val q /\ (q == g a)%Q) ->
    exists qs, cmap f l = Val qs /\ length qs = length l /\ (forall n a, nth_error l n = Some a -> (nth n qs 0 == g a)%Q) /\ (qsum qs == qsum (map g l))%Q.
Proof.
  intros A f g l. induction l as [|a l IH]; intros H.
  - exists []. split; [reflexivity|]. split; [reflexivity|]. split; [intros n a E; destruct n; discriminate E|reflexivity].
  - destruct (H a (or_introl eq_refl)) as (q & E & G). destruct IH as (qs & E2 & L & N & S); [intros b I; apply H; right; exact I|]. exists (q :: qs). cbn [cmap]. rewrite E. cbn [cbind]. rewrite E2. split; [reflexivity|]. split; [cbn; lia|]. split.
    + intros [|n] b EB; cbn in EB |- *; [injection EB as <-; exact G|apply N, EB].
    + rewrite qsum_cons, S, G. reflexivity.
Qed.

Lemma fold_flow : forall (look : fragment -> cpp Q) (term : fragment -> Q -> Q) (val : fragment -> Q) frs q0,
    (forall fr, In fr frs -> look fr = Val (val fr)) ->
    exists q, fold_left (fun q fr => cbind q (fun q => cbind (look fr) (fun u => Val (q + term fr u)%Q))) frs (Val q0) = Val q /\
      (q == q0 + qsum (map (fun fr => term fr (val fr)) frs))%Q.
Proof.
  intros look term val frs. induction frs as [|fr frs IH]; intros q0 H.
  - exists q0. split; [reflexivity|]. cbn. ring.
  - cbn [fold_left]. rewrite (H fr (or_introl eq_refl)). cbn [cbind]. destruct (IH (q0 + term fr (val fr))%Q) as (q & E & S); [intros f I; apply H; right; exact I|]. exists q. split; [exact E|]. rewrite S. cbn [map]. rewrite qsum_cons. ring.
Qed.

Section Step.
  Variable F : Type.
  Variable fmu_temperatures : F -> list Q.
  Variable fmu_step : F -> list Q -> Q -> Q -> option F.
  Variables (sp sk : pgrid) (k step : Q).
  Hypothesis SP : sound sp.
  Hypothesis SK : sound sk.
  Let w := mkWrapper (map_grids sp sk k true) (map_grids sk sp k true) (gr_nr sp) (gr_nc sp) step.

  Lemma spreader_ok : forall ts us n, Z.of_nat (length ts) = gr_nr sp * gr_nc sp -> Z.of_nat (length us) = gr_nr sk * gr_nc sk -> 0 <= n < gr_nr sp * gr_nc sp ->
      exists q, spreader_flow w ts (mkMat (gr_nr sk) (gr_nc sk) us) n = Val q /\ (q == outflow k sp sk ts us (n / gr_nc sp) (n mod gr_nc sp))%Q.
  Proof.
    intros ts us n LT LU N. pose proof SP as (_ & P1 & P2). pose proof SK as (_ & K1 & K2). destruct (flat_inv (gr_nc sp) (gr_nr sp) n N ltac:(lia)) as (I & J & EN). unfold spreader_flow. cbn [wr_cols w wr_spreader].
    unfold cells_at. rewrite <- EN. rewrite (nth_error_nth' ts 0%Q) by lia. cbn [cbind]. rewrite map_at by (split; assumption). cbn [cbind].
    destruct (fold_flow (fun fr => mat_at (mkMat (gr_nr sk) (gr_nc sk) us) (fr_r fr) (fr_c fr)) (fun fr u => fr_feature fr * (nth (Z.to_nat n) ts 0 - u))%Q (fun fr => cell_value sk us (fr_r fr) (fr_c fr)) (fragments true sp sk k (n / gr_nc sp) (n mod gr_nc sp)) 0%Q) as (q & E & S).
    - intros fr IF. destruct (fragments_spec true sp sk k (n / gr_nc sp) (n mod gr_nc sp)) as (_ & A & _). destruct (A fr IF) as ((R & C) & _). apply mat_at_ok; [exact R|exact C|]. cbn [mx_data mx_cols]. unfold cell_value. apply nth_error_nth'. destruct (flat_index (gr_nc sk) (gr_nr sk) _ _ R C). lia.
    - exists q. split; [exact E|]. rewrite S, Qplus_0_l. unfold outflow. rewrite <- (fragments_sum true sp sk k (n / gr_nc sp) (n mod gr_nc sp) (fun k0 h => (cell_value sp ts (n / gr_nc sp) (n mod gr_nc sp) - cell_value sk us k0 h)%Q)). apply qsum_ext. intros fr _. unfold cell_value at 2. rewrite <- EN. reflexivity.
  Qed.
  Lemma sink_ok : forall ts us n, Z.of_nat (length ts) = gr_nr sp * gr_nc sp -> Z.of_nat (length us) = gr_nr sk * gr_nc sk -> 0 <= n < gr_nr sk * gr_nc sk ->
      exists q, sink_flow w ts (mkMat (gr_nr sk) (gr_nc sk) us) n = Val q /\ (q == - outflow k sk sp us ts (n / gr_nc sk) (n mod gr_nc sk))%Q.
  Proof.
    intros ts us n LT LU N. pose proof SP as (_ & P1 & P2). pose proof SK as (_ & K1 & K2). destruct (flat_inv (gr_nc sk) (gr_nr sk) n N ltac:(lia)) as (I & J & EN). unfold sink_flow. cbn [wr_cols w wr_sink mx_cols].
    rewrite (mat_at_ok (mkMat (gr_nr sk) (gr_nc sk) us) _ _ (nth (Z.to_nat n) us 0%Q) I J) by (cbn [mx_data mx_cols]; rewrite <- EN; apply nth_error_nth'; lia). cbn [cbind]. rewrite map_at by (split; assumption). cbn [cbind].
    destruct (fold_flow (fun fr => cells_at (gr_nc sp) ts (fr_r fr) (fr_c fr)) (fun fr u => fr_feature fr * (u - nth (Z.to_nat n) us 0))%Q (fun fr => cell_value sp ts (fr_r fr) (fr_c fr)) (fragments true sk sp k (n / gr_nc sk) (n mod gr_nc sk)) 0%Q) as (q & E & S).
    - intros fr IF. destruct (fragments_spec true sk sp k (n / gr_nc sk) (n mod gr_nc sk)) as (_ & A & _). destruct (A fr IF) as ((R & C) & _). unfold cells_at, cell_value. rewrite (nth_error_nth' ts 0%Q); [reflexivity|]. destruct (flat_index (gr_nc sp) (gr_nr sp) _ _ R C). lia.
    - exists q. split; [exact E|]. rewrite S, Qplus_0_l. unfold outflow. rewrite <- (fragments_sum true sk sp k (n / gr_nc sk) (n mod gr_nc sk) (fun k0 h => (cell_value sk us (n / gr_nc sk) (n mod gr_nc sk) - cell_value sp ts k0 h)%Q)). rewrite <- qsum_opp. apply qsum_ext. intros fr _. unfold cell_value at 2. rewrite <- EN. ring.
  Qed.

  Lemma exchange : forall ts us, (over_grid sp (outflow k sp sk ts us) == over_grid sk (fun r c => - outflow k sk sp us ts r c))%Q.
  Proof.
    intros ts us. pose proof SP as (_ & P1 & P2). pose proof SK as (_ & K1 & K2).
    assert (FL : forall g, sound g -> forall phi, (over_grid g phi == qsum (map (fun n => phi (n / gr_nc g)%Z (n mod gr_nc g)%Z) (zrange 0 (gr_nr g * gr_nc g - 1))))%Q) by (intros g (_ & G1 & G2) phi; unfold over_grid; rewrite flat_sum by lia; reflexivity).
    rewrite (FL sp SP), (FL sk SK). unfold outflow.
    rewrite (qsum_ext _ (fun n => qsum (map (fun m => k * overlap (cell_rect true sp (n / gr_nc sp) (n mod gr_nc sp)) (cell_rect true sk (m / gr_nc sk) (m mod gr_nc sk)) * (cell_value sp ts (n / gr_nc sp) (n mod gr_nc sp) - cell_value sk us (m / gr_nc sk) (m mod gr_nc sk)))%Q (zrange 0 (gr_nr sk * gr_nc sk - 1)))) (zrange 0 (gr_nr sp * gr_nc sp - 1))) by (intros n _; apply (FL sk SK)).
    rewrite qsum_swap. apply qsum_ext. intros m _. rewrite (FL sp SP). rewrite <- qsum_opp. apply qsum_ext. intros n _. rewrite (overlap_sym (cell_rect true sk _ _)). ring.
  Qed.

  Lemma simulate_spec : forall st ts, Z.of_nat (length ts) = gr_nr sp * gr_nc sp -> Z.of_nat (length (fmu_temperatures (fst st))) = gr_nr sk * gr_nc sk ->
      exists flows given, (simulate_step fmu_temperatures fmu_step w st ts =
          match fmu_step (fst st) given (snd st) step with Some f => Val (flows, given, (f, (snd st + step)%Q)) | None => Throw end) /\
        length flows = length ts /\ length given = length (fmu_temperatures (fst st)) /\
        (forall r c, of_grid sp r c -> (cell_value sp flows r c == outflow k sp sk ts (fmu_temperatures (fst st)) r c)%Q) /\
        (forall r c, of_grid sk r c -> (cell_value sk given r c == - outflow k sk sp (fmu_temperatures (fst st)) ts r c)%Q) /\
        (qsum flows == qsum given)%Q.
  Proof.
    intros st ts LT LU. pose proof SP as (_ & P1 & P2). pose proof SK as (_ & K1 & K2). set (us := fmu_temperatures (fst st)) in *.
    destruct (cmap_ok (spreader_flow w ts (mkMat (gr_nr sk) (gr_nc sk) us)) (fun n => outflow k sp sk ts us (n / gr_nc sp) (n mod gr_nc sp)) (zrange 0 (gr_nr sp * gr_nc sp - 1))) as (flows & E1 & L1 & N1 & S1).
    { intros n I. apply in_zrange in I. apply spreader_ok; [exact LT|exact LU|lia]. }
    destruct (cmap_ok (sink_flow w ts (mkMat (gr_nr sk) (gr_nc sk) us)) (fun n => - outflow k sk sp us ts (n / gr_nc sk) (n mod gr_nc sk))%Q (zrange 0 (gr_nr sk * gr_nc sk - 1))) as (given & E2 & L2 & N2 & S2).
    { intros n I. apply in_zrange in I. apply sink_ok; [exact LT|exact LU|lia]. }
    pose proof (zrange_length 0 (gr_nr sp * gr_nc sp - 1)) as ZL1. pose proof (zrange_length 0 (gr_nr sk * gr_nc sk - 1)) as ZL2.
    assert (PP : 0 < gr_nr sp * gr_nc sp) by nia. assert (PK : 0 < gr_nr sk * gr_nc sk) by nia.
    exists flows, given. split; [|split; [lia|split; [lia|split; [|split]]]].
    - unfold simulate_step. cbn [w wr_sink map_grids mx_rows mx_cols wr_rows wr_cols wr_step]. fold us. fold w.
      assert (M0 : exists q, mat_at (mkMat (gr_nr sk) (gr_nc sk) us) 0 0 = Val q) by (exists (nth 0 us 0%Q); apply mat_at_ok; [cbn; lia|cbn; lia|]; cbn [mx_data mx_cols]; apply nth_error_nth'; lia). destruct M0 as (q & ->). cbn [cbind].
      rewrite E1. cbn [cbind]. rewrite E2. cbn [cbind]. reflexivity.
    - intros r c (R & C). destruct (flat_index (gr_nc sp) (gr_nr sp) r c R C) as (B & D & M). unfold cell_value at 1. rewrite (N1 _ _ (zrange_nth _ _ B)). rewrite D, M. reflexivity.
    - intros r c (R & C). destruct (flat_index (gr_nc sk) (gr_nr sk) r c R C) as (B & D & M). unfold cell_value at 1. rewrite (N2 _ _ (zrange_nth _ _ B)). rewrite D, M. reflexivity.
    - rewrite S1, S2. rewrite (flat_sum (gr_nc sp) (gr_nr sp) (outflow k sp sk ts us)) by lia. rewrite (flat_sum (gr_nc sk) (gr_nr sk) (fun r c => - outflow k sk sp us ts r c)%Q) by lia. apply exchange.
  Qed.
End Step.
