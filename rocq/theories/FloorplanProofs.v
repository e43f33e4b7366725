From Coq Require Import ZArith List Bool QArith Qround Qminmax Lia Lqa.
From Verif Require Import Base QSum Dims DimsSpec DimsProofs Queue QueueProofs Floorplan FloorplanSpec.
Import ListNotations.
Local Open Scope Z_scope.

Lemma Qlt_bool_iff : forall a b, Qlt_bool a b = true <-> (a < b)%Q.
Proof.
  intros a b. unfold Qlt_bool. rewrite negb_true_iff. split; intros H.
  - apply Qnot_le_lt. intros C. apply Qle_bool_iff in C. congruence.
  - destruct (Qle_bool b a) eqn:E; [|reflexivity]. apply Qle_bool_iff in E. exfalso. lra.
Qed.
Lemma Qlt_bool_false : forall a b, Qlt_bool a b = false <-> (b <= a)%Q.
Proof.
  intros a b. unfold Qlt_bool. rewrite negb_false_iff. apply Qle_bool_iff.
Qed.
Lemma Qle_bool_false : forall a b, Qle_bool a b = false <-> (b < a)%Q.
Proof.
  intros a b. split; intros H.
  - apply Qnot_le_lt. intros C. apply Qle_bool_iff in C. congruence.
  - destruct (Qle_bool a b) eqn:E; [|reflexivity]. apply Qle_bool_iff in E. exfalso. lra.
Qed.

(** ** searches in an increasing sequence *)
Definition increasing (f : Z -> Q) (n : Z) : Prop :=
  forall i, 0 <= i < n -> (f i < f (i + 1)%Z)%Q.

Lemma increasing_lt : forall f n i j, increasing f n -> 0 <= i -> i < j <= n -> (f i < f j)%Q.
Proof.
  intros f n i j H Hi Hj.
  replace j with (i + 1 + Z.of_nat (Z.to_nat (j - i - 1))) in * by lia.
  generalize dependent (Z.to_nat (j - i - 1)). intros k.
  induction k as [|k IH]; intros Hj.
  - replace (i + 1 + Z.of_nat 0) with (i + 1) by lia. apply H. lia.
  - eapply Qlt_trans; [apply IH; lia|].
    replace (i + 1 + Z.of_nat (S k)) with (i + 1 + Z.of_nat k + 1) by lia. apply H. lia.
Qed.
Lemma increasing_le : forall f n i j, increasing f n -> 0 <= i -> i <= j <= n -> (f i <= f j)%Q.
Proof.
  intros f n i j H Hi Hj. destruct (Z.eq_dec i j) as [->|Hne]; [apply Qle_refl|].
  apply Qlt_le_weak. eapply increasing_lt; eauto. lia.
Qed.

Lemma search_le_spec : forall f n x fuel i,
    increasing f n -> n < two32 -> 0 <= i < n -> (f i <= x)%Q -> (x < f n)%Q ->
    n - i <= Z.of_nat fuel ->
    exists s, search_le fuel f x i = Ok s /\ i <= s < n /\ (f s <= x)%Q /\ (x < f (s + 1)%Z)%Q.
Proof.
  intros f n x fuel. induction fuel as [|fuel IH]; intros i Hf Hn Hi Hle Hlt Hfuel; [lia|].
  cbn [search_le]. rewrite (u32_id (i + 1)) by (unfold two32 in *; lia).
  destruct (Qle_bool (f (i + 1)) x) eqn:E.
  - apply Qle_bool_iff in E.
    assert (i + 1 < n).
    { destruct (Z.eq_dec (i + 1) n) as [Hx|]; [|lia]. rewrite Hx in E. exfalso. lra. }
    destruct (IH (i + 1) Hf Hn ltac:(lia) E Hlt ltac:(lia)) as (s & -> & Hs).
    exists s. split; [reflexivity|]. intuition lia.
  - apply Qle_bool_false in E. exists i. split; [reflexivity|]. repeat split; auto; lia.
Qed.

Lemma search_lt_spec : forall f n x fuel i,
    increasing f n -> n < two32 -> 0 <= i < n -> (f i < x)%Q -> (x <= f n)%Q ->
    n - i <= Z.of_nat fuel ->
    exists s, search_lt fuel f x i = Ok s /\ i <= s < n /\ (f s < x)%Q /\ (x <= f (s + 1)%Z)%Q.
Proof.
  intros f n x fuel. induction fuel as [|fuel IH]; intros i Hf Hn Hi Hle Hlt Hfuel; [lia|].
  cbn [search_lt]. rewrite (u32_id (i + 1)) by (unfold two32 in *; lia).
  destruct (Qlt_bool (f (i + 1)) x) eqn:E.
  - apply Qlt_bool_iff in E.
    assert (i + 1 < n).
    { destruct (Z.eq_dec (i + 1) n) as [Hx|]; [|lia]. rewrite Hx in E. exfalso. lra. }
    destruct (IH (i + 1) Hf Hn ltac:(lia) E Hlt ltac:(lia)) as (s & -> & Hs).
    exists s. split; [reflexivity|]. intuition lia.
  - apply Qlt_bool_false in E. exists i. split; [reflexivity|]. repeat split; auto; lia.
Qed.

(** both loops of one direction *)
Lemma align1 : forall f n x len fuel,
    increasing f n -> 1 <= n < two32 -> (f 0%Z == 0)%Q -> (0 <= x)%Q -> (0 < len)%Q ->
    (x + len <= f n)%Q -> n + 1 <= Z.of_nat fuel ->
    exists s e, search_le fuel f x 0 = Ok s /\
      search_lt fuel f (x + len)%Q (u32 (s - 1)) = Ok e /\
      0 <= s <= e /\ e < n /\ (f s <= x)%Q /\ (x < f (s + 1)%Z)%Q /\
      (f e < x + len)%Q /\ (x + len <= f (e + 1)%Z)%Q.
Proof.
  intros f n x len fuel Hf Hn H0 Hx Hl Hr Hfuel.
  destruct (search_le_spec f n x fuel 0 Hf ltac:(lia) ltac:(lia) ltac:(lra) ltac:(lra) ltac:(lia))
    as (s & Es & Hs & A & B).
  exists s.
  destruct fuel as [|fuel]; [lia|].
  destruct (search_lt_spec f n (x + len)%Q fuel s Hf ltac:(lia) ltac:(lia) ltac:(lra) Hr ltac:(lia))
    as (e & Ee & He & C & D).
  exists e. split; [exact Es|]. split.
  - cbn [search_lt].
    assert (u32 (u32 (s - 1) + 1) = s) as ->.
    { unfold u32. rewrite Zplus_mod_idemp_l. replace (s - 1 + 1) with s by lia.
      apply Z.mod_small. lia. }
    assert (Qlt_bool (f s) (x + len)%Q = true) as -> by (apply Qlt_bool_iff; lra).
    exact Ee.
  - repeat split; auto; lia.
Qed.

(** ** the grid edges are increasing *)
Lemma good_regular : forall d, good_grid d -> regular d.
Proof. intros d (A & B & C & D & E). split; auto; lia. Qed.

Lemma length_pos : forall d c, good_grid d -> 0 <= c < d_ncols d -> (0 < get_cell_length d c)%Q.
Proof.
  intros d c (A & B & C & (D1 & D2 & D3 & D4 & D5) & E) Hc. unfold get_cell_length, last_column.
  rewrite u32_id by lia.
  destruct (Z.ltb_spec (d_ncols d - 1) c); [lia|].
  destruct (c =? 0); auto. destruct (c =? d_ncols d - 1); auto. destruct (Z.odd c); auto.
Qed.

Lemma location_end : forall d, good_grid d ->
    (get_cell_location_x d (d_ncols d) == get_cell_location_x d (d_ncols d - 1)%Z + d_wall d)%Q.
Proof.
  intros d (A & B & C & D & E). unfold get_cell_location_x.
  destruct (Z.eqb_spec (d_ncols d) 0) as [?|_]; [lia|]. rewrite (u32_id (d_ncols d - 1)) by lia.
  destruct (Z.eqb_spec (d_ncols d - 1) 0) as [H1|H1].
  - replace (d_ncols d) with 1 by lia. change (1 / 2) with 0. change ((1 - 1) / 2) with 0.
    change (qz 0) with 0%Q.
    destruct E as [(E1 & E2 & E3)|(k & Hk & Ek)]; [rewrite E2; ring|lia].
  - rewrite (u32_id (d_ncols d - 1 - 1)) by lia.
    destruct E as [(E1 & E2 & E3)|(k & Hk & ->)].
    + rewrite <- E2, <- E3.
      pose proof (parity_sum (d_ncols d) ltac:(lia)) as P.
      pose proof (parity_sum (d_ncols d - 1) ltac:(lia)) as P2.
      assert (qz (d_ncols d / 2) + qz ((d_ncols d - 1) / 2) == qz (d_ncols d - 1))%Q as Q1
        by (rewrite <- qz_plus, P; reflexivity).
      assert (qz ((d_ncols d - 1) / 2) + qz ((d_ncols d - 1 - 1) / 2) == qz (d_ncols d - 1 - 1))%Q as Q2
        by (rewrite <- qz_plus, P2; reflexivity).
      setoid_replace (d_first d + d_first d * qz (d_ncols d / 2) + d_first d * qz ((d_ncols d - 1) / 2))%Q
        with (d_first d + d_first d * (qz (d_ncols d / 2) + qz ((d_ncols d - 1) / 2)))%Q by ring.
      setoid_replace (d_first d + d_first d * qz ((d_ncols d - 1) / 2) + d_first d * qz ((d_ncols d - 1 - 1) / 2) + d_first d)%Q
        with (d_first d + d_first d * (qz ((d_ncols d - 1) / 2) + qz ((d_ncols d - 1 - 1) / 2)) + d_first d)%Q by ring.
      rewrite Q1, Q2. rewrite (qz_minus (d_ncols d - 1) 1). change (qz 1) with 1%Q. ring.
    + replace (2 * k + 3) with (2 * (k + 1) + 1) by lia. rewrite div2_odd.
      replace (2 * (k + 1) + 1 - 1) with (2 * (k + 1)) by lia. rewrite div2_even.
      replace ((2 * (k + 1) - 1) / 2) with k by (apply Z.div_unique with 1; lia).
      rewrite qz_plus. change (qz 1) with 1%Q. ring.
Qed.

Lemma location_x_increasing : forall d, good_grid d -> increasing (get_cell_location_x d) (d_ncols d).
Proof.
  intros d G i Hi. destruct (Z.eq_dec (i + 1) (d_ncols d)) as [E|E].
  - rewrite E, (location_end d G). replace i with (d_ncols d - 1) by lia.
    destruct G as (A & B & C & (D1 & D2 & D3 & D4 & D5) & R). lra.
  - rewrite (location_step d i (good_regular d G)) by lia.
    pose proof (length_pos d i G ltac:(lia)). lra.
Qed.

Lemma location_y_increasing : forall d, good_grid d -> increasing (get_cell_location_y d) (d_nrows d).
Proof.
  intros d G i Hi. unfold get_cell_location_y. rewrite qz_plus. change (qz 1) with 1%Q.
  destruct G as (A & B & C & (D1 & D2 & D3 & D4 & D5) & R). lra.
Qed.

Lemma east_next : forall d c, good_grid d -> 0 <= c -> c + 1 < d_ncols d -> (east d c == west d (c + 1)%Z)%Q.
Proof. intros d c G H1 H2. unfold east, west. rewrite (location_step d c (good_regular d G)) by lia. reflexivity. Qed.
Lemma north_next : forall d r, good_grid d -> 0 <= r < d_nrows d -> (north d r == south d (r + 1)%Z)%Q.
Proof.
  intros d r G H. unfold north, south. symmetry. apply location_y_step; [lia|]. destruct G. lia.
Qed.

(** what align_to_grid computes for a placed rectangle *)
Record in_cells (d : dims) (a : icel) : Prop := {
  icc_c : 0 <= ic_sw_col a <= ic_ne_col a /\ ic_ne_col a < d_ncols d;
  icc_r : 0 <= ic_sw_row a <= ic_ne_row a /\ ic_ne_row a < d_nrows d;
  icc_w : (west d (ic_sw_col a) <= ic_x a)%Q /\ (ic_x a < east d (ic_sw_col a))%Q;
  icc_e : (west d (ic_ne_col a) < ic_x a + ic_len a)%Q /\ (ic_x a + ic_len a <= east d (ic_ne_col a))%Q;
  icc_s : (south d (ic_sw_row a) <= ic_y a)%Q /\ (ic_y a < north d (ic_sw_row a))%Q;
  icc_n : (south d (ic_ne_row a) < ic_y a + ic_wid a)%Q /\ (ic_y a + ic_wid a <= north d (ic_ne_row a))%Q;
  icc_p : (0 < ic_len a)%Q /\ (0 < ic_wid a)%Q
}.

Lemma align_spec : forall d a fuel, good_grid d -> placed d a ->
    d_nrows d + d_ncols d <= Z.of_nat fuel ->
    exists b, align_to_grid fuel a d = Ok b /\
      ic_x b = ic_x a /\ ic_y b = ic_y a /\ ic_len b = ic_len a /\ ic_wid b = ic_wid a /\
      in_cells d b.
Proof.
  intros d a fuel G (P1 & P2 & P3 & P3' & P4 & P5 & P6) Hf.
  pose proof G as (G1 & G2 & G3 & G4 & G5).
  destruct (align1 (get_cell_location_x d) (d_ncols d) (ic_x a) (ic_len a) fuel
              (location_x_increasing d G) G2) as (sc & ec & E1 & E2 & Hc & Hc2 & A1 & A2 & A3 & A4);
    [reflexivity|exact P1|exact P2|rewrite (location_end d G); exact P3'|lia|].
  destruct (align1 (get_cell_location_y d) (d_nrows d) (ic_y a) (ic_wid a) fuel
              (location_y_increasing d G) G1) as (sr & er & E3 & E4 & Hr & Hr2 & B1 & B2 & B3 & B4).
  { unfold get_cell_location_y. change (qz 0) with 0%Q. ring. }
  { exact P4. } { exact P5. }
  { rewrite (north_next d (d_nrows d - 1) G) in P6 by lia.
    replace (d_nrows d - 1 + 1) with (d_nrows d) in P6 by lia. exact P6. }
  { lia. }
  unfold align_to_grid. rewrite E1. cbn [bind]. rewrite E2. cbn [bind]. rewrite E3. cbn [bind].
  rewrite E4. cbn [bind]. eexists. split; [reflexivity|]. cbn [ic_x ic_y ic_len ic_wid].
  repeat (split; [reflexivity|]).
  constructor; cbn [ic_x ic_y ic_len ic_wid ic_sw_row ic_sw_col ic_ne_row ic_ne_col].
  - lia.
  - lia.
  - split; [exact A1|]. destruct (Z.eq_dec (sc + 1) (d_ncols d)) as [E|E].
    + replace sc with (d_ncols d - 1) by lia. unfold east, west in *. lra.
    + rewrite (east_next d sc G) by lia. exact A2.
  - split; [exact A3|]. destruct (Z.eq_dec (ec + 1) (d_ncols d)) as [E|E].
    + replace ec with (d_ncols d - 1) by lia. unfold east, west in *. lra.
    + rewrite (east_next d ec G) by lia. exact A4.
  - split; [exact B1|]. rewrite (north_next d sr G) by lia. exact B2.
  - split; [exact B3|]. rewrite (north_next d er G) by lia. exact B4.
  - split; assumption.
Qed.

Lemma west_le : forall d i j, good_grid d -> 0 <= i <= j -> j < d_ncols d -> (west d i <= west d j)%Q.
Proof. intros d i j G H1 H2. apply (increasing_le _ (d_ncols d)); [apply location_x_increasing; exact G|lia|lia]. Qed.
Lemma south_le : forall d i j, good_grid d -> 0 <= i <= j -> j < d_nrows d -> (south d i <= south d j)%Q.
Proof. intros d i j G H1 H2. apply (increasing_le _ (d_nrows d)); [apply location_y_increasing; exact G|lia|lia]. Qed.
Lemma east_le_west : forall d i j, good_grid d -> 0 <= i < j -> j < d_ncols d -> (east d i <= west d j)%Q.
Proof. intros d i j G H1 H2. rewrite (east_next d i G) by lia. apply west_le; auto; lia. Qed.
Lemma north_le_south : forall d i j, good_grid d -> 0 <= i < j -> j < d_nrows d -> (north d i <= south d j)%Q.
Proof. intros d i j G H1 H2. rewrite (north_next d i G) by lia. apply south_le; auto; lia. Qed.

(** C13 *)
Lemma overlaps_iff : forall d a r c, good_grid d -> in_cells d a -> 0 <= r < d_nrows d -> 0 <= c < d_ncols d ->
    (overlaps d a r c <->
     ic_sw_row a <= r <= ic_ne_row a /\ ic_sw_col a <= c <= ic_ne_col a).
Proof.
  intros d a r c G [Hc Hr [W1 W2] [E1 E2] [S1 S2] [N1 N2] _] Hrr Hcc. unfold overlaps. split.
  - intros (A & B & C & D). split; split.
    + destruct (Z_lt_le_dec r (ic_sw_row a)) as [L|L]; [|exact L].
      pose proof (north_le_south d r (ic_sw_row a) G ltac:(lia) ltac:(lia)). exfalso. lra.
    + destruct (Z_lt_le_dec (ic_ne_row a) r) as [L|L]; [|exact L].
      pose proof (north_le_south d (ic_ne_row a) r G ltac:(lia) ltac:(lia)). exfalso. lra.
    + destruct (Z_lt_le_dec c (ic_sw_col a)) as [L|L]; [|exact L].
      pose proof (east_le_west d c (ic_sw_col a) G ltac:(lia) ltac:(lia)). exfalso. lra.
    + destruct (Z_lt_le_dec (ic_ne_col a) c) as [L|L]; [|exact L].
      pose proof (east_le_west d (ic_ne_col a) c G ltac:(lia) ltac:(lia)). exfalso. lra.
  - intros [[A B] [C D]]. repeat split.
    + pose proof (west_le d c (ic_ne_col a) G ltac:(lia) ltac:(lia)). lra.
    + destruct (Z.eq_dec c (ic_sw_col a)) as [->|Hne]; [exact W2|].
      pose proof (east_le_west d (ic_sw_col a) c G ltac:(lia) ltac:(lia)).
      pose proof (length_pos d c G Hcc). unfold east in *. unfold west in *. lra.
    + pose proof (south_le d r (ic_ne_row a) G ltac:(lia) ltac:(lia)). lra.
    + destruct (Z.eq_dec r (ic_sw_row a)) as [->|Hne]; [exact S2|].
      pose proof (north_le_south d (ic_sw_row a) r G ltac:(lia) ltac:(lia)).
      pose proof (location_y_increasing d G r ltac:(lia)). 
      rewrite (north_next d r G) by lia. unfold south in *. lra.
Qed.

(** ** ranges *)
Lemma zrange_cons : forall a b, a <= b -> zrange a b = a :: zrange (a + 1) b.
Proof.
  intros a b H. unfold zrange.
  replace (Z.to_nat (b - a + 1)) with (S (Z.to_nat (b - (a + 1) + 1))) by lia.
  cbn [seq map]. f_equal; [lia|]. rewrite <- seq_shift, map_map. apply map_ext. intros i. lia.
Qed.
Lemma zrange_nil : forall a b, b < a -> zrange a b = [].
Proof. intros a b H. unfold zrange. replace (Z.to_nat (b - a + 1)) with O by lia. reflexivity. Qed.
Lemma in_zrange : forall x a b, In x (zrange a b) <-> a <= x <= b.
Proof.
  intros x a b. unfold zrange. rewrite in_map_iff. split.
  - intros (i & <- & Hi). apply in_seq in Hi. lia.
  - intros H. exists (Z.to_nat (x - a)). split; [lia|]. apply in_seq. lia.
Qed.
Lemma zrange_length : forall a b, Z.of_nat (length (zrange a b)) = Z.max 0 (b - a + 1).
Proof. intros. unfold zrange. rewrite map_length, seq_length. lia. Qed.
Lemma zrange_NoDup : forall a b, NoDup (zrange a b).
Proof.
  intros. unfold zrange. apply FinFun.Injective_map_NoDup; [|apply seq_NoDup].
  intros x y H. lia.
Qed.
Lemma zrange_ind : forall (P : Z -> Prop) b, (forall a, b < a -> P a) ->
    (forall a, a <= b -> P (a + 1) -> P a) -> forall a, P a.
Proof.
  intros P b H0 H1 a. destruct (Z_lt_le_dec b a) as [L|L]; [auto|].
  replace a with (b + 1 - Z.of_nat (Z.to_nat (b + 1 - a))) by lia.
  generalize (Z.to_nat (b + 1 - a)). induction n as [|n IH]; [apply H0; lia|].
  apply H1; [lia|]. replace (b + 1 - Z.of_nat (S n) + 1) with (b + 1 - Z.of_nat n) by lia. exact IH.
Qed.

(** ** C14: coefficients of a rectangle *)
Definition entry_eq (p q : Z * Q) : Prop := fst p = fst q /\ (snd p == snd q)%Q.

Definition clen (d : dims) (a : icel) (c : Z) : Q := common (west d c) (east d c) (ic_x a) (ic_x a + ic_len a).
Definition cwid (d : dims) (a : icel) (r : Z) : Q := common (south d r) (north d r) (ic_y a) (ic_y a + ic_wid a).

Lemma common_inside : forall a b x y m, (m <= Qmin b y)%Q -> (Qmin b y <= m)%Q -> (Qmax a x <= m)%Q ->
    (common a b x y == m - Qmax a x)%Q.
Proof.
  intros a b x y m H1 H2 H3. unfold common.
  assert (Qmin b y == m)%Q as -> by (apply Qle_antisym; assumption).
  rewrite Q.max_r by lra. reflexivity.
Qed.

Global Instance common_Proper : Proper (Qeq ==> Qeq ==> Qeq ==> Qeq ==> Qeq) common.
Proof. intros a a' Ha b b' Hb x x' Hx y y' Hy. unfold common. rewrite Ha, Hb, Hx, Hy. reflexivity. Qed.

Lemma clen_mid : forall d a c, good_grid d -> in_cells d a -> ic_sw_col a <= c < ic_ne_col a ->
    (clen d a c == get_cell_location_x d (u32 (c + 1)) - Qmax (west d c) (ic_x a))%Q.
Proof.
  intros d a c G [Hc Hr [W1 W2] [E1 E2] _ _ _] H. unfold clen.
  pose proof G as (G1 & G2 & _).
  rewrite (u32_id (c + 1)) by lia.
  pose proof (east_next d c G ltac:(lia) ltac:(lia)) as En. unfold west in En at 1.
  pose proof (west_le d (c + 1) (ic_ne_col a) G ltac:(lia) ltac:(lia)) as L.
  pose proof (length_pos d c G ltac:(lia)) as Lp.
  apply common_inside.
  - apply Q.min_glb; [rewrite En; apply Qle_refl|]. unfold west in *. lra.
  - eapply Qle_trans; [apply Q.le_min_l|]. rewrite En. apply Qle_refl.
  - rewrite <- En. apply Q.max_lub.
    + unfold east, west. lra.
    + destruct (Z.eq_dec c (ic_sw_col a)) as [->|Hne]; [lra|].
      pose proof (east_le_west d (ic_sw_col a) c G ltac:(lia) ltac:(lia)). unfold east, west in *. lra.
Qed.

Lemma max_mono : forall d a c, good_grid d -> in_cells d a -> ic_sw_col a <= c < ic_ne_col a ->
    (Qmax (west d (c + 1)) (ic_x a) == get_cell_location_x d (u32 (c + 1)))%Q.
Proof.
  intros d a c G [Hc Hr [W1 W2] [E1 E2] _ _ _] H.
  pose proof G as (G1 & G2 & _). rewrite (u32_id (c + 1)) by lia.
  rewrite Q.max_l; [reflexivity|].
  pose proof (east_le_west d (ic_sw_col a) (c + 1) G ltac:(lia) ltac:(lia)). lra.
Qed.

Lemma clen_last : forall d a, good_grid d -> in_cells d a ->
    (clen d a (ic_ne_col a) == ic_x a + ic_len a - Qmax (west d (ic_ne_col a)) (ic_x a))%Q.
Proof.
  intros d a G [Hc Hr [W1 W2] [E1 E2] _ _ [P1 P2]]. unfold clen. apply common_inside.
  - apply Q.min_glb; [exact E2|apply Qle_refl].
  - apply Q.le_min_r.
  - apply Q.max_lub; lra.
Qed.

Lemma cwid_mid : forall d a r, good_grid d -> in_cells d a -> ic_sw_row a <= r < ic_ne_row a ->
    (cwid d a r == get_cell_location_y d (u32 (r + 1)) - Qmax (south d r) (ic_y a))%Q.
Proof.
  intros d a r G [Hc Hr _ _ [W1 W2] [E1 E2] _] H. unfold cwid.
  pose proof G as (G1 & G2 & _). rewrite (u32_id (r + 1)) by lia.
  pose proof (north_next d r G ltac:(lia)) as En. unfold south in En at 1.
  pose proof (south_le d (r + 1) (ic_ne_row a) G ltac:(lia) ltac:(lia)) as L.
  pose proof (location_y_increasing d G r ltac:(lia)) as Lp.
  apply common_inside.
  - apply Q.min_glb; [rewrite En; apply Qle_refl|]. unfold south in *. lra.
  - eapply Qle_trans; [apply Q.le_min_l|]. rewrite En. apply Qle_refl.
  - apply Q.max_lub.
    + unfold south. lra.
    + destruct (Z.eq_dec r (ic_sw_row a)) as [->|Hne]; [lra|].
      pose proof (north_le_south d (ic_sw_row a) r G ltac:(lia) ltac:(lia)). unfold south in *. lra.
Qed.

Lemma max_mono_y : forall d a c, good_grid d -> in_cells d a -> ic_sw_row a <= c < ic_ne_row a ->
    (Qmax (south d (c + 1)) (ic_y a) == get_cell_location_y d (u32 (c + 1)))%Q.
Proof.
  intros d a c G [Hc Hr _ _ [W1 W2] [E1 E2] _] H.
  pose proof G as (G1 & G2 & _). rewrite (u32_id (c + 1)) by lia.
  rewrite Q.max_l; [reflexivity|].
  pose proof (north_le_south d (ic_sw_row a) (c + 1) G ltac:(lia) ltac:(lia)). lra.
Qed.

Lemma cwid_last : forall d a, good_grid d -> in_cells d a ->
    (cwid d a (ic_ne_row a) == ic_y a + ic_wid a - Qmax (south d (ic_ne_row a)) (ic_y a))%Q.
Proof.
  intros d a G [Hc Hr _ _ [W1 W2] [E1 E2] [P1 P2]]. unfold cwid. apply common_inside.
  - apply Q.min_glb; [exact E2|apply Qle_refl].
  - apply Q.le_min_r.
  - apply Q.max_lub; lra.
Qed.

Lemma fill_columns_spec : forall d a area width width' row, good_grid d -> in_cells d a ->
    (width == width')%Q ->
    forall c0 x, ic_sw_col a <= c0 -> (c0 <= ic_ne_col a -> (x == Qmax (west d c0) (ic_x a))%Q) ->
    Forall2 entry_eq (fill_columns d a area width row (zrange c0 (ic_ne_col a)) x)
            (map (fun c => (offset_in_layer d row c, (clen d a c * width' / area)%Q)) (zrange c0 (ic_ne_col a))).
Proof.
  intros d a area width width' row G I Hw c0. pattern c0. apply (zrange_ind _ (ic_ne_col a)); clear c0.
  - intros c0 H x _ _. rewrite zrange_nil by lia. constructor.
  - intros c0 H IH x Hsw Hx. specialize (Hx H). rewrite zrange_cons by lia. cbn [fill_columns map].
    destruct (Z.ltb_spec c0 (ic_ne_col a)) as [L|L].
    + constructor.
      * split; [reflexivity|]. cbn [snd]. rewrite (clen_mid d a c0 G I) by lia. rewrite <- Hx, Hw. reflexivity.
      * apply IH; [lia|]. intros _. rewrite (max_mono d a c0 G I) by lia. ring.
    + assert (c0 = ic_ne_col a) as -> by lia. constructor.
      * split; [reflexivity|]. cbn [snd]. rewrite (clen_last d a G I). rewrite <- Hx, Hw. reflexivity.
      * rewrite zrange_nil by lia. constructor.
Qed.

Definition icel_entries (d : dims) (area : Q) (a : icel) (rows : list Z) : list (Z * Q) :=
  flat_map (fun r => map (fun c => (offset_in_layer d r c, (covered d a r c / area)%Q))
                         (zrange (ic_sw_col a) (ic_ne_col a))) rows.

Lemma Forall2_entry_trans : forall l1 l2 l3,
    Forall2 entry_eq l1 l2 -> Forall2 entry_eq l2 l3 -> Forall2 entry_eq l1 l3.
Proof.
  intros l1 l2 l3 H1. revert l3. induction H1 as [|x y l l' [E F] H IH]; intros l3 H2.
  - inversion H2. constructor.
  - inversion H2 as [|? z ? l4 [E' F'] H']; subst. constructor; [|auto].
    split; [congruence|]. etransitivity; eauto.
Qed.

Lemma fill_rows_spec : forall d a area, good_grid d -> in_cells d a ->
    forall r0 y, ic_sw_row a <= r0 -> (r0 <= ic_ne_row a -> (y == Qmax (south d r0) (ic_y a))%Q) ->
    Forall2 entry_eq (fill_rows d a area (zrange r0 (ic_ne_row a)) y)
            (icel_entries d area a (zrange r0 (ic_ne_row a))).
Proof.
  intros d a area G I r0. pattern r0. apply (zrange_ind _ (ic_ne_row a)); clear r0.
  - intros r0 H y _ _. rewrite zrange_nil by lia. constructor.
  - intros r0 H IH y Hsw Hy. specialize (Hy H). rewrite zrange_cons by lia. cbn [fill_rows].
    unfold icel_entries. cbn [flat_map]. fold (icel_entries d area a (zrange (r0 + 1) (ic_ne_row a))).
    assert (ic_x a == Qmax (west d (ic_sw_col a)) (ic_x a))%Q as Hx0.
    { destruct I as [_ _ [W1 _] _ _ _ _]. rewrite Q.max_r by exact W1. reflexivity. }
    destruct (Z.ltb_spec r0 (ic_ne_row a)) as [L|L].
    + apply Forall2_app.
      * eapply Forall2_entry_trans; [apply (fill_columns_spec d a area _ (cwid d a r0) r0 G I)|].
        -- rewrite (cwid_mid d a r0 G I) by lia. rewrite <- Hy. reflexivity.
        -- lia.
        -- intros _. exact Hx0.
        -- clear. induction (zrange (ic_sw_col a) (ic_ne_col a)); constructor; auto.
           split; reflexivity.
      * apply IH; [lia|]. intros _. rewrite (max_mono_y d a r0 G I) by lia. ring.
    + assert (r0 = ic_ne_row a) as -> by lia. apply Forall2_app.
      * eapply Forall2_entry_trans; [apply (fill_columns_spec d a area _ (cwid d a (ic_ne_row a)) (ic_ne_row a) G I)|].
        -- rewrite (cwid_last d a G I). rewrite <- Hy. reflexivity.
        -- lia.
        -- intros _. exact Hx0.
        -- clear. induction (zrange (ic_sw_col a) (ic_ne_col a)); constructor; auto.
           split; reflexivity.
      * rewrite zrange_nil by lia. constructor.
Qed.

Definition icel_table (d : dims) (area : Q) (a : icel) : list (Z * Q) :=
  icel_entries d area a (zrange (ic_sw_row a) (ic_ne_row a)).

Lemma fill_icel_spec : forall d area a, good_grid d -> in_cells d a ->
    Forall2 entry_eq (fill_icel d area a) (icel_table d area a).
Proof.
  intros d area a G I. apply fill_rows_spec; auto; [lia|]. intros _.
  destruct I as [_ _ _ _ [W1 _] _ _]. rewrite Q.max_r by exact W1. reflexivity.
Qed.

(** sums over entries *)
Lemma entries_sum : forall l1 l2, Forall2 entry_eq l1 l2 -> (qsum (map snd l1) == qsum (map snd l2))%Q.
Proof.
  intros l1 l2 H. induction H as [|x y l1 l2 [_ E] H IH]; [reflexivity|].
  cbn [map]. rewrite !qsum_cons, E, IH. reflexivity.
Qed.

(** weight given to cell [k] by a list of coefficients *)
Definition weight (k : Z) (es : list (Z * Q)) : Q :=
  qsum (map (fun e => if fst e =? k then snd e else 0%Q) es).

Lemma weight_eq : forall k l1 l2, Forall2 entry_eq l1 l2 -> (weight k l1 == weight k l2)%Q.
Proof.
  intros k l1 l2 H. unfold weight. induction H as [|x y l1 l2 [F E] H IH]; [reflexivity|].
  cbn [map]. rewrite !qsum_cons, IH, F. destruct (fst y =? k); [rewrite E|]; reflexivity.
Qed.
Lemma weight_app : forall k a b, (weight k (a ++ b) == weight k a + weight k b)%Q.
Proof. intros. unfold weight. rewrite map_app. apply qsum_app. Qed.

(** telescoping of the covered lengths *)
Lemma clen_sum : forall d a, good_grid d -> in_cells d a ->
    forall c0, ic_sw_col a <= c0 <= ic_ne_col a ->
    (qsum (map (clen d a) (zrange c0 (ic_ne_col a))) == ic_x a + ic_len a - Qmax (west d c0) (ic_x a))%Q.
Proof.
  intros d a G I c0. pattern c0. apply (zrange_ind _ (ic_ne_col a)); clear c0.
  - intros; lia.
  - intros c0 H IH Hc. rewrite zrange_cons by lia. cbn [map]. rewrite qsum_cons.
    destruct (Z.eq_dec c0 (ic_ne_col a)) as [->|Hne].
    + rewrite zrange_nil by lia. cbn [map]. rewrite qsum_nil, (clen_last d a G I). ring.
    + rewrite IH by lia. rewrite (clen_mid d a c0 G I) by lia. rewrite (max_mono d a c0 G I) by lia. ring.
Qed.
Lemma cwid_sum : forall d a, good_grid d -> in_cells d a ->
    forall c0, ic_sw_row a <= c0 <= ic_ne_row a ->
    (qsum (map (cwid d a) (zrange c0 (ic_ne_row a))) == ic_y a + ic_wid a - Qmax (south d c0) (ic_y a))%Q.
Proof.
  intros d a G I c0. pattern c0. apply (zrange_ind _ (ic_ne_row a)); clear c0.
  - intros; lia.
  - intros c0 H IH Hc. rewrite zrange_cons by lia. cbn [map]. rewrite qsum_cons.
    destruct (Z.eq_dec c0 (ic_ne_row a)) as [->|Hne].
    + rewrite zrange_nil by lia. cbn [map]. rewrite qsum_nil, (cwid_last d a G I). ring.
    + rewrite IH by lia. rewrite (cwid_mid d a c0 G I) by lia. rewrite (max_mono_y d a c0 G I) by lia. ring.
Qed.

Lemma icel_table_sum : forall d area a, good_grid d -> in_cells d a ->
    (qsum (map snd (icel_table d area a)) == ic_len a * ic_wid a / area)%Q.
Proof.
  intros d area a G I. unfold icel_table, icel_entries. rewrite qsum_flat_map.
  rewrite (qsum_ext _ (fun r => (cwid d a r * (ic_len a / area))%Q)).
  - rewrite qsum_scale_r, (cwid_sum d a G I) by (destruct I as [_ [? _] _ _ _ _ _]; lia).
    destruct I as [_ _ _ _ [W1 _] _ _]. rewrite Q.max_r by exact W1.
    unfold Qdiv. ring.
  - intros r _. rewrite map_map. cbn [snd].
    rewrite (qsum_ext _ (fun c => (clen d a c * (cwid d a r / area))%Q)).
    + rewrite qsum_scale_r, (clen_sum d a G I) by (destruct I as [[? _] _ _ _ _ _ _]; lia).
      destruct I as [_ _ [W1 _] _ _ _ _]. rewrite Q.max_r by exact W1. unfold Qdiv. ring.
    + intros c _. unfold covered. fold (clen d a c) (cwid d a r). unfold Qdiv. ring.
Qed.
