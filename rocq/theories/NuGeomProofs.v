(** * Geometry of the non-uniform grid: tilings and contacts *)
From Coq Require Import ZArith List Bool QArith Qabs Qminmax Lia Lqa.
From Verif Require Import Base QSum Dims DimsSpec DimsProofs Floorplan FloorplanProofs Stack NonUniform NuSpec.
Import ListNotations.
Local Open Scope Z_scope.

Lemma nth_zrange0 : forall n k x, nth_error (zrange 0 (n - 1)) k = Some x <-> x = Z.of_nat k /\ Z.of_nat k < n.
Proof.
  intros n k x. unfold zrange. replace (n - 1 - 0 + 1) with n by lia. split.
  - intros H. pose proof (nth_error_Some (map (fun i => 0 + Z.of_nat i) (seq 0 (Z.to_nat n))) k) as L. rewrite map_length, seq_length in L.
    assert (K : (k < Z.to_nat n)%nat) by (apply L; congruence). split; [|lia].
    rewrite nth_error_map in H. rewrite nth_error_nth' with (d := 0%nat) in H by (rewrite seq_length; exact K). rewrite seq_nth in H by exact K. cbn in H. inversion H. lia.
  - intros (-> & H). rewrite nth_error_map. rewrite nth_error_nth' with (d := 0%nat) by (rewrite seq_length; lia). rewrite seq_nth by lia. cbn. f_equal.
Qed.

(** ** Intervals one after the other *)
Section Chain.
  Variables (f : Z -> Q) (n : Z).
  Hypothesis inc : forall c, 0 <= c < n -> (f c < f (c + 1))%Q.

  Lemma chain_le : forall a b, 0 <= a <= b -> b <= n -> (f a <= f b)%Q.
  Proof.
    intros a b H. replace b with (a + Z.of_nat (Z.to_nat (b - a))) by lia. induction (Z.to_nat (b - a)) as [|m IH]; intros L.
    - replace (a + Z.of_nat 0) with a by lia. lra.
    - replace (a + Z.of_nat (S m)) with (a + Z.of_nat m + 1) by lia. pose proof (inc (a + Z.of_nat m) ltac:(lia)). specialize (IH ltac:(lia)). lra.
  Qed.

  Lemma chain_find : forall x, (f 0 <= x)%Q -> forall m, (Z.of_nat m <= n) -> (x < f (Z.of_nat m))%Q -> exists c, 0 <= c < Z.of_nat m /\ (f c <= x < f (c + 1))%Q.
  Proof.
    intros x L. induction m as [|m IH]; intros LE U; [cbn in U; lra|].
    destruct (Qlt_le_dec x (f (Z.of_nat m))) as [A|A].
    - destruct (IH ltac:(lia) A) as (c & C & E). exists c. split; [lia|exact E].
    - exists (Z.of_nat m). split; [lia|]. split; [exact A|]. replace (Z.of_nat m + 1) with (Z.of_nat (S m)) by lia. exact U.
  Qed.

  Lemma chain_unique : forall x a b, 0 <= a < n -> 0 <= b < n -> (f a <= x < f (a + 1))%Q -> (f b <= x < f (b + 1))%Q -> a = b.
  Proof.
    intros x a b A B (A1 & A2) (B1 & B2). destruct (Z.lt_trichotomy a b) as [C|[C|C]]; [|exact C|].
    - pose proof (chain_le (a + 1) b ltac:(lia) ltac:(lia)). lra.
    - pose proof (chain_le (b + 1) a ltac:(lia) ltac:(lia)). lra.
  Qed.
End Chain.

Lemma grid_tiles : forall nx ny (fx fy : Z -> Q) (cell : Z -> rect), 1 <= nx -> 0 <= ny ->
    (forall c, 0 <= c < nx -> (fx c < fx (c + 1)%Z)%Q) -> (forall c, 0 <= c < ny -> (fy c < fy (c + 1)%Z)%Q) ->
    (forall k, 0 <= k < nx * ny ->
       (r_x0 (cell k) == fx (k mod nx)%Z /\ r_x1 (cell k) == fx (k mod nx + 1)%Z /\ r_y0 (cell k) == fy (k / nx)%Z /\ r_y1 (cell k) == fy (k / nx + 1)%Z)%Q) ->
    forall R, (r_x0 R == fx 0%Z /\ r_x1 R == fx nx /\ r_y0 R == fy 0%Z /\ r_y1 R == fy ny)%Q ->
    tiles (map cell (zrange 0 (nx * ny - 1))) R.
Proof.
  intros nx ny fx fy cell NX NY IX IY C R (RX0 & RX1 & RY0 & RY1).
  assert (DM : forall k, 0 <= k < nx * ny -> 0 <= k mod nx < nx /\ 0 <= k / nx < ny).
  { intros k K. split; [apply Z.mod_pos_bound; lia|]. split; [apply Z.div_pos; lia|]. apply Z.div_lt_upper_bound; lia. }
  split.
  - intros x y ((X0 & X1) & (Y0 & Y1)). rewrite RX0 in X0. rewrite RX1 in X1. rewrite RY0 in Y0. rewrite RY1 in Y1.
    destruct (chain_find fx nx x X0 (Z.to_nat nx)) as (a & A & EA); [lia|rewrite Z2Nat.id by lia; exact X1|].
    destruct (chain_find fy ny y Y0 (Z.to_nat ny)) as (b & B & EB); [lia|rewrite Z2Nat.id by lia; exact Y1|].
    rewrite Z2Nat.id in A, B by lia.
    set (k := b * nx + a). assert (K : 0 <= k < nx * ny) by (unfold k; split; [apply Z.add_nonneg_nonneg; [apply Z.mul_nonneg_nonneg|]; lia|]; apply Z.lt_le_trans with ((b + 1) * nx); [lia|]; rewrite (Z.mul_comm nx); apply Z.mul_le_mono_nonneg_r; lia).
    assert (KM : k mod nx = a) by (unfold k; rewrite Z.add_comm, Z.mod_add by lia; apply Z.mod_small; lia).
    assert (KD : k / nx = b) by (unfold k; rewrite Z.div_add_l by lia; rewrite Z.div_small by lia; lia).
    exists (Z.to_nat k), (cell k). split; [|split].
    + rewrite nth_error_map. replace (nth_error (zrange 0 (nx * ny - 1)) (Z.to_nat k)) with (Some k); [reflexivity|]. symmetry. apply nth_zrange0. lia.
    + destruct (C k K) as (E1 & E2 & E3 & E4). unfold inside. rewrite E1, E2, E3, E4, KM, KD. split; assumption.
    + intros k' c' N I. rewrite nth_error_map in N. destruct (nth_error (zrange 0 (nx * ny - 1)) k') as [z|] eqn:EZ; [|discriminate]. apply nth_zrange0 in EZ. destruct EZ as (-> & LZ).
      cbn in N. injection N as <-. destruct I as (IX' & IY'). set (z := Z.of_nat k') in *. assert (ZR : 0 <= z < nx * ny) by lia.
      destruct (C z ZR) as (E1 & E2 & E3 & E4). rewrite E1, E2 in IX'. rewrite E3, E4 in IY'. destruct (DM z ZR) as (D1 & D2).
      assert (z mod nx = a) by (apply (chain_unique fx nx IX x); auto; lia). assert (z / nx = b) by (apply (chain_unique fy ny IY y); auto; lia).
      pose proof (Z.div_mod z nx ltac:(lia)). assert (z = k) by (unfold k; rewrite H1, H0, H; ring). lia.
  - intros c x y I ((X0 & X1) & (Y0 & Y1)). apply in_map_iff in I. destruct I as (k & <- & I). apply in_zrange in I. assert (K : 0 <= k < nx * ny) by lia.
    destruct (C k K) as (E1 & E2 & E3 & E4). rewrite E1 in X0. rewrite E2 in X1. rewrite E3 in Y0. rewrite E4 in Y1. destruct (DM k K) as (D1 & D2).
    pose proof (chain_le fx nx IX 0 (k mod nx) ltac:(lia) ltac:(lia)). pose proof (chain_le fx nx IX (k mod nx + 1) nx ltac:(lia) ltac:(lia)).
    pose proof (chain_le fy ny IY 0 (k / nx) ltac:(lia) ltac:(lia)). pose proof (chain_le fy ny IY (k / nx + 1) ny ltac:(lia) ltac:(lia)).
    split; lra.
Qed.

(** ** Regular subdivisions *)
Lemma qz_pos : forall a, 0 < a -> (0 < qz a)%Q.
Proof. intros a H. unfold qz. change 0%Q with (inject_Z 0). rewrite <- Zlt_Qlt. exact H. Qed.

Lemma step_inc : forall x len n c, (0 < len)%Q -> 0 < n -> (x + len / qz n * qz c < x + len / qz n * qz (c + 1))%Q.
Proof.
  intros x len n c L N. rewrite qz_plus. change (qz 1) with 1%Q. pose proof (qz_pos n N).
  assert (0 < len / qz n)%Q by (apply Qlt_shift_div_l; lra). lra.
Qed.

Lemma step_end : forall x len n, 0 < n -> (x + len / qz n * qz n == x + len)%Q.
Proof. intros x len n N. pose proof (qz_pos n N). field. lra. Qed.

Lemma cut_tiles : forall x y len wid dx dy, 1 <= dx -> 1 <= dy -> (0 < len)%Q -> (0 < wid)%Q ->
    tiles (cut x y len wid (dx, dy)) (mkRect x y (x + len) (y + wid)).
Proof.
  intros x y len wid dx dy DX DY L W. unfold cut. cbn [fst snd].
  apply (grid_tiles dx dy (fun c => x + len / qz dx * qz c)%Q (fun c => y + wid / qz dy * qz c)%Q); try lia.
  - intros c _. apply step_inc; [exact L|lia].
  - intros c _. apply step_inc; [exact W|lia].
  - intros k _. cbn. repeat split; reflexivity.
  - cbn [r_x0 r_y0 r_x1 r_y1]. rewrite !step_end by lia. change (qz 0) with 0%Q. repeat split; ring.
Qed.

Lemma cut_length : forall x y len wid xy, 0 <= fst xy -> 0 <= snd xy -> Z.of_nat (length (cut x y len wid xy)) = fst xy * snd xy.
Proof.
  intros. unfold cut. rewrite map_length. unfold zrange. rewrite map_length, seq_length. rewrite Z2Nat.id; [lia|]. pose proof (Z.mul_nonneg_nonneg _ _ H H0). lia.
Qed.

(** ** Layers of channels *)
Definition columns_fit (d : dims) : Prop := (qsum (column_lengths d (Z.to_nat (d_ncols d))) == d_chip_length d)%Q.

Lemma channel_x : forall d c, regular d -> 0 <= c < d_ncols d -> d_ncols d <> 1 -> columns_fit d ->
    forall r, let R := channel_rect d (r * d_ncols d + c) in
    (r_x0 R == get_cell_location_x d c /\ r_x1 R == get_cell_location_x d c + get_cell_length d c)%Q.
Proof.
  intros d c R C N1 FIT r. cbv zeta. unfold columns_fit in FIT. rewrite sum_lengths_total in FIT by exact R. destruct R as (Hn & R0).
  unfold channel_rect. rewrite Z.add_comm, Z.mod_add by lia. rewrite Z.mod_small by lia.
  unfold get_cell_location_x, get_cell_length, last_column in *. rewrite !(u32_id (d_ncols d - 1)) in * by lia.
  destruct (Z.ltb_spec (d_ncols d - 1) c) as [?|_]; [lia|]. rewrite Z.ltb_irrefl, Z.eqb_refl in FIT. destruct (Z.eqb_spec (d_ncols d - 1) 0) as [?|_]; [lia|].
  destruct (Z.eqb_spec c 0) as [->|C0]; [cbn; split; ring|].
  destruct (Z.eqb_spec c (d_ncols d - 1)) as [->|CL].
  - cbn [r_x0 r_x1]. rewrite <- FIT. split; ring.
  - rewrite !(u32_id (c - 1)) by lia. destruct (Z.Even_or_Odd c) as [[k ->]|[k ->]].
    + replace (2 * k mod 2) with 0 by (rewrite Z.mul_comm, Z.mod_mul; lia). cbn [Z.eqb negb].
      replace (Z.odd (2 * k)) with false by (rewrite Z.odd_mul; reflexivity). cbn [r_x0 r_x1].
      rewrite div2_even. replace ((2 * k - 1) / 2) with (k - 1) by (apply Z.div_unique with 1; lia). replace ((2 * k - 2) / 2) with (k - 1) by (apply Z.div_unique with 0; lia).
      rewrite !qz_minus. change (qz 1) with 1%Q. split; ring.
    + replace ((2 * k + 1) mod 2) with 1 by (rewrite Z.add_comm, Z.mul_comm, Z.mod_add by lia; reflexivity). cbn [Z.eqb negb].
      replace (Z.odd (2 * k + 1)) with true by (rewrite Z.add_comm, Z.odd_add_mul_2; reflexivity). cbn [r_x0 r_x1].
      rewrite div2_odd. replace (2 * k + 1 - 1) with (2 * k) by lia. rewrite div2_even. split; ring.
Qed.

Lemma length_positive : forall d c, 0 <= c < d_ncols d -> d_ncols d < two32 -> (0 < d_first d -> 0 < d_last d -> 0 < d_wall d -> 0 < d_chan d -> 0 < get_cell_length d c)%Q.
Proof.
  intros d c C N F L W CH. unfold get_cell_length, last_column. rewrite u32_id by lia. destruct (Z.ltb_spec (d_ncols d - 1) c); [lia|].
  destruct (c =? 0); [exact F|]. destruct (c =? d_ncols d - 1); [exact L|]. destruct (Z.odd c); assumption.
Qed.

(** Width of the chip cut into the rows of the grid, length into its columns. *)
Lemma channel_tiles : forall d, regular d -> 1 <= d_nrows d -> columns_fit d ->
    (0 < d_first d -> 0 < d_last d -> 0 < d_wall d -> 0 < d_chan d -> 0 < d_chip_width d ->
     forall coolant, tiles (map g_rect (channel_cells d coolant)) (chip d))%Q.
Proof.
  intros d R NR FIT F L W CH CW coolant. pose proof R as (Hn & _). unfold channel_cells. rewrite map_map. cbn [g_rect].
  change (map (fun k => channel_rect d k) (zrange 0 (d_ncols d * d_nrows d - 1))) with (map (channel_rect d) (zrange 0 (d_ncols d * d_nrows d - 1))).
  set (fx := fun c => if c =? d_ncols d then d_chip_length d else get_cell_location_x d c).
  assert (TOT : (get_cell_location_x d (d_ncols d - 1) + get_cell_length d (d_ncols d - 1) == d_chip_length d)%Q) by (rewrite <- sum_lengths_total by exact R; exact FIT).
  assert (ST : forall c, 0 <= c < d_ncols d -> (fx (c + 1)%Z == fx c + get_cell_length d c)%Q).
  { intros c C. unfold fx. destruct (Z.eqb_spec c (d_ncols d)); [lia|]. destruct (Z.eqb_spec (c + 1) (d_ncols d)) as [E|E].
    - replace c with (d_ncols d - 1) by lia. rewrite TOT. reflexivity.
    - apply location_step; [exact R|lia|lia]. }
  apply (grid_tiles (d_ncols d) (d_nrows d) fx (fun r => 0 + d_chip_width d / qz (d_nrows d) * qz r)%Q); try lia.
  - intros c C. rewrite ST by exact C. pose proof (length_positive d c C ltac:(lia) F L W CH). lra.
  - intros c _. apply step_inc; [exact CW|lia].
  - intros k K. pose proof (Z.mod_pos_bound k (d_ncols d) ltac:(lia)) as M. rewrite (ST _ M).
    assert (EK : k = k / d_ncols d * d_ncols d + k mod d_ncols d) by (rewrite (Z.mul_comm (k / d_ncols d)); apply Z.div_mod; lia).
    assert (X : (r_x0 (channel_rect d k) == fx (k mod d_ncols d)%Z /\ r_x1 (channel_rect d k) == fx (k mod d_ncols d)%Z + get_cell_length d (k mod d_ncols d))%Q).
    { unfold fx. destruct (Z.eqb_spec (k mod d_ncols d) (d_ncols d)); [lia|]. destruct (Z.eq_dec (d_ncols d) 1) as [E1|N1].
      - assert (k mod d_ncols d = 0) by lia. unfold channel_rect, get_cell_location_x, get_cell_length, last_column. rewrite H, E1. cbn. split; ring.
      - pose proof (channel_x d (k mod d_ncols d) R M N1 FIT (k / d_ncols d)) as X. cbv zeta in X. rewrite <- EK in X. exact X. }
    destruct X as (X0 & X1). split; [exact X0|]. split; [exact X1|].
    unfold channel_rect. destruct (_ =? 0); [split; reflexivity|]. destruct (_ =? _); [split; reflexivity|]. destruct (negb _); split; reflexivity.
  - cbn [chip r_x0 r_y0 r_x1 r_y1]. unfold fx at 2. rewrite Z.eqb_refl. unfold fx. destruct (Z.eqb_spec 0 (d_ncols d)); [lia|].
    change (qz 0) with 0%Q. rewrite step_end by lia. unfold get_cell_location_x. cbn. repeat split; ring.
Qed.

(** ** Contacts *)
Ltac qbool := repeat match goal with
  | H : Qle_bool _ _ = true |- _ => apply Qle_bool_iff in H
  | H : Qle_bool ?a ?b = false |- _ => assert (b < a)%Q by (apply Qnot_le_lt; rewrite <- Qle_bool_iff; congruence); clear H
  end.

Lemma qlt_true : forall a b, Qlt_bool a b = true <-> (a < b)%Q.
Proof. intros a b. unfold Qlt_bool. rewrite negb_true_iff. split; intros H; [apply Qnot_le_lt; rewrite <- Qle_bool_iff; congruence|]. destruct (Qle_bool b a) eqn:E; [|reflexivity]. apply Qle_bool_iff in E. lra. Qed.
Lemma qlt_false : forall a b, Qlt_bool a b = false <-> (b <= a)%Q.
Proof. intros a b. unfold Qlt_bool. rewrite negb_false_iff. apply Qle_bool_iff. Qed.

Lemma qle_min_spec : forall a b, (qle_min a b == Qmin a b)%Q.
Proof.
  intros a b. unfold qle_min. destruct (Qle_bool a b) eqn:E; qbool.
  - symmetry. apply Q.min_l. exact E.
  - symmetry. apply Q.min_r. lra.
Qed.

Lemma qmin_cases : forall a b, (Qmin a b == a /\ a <= b \/ Qmin a b == b /\ b <= a)%Q.
Proof. intros a b. destruct (Q.min_spec a b) as [(A & B)|(A & B)]; [left|right]; split; auto; lra. Qed.
Lemma qmax_cases : forall a b, (Qmax a b == a /\ b <= a \/ Qmax a b == b /\ a <= b)%Q.
Proof. intros a b. destruct (Q.max_spec a b) as [(A & B)|(A & B)]; [right|left]; split; auto; lra. Qed.

(** Overlap of two intervals through the differences of their ends. *)
Lemma common_spec : forall a0 a1 b0 b1, (a0 < a1 -> b0 < b1 -> a0 < b1 -> b0 < a1 ->
    Qmin (Qmin (Qabs (a0 - b1)) (Qabs (a1 - b0))) (Qmin (a1 - a0) (b1 - b0)) == common a0 a1 b0 b1)%Q.
Proof.
  intros a0 a1 b0 b1 A B C D. unfold common. rewrite (Qabs_neg (a0 - b1)) by lra. rewrite (Qabs_pos (a1 - b0)) by lra.
  destruct (qmin_cases (- (a0 - b1)) (a1 - b0)) as [(E1 & ?)|(E1 & ?)]; rewrite E1;
  destruct (qmin_cases (a1 - a0) (b1 - b0)) as [(E2 & ?)|(E2 & ?)]; rewrite E2;
  match goal with |- (Qmin ?p ?q == _)%Q => destruct (qmin_cases p q) as [(E3 & ?)|(E3 & ?)]; rewrite E3 end;
  destruct (qmin_cases a1 b1) as [(E4 & ?)|(E4 & ?)]; rewrite E4;
  destruct (qmax_cases a0 b0) as [(E5 & ?)|(E5 & ?)]; rewrite E5; lra.
Qed.

Lemma uncapped_spec : forall a0 a1 b0 b1, (a0 < a1 -> b0 < b1 -> a0 < b1 -> b0 < a1 ->
    let v := Qmin (Qabs (a0 - b1)) (Qabs (a1 - b0)) in
    common a0 a1 b0 b1 <= v /\ (v == common a0 a1 b0 b1 <-> ~ nested a0 a1 b0 b1))%Q.
Proof.
  intros a0 a1 b0 b1 A B C D. cbv zeta. unfold common, nested. rewrite (Qabs_neg (a0 - b1)) by lra. rewrite (Qabs_pos (a1 - b0)) by lra.
  destruct (qmin_cases (- (a0 - b1)) (a1 - b0)) as [(E1 & ?)|(E1 & ?)]; rewrite E1;
  destruct (qmin_cases a1 b1) as [(E4 & ?)|(E4 & ?)]; rewrite E4;
  destruct (qmax_cases a0 b0) as [(E5 & ?)|(E5 & ?)]; rewrite E5; split; try lra; split; intros; try lra;
  match goal with H : ~ (?p /\ ?q \/ ?r /\ ?s)%Q |- _ =>
    assert (X1 : ~ (p /\ q)%Q) by tauto; assert (X2 : ~ (r /\ s)%Q) by tauto; clear H end;
  destruct (Qlt_le_dec a0 b0); destruct (Qlt_le_dec b1 a1); destruct (Qlt_le_dec b0 a0); destruct (Qlt_le_dec a1 b1); try tauto; lra.
Qed.
