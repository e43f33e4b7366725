From Coq Require Import ZArith List Bool QArith Qround Lia Lqa.
From Verif Require Import Base QSum Dims DimsSpec.
Import ListNotations.
Local Open Scope Z_scope.

(** ** generic rational facts *)
Lemma qz_plus : forall a b, (qz (a + b) == qz a + qz b)%Q.
Proof. intros. unfold qz. rewrite inject_Z_plus. reflexivity. Qed.
Lemma qz_mult : forall a b, (qz (a * b) == qz a * qz b)%Q.
Proof. intros. unfold qz. rewrite inject_Z_mult. reflexivity. Qed.
Lemma qz_opp : forall a, (qz (- a) == - qz a)%Q.
Proof. intros. unfold qz. rewrite inject_Z_opp. reflexivity. Qed.
Lemma qz_minus : forall a b, (qz (a - b) == qz a - qz b)%Q.
Proof. intros. unfold Z.sub. rewrite qz_plus, qz_opp. reflexivity. Qed.

(** what an accepted dimension section guarantees *)
Record accepted (d : dims) : Prop := {
  ac_nrows : 0 <= d_nrows d < two32;
  ac_ncols : 0 <= d_ncols d < two32;
  ac_nlayers : d_nlayers d = Z.of_nat (length (d_heights d));
  ac_cells : d_nlayers d * d_nrows d * d_ncols d <= d_ncells d;
  ac_max : d_ncells d <= 2147483647
}.

Lemma to_u32_inv : forall x n, to_u32 x = Ok n -> n = Qfloor x /\ 0 <= n < two32.
Proof.
  intros x n H. unfold to_u32 in H.
  destruct ((0 <=? Qfloor x) && (Qfloor x <? two32)) eqn:E; [|discriminate].
  injection H as <-. apply andb_true_iff in E. destruct E as [E1 E2].
  apply Z.leb_le in E1. apply Z.ltb_lt in E2. auto.
Qed.

Lemma parse_columns_inv : forall L cl s f la w ch n,
    parse_columns L cl s = Ok (Some (f, la, w, ch, n)) ->
    0 <= n < two32 /\
    ((s = Uniform (match s with Uniform x => x | _ => 0%Q end) /\ f = cl /\ la = cl /\ w = cl /\ ch = cl /\ n = Qfloor (L / cl)) \/
     (s = MC4RM f la w ch /\ exists k, 0 <= k /\ n = 2 * k + 3 /\
        ((L - f - la - ch) / (ch + w) == qz k)%Q)).
Proof.
  intros L cl s f la w ch n H. unfold parse_columns in H.
  destruct (to_u32 (L / cl)) as [n0| |] eqn:E0; cbn [bind] in H; try discriminate.
  apply to_u32_inv in E0. destruct E0 as [E0 R0].
  destruct s as [x|f' l' w' c'].
  - injection H as <- <- <- <- <-. split; [exact R0|]. left. auto 10.
  - cbv zeta in H. set (ratio := ((L - f' - l' - c') / (c' + w'))%Q) in *.
    destruct (Qeq_bool (ratio - qz (trunc_int ratio)) 0) eqn:Eq; [|discriminate].
    apply Qeq_bool_iff in Eq.
    destruct (to_u32 (2 * ratio + 3)) as [n4| |] eqn:E4; cbn [bind] in H; try discriminate.
    apply to_u32_inv in E4. destruct E4 as [E4 R4].
    destruct (Z.even n4) eqn:Ev; [discriminate|].
    destruct (Z.ltb_spec n4 3) as [Hlt|Hge]; [discriminate|].
    injection H as <- <- <- <- <-. split; [exact R4|]. right. split; [reflexivity|].
    exists (trunc_int ratio).
    assert (ratio == qz (trunc_int ratio))%Q as Er by lra.
    assert (n4 = 2 * trunc_int ratio + 3) as En.
    { rewrite E4. assert (2 * ratio + 3 == qz (2 * trunc_int ratio + 3))%Q as ->.
      { rewrite qz_plus, qz_mult, <- Er. reflexivity. }
      apply Qfloor_Z. }
    split; [lia|]. split; [exact En|exact Er].
Qed.

Lemma parse_dims_inv : forall L W cl cw s hs sc d,
    parse_dims L W cl cw s hs sc = Ok (Some d) -> 0 <= sc ->
    accepted d /\
    d_width d = cw /\ d_chip_length d = L /\ d_chip_width d = W /\
    d_heights d = hs /\ d_nrows d = Qfloor (W / cw) /\
    d_ncells d = d_nlayers d * d_nrows d * d_ncols d + sc /\
    parse_columns L cl s = Ok (Some (d_first d, d_last d, d_wall d, d_chan d, d_ncols d)).
Proof.
  intros L W cl cw s hs sc d H Hsc. unfold parse_dims in H.
  destruct (to_u32 (W / cw)) as [rows| |] eqn:Er; cbn [bind] in H; try discriminate.
  apply to_u32_inv in Er. destruct Er as [Er Rr].
  destruct (parse_columns L cl s) as [[[[[[f la] w] ch] n]|]| |] eqn:Ec; cbn [bind] in H; try discriminate.
  cbv zeta in H.
  destruct (Z.ltb_spec 2147483647 (Z.of_nat (length hs) * rows * n + sc)) as [Hlt|Hge]; [discriminate|].
  injection H as <-. cbn.
  pose proof (parse_columns_inv _ _ _ _ _ _ _ _ Ec) as [Hn _].
  repeat split; cbn; try lia; auto.
Qed.

(** ** C11: the numbering *)
Lemma offset_pure : forall d l r c, accepted d -> in_grid d l r c ->
    offset_in_layer d r c = r * d_ncols d + c /\
    offset_in_stack d l r c = (l * d_nrows d + r) * d_ncols d + c /\
    0 <= offset_in_stack d l r c < d_nlayers d * d_nrows d * d_ncols d.
Proof.
  intros d l r c A [Hl [Hr Hc]]. destruct A as [_ _ _ Hcells Hmax].
  set (NL := d_nlayers d) in *. set (NR := d_nrows d) in *. set (NC := d_ncols d) in *.
  assert (0 <= NR * NC) as H0 by (apply Z.mul_nonneg_nonneg; lia).
  assert (NR * NC <= NL * NR * NC) as H1.
  { replace (NL * NR * NC) with (NL * (NR * NC)) by ring.
    rewrite <- (Z.mul_1_l (NR * NC)) at 1. apply Z.mul_le_mono_nonneg_r; lia. }
  assert (r * NC + c < NR * NC) as H2.
  { apply Z.lt_le_trans with ((r + 1) * NC); [lia|]. apply Z.mul_le_mono_nonneg_r; lia. }
  assert ((l * NR + r) * NC + c < NL * NR * NC) as H3.
  { apply Z.lt_le_trans with ((l * NR + r + 1) * NC); [lia|]. apply Z.mul_le_mono_nonneg_r; [lia|].
    apply Z.le_trans with ((l + 1) * NR); [lia|]. apply Z.mul_le_mono_nonneg_r; lia. }
  assert (0 <= r * NC) by (apply Z.mul_nonneg_nonneg; lia).
  assert (0 <= l * (NR * NC)) by (apply Z.mul_nonneg_nonneg; lia).
  assert (l * (NR * NC) + (r * NC + c) = (l * NR + r) * NC + c) as HE by ring.
  unfold offset_in_stack, offset_in_layer, get_layer_area. fold NL NR NC.
  rewrite (u32_id (NR * NC)) by (unfold two32; lia).
  rewrite (u32_id (r * NC)) by (unfold two32; lia).
  rewrite (u32_id (r * NC + c)) by (unfold two32; lia).
  rewrite (u32_id (l * (NR * NC))) by (unfold two32; lia).
  rewrite (u32_id (l * (NR * NC) + (r * NC + c))) by (unfold two32; lia).
  repeat split; try lia.
Qed.

Lemma offset_injective : forall d l r c l' r' c', accepted d ->
    in_grid d l r c -> in_grid d l' r' c' ->
    offset_in_stack d l r c = offset_in_stack d l' r' c' -> l = l' /\ r = r' /\ c = c'.
Proof.
  intros d l r c l' r' c' A G G' E.
  destruct (offset_pure d l r c A G) as (_ & E1 & _).
  destruct (offset_pure d l' r' c' A G') as (_ & E2 & _).
  rewrite E1, E2 in E. destruct G as [Hl [Hr Hc]]. destruct G' as [Hl' [Hr' Hc']].
  destruct (Z.div_mod_unique (d_ncols d) (l * d_nrows d + r) (l' * d_nrows d + r') c c') as [E3 ->];
    [lia|lia|lia|].
  destruct (Z.div_mod_unique (d_nrows d) l l' r r') as [-> ->]; [lia|lia|lia|]. auto.
Qed.

Lemma offset_surjective : forall d k, accepted d ->
    0 <= k < d_nlayers d * d_nrows d * d_ncols d ->
    exists l r c, in_grid d l r c /\ offset_in_stack d l r c = k.
Proof.
  intros d k A Hk.
  assert (d_ncols d <> 0) as Hnc0 by (intros E; rewrite E in Hk; lia).
  assert (d_nrows d <> 0) as Hnr0 by (intros E; rewrite E in Hk; lia).
  assert (0 < d_ncols d) as Hnc by (destruct A; lia).
  assert (0 < d_nrows d) as Hnr by (destruct A; lia).
  exists (k / d_ncols d / d_nrows d), ((k / d_ncols d) mod d_nrows d), (k mod d_ncols d).
  assert (in_grid d (k / d_ncols d / d_nrows d) ((k / d_ncols d) mod d_nrows d) (k mod d_ncols d)) as G.
  { split; [|split; apply Z.mod_pos_bound; lia].
    split; [apply Z.div_pos; [apply Z.div_pos; lia|lia]|].
    rewrite Z.div_div by lia. apply Z.div_lt_upper_bound; [apply Z.mul_pos_pos; lia|].
    replace (d_ncols d * d_nrows d * d_nlayers d) with (d_nlayers d * d_nrows d * d_ncols d) by ring. lia. }
  split; [exact G|].
  destruct (offset_pure d _ _ _ A G) as (_ & -> & _).
  pose proof (Z.div_mod k (d_ncols d) ltac:(lia)).
  pose proof (Z.div_mod (k / d_ncols d) (d_nrows d) ltac:(lia)) as E2.
  rewrite (Z.mul_comm _ (d_nrows d)), <- E2. lia.
Qed.

(** ** C12: geometry *)
Definition parity_sum : forall c, 1 <= c -> c / 2 + (c - 1) / 2 = c - 1.
Proof.
  intros c H. destruct (Z.Even_or_Odd c) as [[k ->]|[k ->]].
  - replace (2 * k / 2) with k by (symmetry; rewrite Z.mul_comm; apply Z.div_mul; lia).
    replace ((2 * k - 1) / 2) with (k - 1); [lia|].
    apply Z.div_unique with 1; lia.
  - replace ((2 * k + 1) / 2) with k by (apply Z.div_unique with 1; lia).
    replace ((2 * k + 1 - 1) / 2) with k; [lia|]. apply Z.div_unique with 0; lia.
Qed.

(** [regular d]: either all four lengths agree, or the number of columns is odd
    and at least three (4RM). *)
Definition regular (d : dims) : Prop :=
  1 <= d_ncols d < two32 /\
  ((d_first d == d_last d)%Q /\ (d_first d == d_wall d)%Q /\ (d_first d == d_chan d)%Q \/
   exists k, 0 <= k /\ d_ncols d = 2 * k + 3).

Lemma div2_even : forall k, 2 * k / 2 = k.
Proof. intros. rewrite Z.mul_comm. apply Z.div_mul. lia. Qed.
Lemma div2_odd : forall k, (2 * k + 1) / 2 = k.
Proof. intros. symmetry. apply Z.div_unique with 1; lia. Qed.

Lemma location_step : forall d c, regular d -> 0 <= c -> c + 1 < d_ncols d ->
    (get_cell_location_x d (c + 1) == get_cell_location_x d c + get_cell_length d c)%Q.
Proof.
  intros d c [Hn R] Hc Hlt.
  unfold get_cell_location_x, get_cell_length, last_column. rewrite !(u32_id (d_ncols d - 1)) by lia.
  destruct (Z.eqb_spec (c + 1) 0) as [?|_]; [lia|].
  destruct (Z.ltb_spec (d_ncols d - 1) c) as [?|_]; [lia|].
  rewrite (u32_id (c + 1 - 1)) by lia. replace (c + 1 - 1) with c by lia.
  destruct (Z.eqb_spec c 0) as [->|Hc0].
  - change ((0 + 1) / 2) with 0. change (0 / 2) with 0. change (qz 0) with 0%Q. ring.
  - rewrite (u32_id (c - 1)) by lia.
    destruct (Z.eqb_spec c (d_ncols d - 1)) as [?|_]; [lia|].
    destruct (Z.Even_or_Odd c) as [[k ->]|[k ->]].
    + replace (Z.odd (2 * k)) with false by (rewrite Z.odd_mul; reflexivity).
      rewrite div2_even, div2_odd.
      replace ((2 * k - 1) / 2) with (k - 1) by (apply Z.div_unique with 1; lia).
      rewrite qz_minus. change (qz 1) with 1%Q. ring.
    + replace (Z.odd (2 * k + 1)) with true by (rewrite Z.add_comm, Z.odd_add_mul_2; reflexivity).
      replace (2 * k + 1 + 1) with (2 * (k + 1)) by lia. rewrite div2_even, div2_odd.
      replace (2 * k + 1 - 1) with (2 * k) by lia. rewrite div2_even.
      rewrite qz_plus. change (qz 1) with 1%Q. ring.
Qed.

(** right edge of the last column = left edge + length, and closed forms *)
Lemma sum_lengths_prefix : forall d n, regular d -> Z.of_nat n < d_ncols d ->
    (qsum (column_lengths d n) == get_cell_location_x d (Z.of_nat n))%Q.
Proof.
  intros d n R. induction n as [|n IH]; intros Hn; [reflexivity|].
  unfold column_lengths in *. rewrite seq_S, map_app. cbn [map Nat.add].
  rewrite qsum_app, IH by lia. rewrite qsum_cons, qsum_nil.
  replace (Z.of_nat (S n)) with (Z.of_nat n + 1) by lia.
  rewrite (location_step d (Z.of_nat n) R) by lia. ring.
Qed.

Lemma sum_lengths_total : forall d, regular d ->
    (qsum (column_lengths d (Z.to_nat (d_ncols d)))
     == get_cell_location_x d (d_ncols d - 1) + get_cell_length d (d_ncols d - 1))%Q.
Proof.
  intros d R. destruct R as [Hn R0] eqn:ER. 
  replace (Z.to_nat (d_ncols d)) with (S (Z.to_nat (d_ncols d - 1))) by lia.
  unfold column_lengths. rewrite seq_S, map_app. cbn [map Nat.add].
  rewrite qsum_app. fold (column_lengths d (Z.to_nat (d_ncols d - 1))).
  rewrite (sum_lengths_prefix d _ R) by lia.
  rewrite Z2Nat.id by lia. rewrite qsum_cons, qsum_nil. ring.
Qed.

Lemma center_mid : forall d c, regular d -> 0 <= c < d_ncols d -> d_ncols d <> 2 ->
    (get_cell_center_x d c == get_cell_location_x d c + get_cell_length d c / 2)%Q.
Proof.
  intros d c [Hn R] Hc Hn2.
  unfold get_cell_center_x, get_cell_location_x, get_cell_length, last_column.
  rewrite !(u32_id (d_ncols d - 1)) by lia.
  destruct (Z.ltb_spec (d_ncols d - 1) c) as [?|_]; [lia|].
  destruct (Z.eqb_spec c 0) as [->|Hc0].
  - field.
  - rewrite (u32_id (c - 1)) by lia.
    destruct (Z.eqb_spec c (d_ncols d - 1)) as [E|Hne].
    + rewrite (u32_id (c - 2)) by lia.
      destruct R as [(E1 & E2 & E3)|(k & Hk & Ek)].
      * pose proof (parity_sum c ltac:(lia)) as P.
        assert (qz (c / 2) + qz ((c - 1) / 2) == qz (c - 1))%Q as P2 by (rewrite <- qz_plus, P; reflexivity).
        rewrite <- E1, <- E2, <- E3. rewrite !qz_minus in *.
        change (qz 1) with 1%Q in *. change (qz 2) with 2%Q in *.
        setoid_replace (d_first d + d_first d * qz (c / 2) + d_first d * qz ((c - 1) / 2) + d_first d / 2)%Q
          with (d_first d + d_first d * (qz (c / 2) + qz ((c - 1) / 2)) + d_first d / 2)%Q by ring.
        rewrite P2. field.
      * assert (c = 2 * (k + 1)) as -> by lia. rewrite div2_even.
        replace ((2 * (k + 1) - 1) / 2) with k by (apply Z.div_unique with 1; lia).
        replace (2 * (k + 1) - 2) with (2 * k) by lia. rewrite !qz_mult, !qz_plus.
        change (qz 2) with 2%Q. field.
    + destruct (Z.Even_or_Odd c) as [[k ->]|[k ->]].
      * replace (Z.odd (2 * k)) with false by (rewrite Z.odd_mul; reflexivity).
        rewrite div2_even. replace ((2 * k - 1) / 2) with (k - 1) by (apply Z.div_unique with 1; lia).
        rewrite !qz_minus, !qz_mult. change (qz 2) with 2%Q. change (qz 1) with 1%Q. field.
      * replace (Z.odd (2 * k + 1)) with true by (rewrite Z.add_comm, Z.odd_add_mul_2; reflexivity).
        rewrite div2_odd. replace (2 * k + 1 - 1) with (2 * k) by lia. rewrite div2_even.
        rewrite !qz_plus, !qz_mult. change (qz 2) with 2%Q. change (qz 1) with 1%Q. field.
Qed.

Lemma parse_regular : forall L W cl cw s hs sc d,
    parse_dims L W cl cw s hs sc = Ok (Some d) -> 0 <= sc -> 1 <= d_ncols d -> regular d.
Proof.
  intros L W cl cw s hs sc d H Hsc Hn.
  destruct (parse_dims_inv _ _ _ _ _ _ _ _ H Hsc) as (A & _ & _ & _ & _ & _ & _ & Hc).
  destruct (parse_columns_inv _ _ _ _ _ _ _ _ Hc) as [Hr [(E & E1 & E2 & E3 & E4 & _)|(E & k & Hk & Ek & _)]].
  - split; [lia|]. left. rewrite E1, E2, E3, E4. repeat split; reflexivity.
  - split; [lia|]. right. eauto.
Qed.

Lemma uniform_total : forall d, regular d ->
    (d_first d == d_last d)%Q -> (d_first d == d_wall d)%Q -> (d_first d == d_chan d)%Q ->
    (qsum (column_lengths d (Z.to_nat (d_ncols d))) == d_first d * qz (d_ncols d))%Q.
Proof.
  intros d R E1 E2 E3. rewrite sum_lengths_total by exact R. destruct R as [Hn _].
  unfold get_cell_location_x, get_cell_length, last_column. rewrite (u32_id (d_ncols d - 1)) by lia.
  rewrite Z.ltb_irrefl, Z.eqb_refl.
  destruct (Z.eqb_spec (d_ncols d - 1) 0) as [E|Hne].
  - replace (d_ncols d) with 1 by lia. change (qz 1) with 1%Q. ring.
  - rewrite u32_id by lia.
    pose proof (parity_sum (d_ncols d - 1) ltac:(lia)) as P.
    assert (qz ((d_ncols d - 1) / 2) + qz ((d_ncols d - 1 - 1) / 2) == qz (d_ncols d) - 2)%Q as P2.
    { rewrite <- qz_plus, P, !qz_minus. change (qz 1) with 1%Q. ring. }
    rewrite <- E1, <- E2, <- E3.
    setoid_replace (d_first d + d_first d * qz ((d_ncols d - 1) / 2) + d_first d * qz ((d_ncols d - 1 - 1) / 2) + d_first d)%Q
      with (d_first d * (2 + (qz ((d_ncols d - 1) / 2) + qz ((d_ncols d - 1 - 1) / 2))))%Q by ring.
    rewrite P2. ring.
Qed.

Lemma chip_length_tiled : forall L W cl cw s hs sc d,
    parse_dims L W cl cw s hs sc = Ok (Some d) -> 0 <= sc -> 1 <= d_ncols d ->
    positive_sizes L W cl cw s ->
    let total := qsum (column_lengths d (Z.to_nat (d_ncols d))) in
    match s with
    | MC4RM _ _ _ _ => (total == d_chip_length d)%Q
    | Uniform _ => (total <= d_chip_length d < total + cl)%Q /\
                   ((exists n, L == qz n * cl)%Q -> (total == d_chip_length d)%Q)
    end.
Proof.
  intros L W cl cw s hs sc d H Hsc Hn [(HL & HW & Hcl & Hcw) Hs] total.
  pose proof (parse_regular _ _ _ _ _ _ _ _ H Hsc Hn) as R.
  destruct (parse_dims_inv _ _ _ _ _ _ _ _ H Hsc) as (A & Ew & EL & EW & _ & _ & _ & Hc).
  destruct (parse_columns_inv _ _ _ _ _ _ _ _ Hc)
    as [Hr [(E & E1 & E2 & E3 & E4 & En)|(E & k & Hk & Ek & Erat)]].
  - rewrite E. cbn match.
    assert (total == cl * qz (d_ncols d))%Q as Et.
    { unfold total. rewrite uniform_total; auto; rewrite ?E1, ?E2, ?E3, ?E4; reflexivity. }
    rewrite EL. rewrite En in Et.
    pose proof (Qfloor_le (L / cl)) as F1. pose proof (Qlt_floor (L / cl)) as F2.
    assert (L == L / cl * cl)%Q as EqL by (field; lra).
    fold (qz (Qfloor (L / cl))) in F1. fold (qz (Qfloor (L / cl) + 1)) in F2.
    rewrite qz_plus in F2. change (qz 1) with 1%Q in F2.
    assert (qz (Qfloor (L / cl)) * cl <= L)%Q as B1.
    { rewrite EqL at 2. apply Qmult_le_compat_r; lra. }
    assert (L < (qz (Qfloor (L / cl)) + 1) * cl)%Q as B2.
    { rewrite EqL at 1. apply Qmult_lt_compat_r; lra. }
    split; [split; [rewrite Et; lra|rewrite Et; lra]|].
    intros [n Ln]. rewrite Et.
    assert (L / cl == qz n)%Q as Eq by (rewrite Ln; field; lra).
    rewrite Eq. rewrite Ln. fold (qz n). rewrite Qfloor_Z. ring.
  - rewrite E. cbn match. unfold total. rewrite sum_lengths_total by exact R.
    rewrite EL. rewrite E in Hs. destruct Hs as (P1 & P2 & P3 & P4).
    unfold get_cell_location_x, get_cell_length, last_column. rewrite (u32_id (d_ncols d - 1)) by lia.
    rewrite Z.ltb_irrefl, Z.eqb_refl.
    destruct (Z.eqb_spec (d_ncols d - 1) 0) as [?|_]; [lia|].
    rewrite u32_id by lia. rewrite Ek.
    replace ((2 * k + 3 - 1) / 2) with (k + 1) by (apply Z.div_unique with 0; lia).
    replace ((2 * k + 3 - 1 - 1) / 2) with k by (apply Z.div_unique with 1; lia).
    rewrite qz_plus. change (qz 1) with 1%Q. rewrite <- Erat.
    field. lra.
Qed.

Lemma location_y_step : forall d r, 0 <= r < d_nrows d -> d_nrows d < two32 ->
    (get_cell_location_y d (r + 1) == get_cell_location_y d r + get_cell_width d r)%Q /\
    (get_cell_center_y d r == get_cell_location_y d r + get_cell_width d r / 2)%Q.
Proof.
  intros d r Hr Hn. unfold get_cell_location_y, get_cell_center_y, get_cell_width, last_row.
  rewrite u32_id by lia. destruct (Z.ltb_spec (d_nrows d - 1) r) as [?|_]; [lia|].
  rewrite qz_plus. change (qz 1) with 1%Q. split; field.
Qed.

Lemma row_widths_total : forall d n, 0 <= d_nrows d < two32 -> (Z.of_nat n <= d_nrows d) ->
    (qsum (row_widths d n) == d_width d * qz (Z.of_nat n))%Q.
Proof.
  intros d n Hn. induction n as [|n IH]; intros Hle; [change (qz (Z.of_nat 0)) with 0%Q; change (qsum (row_widths d 0)) with 0%Q; ring|].
  unfold row_widths in *. rewrite seq_S, map_app. cbn [map Nat.add].
  rewrite qsum_app, IH by lia. rewrite qsum_cons, qsum_nil.
  unfold get_cell_width, last_row. rewrite u32_id by lia.
  destruct (Z.ltb_spec (d_nrows d - 1) (Z.of_nat n)) as [?|_]; [lia|].
  replace (Z.of_nat (S n)) with (Z.of_nat n + 1) by lia. rewrite qz_plus. change (qz 1) with 1%Q. ring.
Qed.

Lemma chip_width_tiled : forall L W cl cw s hs sc d,
    parse_dims L W cl cw s hs sc = Ok (Some d) -> 0 <= sc ->
    positive_sizes L W cl cw s ->
    let total := qsum (row_widths d (Z.to_nat (d_nrows d))) in
    (total <= d_chip_width d < total + cw)%Q /\
    ((exists n, W == qz n * cw)%Q -> (total == d_chip_width d)%Q).
Proof.
  intros L W cl cw s hs sc d H Hsc [(HL & HW & Hcl & Hcw) _] total.
  destruct (parse_dims_inv _ _ _ _ _ _ _ _ H Hsc) as (A & Ew & EL & EW & _ & En & _ & _).
  assert (total == cw * qz (d_nrows d))%Q as Et.
  { unfold total. rewrite row_widths_total by (destruct A; lia).
    rewrite Z2Nat.id by (destruct A; lia). rewrite Ew. reflexivity. }
  rewrite EW. rewrite En in Et.
  pose proof (Qfloor_le (W / cw)) as F1. pose proof (Qlt_floor (W / cw)) as F2.
  assert (W == W / cw * cw)%Q as EqL by (field; lra).
  fold (qz (Qfloor (W / cw))) in F1. fold (qz (Qfloor (W / cw) + 1)) in F2.
  rewrite qz_plus in F2. change (qz 1) with 1%Q in F2.
  assert (qz (Qfloor (W / cw)) * cw <= W)%Q as B1.
  { rewrite EqL at 2. apply Qmult_le_compat_r; lra. }
  assert (W < (qz (Qfloor (W / cw)) + 1) * cw)%Q as B2.
  { rewrite EqL at 1. apply Qmult_lt_compat_r; lra. }
  split; [split; [rewrite Et; lra|rewrite Et; lra]|].
  intros [n Ln]. rewrite Et.
  assert (W / cw == qz n)%Q as Eq by (rewrite Ln; field; lra).
  rewrite Eq. rewrite Ln. fold (qz n). rewrite Qfloor_Z. ring.
Qed.

(** ** C49: spreader *)
Record good_spreader (d : dims) (s : spreader) : Prop := {
  gs_brows : 0 <= s_border_rows s; gs_bcols : 0 <= s_border_cols s;
  gs_rows : s_nrows s = 2 * s_border_rows s + d_nrows d;
  gs_cols : s_ncols s = 2 * s_border_cols s + d_ncols d;
  gs_cells : d_nlayers d * d_nrows d * d_ncols d + s_nrows s * s_ncols s <= 2147483647;
  gs_rmax : s_nrows s < two32; gs_cmax : s_ncols s < two32
}.

Lemma initialize_good : forall d len wid s,
    accepted d -> initialize_heat_spreader d len wid = Ok (Some s) ->
    2 * s_border_rows s + d_nrows d < two32 -> 2 * s_border_cols s + d_ncols d < two32 ->
    d_nlayers d * d_nrows d * d_ncols d + s_nrows s * s_ncols s <= 2147483647 ->
    good_spreader d s.
Proof.
  intros d len wid s A H Hr Hc Hcells. unfold initialize_heat_spreader in H. cbv zeta in H.
  destruct (negb (Qle_bool 0 ((len - d_chip_length d) / 2 / (d_chip_length d / qz (d_ncols d))))); [discriminate|].
  destruct (to_u32 ((len - d_chip_length d) / 2 / (d_chip_length d / qz (d_ncols d)))) as [bc| |] eqn:Ec;
    cbn [bind] in H; try discriminate.
  destruct (negb (Qle_bool 0 ((wid - d_chip_width d) / 2 / (d_chip_width d / qz (d_nrows d))))); [discriminate|].
  destruct (to_u32 ((wid - d_chip_width d) / 2 / (d_chip_width d / qz (d_nrows d)))) as [br| |] eqn:Er;
    cbn [bind] in H; try discriminate.
  apply to_u32_inv in Ec. apply to_u32_inv in Er. destruct Ec as [_ Ec]. destruct Er as [_ Er].
  match type of H with Ok (Some ?x) = _ => assert (s = x) as -> by congruence end.
  cbn [s_nrows s_ncols s_border_rows s_border_cols] in *. destruct A as [A1 A2 _ _ _].
  assert (u32 (u32 (2 * br) + d_nrows d) = 2 * br + d_nrows d) as E1.
  { rewrite (u32_id (2 * br)) by lia. apply u32_id. lia. }
  assert (u32 (u32 (2 * bc) + d_ncols d) = 2 * bc + d_ncols d) as E2.
  { rewrite (u32_id (2 * bc)) by lia. apply u32_id. lia. }
  rewrite E1, E2 in Hcells.
  split; cbn [s_nrows s_ncols s_border_rows s_border_cols]; rewrite ?E1, ?E2; try lia; exact Hcells.
Qed.

Lemma spreader_offset_pure : forall d s r c, accepted d -> good_spreader d s ->
    0 <= r < s_nrows s -> 0 <= c < s_ncols s ->
    spreader_offset d s r c = d_nlayers d * d_nrows d * d_ncols d + r * s_ncols s + c /\
    d_nlayers d * d_nrows d * d_ncols d <= spreader_offset d s r c
      < d_nlayers d * d_nrows d * d_ncols d + s_nrows s * s_ncols s.
Proof.
  intros d s r c A G Hr Hc. destruct A as [A1 A2 A3 A4 A5]. destruct G as [G1 G2 G3 G4 G5 G6 G7].
  set (NL := d_nlayers d) in *. set (NR := d_nrows d) in *. set (NC := d_ncols d) in *.
  set (SR := s_nrows s) in *. set (SC := s_ncols s) in *.
  assert (0 <= NL) by (unfold NL; lia).
  assert (0 <= NL * NR) by (apply Z.mul_nonneg_nonneg; lia).
  assert (0 <= NL * NR * NC) by (apply Z.mul_nonneg_nonneg; lia).
  assert (0 <= r * SC) by (apply Z.mul_nonneg_nonneg; lia).
  assert (r * SC + c < SR * SC) as H5.
  { apply Z.lt_le_trans with ((r + 1) * SC); [lia|]. apply Z.mul_le_mono_nonneg_r; lia. }
  assert (u32 (u32 (NL * NR) * NC) = NL * NR * NC) as HH.
  { unfold u32. rewrite Z.mul_mod_idemp_l by (unfold two32; lia). apply Z.mod_small. unfold two32; lia. }
  unfold spreader_offset. fold NL NR NC SC.
  rewrite HH.
  rewrite (u32_id (r * SC)) by (unfold two32; lia).
  rewrite (u32_id (NL * NR * NC + r * SC)) by (unfold two32; lia).
  rewrite u32_id by (unfold two32; lia). split; lia.
Qed.

Lemma spreader_roundtrip : forall d s l r c, accepted d -> good_spreader d s -> in_grid d l r c ->
    let r' := r + s_border_rows s in let c' := c + s_border_cols s in
    spreader_offset_from_layer d s r c = spreader_offset d s r' c' /\
    has_layer_underneath d s r' c' = true /\
    layer_offset_from_spreader d s l r' c' = Ok (offset_in_stack d l r c).
Proof.
  intros d s l r c A G [Hl [Hr Hc]] r' c'. unfold r', c'. clear r' c'.
  destruct A as [A1 A2 A3 A4 A5]. destruct G as [G1 G2 G3 G4 G5 G6 G7].
  unfold spreader_offset_from_layer. rewrite !u32_id by lia. split; [reflexivity|].
  assert (has_layer_underneath d s (r + s_border_rows s) (c + s_border_cols s) = true) as Hu.
  { unfold has_layer_underneath. rewrite !u32_id by lia.
    rewrite !andb_true_iff. repeat split; try apply Z.leb_le; try apply Z.ltb_lt; lia. }
  split; [exact Hu|]. unfold layer_offset_from_spreader. rewrite Hu.
  rewrite !u32_id by lia. do 2 f_equal; lia.
Qed.

Lemma underneath_iff : forall d s r c, accepted d -> good_spreader d s ->
    0 <= r < s_nrows s -> 0 <= c < s_ncols s ->
    (has_layer_underneath d s r c = true <->
     exists r0 c0, 0 <= r0 < d_nrows d /\ 0 <= c0 < d_ncols d /\
                   r = r0 + s_border_rows s /\ c = c0 + s_border_cols s).
Proof.
  intros d s r c A G Hr Hc. destruct A as [A1 A2 A3 A4 A5]. destruct G as [G1 G2 G3 G4 G5 G6 G7].
  unfold has_layer_underneath. rewrite !u32_id by lia. rewrite !andb_true_iff.
  rewrite !Z.leb_le, !Z.ltb_lt. split.
  - intros [[[H1 H2] H3] H4]. exists (r - s_border_rows s), (c - s_border_cols s). lia.
  - intros (r0 & c0 & H1 & H2 & -> & ->). lia.
Qed.

Lemma spreader_injective : forall d s r c r' c', accepted d -> good_spreader d s ->
    0 <= r < s_nrows s -> 0 <= c < s_ncols s -> 0 <= r' < s_nrows s -> 0 <= c' < s_ncols s ->
    spreader_offset d s r c = spreader_offset d s r' c' -> r = r' /\ c = c'.
Proof.
  intros d s r c r' c' A G Hr Hc Hr' Hc' E.
  destruct (spreader_offset_pure d s r c A G Hr Hc) as (E1 & _).
  destruct (spreader_offset_pure d s r' c' A G Hr' Hc') as (E2 & _).
  rewrite E1, E2 in E.
  destruct (Z.div_mod_unique (s_ncols s) r r' c c') as [? ?]; lia.
Qed.
