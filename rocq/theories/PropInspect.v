(** * C36, C37: inspected cells and outlet temperatures *)
From Coq Require Import ZArith List Bool QArith Lia Lqa.
From Verif Require Import Base QSum Dims DimsSpec DimsProofs Queue Floorplan FloorplanSpec FloorplanProofs FlpMatrixProofs TempProofs Stack PowerGrid Inspect.
Import ListNotations.
Local Open Scope Z_scope.

Lemma align_search_spec : forall loc v n i, (1 <= n)%nat -> (loc i <= v)%Q ->
    let j := align_search loc v n i in
    i <= j < i + Z.of_nat n /\ (loc j <= v)%Q /\ (j = i + Z.of_nat n - 1 \/ (v < loc (j + 1)%Z)%Q).
Proof.
  intros loc v. induction n as [|n IH]; intros i Hn Hi; [lia|].
  cbn [align_search]. apply Qle_bool_iff in Hi. rewrite Hi. cbn [andb].
  destruct (Qle_bool (loc (i + 1)) v) eqn:E; cbn [negb].
  - destruct n as [|n]; cbn zeta.
    + apply Qle_bool_iff in Hi. split; [lia|]. split; [exact Hi|]. left. lia.
    + apply Qle_bool_iff in E. destruct (IH (i + 1) ltac:(lia) E) as (H1 & H2 & H3). split; [lia|]. split; [exact H2|]. destruct H3; [left; lia|right; assumption].
  - apply Qle_bool_iff in Hi. apply Qle_bool_false in E. cbn zeta. split; [lia|]. split; [exact Hi|]. right. exact E.
Qed.

(** C37: the cell chosen for a point of the grid is the one that contains it,
    and it is the only one. *)
Theorem C37_inspected_cell : forall d x y, good_grid d ->
    (0 <= x < east d (d_ncols d - 1))%Q -> (0 <= y < north d (d_nrows d - 1))%Q ->
    exists r c, align_tcell d x y = (r, c) /\ 0 <= r < d_nrows d /\ 0 <= c < d_ncols d /\
      (west d c <= x < east d c)%Q /\ (south d r <= y < north d r)%Q /\
      (forall r' c', 0 <= r' < d_nrows d -> 0 <= c' < d_ncols d ->
         (west d c' <= x < east d c')%Q -> (south d r' <= y < north d r')%Q -> r' = r /\ c' = c).
Proof.
  intros d x y G Hx Hy. pose proof G as (HR & HC & _).
  unfold align_tcell. unfold last_row, last_column. rewrite !u32_id by lia.
  destruct (align_search_spec (get_cell_location_y d) y (Z.to_nat (d_nrows d - 1 + 1)) 0 ltac:(lia)) as (R1 & R2 & R3).
  { change (get_cell_location_y d 0) with (d_width d * qz 0)%Q. change (qz 0) with 0%Q. lra. }
  destruct (align_search_spec (get_cell_location_x d) x (Z.to_nat (d_ncols d - 1 + 1)) 0 ltac:(lia)) as (C1 & C2 & C3).
  { change (get_cell_location_x d 0) with 0%Q. lra. }
  set (r := align_search (get_cell_location_y d) y _ 0) in *. set (c := align_search (get_cell_location_x d) x _ 0) in *.
  exists r, c. split; [reflexivity|]. split; [lia|]. split; [lia|].
  assert (WX : (west d c <= x < east d c)%Q).
  { split; [exact C2|]. destruct (Z.eq_dec c (d_ncols d - 1)) as [->|N]; [apply Hx|].
    rewrite east_next by (auto; lia). destruct C3; [lia|]. unfold west. assumption. }
  assert (WY : (south d r <= y < north d r)%Q).
  { split; [exact R2|]. destruct (Z.eq_dec r (d_nrows d - 1)) as [->|N]; [apply Hy|].
    rewrite north_next by (auto; lia). destruct R3; [lia|]. unfold south. assumption. }
  split; [exact WX|]. split; [exact WY|].
  intros r' c' Hr' Hc' X Y. split.
  - destruct (Z.lt_trichotomy r' r) as [L|[E|L]]; [|exact E|]; exfalso.
    + pose proof (north_le_south d r' r G ltac:(lia) ltac:(lia)). lra.
    + pose proof (north_le_south d r r' G ltac:(lia) ltac:(lia)). lra.
  - destruct (Z.lt_trichotomy c' c) as [L|[E|L]]; [|exact E|]; exfalso.
    + pose proof (east_le_west d c' c G ltac:(lia) ltac:(lia)). lra.
    + pose proof (east_le_west d c c' G ltac:(lia) ltac:(lia)). lra.
Qed.

(** The hypotheses hold for the grids of C12: for every accepted description
    with at least one cell, and a 4RM one, a point is found. *)
Example C37_witness : exists d, parse_dims 190 50 10 10 (MC4RM 20 30 10 40) [1%Q] 0 = Ok (Some d) /\ good_grid d /\
    (0 <= 155 < east d (d_ncols d - 1))%Q /\ (0 <= 10 < north d (d_nrows d - 1))%Q /\ align_tcell d 155 10 = (1, 5).
Proof.
  eexists. split; [vm_compute; reflexivity|]. split.
  { unfold good_grid. cbn. unfold two32. repeat split; try lia; try reflexivity. right. exists 2. split; [lia|reflexivity]. }
  repeat split; vm_compute; congruence.
Qed.

(** ** C36 *)
(** Temperatures of the coolant cells of the last row, west to east. *)
Definition coolant_outlet (ch : channel) (d : dims) (t : list Q) : list Q :=
  map (fun c => nth (Z.to_nat ((d_nrows d - 1) * d_ncols d + c)) t 0%Q)
      (filter (is_channel_column (ch_model ch)) (zrange 0 (d_ncols d - 1))).
Definition west_wall (d : dims) (t : list Q) : Q := nth (Z.to_nat ((d_nrows d - 1) * d_ncols d)) t 0%Q.

Definition is_max (l : list Q) (m : Q) : Prop := In m l /\ forall x, In x l -> (x <= m)%Q.
Definition is_min (l : list Q) (m : Q) : Prop := In m l /\ forall x, In x l -> (m <= x)%Q.

Lemma outlet_reads_ok : forall ch d t, good_grid d -> d_nrows d * d_ncols d <= Z.of_nat (length t) ->
    outlet_reads ch d t = Ok (west_wall d t, coolant_outlet ch d t).
Proof.
  intros ch d t G Ht. pose proof G as (HR & HC & _). unfold outlet_reads, last_row. rewrite u32_id by lia.
  destruct (layer_offset d (d_nrows d - 1) 0 G ltac:(lia) ltac:(lia)) as (E & B). rewrite E in *. rewrite Z.add_0_r in *.
  rewrite (arr_get_ok t _ 0%Q) by lia. cbn [bind]. rewrite read_all_ok.
  - cbn [bind]. unfold west_wall, coolant_outlet, outlet_columns, last_column. rewrite u32_id by lia. rewrite map_map. reflexivity.
  - apply Forall_forall. intros k Hk. apply in_map_iff in Hk. destruct Hk as (c & <- & Hc).
    unfold outlet_columns, last_column in Hc. rewrite u32_id in Hc by lia. apply filter_In in Hc. destruct Hc as [Hc _].
    apply in_zrange in Hc. destruct (layer_offset d (d_nrows d - 1) c G ltac:(lia) ltac:(lia)) as (E' & B'). rewrite E' in B'. lia.
Qed.

(** What the four functions do compute: column 0 of the last row, a wall for
    4RM, always takes part, and the gradient is the maximum. *)
Theorem C36_outlet_partial : forall ch d t, good_grid d -> d_nrows d * d_ncols d <= Z.of_nat (length t) ->
    exists hi lo, outlet_max ch d t = Ok hi /\ outlet_min ch d t = Ok lo /\ outlet_gradient ch d t = Ok hi /\
      is_max (west_wall d t :: coolant_outlet ch d t) hi /\ is_min (west_wall d t :: coolant_outlet ch d t) lo /\
      (ch_nchannels ch <> 0 -> exists m, outlet_avg ch d t = Ok m /\
         (m == (west_wall d t + qsum (coolant_outlet ch d t)) / qz (ch_nchannels ch))%Q).
Proof.
  intros ch d t G Ht. unfold outlet_gradient, outlet_max, outlet_min, outlet_avg. rewrite (outlet_reads_ok ch d t G Ht). cbn [bind fst snd].
  eexists. eexists. split; [reflexivity|]. split; [reflexivity|]. split; [reflexivity|].
  destruct (fold_max qmax qmax_ge (coolant_outlet ch d t) (west_wall d t)) as (A1 & A2 & A3).
  destruct (fold_min qmin qmin_le (coolant_outlet ch d t) (west_wall d t)) as (B1 & B2 & B3).
  split; [|split].
  - split; [destruct A3 as [->|A3]; [left; reflexivity|right; exact A3]|]. intros x [<-|Hx]; auto.
  - split; [destruct B3 as [->|B3]; [left; reflexivity|right; exact B3]|]. intros x [<-|Hx]; auto.
  - intro N. destruct (Z.eqb_spec (ch_nchannels ch) 0); [contradiction|]. eexists. split; [reflexivity|]. rewrite fold_plus. reflexivity.
Qed.

(** When every column carries coolant (2RM, pin fins), the maximum and the
    minimum are those of the coolant. *)
Theorem C36_extremes_2rm_partial : forall ch d t, good_grid d -> d_nrows d * d_ncols d <= Z.of_nat (length t) ->
    ch_model ch <> CM_MC_4RM ->
    exists hi lo, outlet_max ch d t = Ok hi /\ outlet_min ch d t = Ok lo /\
      is_max (coolant_outlet ch d t) hi /\ is_min (coolant_outlet ch d t) lo.
Proof.
  intros ch d t G Ht N. pose proof G as (HR & HC & _).
  destruct (C36_outlet_partial ch d t G Ht) as (hi & lo & E1 & E2 & _ & (I1 & M1) & (I2 & M2) & _).
  assert (W : In (west_wall d t) (coolant_outlet ch d t)).
  { unfold coolant_outlet, west_wall. apply in_map_iff. exists 0. rewrite Z.add_0_r. split; [reflexivity|]. apply filter_In. split.
    - apply in_zrange. lia.
    - unfold is_channel_column. destruct (ch_model ch); congruence || reflexivity. }
  exists hi, lo. split; [exact E1|]. split; [exact E2|]. split; split.
  - destruct I1 as [<-|I1]; assumption.
  - intros x Hx. apply M1. right. exact Hx.
  - destruct I2 as [<-|I2]; assumption.
  - intros x Hx. apply M2. right. exact Hx.
Qed.

(** The claim fails: a 4RM channel with one coolant cell at the outlet, at 310,
    between walls at 400: maximum 400, average 710, gradient 400. *)
Definition c36_ch : channel := mkChannel CM_MC_4RM 1 0 100 0 0 1 (mkMaterial 1 1 1 1) 1 1 1 1 300 1 0 0.
Theorem C36_refuted : exists d t, parse_dims 150 100 50 50 (MC4RM 50 50 50 50) [1%Q] 0 = Ok (Some d) /\ good_grid d /\
    coolant_outlet c36_ch d t = [310%Q] /\ outlet_max c36_ch d t = Ok 400%Q /\
    (exists m, outlet_avg c36_ch d t = Ok m /\ m == 710)%Q /\ outlet_gradient c36_ch d t = Ok 400%Q.
Proof.
  eexists. exists [300; 300; 300; 400; 310; 400]%Q. split; [vm_compute; reflexivity|]. split.
  { unfold good_grid. cbn. unfold two32. repeat split; try lia; try reflexivity. left. repeat split; reflexivity. }
  split; [reflexivity|]. split; [vm_compute; reflexivity|]. split; [|vm_compute; reflexivity].
  eexists. split; [vm_compute; reflexivity|]. reflexivity.
Qed.

Print Assumptions C36_outlet_partial.
Print Assumptions C36_extremes_2rm_partial.
Print Assumptions C36_refuted.
Print Assumptions C37_inspected_cell.
