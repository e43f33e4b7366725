(** * C63: the spreader of a pluggable heat sink on the non-uniform grid *)
From Coq Require Import ZArith List Bool QArith Lia ZifyBool.
From Verif Require Import Base QSum Dims DimsSpec DimsProofs FloorplanSpec CellProofs SourceProofs Queue Floorplan Stack StackSpec StackProofs PowerGrid Emulate EmulateSpec Conduct Matrix MatrixSpec CscProofs NonUniform NuSpec NuCountProofs PropNuGrid NuPositionProofs NuStepProofs NuMatrix NuMatrixSpec NuMatrixProofs NuTableProofs NuSource NuSourceSpec NuSourceProofs NuEmulate PropNuMatrix PropNuSource NuRunSpec NuFlatProofs NuMini PropNonUniform.
Import ListNotations.
Local Open Scope Z_scope.

(** The spreader of the grid has the rows and the columns of the chip. *)
Lemma spreader_cells_of : forall d top es, is_pluggable top = true -> good_factors (d_ncols d) (d_nrows d) -> Forall good_kind es ->
    length (grid d top es) = S (Z.to_nat (total_layers es)) /\ Z.of_nat (length (layer_block (grid d top es) (Z.to_nat (total_layers es)))) = d_nrows d * d_ncols d.
Proof.
  intros d top es P (A & B) GK. pose proof (layers_length d (rev es) ltac:(apply Forall_rev; exact GK)) as LL. rewrite total_layers_rev in LL. unfold grid, spreader_layer. rewrite P. split; [rewrite app_length; cbn [length]; lia|].
  unfold layer_block. rewrite app_nth2 by lia. replace (Z.to_nat (total_layers es) - length (flat_map (kind_layers d) (rev es)))%nat with 0%nat by lia. cbn [nth snd]. unfold plain_cells. rewrite map_length, cut_length by (cbn; lia). cbn [fst snd]. lia.
Qed.

(** A spreader of the size of the chip: the hypothesis of C59 - C62 holds. *)
Theorem C63_fits : forall d top es g sp h m,
    nu_stack_ok d top es -> good_tgrid d g -> tg_top g = top -> top = Some (SinkPluggable sp h m) -> s_border_rows sp = 0 -> s_border_cols sp = 0 ->
    spreader_fits g d (grid d top es).
Proof.
  intros d top es g sp h m OK GT TT TS R0 C0 s h1 m1 E. rewrite TT, TS in E. injection E as <- <- <-. destruct OK as (GK & _ & GF & NL & _). pose proof (gt_types d g GT) as LT. rewrite NL in LT.
  destruct (spreader_cells_of d top es ltac:(rewrite TS; reflexivity) GF GK) as (L1 & L2). replace (length (tg_types g)) with (Z.to_nat (total_layers es)) by lia. split; [exact L1|]. rewrite L2.
  destruct (gt_spreader d g GT sp h m ltac:(congruence)) as [G1 G2 G3 G4 G5 G6 G7]. rewrite G3, G4, R0, C0. lia.
Qed.
Print Assumptions C63_fits.

(** A larger one: the capacities of its cells do not fit in the vector the program
    allocated, and are written beyond its end. *)
Theorem C63_overflow : forall d top past es g sp h m,
    nu_stack_ok d top es -> Forall some_cells es -> good_tgrid d g -> tg_top g = top -> top = Some (SinkPluggable sp h m) -> (0 < s_border_rows sp \/ 0 < s_border_cols sp) ->
    exists n es' st, nu_grid d top past es = Ok (n, es', st) /\
      (forall caps, nu_caps g d (ns_cells st) n <> Ok caps) /\ (forall flps pg, nu_power_grid g d (ns_cells st) n flps <> Ok pg).
Proof.
  intros d top past es g sp h m OK SC GT TT TS BB. destruct (C41_cells d top past es OK SC) as (n & es' & st & E & N & CE & _). exists n, es', st. split; [exact E|]. pose proof OK as (GK & _ & GF & NL & _). pose proof (gt_types d g GT) as LT. rewrite NL in LT.
  destruct (spreader_cells_of d top es ltac:(rewrite TS; reflexivity) GF GK) as (L1 & L2). set (G := grid d top es) in *. set (k := Z.to_nat (total_layers es)) in *.
  assert (X : forall caps, nu_caps g d (ns_cells st) n <> Ok caps).
  { intros caps H. unfold nu_caps in H. rewrite CE, (chip_prefix d _ G 0) in H by lia. rewrite Nat.sub_0_r, NL in H. fold k in H.
    destruct (map_out (nu_capacity g d) (number (d_heights d ++ [past]) 0 (firstn k G))) as [cs| |] eqn:ME; try discriminate. cbn [bind] in H. rewrite TT, TS in H.
    assert (LC : length cs = length (grid_cells (firstn k G))) by (rewrite <- (number_length (d_heights d ++ [past]) (firstn k G) 0); pose proof ME as F; apply map_out_forall in F; clear - F; induction F; cbn; congruence).
    destruct (gt_spreader d g GT sp h m ltac:(congruence)) as [G1 G2 G3 G4 G5 G6 G7]. destruct (gt_grid d g GT) as (HR & HC & _). assert (RC : 0 < d_nrows d /\ 0 < d_ncols d) by lia.
    assert (BIG : d_nrows d * d_ncols d < s_nrows sp * s_ncols sp) by (rewrite G3, G4; clear - G1 G2 BB RC; pose proof (Z.mul_nonneg_nonneg _ _ G1 G2); destruct RC as (RC1 & RC2), BB as [BB|BB]; [pose proof (Z.mul_pos_pos _ _ BB RC2); pose proof (Z.mul_nonneg_nonneg (s_border_cols sp) (d_nrows d) G2 ltac:(lia))|pose proof (Z.mul_pos_pos _ _ BB RC1); pose proof (Z.mul_nonneg_nonneg (s_border_rows sp) (d_ncols d) G1 ltac:(lia))]; lia).
    apply arr_set_all_bound in H. destruct H as (_ & B). rewrite repeat_length, app_length, repeat_length, LC in B.
    assert (NE : cs ++ repeat (spreader_capacity sp h m) (Z.to_nat (s_nrows sp * s_ncols sp)) <> []) by (intros Y; apply app_eq_nil in Y; destruct Y as (_ & Y); apply (f_equal (@length Q)) in Y; rewrite repeat_length in Y; cbn in Y; nia).
    specialize (B NE). rewrite N, CE, number_length in B.
    assert (NT : exists Y, nth_error G k = Some Y) by (destruct (nth_error G k) eqn:NN; [eauto|apply nth_error_None in NN; lia]). destruct NT as (Y & NT).
    assert (LG : length (grid_cells G) = (length (grid_cells (firstn k G)) + length (layer_block G k))%nat).
    { rewrite <- (firstn_skipn k G) at 1. rewrite grid_cells_app, app_length, (skipn_nth _ _ _ NT), skipn_all2 by lia. unfold layer_block. rewrite (nth_error_nth _ _ _ NT). unfold grid_cells at 2. cbn [flat_map]. rewrite app_nil_r. reflexivity. }
    pose proof (Zmult_le_0_compat (d_nrows d) (d_ncols d) ltac:(lia) ltac:(lia)). lia. }
  split; [exact X|]. intros flps pg H. unfold nu_power_grid in H. destruct (nu_top_tcs g d (ns_cells st)); try discriminate. cbn [bind] in H. destruct (nu_bottom_tcs g d (ns_cells st)); try discriminate. cbn [bind] in H. destruct (nu_caps g d (ns_cells st) n) as [caps| |] eqn:C; try discriminate. exact (X caps eq_refl).
Qed.
Print Assumptions C63_overflow.

(** A chip of 3 by 3 cells under spreaders with a border of [k] cells. *)
Definition wide_top (k : Z) : option top_sink := Some (SinkPluggable (mkSpreader (3 + 2 * k) (3 + 2 * k) k k 100 100) 50 demo_mat).
Definition wide_grid (k : Z) : tgrid := mkTgrid [LT_SOURCE; LT_SOLID_SPREADER] [demo_layer; demo_layer] None (wide_top k) None.
Lemma wide_good : forall k, 0 <= k < 100 -> nu_stack_ok mini_dims (wide_top k) mini_stack /\ Forall some_cells mini_stack /\ good_tgrid mini_dims (wide_grid k).
Proof.
  intros k K. destruct mini_ok as ((A1 & A2 & A3 & A4 & A5 & A6 & A7) & SC). split; [|split; [exact SC|]].
  - repeat (split; [assumption || discriminate|]). change (length (grid_cells (grid mini_dims (wide_top k) mini_stack))) with 14%nat. unfold two32. lia.
  - constructor; try (cbn; lia); try (intros _; reflexivity).
    + unfold good_grid, mini_dims. cbn. unfold two32. repeat split; try lia; try reflexivity. left. repeat split; reflexivity.
    + constructor; cbn; unfold two32; lia.
    + intros s h m E. assert (X : mkSpreader (3 + 2 * k) (3 + 2 * k) k k 100 100 = s) by (unfold wide_grid, wide_top in E; cbn [tg_top] in E; congruence). subst s. constructor; cbn [s_border_rows s_border_cols s_nrows s_ncols mini_dims d_nrows d_ncols d_nlayers]; unfold two32; pose proof (Z.mul_le_mono_nonneg (3 + 2 * k) 203 (3 + 2 * k) 203 ltac:(lia) ltac:(lia) ltac:(lia) ltac:(lia)); lia.
    + split; [reflexivity|]. intros _. eexists _, _, _. reflexivity.
    + intros (h & a & E). discriminate E.
    + intros H. exfalso. apply H. reflexivity.
    + intros l L. cbn in L. left. assert (l = 0 \/ l = 1) as [-> | ->] by lia; cbn; repeat split; try discriminate; intros; try lia; eexists _, _, _; reflexivity.
Qed.
Example C63_fits_witness : spreader_fits (wide_grid 0) mini_dims (grid mini_dims (wide_top 0) mini_stack) /\
    exists n es' st pg, nu_grid mini_dims (wide_top 0) 7 mini_stack = Ok (n, es', st) /\ nu_power_grid (wide_grid 0) mini_dims (ns_cells st) n (mini_flps [6; 2]%Q [9; 3]%Q) = Ok pg.
Proof.
  destruct (wide_good 0 ltac:(lia)) as (A & B & C). split; [eapply C63_fits; eauto; reflexivity|].
  assert (Y : match nu_grid mini_dims (wide_top 0) 7 mini_stack with Ok (n, es', st) => match nu_power_grid (wide_grid 0) mini_dims (ns_cells st) n (mini_flps [6; 2]%Q [9; 3]%Q) with Ok _ => true | _ => false end | _ => false end = true) by (vm_compute; reflexivity).
  destruct (nu_grid mini_dims (wide_top 0) 7 mini_stack) as [[[n es'] st]| |]; try discriminate Y. destruct (nu_power_grid _ _ _ _ _) as [pg| |] eqn:P; try discriminate Y. exists n, es', st, pg. auto.
Qed.
Theorem C63_refuted : exists n es' st, nu_grid mini_dims (wide_top 1) 7 mini_stack = Ok (n, es', st) /\
    Z.of_nat (length (ns_cells st)) = 5 + 3 * 3 /\ nu_power_grid (wide_grid 1) mini_dims (ns_cells st) n (mini_flps [6; 2]%Q [9; 3]%Q) = UB.
Proof.
  assert (Y : match nu_grid mini_dims (wide_top 1) 7 mini_stack with Ok (n, es', st) => match nu_power_grid (wide_grid 1) mini_dims (ns_cells st) n (mini_flps [6; 2]%Q [9; 3]%Q) with UB => Z.of_nat (length (ns_cells st)) | _ => 0 end | _ => 0 end = 14) by (vm_compute; reflexivity).
  destruct (nu_grid mini_dims (wide_top 1) 7 mini_stack) as [[[n es'] st]| |]; try discriminate Y. destruct (nu_power_grid _ _ _ _ _) as [pg| |] eqn:P; try discriminate Y. exists n, es', st. auto.
Qed.
