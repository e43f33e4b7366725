(** * Sums over the cells of the non-uniform grid, layer by layer; capacities *)
From Coq Require Import ZArith List Bool QArith Lia ZifyBool Lqa.
From Verif Require Import Base QSum Dims DimsSpec Queue QueueProofs Floorplan FloorplanProofs Stack StackSpec StackProofs PowerGrid Emulate EmulateSpec Conduct Matrix MatrixSpec LayerProofs NodeProofs NonUniform NuSpec NuCountProofs NuMatrix NuMatrixSpec NuMatrixProofs NuTableProofs NuCoeffProofs NuLeaveProofs NuSource NuSourceSpec NuSourceProofs NuStepProofs PropNuMatrix PropNuSource NuEmulate NuRunSpec.
Import ListNotations.
Local Open Scope Z_scope.

Lemma zrange_seq : forall n, zrange 0 (Z.of_nat n - 1) = map Z.of_nat (seq 0 n).
Proof. intros n. unfold zrange. replace (Z.to_nat (Z.of_nat n - 1 - 0 + 1)) with n by lia. apply map_ext. intros i. lia. Qed.
Lemma first_cons : forall L G l, first_cell (L :: G) (Datatypes.S l) = Z.of_nat (length (snd L)) + first_cell G l.
Proof. intros L G l. unfold first_cell. rewrite firstn_S_cons, app_length. lia. Qed.
Lemma seq_plus : forall a n, seq a n = map (fun i => (a + i)%nat) (seq 0 n).
Proof. intros a n. apply (nth_ext _ _ 0%nat (a + 0)%nat); [rewrite map_length, !seq_length; reflexivity|]. intros i I. rewrite seq_length in I. rewrite seq_nth by exact I. rewrite (map_nth (fun i => (a + i)%nat)), seq_nth by exact I. lia. Qed.

Lemma flatten : forall G (f : Z -> Q),
    (qsum (map f (zrange 0 (Z.of_nat (length (grid_cells G)) - 1))) ==
     qsum (map (fun l => qsum (map (fun k => f (first_cell G l + Z.of_nat k)%Z) (seq 0 (length (layer_block G l))))) (seq 0 (length G))))%Q.
Proof.
  intros G. induction G as [|L G IH]; intros f; [reflexivity|].
  rewrite zrange_seq. change (grid_cells (L :: G)) with (snd L ++ grid_cells G). rewrite app_length, seq_app, !map_app, qsum_app. cbn [length seq map]. rewrite qsum_cons, !map_map.
  change (length (layer_block (L :: G) 0)) with (length (snd L)). apply Qplus_comp.
  - apply qsum_ext. intros k _. unfold first_cell. cbn [firstn]. replace (Z.of_nat (length (grid_cells [])) + Z.of_nat k) with (Z.of_nat k) by (cbn; lia). reflexivity.
  - rewrite Nat.add_0_l, (seq_plus (length (snd L))), map_map, <- seq_shift, map_map. specialize (IH (fun i => f (Z.of_nat (length (snd L)) + i))). rewrite zrange_seq, map_map in IH.
    rewrite (qsum_ext _ (fun i => f (Z.of_nat (length (snd L)) + Z.of_nat i))) by (intros i _; rewrite Nat2Z.inj_add; reflexivity). rewrite IH. apply qsum_ext. intros l _. change (layer_block (L :: G) (Datatypes.S l)) with (layer_block G l).
    apply qsum_ext. intros k _. rewrite first_cons, Z.add_assoc. reflexivity.
Qed.

Lemma cell_at : forall hs G j l k, (l < length G)%nat -> (k < length (layer_block G l))%nat ->
    nth (Z.to_nat (first_cell G l + Z.of_nat k)) (number hs j G) cell0 = cell_of hs (j + l) (nth k (layer_block G l) (mkG rect0 false material0)).
Proof.
  intros hs G. induction G as [|L G IH]; intros j l k I K; [cbn in I; lia|]. cbn [number]. destruct l as [|l].
  - unfold first_cell. cbn [firstn]. replace (Z.to_nat (Z.of_nat (length (grid_cells [])) + Z.of_nat k)) with k by (cbn; lia). change (layer_block (L :: G) 0) with (snd L) in *.
    rewrite app_nth1 by (rewrite map_length; exact K). rewrite (nth_indep _ cell0 (cell_of hs j (mkG rect0 false material0))) by (rewrite map_length; exact K). rewrite map_nth, Nat.add_0_r. reflexivity.
  - rewrite first_cons. change (layer_block (L :: G) (Datatypes.S l)) with (layer_block G l) in *. rewrite app_nth2 by (rewrite map_length; unfold first_cell; lia). rewrite map_length.
    replace (Z.to_nat (Z.of_nat (length (snd L)) + first_cell G l + Z.of_nat k) - length (snd L))%nat with (Z.to_nat (first_cell G l + Z.of_nat k)) by (unfold first_cell; lia).
    rewrite (IH (Datatypes.S j) l k) by (cbn in I; lia || assumption). f_equal. lia.
Qed.
Lemma at_grid_cell : forall hs G l k, (l < length G)%nat -> (k < length (layer_block G l))%nat -> at_cell (number hs 0 G) (first_cell G l + Z.of_nat k) = grid_cell hs G l k.
Proof. intros hs G l k I K. unfold at_cell, grid_cell. rewrite (cell_at hs G 0 l k I K). reflexivity. Qed.
Lemma over_flat : forall hs G f, (over_cells (number hs 0 G) f ==
    qsum (map (fun l => qsum (map (fun k => f (first_cell G l + Z.of_nat k)%Z (grid_cell hs G l k)) (seq 0 (length (layer_block G l))))) (seq 0 (length G))))%Q.
Proof.
  intros hs G f. unfold over_cells. rewrite number_length, (flatten G (fun i => f i (at_cell (number hs 0 G) i))). apply qsum_ext. intros l I. apply in_seq in I. apply qsum_ext. intros k K. apply in_seq in K. rewrite at_grid_cell by lia. reflexivity.
Qed.
(** Place of a number. *)
Lemma place : forall G i, 0 <= i < Z.of_nat (length (grid_cells G)) -> exists l k, (l < length G)%nat /\ (k < length (layer_block G l))%nat /\ i = first_cell G l + Z.of_nat k.
Proof.
  intros G. induction G as [|L G IH]; intros i I; [cbn in I; lia|]. change (grid_cells (L :: G)) with (snd L ++ grid_cells G) in I. rewrite app_length in I.
  destruct (Z.lt_ge_cases i (Z.of_nat (length (snd L)))) as [H|H].
  - exists 0%nat, (Z.to_nat i). split; [cbn; lia|]. split; [change (layer_block (L :: G) 0) with (snd L); lia|]. unfold first_cell. cbn. lia.
  - destruct (IH (i - Z.of_nat (length (snd L)))) as (l & k & A & B & C); [lia|]. exists (Datatypes.S l), k. split; [cbn; lia|]. split; [exact B|]. rewrite first_cons. lia.
Qed.
Lemma first_fits : forall G l k, (l < length G)%nat -> (k < length (layer_block G l))%nat -> 0 <= first_cell G l + Z.of_nat k < Z.of_nat (length (grid_cells G)).
Proof.
  intros G. induction G as [|L G IH]; intros l k I K; [cbn in I; lia|]. change (grid_cells (L :: G)) with (snd L ++ grid_cells G). rewrite app_length. destruct l as [|l].
  - unfold first_cell. cbn [firstn]. change (layer_block (L :: G) 0) with (snd L) in K. cbn. lia.
  - rewrite first_cons. change (layer_block (L :: G) (Datatypes.S l)) with (layer_block G l) in K. specialize (IH l k ltac:(cbn in I; lia) K). lia.
Qed.

(** ** Capacities *)
Lemma chip_prefix : forall d hs G j, Z.of_nat j <= d_nlayers d ->
    chip_cells_of d (number hs j G) = number hs j (firstn (Z.to_nat (d_nlayers d) - j) G).
Proof.
  intros d hs G. induction G as [|L G IH]; intros j J; [rewrite firstn_nil; reflexivity|]. cbn [number]. destruct (Z.eq_dec (Z.of_nat j) (d_nlayers d)) as [E|E].
  - replace (Z.to_nat (d_nlayers d) - j)%nat with 0%nat by lia. cbn [firstn number].
    assert (X : forall cs, (forall c, In c cs -> d_nlayers d <= c_layer c) -> chip_cells_of d cs = []) by (intros [|c cs] H; [reflexivity|]; cbn [chip_cells_of]; specialize (H c (or_introl eq_refl)); destruct (Z.leb_spec (d_nlayers d) (c_layer c)); [reflexivity|lia]).
    apply X. intros c I. apply in_app_or in I. destruct I as [I|I]; [apply in_map_iff in I; destruct I as (y & <- & _); cbn; lia|]. apply number_layer in I. lia.
  - replace (Z.to_nat (d_nlayers d) - j)%nat with (Datatypes.S (Z.to_nat (d_nlayers d) - Datatypes.S j)) by lia. cbn [firstn number]. rewrite <- IH by lia.
    generalize (snd L). intros cs. induction cs as [|c cs IHc]; [reflexivity|]. cbn [map app chip_cells_of]. cbn [cell_of c_layer]. destruct (Z.leb_spec (d_nlayers d) (Z.of_nat j)); [lia|]. f_equal. exact IHc.
Qed.
Lemma set_all_fill : forall (xs : list Q), arr_set_all (repeat 0%Q (length xs)) 0 xs = Ok xs.
Proof. intros xs. pose proof (arr_set_all_mid xs [] (repeat 0%Q (length xs)) [] 0 (repeat_length _ _) eq_refl) as H. cbn [app] in H. rewrite !app_nil_r in H. exact H. Qed.

Lemma caps_spec : forall g d hs G caps, good_tgrid d g -> (length (tg_types g) <= length G)%nat -> (has_ambient (tg_top g) \/ tg_top g = None -> length G = length (tg_types g)) -> spreader_fits g d G ->
    (forall c, In c (number hs 0 G) -> in_stack g d c /\ one_material g c) ->
    nu_caps g d (number hs 0 G) (Z.of_nat (length (number hs 0 G))) = Ok caps ->
    length caps = length (number hs 0 G) /\ forall i, 0 <= i < Z.of_nat (length caps) -> (qat caps i == heat_capacity g d (at_cell (number hs 0 G) i))%Q.
Proof.
  intros g d hs G caps GT LG LE FIT C E. pose proof (gt_types d g GT) as LT. unfold nu_caps in E. rewrite (chip_prefix d hs G 0) in E by lia. rewrite Nat.sub_0_r in E. replace (Z.to_nat (d_nlayers d)) with (length (tg_types g)) in E by lia.
  destruct (map_out (nu_capacity g d) (number hs 0 (firstn (length (tg_types g)) G))) as [cs| |] eqn:ME; try discriminate. cbn [bind] in E.
  assert (LC : length cs = length (number hs 0 (firstn (length (tg_types g)) G))) by (pose proof ME as F; apply map_out_forall in F; clear - F; induction F; cbn; congruence). set (G1 := firstn (length (tg_types g)) G) in *.
  assert (L1 : length G1 = length (tg_types g)) by (unfold G1; rewrite firstn_length; lia).
  assert (CASE : exists sp R, match tg_top g with Some (SinkPluggable s h m) => repeat (spreader_capacity s h m) (Z.to_nat (s_nrows s * s_ncols s)) | _ => [] end = sp /\ G = G1 ++ R /\ length sp = length (number hs (length G1) R) /\
            (forall k, (k < length sp)%nat -> match tg_top g with Some (SinkPluggable s h m) => nth k sp 0%Q = spreader_capacity s h m | _ => False end)).
  { assert (NO : length G = length (tg_types g) -> G = G1 ++ []) by (intros H; unfold G1; rewrite <- H, firstn_all, app_nil_r; reflexivity).
    destruct (tg_top g) as [[h a|s h m]|] eqn:TT.
    - exists [], []. split; [reflexivity|]. split; [apply NO, LE; left; unfold has_ambient; eauto|]. split; [reflexivity|]. intros k K. cbn in K. lia.
    - destruct (FIT s h m TT) as (L & B). exists (repeat (spreader_capacity s h m) (Z.to_nat (s_nrows s * s_ncols s))), (skipn (length (tg_types g)) G). split; [reflexivity|]. split; [unfold G1; symmetry; apply firstn_skipn|].
      rewrite repeat_length, number_length. split; [|intros k K; apply nth_error_nth; apply nth_error_repeat; exact K].
      assert (NE : exists X, nth_error G (length (tg_types g)) = Some X) by (destruct (nth_error G (length (tg_types g))) eqn:N; [eauto|apply nth_error_None in N; lia]). destruct NE as (X & NE). rewrite (skipn_nth _ _ _ NE), skipn_all2 by lia.
      unfold grid_cells. cbn [flat_map]. rewrite app_nil_r. unfold layer_block in B. rewrite (nth_error_nth _ _ _ NE) in B. rewrite Z.mul_comm, <- B, Nat2Z.id. reflexivity.
    - exists [], []. split; [reflexivity|]. split; [apply NO, LE; right; reflexivity|]. split; [reflexivity|]. intros k K. cbn in K. lia. }
  destruct CASE as (sp & R & SE & GE & LS & SV). rewrite SE in E. 
  assert (LN : length (number hs 0 G) = length (cs ++ sp)) by (rewrite GE at 1; rewrite number_app, !app_length, LC, LS; reflexivity).
  rewrite Nat2Z.id, LN, set_all_fill in E. injection E as <-. split; [symmetry; exact LN|]. intros i I.
  assert (IN : In (at_cell (number hs 0 G) i) (number hs 0 G)) by (unfold at_cell; apply nth_In; lia). destruct (C _ IN) as (C1 & C2).
  unfold qat. destruct (Z.lt_ge_cases i (Z.of_nat (length cs))) as [H|H].
  - rewrite app_nth1 by lia. assert (A : at_cell (number hs 0 G) i = nth (Z.to_nat i) (number hs 0 G1) cell0) by (unfold at_cell; rewrite GE, number_app, app_nth1 by lia; reflexivity).
    apply (capacity_spec g d GT _ _ C1 C2). rewrite A. apply (map_out_nth _ _ _ (Z.to_nat i) cell0 0%Q ME). lia.
  - rewrite app_nth2 by lia. rewrite app_length in I. specialize (SV (Z.to_nat i - length cs)%nat ltac:(lia)). 
    assert (A : exists c', In c' (number hs (length G1) R) /\ at_cell (number hs 0 G) i = c').
    { eexists. split; [|unfold at_cell; rewrite GE, number_app, app_nth2 by lia; reflexivity]. rewrite Nat.add_0_l. apply nth_In. lia. }
    destruct A as (c' & IC & ->). apply number_layer in IC. destruct (tg_top g) as [[|s h m]|] eqn:TT; try (exfalso; exact SV). rewrite SV. unfold heat_capacity. destruct (Z.leb_spec (d_nlayers d) (c_layer c')); [|lia]. rewrite TT. unfold spreader_capacity. ring.
Qed.
