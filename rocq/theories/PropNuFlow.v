(** * C61: changing the flow rate of the coolant on the non-uniform grid *)
From Coq Require Import ZArith List Bool QArith Lia ZifyBool Lqa Permutation Sorted.
From Verif Require Import Base QSum Dims DimsSpec DimsProofs Queue QueueProofs Floorplan FloorplanProofs Stack StackSpec StackProofs PowerGrid Emulate EmulateSpec SourceProofs FloorplanSpec LayerProofs Conduct Matrix MatrixSpec BalanceSpec CellProofs Flow FlowProofs NonUniform NuSpec NuCountProofs NuMatrix NuMatrixSpec NuMatrixProofs NuTableProofs NuCoeffProofs NuSource NuSourceSpec NuSourceProofs NuEmulate PropNuMatrix PropNuSource NuRunSpec NuFlatProofs NuRunProofs PropNuRun PropNuSolid NuFlow NuFlowProofs.
Import ListNotations.
Local Open Scope Z_scope.

(** The thermal grid with another flow rate. *)
Definition with_flow (g : tgrid) (ch : channel) (fr : Q) : tgrid := set_channel_tgrid g (set_flow ch (flow_rate_um3sec fr)).

Section Change.
  Variables (g : tgrid) (d : dims) (ch : channel) (fr : Q).
  Hypothesis TC : tg_channel g = Some ch.
  Let g' := with_flow g ch fr.
  Lemma same_capacity : forall c, nu_capacity g' d c = nu_capacity g d c.
  Proof. intros c. unfold nu_capacity, nu_layer, with_spreader, with_channel, g', with_flow, set_channel_tgrid. cbn [tg_channel tg_types tg_layers tg_top tg_bottom]. rewrite TC. reflexivity. Qed.
  Lemma same_caps : forall cells n, nu_caps g' d cells n = nu_caps g d cells n.
  Proof.
    intros cells n. unfold nu_caps. replace (map_out (nu_capacity g' d) (chip_cells_of d cells)) with (map_out (nu_capacity g d) (chip_cells_of d cells)); [reflexivity|].
    generalize (chip_cells_of d cells) as l. induction l as [|c l IH]; [reflexivity|]. cbn [map_out]. rewrite same_capacity, IH. reflexivity.
  Qed.
  Lemma flow_network : forall an cells cs m m', network g d an cells cs m -> nu_matrix g' d an cells cs m' -> network g' d an cells cs m'.
  Proof.
    intros an cells cs m m' [N1 N2 N3 N4 N5] M. constructor; auto; [apply (flow_good g d ch _ TC N1)|apply (flow_physical g d ch _ TC N2)].
  Qed.
  Lemma flow_ready : forall pg pg' hs G qs, np_grid pg = g -> ready pg d hs G qs -> np_grid pg' = g' -> np_cells pg' = np_cells pg -> np_flps pg' = np_flps pg -> length (np_sources pg') = length (np_sources pg) ->
      np_top_tcs pg' = np_top_tcs pg -> np_bottom_tcs pg' = np_bottom_tcs pg -> ready pg' d hs G qs.
  Proof.
    intros pg pg' hs G qs E [R1 R2 R3 R4 R5 R6 R7 R8 R9 R10] E1 E2 E3 E4 E5 E6. rewrite E in *. constructor; rewrite ?E1, ?E2, ?E3, ?E4, ?E5, ?E6; auto.
    intros l L S. unfold flp_at. rewrite E3. apply R9; assumption.
  Qed.
End Change.

Lemma usual : forall g d, good_tgrid d g -> Forall (fun t => t <> LT_NONE) (tg_types g) /\ 0 + Z.of_nat (length (tg_types g)) <= Z.of_nat (length (d_heights d)) /\ 0 <= d_ncols d <= get_layer_area d /\ last_column d = d_ncols d - 1 /\ get_layer_area d = d_nrows d * d_ncols d.
Proof.
  intros g d GT. pose proof (gt_types d g GT) as LT. pose proof (ac_nlayers d (gt_accepted d g GT)) as AN. destruct (area_ok d (gt_grid d g GT)) as (A1 & A2). destruct (gt_grid d g GT) as (HR & HC & HA & _).
  split; [|split; [lia|split; [rewrite A1; nia|split; [apply (last_column_eq g d GT)|exact A1]]]].
  apply Forall_forall. intros t I. apply (In_nth _ _ LT_NONE) in I. destruct I as (k & K & E). assert (TE : type_of g (Z.of_nat k) = t) by (unfold type_of; rewrite Nat2Z.id; exact E). rewrite <- TE.
  destruct (gt_shape d g GT (Z.of_nat k) ltac:(lia)) as [(S & _)|(b & j & I)]; [intros X; rewrite X in S; discriminate|]. intros X. destruct (block_type g d b j (Z.of_nat k) I) as (ch & CH & N). rewrite X in N. destruct (ch_model ch); cbn in N; repeat (destruct j as [|j]; cbn in N; try discriminate).
Qed.
Lemma flow_core : forall {PS} factor g d cs (s : nsim PS) fr r ch,
    np_grid (n_pg s) = g -> tg_channel g = Some ch -> network g d (n_an s) (np_cells (n_pg s)) cs (n_matrix s) -> nu_update_flow factor d cs s fr r ->
    let g' := with_flow g ch fr in
    exists m, nu_matrix g' d (n_an s) (np_cells (n_pg s)) cs m /\
      r = match factor m with
          | TDICE_FAILURE => Ok (TDICE_FAILURE, mkNsim (n_temps s) (mkNpgrid g' (np_cells (n_pg s)) (np_flps (n_pg s)) (np_sources (n_pg s)) (np_caps (n_pg s)) (np_top_tcs (n_pg s)) (np_bottom_tcs (n_pg s))) m (n_an s) (n_plugin s))
          | TDICE_SUCCESS =>
            match nu_channel_layers g' d 0 0 (tg_types g') (np_sources (n_pg s)) with
            | Ok src => Ok (TDICE_SUCCESS, mkNsim (n_temps s) (mkNpgrid g' (np_cells (n_pg s)) (np_flps (n_pg s)) src (np_caps (n_pg s)) (np_top_tcs (n_pg s)) (np_bottom_tcs (n_pg s))) m (n_an s) (n_plugin s))
            | UB => UB
            | NoFuel => NoFuel
            end
          end.
Proof.
  intros PS factor g d cs s fr r ch GE TC NW U g'. unfold nu_update_flow in U. rewrite GE, TC in U. cbv zeta in U. cbn [set_channel_npgrid np_grid np_cells] in U. rewrite GE in U. fold (with_flow g ch fr) in U. fold g' in U. set (cells := np_cells (n_pg s)) in *.
  pose proof (nw_conns _ _ _ _ _ _ NW) as GC. set (N := Z.of_nat (length cells)) in *.
  assert (GT' : good_tgrid d g') by (apply (flow_good g d ch _ TC), NW).
  assert (SZ : forall table, nu_table g' d (n_an s) cells cs (nu_connections (Z.of_nat (length cs)) N) = Ok table -> forall sorted, qsorted table sorted ->
      exists m, nu_vectors (n_matrix s) sorted = Ok m /\ nu_matrix g' d (n_an s) cells cs m).
  { intros table T sorted (P & SO). destruct (table_inv g' d (n_an s) cells cs table GC T) as (es & diag & dv & S). destruct (table_keys g' d (n_an s) cells cs es diag dv table GC S) as (KN & KR & KD & LT).
    assert (R' : forall e, In e sorted -> 0 <= e_col e < N) by (intros e I; apply KR; eapply Permutation_in; [apply Permutation_sym, P|exact I]).
    assert (D' : forall j, 0 <= j < N -> exists e, In e sorted /\ e_col e = j) by (intros j J; exists (mkEntry j j (qat dv j)); split; [eapply Permutation_in; [exact P|apply KD, J]|reflexivity]).
    destruct (matrix_inv g d (n_an s) cells cs (n_matrix s) GC (nw_matrix _ _ _ _ _ _ NW)) as (es0 & diag0 & dv0 & table0 & s0 & ptr0 & T0 & S0 & (P0 & SO0) & ME & L0 & _).
    destruct (table_keys g d (n_an s) cells cs es0 diag0 dv0 table0 GC S0) as (_ & _ & _ & LT0).
    assert (LS : length s0 = length sorted) by (apply Permutation_length in P, P0; lia).
    assert (E : nu_vectors (n_matrix s) sorted = nu_vectors (system_matrix_build N (Z.of_nat (length sorted))) sorted).
    { apply (vectors_again sorted N); auto; [exact (gc_some _ _ GC)|rewrite ME; exact L0|rewrite ME; cbn; rewrite map_length; exact LS|rewrite ME; cbn; rewrite map_length; exact LS]. }
    destruct (vectors_ok sorted N (gc_some _ _ GC) SO R' D') as (ptr & V & _). rewrite E, V. eexists. split; [reflexivity|]. exists table, sorted. split; [exact T|]. split; [split; assumption|].
    rewrite <- (Permutation_length P), LT in V. exact V. }
  destruct (matrix_defined g' d GT' (n_an s) cells cs) as (m0 & table & sorted0 & T & _).
  { apply Forall_forall. intros c I. destruct (nw_cells _ _ _ _ _ _ NW c I) as (X & _). exact X. }
  { exact GC. }
  change (nu_connections (len cs) (len cells)) with (nu_connections (Z.of_nat (length cs)) N) in T. rewrite T in U. destruct U as (sorted & Q & ->). destruct (SZ table T sorted Q) as (m & -> & M). cbn [bind].
  exists m. split; [exact M|]. destruct (factor m).
  - unfold nu_update_channel. cbn [set_channel_npgrid np_grid np_sources np_cells np_flps np_caps np_top_tcs np_bottom_tcs]. rewrite GE. change (set_channel_tgrid g (set_flow ch (flow_rate_um3sec fr))) with g'. destruct (nu_channel_layers _ _ _ _ _ _); reflexivity.
  - unfold set_channel_npgrid. rewrite GE. reflexivity.
Qed.
(** ** What a change of the flow rate does *)
(** On any simulation: the matrix becomes one built for the new flow rate, the
    queues, temperatures and capacities stay, and only the sources change. The
    result is undefined behaviour only if a source is written out of bounds. *)
Theorem C61_change : forall {PS} factor g d hs G cs qs (s : nsim PS) fr r ch,
    np_grid (n_pg s) = g -> tg_channel g = Some ch -> ready (n_pg s) d hs G qs -> network g d (n_an s) (np_cells (n_pg s)) cs (n_matrix s) ->
    nu_update_flow factor d cs s fr r ->
    let g' := with_flow g ch fr in
    r = UB \/ exists e s', r = Ok (e, s') /\ e = factor (n_matrix s') /\ n_temps s' = n_temps s /\ n_an s' = n_an s /\ n_plugin s' = n_plugin s /\
      np_grid (n_pg s') = g' /\ np_cells (n_pg s') = np_cells (n_pg s) /\ np_flps (n_pg s') = np_flps (n_pg s) /\ np_caps (n_pg s') = np_caps (n_pg s) /\
      ready (n_pg s') d hs G qs /\ network g' d (n_an s') (np_cells (n_pg s')) cs (n_matrix s') /\ (e = TDICE_FAILURE -> np_sources (n_pg s') = np_sources (n_pg s)).
Proof.
  intros PS factor g d hs G cs qs s fr r ch GE TC R NW U g'. destruct (flow_core factor g d cs s fr r ch GE TC NW U) as (m & M & ->). fold g' in M. fold g'. pose proof (flow_network g d ch fr TC _ _ _ _ m NW M) as NW'. fold g' in NW'.
  assert (GT' : good_tgrid d g') by apply NW'. destruct (usual g' d GT') as (_ & U2 & _).
  pose proof (layers_length g' d (set_flow ch (flow_rate_um3sec fr)) eq_refl (tg_types g') 0 0 (np_sources (n_pg s)) ltac:(lia) U2) as LL.
  destruct (factor m) eqn:FA.
  - destruct (nu_channel_layers g' d 0 0 (tg_types g') (np_sources (n_pg s))) as [src| |]; [right|left; reflexivity|contradiction].
    eexists _, _. split; [reflexivity|]. cbn [n_matrix n_temps n_an n_plugin n_pg np_grid np_cells np_flps np_caps np_sources]. rewrite FA. do 8 (split; [reflexivity|]). split; [|split; [exact NW'|discriminate]]. apply (flow_ready g d ch fr (n_pg s)); auto.
  - right. eexists _, _. split; [reflexivity|]. cbn [n_matrix n_temps n_an n_plugin n_pg np_grid np_cells np_flps np_caps np_sources]. rewrite FA. do 8 (split; [reflexivity|]). split; [|split; [exact NW'|reflexivity]]. apply (flow_ready g d ch fr (n_pg s)); auto.
Qed.
Print Assumptions C61_change.

(** ** Where the inlet heat goes *)
(** Cell [k] of the first row of coolant layer [l] is an inlet. *)
Definition inlet (g : tgrid) (d : dims) (l k : nat) : Prop :=
  exists ch, tg_channel g = Some ch /\ coolant_type (type_of g (Z.of_nat l)) = true /\ Z.of_nat k < d_ncols d /\ is_channel_column (ch_model ch) (Z.of_nat k) = true.
Lemma inlet_value : forall g d ch l k, tg_channel g = Some ch -> inlet g d l k -> from_inlet g d l k = inlet_of d ch (Z.of_nat l) (Z.of_nat k).
Proof.
  intros g d ch l k TC (c & T & C1 & C2 & C3). unfold from_inlet, inlet_of. rewrite TC in T. injection T as <-. rewrite TC, C1, C3. destruct (Z.ltb_spec (Z.of_nat k) (d_ncols d)); [reflexivity|lia].
Qed.
Lemma inlet_aimed : forall g d ch l k i, tg_channel g = Some ch -> get_layer_area d = d_nrows d * d_ncols d ->
    (inlet g d l k /\ i = Z.of_nat l * (d_nrows d * d_ncols d) + Z.of_nat k <-> aimed d ch 0 0 (tg_types g) l (Z.of_nat k) i).
Proof.
  intros g d ch l k i TC A. unfold inlet, aimed. rewrite A. split.
  - intros ((c & T & C1 & C2 & C3) & ->). rewrite TC in T. injection T as <-. unfold type_of in C1. rewrite Nat2Z.id in C1. destruct (nth_error (tg_types g) l) as [t|] eqn:E.
    + exists t. rewrite (nth_error_nth _ _ _ E) in C1. repeat split; auto; lia.
    + apply nth_error_None in E. rewrite nth_overflow in C1 by exact E. discriminate C1.
  - intros (t & E & C1 & C2 & C3 & ->). split; [|lia]. exists ch. split; [exact TC|]. unfold type_of. rewrite Nat2Z.id, (nth_error_nth _ _ _ E). repeat split; auto; lia.
Qed.

Lemma aimed_inlet : forall g d ch l c i, tg_channel g = Some ch -> get_layer_area d = d_nrows d * d_ncols d -> aimed d ch 0 0 (tg_types g) l c i ->
    exists k, c = Z.of_nat k /\ inlet g d l k /\ i = Z.of_nat l * (d_nrows d * d_ncols d) + Z.of_nat k.
Proof.
  intros g d ch l c i TC A H. assert (0 <= c) by (destruct H as (t & _ & _ & C & _); lia). exists (Z.to_nat c). rewrite Z2Nat.id by assumption. split; [reflexivity|].
  rewrite <- (Z2Nat.id c) in H by assumption. apply (inlet_aimed g d ch l) in H; auto. rewrite Z2Nat.id in H by assumption. exact H.
Qed.

(** The heat of the inlets is written with the stride of the uniform grid, NRows *
    NColumns cells for each layer, and nothing else is written. *)
Theorem C61_where : forall {PS} factor g d hs G cs qs (s s' : nsim PS) fr ch,
    np_grid (n_pg s) = g -> tg_channel g = Some ch -> ready (n_pg s) d hs G qs -> network g d (n_an s) (np_cells (n_pg s)) cs (n_matrix s) ->
    nu_update_flow factor d cs s fr (Ok (TDICE_SUCCESS, s')) ->
    let g' := with_flow g ch fr in let stride := d_nrows d * d_ncols d in
    (forall l k, inlet g' d l k -> Z.of_nat l * stride + Z.of_nat k < Z.of_nat (length (np_cells (n_pg s))) /\ qat (np_sources (n_pg s')) (Z.of_nat l * stride + Z.of_nat k) = from_inlet g' d l k) /\
    (forall i, 0 <= i -> (forall l k, inlet g' d l k -> i <> Z.of_nat l * stride + Z.of_nat k) -> qat (np_sources (n_pg s')) i = qat (np_sources (n_pg s)) i).
Proof.
  intros PS factor g d hs G cs qs s s' fr ch GE TC R NW U g' stride. destruct (flow_core factor g d cs s fr _ ch GE TC NW U) as (m & M & E). fold g' in E. pose proof (flow_good g d ch (flow_rate_um3sec fr) TC (nw_grid _ _ _ _ _ _ NW)) as GT'. fold (with_flow g ch fr) in GT'. fold g' in GT'.
  destruct (factor m); [|discriminate]. destruct (usual g' d GT') as (U1 & U2 & U3 & U4 & U5).
  assert (LS : length (np_sources (n_pg s)) = length (np_cells (n_pg s))) by (rewrite (rd_sources _ _ _ _ _ R), (rd_cells _ _ _ _ _ R), number_length; reflexivity).
  set (ch' := set_flow ch (flow_rate_um3sec fr)) in *. assert (TC' : tg_channel g' = Some ch') by reflexivity.
  assert (B : forall k c i, aimed d ch' 0 0 (tg_types g') k c i -> i < Z.of_nat (length (np_sources (n_pg s)))).
  { intros k c i H. destruct (Z_lt_ge_dec i (Z.of_nat (length (np_sources (n_pg s))))) as [X|X]; [exact X|]. exfalso. rewrite (layers_out g' d ch' TC' (tg_types g') 0 0 (np_sources (n_pg s)) k c i) in E; auto; [discriminate|lia|lia|lia]. }
  destruct (layers_ok g' d ch' TC' (tg_types g') 0 0 (np_sources (n_pg s)) U1 ltac:(lia) U2 ltac:(lia) U3 U4 B) as (src & E1 & L1 & V1 & O1). rewrite E1 in E. injection E as ->. cbn [n_pg np_sources]. split.
  - intros l k I. assert (A : aimed d ch' 0 0 (tg_types g') l (Z.of_nat k) (Z.of_nat l * stride + Z.of_nat k)) by (apply (inlet_aimed g' d ch'); auto). split; [rewrite <- LS; apply (B _ _ _ A)|]. rewrite (V1 _ _ _ A). rewrite (inlet_value g' d ch') by auto. reflexivity.
  - intros i I F. apply O1; [exact I|]. intros l c A. destruct (aimed_inlet g' d ch' l c i TC' U5 A) as (k & -> & IN & E2). apply (F l k IN E2).
Qed.
Print Assumptions C61_where.

(** A change is out of bounds when this position is beyond the cells. *)
Theorem C61_overflow : forall {PS} factor g d hs G cs qs (s : nsim PS) fr ch r l k,
    np_grid (n_pg s) = g -> tg_channel g = Some ch -> ready (n_pg s) d hs G qs -> network g d (n_an s) (np_cells (n_pg s)) cs (n_matrix s) ->
    (forall m, factor m = TDICE_SUCCESS) -> inlet g d l k -> Z.of_nat (length (np_cells (n_pg s))) <= Z.of_nat l * (d_nrows d * d_ncols d) + Z.of_nat k ->
    nu_update_flow factor d cs s fr r -> r = UB.
Proof.
  intros PS factor g d hs G cs qs s fr ch r l k GE TC R NW FA IN B U. destruct (flow_core factor g d cs s fr _ ch GE TC NW U) as (m & M & ->). pose proof (flow_good g d ch (flow_rate_um3sec fr) TC (nw_grid _ _ _ _ _ _ NW)) as GT'. fold (with_flow g ch fr) in GT'. set (g' := with_flow g ch fr) in *.
  rewrite FA. destruct (usual g' d GT') as (U1 & U2 & U3 & U4 & U5). set (ch' := set_flow ch (flow_rate_um3sec fr)) in *. assert (TC' : tg_channel g' = Some ch') by reflexivity.
  assert (LS : length (np_sources (n_pg s)) = length (np_cells (n_pg s))) by (rewrite (rd_sources _ _ _ _ _ R), (rd_cells _ _ _ _ _ R), number_length; reflexivity).
  assert (IN' : inlet g' d l k) by (destruct IN as (c & T & C1 & C2 & C3); rewrite TC in T; injection T as <-; exists ch'; split; [reflexivity|split; [exact C1|split; [exact C2|exact C3]]]).
  rewrite (layers_out g' d ch' TC' (tg_types g') 0 0 (np_sources (n_pg s)) l (Z.of_nat k) (Z.of_nat l * (d_nrows d * d_ncols d) + Z.of_nat k)); auto; try lia. apply (inlet_aimed g' d ch'); auto.
Qed.
Print Assumptions C61_overflow.

(** With as many cells as on the uniform grid below every layer of coolant, the
    change is well-defined and right: each inlet has its new heat and the other
    cells of the grid keep theirs. *)
Theorem C61_right : forall {PS} factor g d hs G cs qs (s : nsim PS) fr ch r,
    np_grid (n_pg s) = g -> tg_channel g = Some ch -> ready (n_pg s) d hs G qs -> network g d (n_an s) (np_cells (n_pg s)) cs (n_matrix s) ->
    (forall l, (l < length (tg_types g))%nat -> coolant_type (type_of g (Z.of_nat l)) = true -> first_cell G l = Z.of_nat l * (d_nrows d * d_ncols d)) ->
    nu_update_flow factor d cs s fr r ->
    let g' := with_flow g ch fr in
    exists e s', r = Ok (e, s') /\ (e = TDICE_SUCCESS -> forall l k, (l < length G)%nat -> (k < length (layer_block G l))%nat ->
      (inlet g' d l k -> qat (np_sources (n_pg s')) (first_cell G l + Z.of_nat k) = from_inlet g' d l k) /\
      (~ inlet g' d l k -> qat (np_sources (n_pg s')) (first_cell G l + Z.of_nat k) = qat (np_sources (n_pg s)) (first_cell G l + Z.of_nat k))).
Proof.
  intros PS factor g d hs G cs qs s fr ch r GE TC R NW FC U g'. pose proof (flow_good g d ch (flow_rate_um3sec fr) TC (nw_grid _ _ _ _ _ _ NW)) as GT'. fold (with_flow g ch fr) in GT'. fold g' in GT'.
  destruct (flow_core factor g d cs s fr _ ch GE TC NW U) as (m & M & E). fold g' in E. destruct (usual g' d GT') as (U1 & U2 & U3 & U4 & U5). set (ch' := set_flow ch (flow_rate_um3sec fr)) in *. assert (TC' : tg_channel g' = Some ch') by reflexivity.
  assert (LS : length (np_sources (n_pg s)) = length (np_cells (n_pg s))) by (rewrite (rd_sources _ _ _ _ _ R), (rd_cells _ _ _ _ _ R), number_length; reflexivity).
  pose proof (rd_layers _ _ _ _ _ R) as RL. pose proof (rd_rows _ _ _ _ _ R) as RR. rewrite GE in RL, RR.
  assert (INT : forall l k, inlet g' d l k -> (l < length (tg_types g))%nat /\ coolant_type (type_of g (Z.of_nat l)) = true /\ (k < length (layer_block G l))%nat /\ first_cell G l = Z.of_nat l * (d_nrows d * d_ncols d)).
  { intros l k (c & T & C1 & C2 & C3). change (coolant_type (type_of g (Z.of_nat l)) = true) in C1. assert (LL : (l < length (tg_types g))%nat). { destruct (Nat.lt_ge_cases l (length (tg_types g))) as [X|X]; [exact X|]. rewrite beyond in C1 by exact X. discriminate C1. }
    split; [exact LL|]. split; [exact C1|]. specialize (RR l LL C1). split; [lia|]. apply FC; assumption. }
  assert (IB : forall l k, inlet g' d l k -> Z.of_nat l * (d_nrows d * d_ncols d) + Z.of_nat k < Z.of_nat (length (np_cells (n_pg s)))).
  { intros l k IN. destruct (INT l k IN) as (I1 & I2 & I3 & I4). rewrite <- I4, (rd_cells _ _ _ _ _ R), number_length. apply first_fits; [lia|exact I3]. }
  assert (B : forall k c i, aimed d ch' 0 0 (tg_types g') k c i -> i < Z.of_nat (length (np_sources (n_pg s)))).
  { intros l c i A. destruct (aimed_inlet g' d ch' l c i TC' U5 A) as (k & -> & IN & ->). rewrite LS. apply IB. exact IN. }
  destruct (layers_ok g' d ch' TC' (tg_types g') 0 0 (np_sources (n_pg s)) U1 ltac:(lia) U2 ltac:(lia) U3 U4 B) as (src & E1 & _). rewrite E1 in E.
  destruct (factor m) eqn:FA; eexists _, _; (split; [exact E|]); [|discriminate]. intros _ l k HL HK.
  rewrite E in U. destruct (C61_where factor g d hs G cs qs s _ fr ch GE TC R NW U) as (W1 & W2). fold g' in W1, W2. cbv zeta in W1, W2. split.
  - intros IN. destruct (INT l k IN) as (_ & _ & _ & I4). rewrite I4. apply W1. exact IN.
  - intros NI. apply W2; [unfold first_cell; lia|]. intros l' k' IN E2. destruct (INT l' k' IN) as (I1 & I2 & I3 & I4). rewrite <- I4 in E2. destruct (same_place G l k l' k' HL HK ltac:(lia) I3 E2) as (-> & ->). exact (NI IN).
Qed.
Print Assumptions C61_right.

(** ** A run with changes of the flow rate *)
(** [nu_course g m n s]: from [s0], [n] steps and any number of changes lead to [s];
    [g] is the grid with the last flow rate, set after [m] steps. *)
Inductive nu_course {PS} solve (plugin : PS -> list Q -> list Q -> bool * list Q * PS) factor (d : dims) (cs : list conn) (s0 : nsim PS) : tgrid -> nat -> nat -> nsim PS -> Prop :=
| NC_start : nu_course solve plugin factor d cs s0 (np_grid (n_pg s0)) 0 0 s0
| NC_step : forall g m n s r s', nu_course solve plugin factor d cs s0 g m n s -> nu_emulate_step solve plugin d s = Ok (r, s') -> went_on r -> nu_course solve plugin factor d cs s0 g m (S n) s'
| NC_flow : forall g m n s ch fr s', nu_course solve plugin factor d cs s0 g m n s -> tg_channel g = Some ch -> nu_update_flow factor d cs s fr (Ok (TDICE_SUCCESS, s')) ->
    nu_course solve plugin factor d cs s0 (with_flow g ch fr) n n s'.

Lemma flow_alive : forall {PS} factor g d hs G cs qs L n (s s' : nsim PS) fr ch, alive g d hs G cs qs L n s -> tg_channel g = Some ch -> nu_update_flow factor d cs s fr (Ok (TDICE_SUCCESS, s')) ->
    alive (with_flow g ch fr) d hs G cs qs L n s'.
Proof.
  intros PS factor g d hs G cs qs L n s s' fr ch [ST EL ET EN] TC U. pose proof ST as [S1 S2 S3 S4 S5 S6 S7 S8 S9 S10 S11]. cbn [at_time n_pg n_matrix n_temps n_an an_type an_step an_slot_length an_time] in *.
  assert (NW : network g d (n_an s) (np_cells (n_pg s)) cs (n_matrix s)) by (destruct S3 as [N1 N2 N3 N4 N5]; constructor; assumption).
  destruct (C61_change factor g d hs G cs _ s fr _ ch S1 TC S2 NW U) as [X|(e & s2 & E & FA & T1 & A1 & P1 & G1 & C1 & F1 & K1 & R1 & W1 & _)]; [discriminate X|]. injection E as <- <-.
  constructor; [|congruence|congruence|exact EN]. constructor; cbn [at_time n_pg n_matrix n_temps n_an an_type an_step an_slot_length an_time]; rewrite ?A1, ?T1, ?C1; auto.
  - rewrite <- C1. destruct W1 as [N1 N2 N3 N4 N5]. rewrite A1 in N5. constructor; assumption.
  - rewrite K1. rewrite same_caps by exact TC. exact S4.
Qed.
Lemma course_alive : forall {PS} solve plugin factor g0 d hs G cs qs (s0 : nsim PS), in_place solve plugin -> exact solve -> nu_start g0 d hs G cs qs s0 -> forall g m n s, nu_course solve plugin factor d cs s0 g m n s -> Z.of_nat n < two32 ->
    (m <= n)%nat /\ alive g d hs G cs qs (an_slot_length (n_an s0)) n s.
Proof.
  intros PS solve plugin factor g0 d hs G cs qs s0 IP EX ST g m n s H. induction H as [|g m n s r s' H IH E W|g m n s ch fr s' H IH TC U]; intros B.
  - split; [lia|]. rewrite (st_grid _ _ _ _ _ _ _ ST). apply start_alive; auto.
  - destruct (IH ltac:(lia)) as (M & A). split; [lia|]. pose proof (alive_steps solve plugin IP EX g d hs G cs qs _ 1 n s s' A ltac:(lia)) as X. rewrite Nat.add_1_r in X. apply X. apply (NS_step _ _ _ 0 _ r s _); auto. constructor.
  - destruct (IH B) as (M & A). split; [lia|]. apply (flow_alive factor g d hs G cs qs _ n s); auto.
Qed.
Lemma course_split : forall {PS} solve plugin factor d cs (s0 : nsim PS) g m n s, nu_course solve plugin factor d cs s0 g m n s -> forall j, (m <= j <= n)%nat -> exists sj, nu_course solve plugin factor d cs s0 g m j sj /\ nu_steps solve plugin d (n - j) sj s.
Proof.
  intros PS solve plugin factor d cs s0 g m n s H. induction H as [|g m n s r s' H IH E W|g m n s ch fr s' H IH TC U]; intros j J.
  - assert (j = 0%nat) as -> by lia. exists s0. split; constructor.
  - destruct (Nat.eq_dec j (S n)) as [->|N]; [exists s'; rewrite Nat.sub_diag; split; [econstructor; eauto|constructor]|]. destruct (IH j ltac:(lia)) as (sj & C & S). exists sj. split; [exact C|]. rewrite Nat.sub_succ_l by lia. econstructor; eauto.
  - assert (j = n) as -> by lia. exists s'. rewrite Nat.sub_diag. split; [econstructor; eauto|constructor].
Qed.

(** In every slot begun after the last change the heat balance is the one with
    the new flow rate. *)
Theorem C61_energy : forall {PS} solve plugin factor g0 d hs G cs qs (s0 s s' : nsim PS) g m n r,
    in_place solve plugin -> exact solve -> nu_start g0 d hs G cs qs s0 ->
    nu_course solve plugin factor d cs s0 g m n s -> Z.of_nat n + 1 < two32 -> nu_emulate_step solve plugin d s = Ok (r, s') -> went_on r ->
    let cells := np_cells (n_pg s) in let slot := an_slot_length (n_an s0) in
    (m <= n / Z.to_nat slot * Z.to_nat slot)%nat ->
    (forall l, (l < length (tg_types g))%nat -> is_source (type_of g (Z.of_nat l)) = true -> Forall (fun q => (n / Z.to_nat slot < length q)%nat) (qs l)) /\
    (heat_content g d cells (n_temps s') - heat_content g d cells (n_temps s) ==
     an_step (n_an s) * (over_sources g (fun l => qsum (slot_powers slot n (qs l))) + received_from_plugin d s' + received_from_board g d cells + enthalpy_in g d G
                         - given_to_air g d cells (n_temps s') - enthalpy_out g d cells (n_temps s')))%Q.
Proof.
  intros PS solve plugin factor g0 d hs G cs qs s0 s s' g m n r IP EX ST C B E W cells slot M. pose proof (st_slot _ _ _ _ _ _ _ ST) as SL. fold slot in SL. set (L := Z.to_nat slot) in *.
  set (j := (n / L * L)%nat) in *. pose proof (Nat.div_mod n L ltac:(lia)) as DM. assert (JN : (j <= n)%nat) by (unfold j; rewrite Nat.mul_comm; lia).
  destruct (course_split _ _ _ _ _ _ _ _ _ _ C j ltac:(lia)) as (sj & CJ & SJ). destruct (course_alive solve plugin factor g0 d hs G cs qs s0 IP EX ST g m j sj CJ ltac:(lia)) as (_ & [SJ0 LJ TJ _]). fold slot in SJ0, LJ.
  assert (MJ : (j mod L = 0)%nat) by (unfold j; apply Nat.mod_mul; lia). assert (MZ : Z.of_nat j mod slot = 0) by (rewrite <- (Z2Nat.id slot) by lia; fold L; rewrite <- Nat2Z.inj_mod; lia).
  set (k := (n - j)%nat) in *.
  assert (SK : nu_steps solve plugin d (S k) sj s') by (econstructor; eauto).
  rewrite <- (at_time_own sj), TJ in SJ, SK. destruct (steps_time solve plugin d k sj s (Z.of_nat j) ltac:(lia) ltac:(lia) ltac:(rewrite LJ; exact MZ) SJ) as (T1 & T2 & T3).
  assert (ET : nu_emulate_step solve plugin d (at_time (Z.of_nat k) s) = Ok (r, at_time (Z.of_nat k + 1) s')).
  { pose proof E as E2. rewrite <- (at_time_own s), T1 in E2. destruct (step_time solve plugin d s (Z.of_nat j + Z.of_nat k) (Z.of_nat k) r s') as (_ & _ & X); auto; try lia. rewrite T2, LJ. rewrite <- Zplus_mod_idemp_l, MZ. reflexivity. }
  destruct (C59_energy solve plugin g d hs G cs _ (at_time 0 sj) _ _ k r IP EX SJ0 T3 ltac:(lia) ET W) as (F & EN). cbv zeta in F, EN. cbn [at_time n_pg n_temps n_an an_slot_length an_step] in F, EN. rewrite LJ in F, EN. fold L in F.
  assert (JD : begun slot j = (n / L)%nat) by (rewrite begun_boundary by (lia || exact MJ); unfold j; fold L; apply Nat.div_mul; lia).
  assert (KD : (k / L = 0)%nat) by (apply Nat.div_small; pose proof (Nat.mod_upper_bound n L ltac:(lia)); unfold k, j; rewrite Nat.mul_comm; lia).
  pose proof (steps_running solve plugin IP EX g d hs G cs _ (at_time 0 sj) SJ0 k _ T3 ltac:(lia)) as RN. pose proof (rn_cells _ _ _ _ _ _ _ _ RN) as RC. pose proof (rn_an _ _ _ _ _ _ _ _ RN) as RA. cbn [at_time n_pg] in RC.
  assert (AS : an_step (n_an s) = an_step (n_an sj)) by (apply (f_equal an_step) in RA; exact RA). unfold cells. rewrite RC, AS. split.
  - intros l HL HS. specialize (F l HL HS). rewrite KD, JD, Forall_map in F. eapply Forall_impl; [|exact F]. cbn beta. intros q Q. rewrite skipn_length in Q. lia.
  - rewrite EN. unfold received_from_plugin. cbn [at_time n_pg]. apply Qmult_comp; [reflexivity|].
    assert (X : (over_sources g (fun l => qsum (slot_powers slot k (map (skipn (begun slot j)) (qs l)))) == over_sources g (fun l => qsum (slot_powers slot n (qs l))))%Q); [|rewrite X; reflexivity].
    unfold over_sources. apply qsum_ext. intros l _. destruct (is_source (type_of g (Z.of_nat l))); [|reflexivity]. unfold slot_powers. fold L. rewrite map_map, KD, JD. apply qsum_ext. intros q _. rewrite <- (hd_skipn (n / L) q). destruct (skipn (n / L) q); reflexivity.
Qed.
Print Assumptions C61_energy.
