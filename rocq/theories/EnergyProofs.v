(** * One step of an assembled simulation, cell by cell; energy *)
From Coq Require Import ZArith List Bool QArith Lia Lqa Sorted Permutation.
From Verif Require Import Base QSum Dims DimsSpec DimsProofs Queue QueueProofs Floorplan FloorplanSpec FloorplanProofs FlpMatrixProofs TempProofs Stack StackSpec StackProofs PowerGrid Emulate EmulateSpec SourceProofs LayerProofs SourceVectorProofs EmulateProofs HistoryProofs Conduct Matrix MatrixSpec CellProofs NodeProofs LinkProofs SignProofs CscProofs NetProofs EnumProofs BalanceSpec BalanceProofs VectorProofs StepProofs.
Import ListNotations.
Local Open Scope Z_scope.

Lemma fill_same_analysis : forall m g d an an', an_type an' = an_type an -> an_step an' = an_step an ->
    fill_system_matrix m g an' d = fill_system_matrix m g an d.
Proof.
  intros m g d [t s l k i] [t' s' l' k' i'] E1 E2. cbn in E1, E2. subst. reflexivity.
Qed.

Section Sim.
  Context {PS : Type}.
  Variable solve : sysmatrix -> list Q -> error_t * list Q.
  Variable plugin : PS -> list Q -> list Q -> bool * list Q * PS.
  Hypothesis IP : in_place solve plugin.
  Hypothesis EX : exact solve.
  Variables (g : tgrid) (d : dims).
  Notation sim := (sim sysmatrix PS).
  Notation NL := (d_nlayers d).
  Notation NR := (d_nrows d).
  Notation NC := (d_ncols d).
  Notation ix := (idx g d).

  Lemma grid_of_same : forall pg pg', grid_of g d pg -> same_fields pg pg' -> grid_of g d pg'.
  Proof.
    intros pg pg' [H1 H2 H3 H4 H5 H6 H7] (_ & _ & _ & S1 & S2 & S3 & S4 & S5 & S6 & S7 & _).
    constructor; congruence.
  Qed.
  Lemma assembled_same : forall (s s' : sim), assembled g d s -> same_fields (s_pg s) (s_pg s') -> s_matrix s' = s_matrix s ->
      an_type (s_an s') = an_type (s_an s) -> an_step (s_an s') = an_step (s_an s) -> assembled g d s'.
  Proof.
    intros s s' [H1 H2 H3 H4 H5] S1 S2 S3 S4. constructor; auto.
    - exact (grid_of_same _ _ H3 S1).
    - destruct H4 as (m0 & A & B & C). exists m0. split; [exact A|]. split; [exact B|]. rewrite S2, (fill_same_analysis _ _ _ _ _ S3 S4). exact C.
    - rewrite S4. exact H5.
  Qed.

  Lemma cells_count : forall s : sim, assembled g d s -> good_sim d s -> Z.of_nat (length (s_temps s)) = unknowns g d.
  Proof.
    intros s A (GP & L & _). destruct GP as (_ & _ & _ & E & _). rewrite L, E. unfold unknowns. rewrite (go_top _ _ _ (as_power g d s A)). reflexivity.
  Qed.

  Lemma caps_eq : forall s : sim, assembled g d s -> pg_caps (s_pg s) = map (ncap g d) (nodes g d).
  Proof.
    intros s A. pose proof (go_caps _ _ _ (as_power g d s A)) as E. rewrite (capacities_eq g d (as_grid g d s A)) in E. congruence.
  Qed.

  (** The matrix of an assembled simulation. *)
  Lemma assembled_row : forall s : sim, assembled g d s -> forall x n, valid g d n ->
      (row_times (s_matrix s) (unknowns g d) x (ix n) == heat_out g d (s_an s) x n)%Q.
  Proof.
    intros s [H1 H2 H3 (m0 & A & B & C) H5] x n V.
    destruct (fill_stored g d (s_an s) m0 (s_matrix s) H1 A B C) as (rt & vt & -> & _).
    apply row_formula; assumption.
  Qed.


  Lemma step_nodes : forall (s s' : sim) qs r, assembled g d s -> good_sim d s -> queued (s_pg s) qs ->
      emulate_step solve plugin d s = Ok (r, s') -> done r ->
      assembled g d s' /\ good_sim d s' /\ same_fields (s_pg s) (s_pg s') /\ an_step (s_an s') = an_step (s_an s) /\
      forall n, valid g d n ->
        (heat_out g d (s_an s) (s_temps s') n ==
         qat (pg_sources (s_pg s')) (ix n) + ncap g d n / an_step (s_an s) * qat (s_temps s) (ix n))%Q.
  Proof.
    intros s s' qs r A GS Qd E D.
    destruct (emulate_step_spec solve plugin IP d s qs GS Qd) as (r0 & s0 & E0 & GS' & SF & SM & _ & K).
    rewrite E in E0. injection E0 as <- <-.
    assert (exists b, s_an s' = increase_by_step_time (s_an s) /\ solve (s_matrix s) b = (TDICE_SUCCESS, s_temps s') /\
              length b = length (s_temps s) /\
              forall i, (i < length b)%nat ->
                nth i b 0%Q = (nth i (pg_sources (s_pg s')) 0 + nth i (pg_caps (s_pg s)) 0 / an_step (s_an s) * nth i (s_temps s) 0)%Q) as (b & AN & SO & LB & HB).
    { destruct D as [-> | ->]; destruct K as (_ & AN & _ & _ & b & K1 & K2 & K3); exists b; auto. }
    assert (assembled g d s') as A'.
    { apply (assembled_same s s' A SF SM); rewrite AN; reflexivity. }
    split; [exact A'|]. split; [exact GS'|]. split; [exact SF|]. split; [rewrite AN; reflexivity|].
    intros n V. pose proof (idx_range g d (as_grid g d s A) n V) as R.
    pose proof (cells_count s A GS) as CC.
    rewrite <- (assembled_row s A) by assumption.
    destruct (EX _ _ _ SO) as (_ & S2). rewrite LB, CC in S2. rewrite (S2 (ix n) R).
    unfold qat. rewrite HB by lia. rewrite (caps_eq s A).
    change (nth (Z.to_nat (ix n)) (map (ncap g d) (nodes g d)) 0%Q) with (qat (map (ncap g d) (nodes g d)) (ix n)).
    rewrite (qat_nodes g d (as_grid g d s A)) by assumption. reflexivity.
  Qed.

  (** Sum over all rows. *)
  Lemma heat_total : forall an x, good_tgrid d g -> physical g d ->
      (qsum (map (heat_out g d an x) (nodes g d)) ==
       qsum (map (fun n => (k_base (links_of g d an n) + k_extra (links_of g d an n) +
                            qsum (map (fun p => fconv (snd p)) (all_links (links_of g d an n)))) * qat x (ix n)) (nodes g d)))%Q.
  Proof.
    intros an x G P.
    set (M := stored (map (col g d an) (nodes g d)) [] []). set (N := unknowns g d).
    transitivity (qsum (map (fun i => row_times M N x i) (zrange 0 (N - 1)))).
    - unfold N. rewrite (sum_nodes g d G (fun i => row_times M (unknowns g d) x i)). apply qsum_ext. intros n I. apply in_nodes in I.
      symmetry. apply row_formula; assumption.
    - unfold row_times. rewrite qsum_swap. unfold N.
      rewrite (sum_nodes g d G (fun j => qsum (map (fun i => coefficient M i j * qat x j)%Q (zrange 0 (unknowns g d - 1))))).
      apply qsum_ext. intros n I. apply in_nodes in I. rewrite qsum_scale_r.
      apply Qmult_comp; [|reflexivity]. apply (column_formula g d an G [] [] n I).
  Qed.

  (** What column [n] sums to beyond the capacity and the sink. *)
  Definition outlet (n : node) : Q :=
    if wet g n && (nrow n =? NR - 1) then (2 * ncon g d n)%Q else 0%Q.
  Definition inlet (n : node) : Q :=
    if wet g n && (nrow n =? 0) then (2 * ncon g d n)%Q else 0%Q.
  Lemma solid_dry : solid_stack g d -> forall n, valid g d n -> wet g n = false.
  Proof.
    intros S [l r c|r c] V; [|reflexivity]. unfold valid, in_grid in V. specialize (S l ltac:(lia)). unfold wet.
    destruct (type_of g l); try discriminate S; reflexivity.
  Qed.
  Lemma dry_conv_sum : forall an n, wet g n = false -> (qsum (map (fun p => fconv (snd p)) (all_links (links_of g d an n))) == 0)%Q.
  Proof.
    intros an n W. apply qsum_zero. intros [m f] I. destruct (dry_conv g d an n m f W I) as (x & ->). reflexivity.
  Qed.
  Lemma conv_column : forall an n, good_tgrid d g -> no_single_row g d -> valid g d n ->
      (k_extra (links_of g d an n) + qsum (map (fun p => fconv (snd p)) (all_links (links_of g d an n))) == outlet n)%Q.
  Proof.
    intros an n G NS V. unfold outlet. destruct (wet g n) eqn:W.
    - destruct n as [l r c|r c]; [|discriminate W]. rewrite (wet_extra g d an l r c W). cbn [andb nrow ncon].
      rewrite (qsum_ext _ (fun p => match snd p with Cond _ => 0%Q | Conv v => (fun (_ : node) v => v) (fst p) v end)) by (intros [m []] _; reflexivity).
      rewrite (wet_conv g d an l r c (fun _ v => v) W). unfold inout.
      unfold valid, in_grid in V. pose proof (wet_opp g d G l r r c ltac:(lia) W) as O.
      destruct NS as [NS|NS]; [|rewrite (solid_dry NS (Cell l r c) V) in W; discriminate].
      destruct (r =? 0) eqn:E0; [apply Z.eqb_eq in E0; subst; destruct (0 =? NR - 1) eqn:E1; [apply Z.eqb_eq in E1; lia|]; cbn; rewrite O; ring|].
      destruct (r =? NR - 1) eqn:E1; cbn; rewrite ?O; ring.
    - rewrite (dry_extra g d an n W), (dry_conv_sum an n W). cbn. ring.
  Qed.

  (** ** Vectors as functions of the nodes *)
  Hypothesis G : good_tgrid d g.
  Lemma vector_nodes : forall x : list Q, Z.of_nat (length x) = unknowns g d -> x = map (fun n => qat x (ix n)) (nodes g d).
  Proof.
    intros x L. rewrite <- (map_map ix (fun i => qat x i)), (idx_nodes g d G).
    pose proof (unknowns_pos g d G) as U. rewrite (list_as_nth x 0%Q) at 1.
    replace (unknowns g d - 1) with (0 + Z.of_nat (length x) - 1) by lia. rewrite zrange_shift, map_map.
    apply map_ext. intros i. unfold qat. f_equal. lia.
  Qed.
  Lemma at_cell_qat : forall x l r c, at_cell d x l r c = qat x (ix (Cell l r c)).
  Proof. intros. unfold at_cell, qat, idx. do 2 f_equal. ring. Qed.

  Lemma content_nodes : forall s : sim, assembled g d s -> good_sim d s ->
      (heat_content s == qsum (map (fun n => ncap g d n * qat (s_temps s) (ix n)) (nodes g d)))%Q.
  Proof.
    intros s A GS. unfold heat_content. rewrite (caps_eq s A).
    rewrite (vector_nodes (s_temps s)) at 1 by (apply cells_count; assumption).
    set (x := s_temps s). clear. induction (nodes g d) as [|n l IH]; [reflexivity|]. cbn [map combine]. rewrite !qsum_cons, IH. cbn [fst snd]. reflexivity.
  Qed.

  Lemma chip_length : Z.of_nat (length (flat_map (layer_nodes d) (zrange 0 (NL - 1)))) = chip_cells d.
  Proof.
    pose proof (nodes_length g d G) as N. unfold nodes in N. rewrite app_length in N. unfold unknowns in N.
    assert (Z.of_nat (length (spr_nodes g)) = spreader_cells (tg_top g)); [|lia].
    unfold spr_nodes, spreader_cells. destruct (tg_top g) as [[h a|s h m]|] eqn:T; try reflexivity.
    rewrite map_length, prod_length, Nat2Z.inj_mul, !zrange_length.
    destruct (gt_spreader d g G s h m T) as [A B A2 B2 _ _ _]. destruct (area_facts g d G) as (N1 & N2 & _).
    rewrite !Z.max_r by lia. f_equal; lia.
  Qed.
  Lemma plugin_nodes : forall s : sim, Z.of_nat (length (pg_sources (s_pg s))) = unknowns g d ->
      (from_plugin d s == qsum (map (fun n => qat (pg_sources (s_pg s)) (ix n)) (spr_nodes g)))%Q.
  Proof.
    intros s L. unfold from_plugin. rewrite (vector_nodes _ L) at 1. unfold nodes at 1. rewrite map_app.
    rewrite (skipn_exact (Z.to_nat (chip_cells d))); [reflexivity|].
    rewrite map_length. pose proof chip_length. lia.
  Qed.

  Lemma sink_nodes : forall f : node -> Q,
      (qsum (map (fun n => nsink g d n * f n) (nodes g d)) == sum_stack d (fun l r c => sink_of g d l r c * f (Cell l r c)))%Q.
  Proof.
    intros f. rewrite nodes_sum. rewrite (qsum_zero (fun n => nsink g d n * f n)%Q (spr_nodes g)); [cbn [nsink]; ring|].
    intros n I. unfold spr_nodes in I. destruct (tg_top g) as [[h a|s h m]|]; try destruct I.
    apply in_map_iff in I. destruct I as (rc & <- & _). cbn. ring.
  Qed.

  (** Sums over one row of the coolant cells. *)
  Lemma wet_channel : forall n, valid g d n -> wet g n = true -> exists ch, tg_channel g = Some ch.
  Proof.
    intros [l r c|r c] V W; [|discriminate W]. destruct (wet_place g l r c W) as (A & _). unfold valid, in_grid in V.
    apply (channel_some g d G l ltac:(lia)). destruct (type_of g l); try discriminate A; reflexivity.
  Qed.
  Lemma coolant_nodes : forall pg (k : Z) (f : node -> Q) (h : channel -> Z -> Z -> Q),
      pg_types pg = tg_types g -> pg_channel pg = tg_channel g -> 0 <= k < NR ->
      (forall ch l c, tg_channel g = Some ch -> 0 <= l < NL -> 0 <= c < NC -> wet g (Cell l k c) = true ->
          (h ch l c == 2 * ncon g d (Cell l k c) * f (Cell l k c))%Q) ->
      (qsum (map (fun n => (if wet g n && (nrow n =? k)%Z then 2 * ncon g d n else 0) * f n) (nodes g d)) == sum_coolant d pg h)%Q.
  Proof.
    intros pg k f h H1 H2 K H. rewrite nodes_sum.
    rewrite (qsum_zero _ (spr_nodes g)).
    2:{ intros n I. unfold spr_nodes in I. destruct (tg_top g) as [[h1 a|s h1 m]|]; try destruct I.
        apply in_map_iff in I. destruct I as (rc & <- & _). cbn. ring. }
    unfold sum_coolant. rewrite H1, H2. unfold sum_stack.
    assert (forall l, 0 <= l < NL ->
      (sum_layer d (fun r c => (if wet g (Cell l r c) && (nrow (Cell l r c) =? k)%Z then 2 * ncon g d (Cell l r c) else 0) * f (Cell l r c)) ==
       qsum (map (fun c => (if wet g (Cell l k c) then 2 * ncon g d (Cell l k c) * f (Cell l k c) else 0)) (zrange 0 (NC - 1))))%Q) as R.
    { intros l L. unfold sum_layer. rewrite (qsum_single _ (zrange 0 (NR - 1)) k).
      - apply qsum_ext. intros c _. cbn [nrow]. rewrite Z.eqb_refl. destruct (wet g (Cell l k c)); cbn [andb]; ring.
      - apply zrange_NoDup.
      - rewrite in_zrange. lia.
      - intros r _ N. apply qsum_zero. intros c _. cbn [nrow]. destruct (r =? k) eqn:E; [apply Z.eqb_eq in E; congruence|].
        rewrite andb_false_r. ring. }
    destruct (tg_channel g) as [ch|] eqn:T.
    - rewrite Qplus_0_r. apply qsum_ext. intros l L. rewrite in_zrange in L. rewrite R by lia.
      apply qsum_ext. intros c C. rewrite in_zrange in C.
      destruct (wet_convection g d G ch l k c ltac:(lia) T) as (W1 & _).
      unfold coolant_cell. change (nth (Z.to_nat l) (tg_types g) LT_NONE) with (type_of g l). rewrite W1.
      destruct (wet g (Cell l k c)) eqn:W; [|reflexivity]. symmetry. apply H; auto; lia.
    - rewrite Qplus_0_r. apply qsum_zero. intros l L. rewrite in_zrange in L. rewrite R by lia. apply qsum_zero. intros c C. rewrite in_zrange in C.
      destruct (wet g (Cell l k c)) eqn:W; [|reflexivity].
      destruct (wet_channel (Cell l k c)) as (ch & E); [unfold valid, in_grid; lia|exact W|congruence].
  Qed.

  Lemma expected_eq : forall pg powers l r c,
      expected_source pg d powers l r c = (boundary_source pg d l r c + qsum (map (located_share d l r c) (combine (located_elements pg) powers)))%Q.
  Proof. reflexivity. Qed.

  (** All sources together. *)
  Lemma sources_total : forall (s : sim) powers, assembled g d s -> good_sim d s -> dissipates (s_pg s) d powers ->
      length powers = length (elements (s_pg s)) ->
      (qsum (map (fun n => qat (pg_sources (s_pg s)) (ix n)) (nodes g d)) ==
       sum_stack d (fun l r c => sink_of g d l r c * amb g l) + enthalpy_in d s + qsum powers + from_plugin d s)%Q.
  Proof.
    intros s powers A GS D L. pose proof GS as (GP & _).
    assert (Z.of_nat (length (pg_sources (s_pg s))) = unknowns g d) as LS.
    { destruct GP as (_ & _ & _ & E & _ & _ & _ & E2 & _). rewrite E2, E. unfold unknowns. rewrite (go_top _ _ _ (as_power g d s A)). reflexivity. }
    rewrite nodes_sum, <- (plugin_nodes s LS). apply Qplus_comp; [|reflexivity].
    rewrite <- (powers_total d (s_pg s) powers GP) by (rewrite L; symmetry; apply located_elements_length).
    rewrite (sum_stack_ext d _ (fun l r c => (sink_of g d l r c * amb g l + inlet (Cell l r c) * tin g) +
                 qsum (map (located_share d l r c) (combine (located_elements (s_pg s)) powers)))%Q).
    - rewrite sum_stack_plus. apply Qplus_comp; [|reflexivity]. rewrite sum_stack_plus. apply Qplus_comp; [reflexivity|].
      unfold enthalpy_in. destruct (as_power g d s A) as [P1 P2 P3 P4 P5 P6 P7]. destruct (area_facts g d G) as (N1 & _).
      rewrite <- (coolant_nodes (s_pg s) 0 (fun _ => tin g) _ P1 P4 ltac:(lia)).
      + rewrite nodes_sum. rewrite (qsum_zero _ (spr_nodes g)).
        2:{ intros n I. unfold spr_nodes in I. destruct (tg_top g) as [[h1 a|s1 h1 m]|]; try destruct I.
            apply in_map_iff in I. destruct I as (rc & <- & _). cbn. ring. }
        rewrite Qplus_0_r. apply sum_stack_ext. intros l r c _. reflexivity.
      + intros ch l c T Hl Hc W. destruct (wet_convection g d G ch l 0 c Hl T) as (_ & W2). rewrite (W2 W). unfold tin. rewrite T. cbn [ncon]. ring.
    - intros l r c I. unfold in_grid in I. rewrite <- at_cell_qat. rewrite (D l r c) by lia. rewrite expected_eq.
      apply Qplus_comp; [|reflexivity].
      rewrite (boundary_eq g d G (s_pg s) (as_power g d s A)) by (unfold in_grid; lia).
      unfold inlet. cbn [nsink nrow ncon]. destruct (wet g (Cell l r c) && (r =? 0)); ring.
  Qed.

  Lemma lost_eq : forall s : sim, assembled g d s ->
      (sum_stack d (fun l r c => sink_of g d l r c * (qat (s_temps s) (ix (Cell l r c)) - amb g l)) == lost_top d s + lost_bottom d s)%Q.
  Proof.
    intros s A. destruct (as_power g d s A) as [P1 P2 P3 P4 P5 P6 P7]. pose proof (gt_one d g G) as N1.
    rewrite (sink_sum g d G (fun l r c => qat (s_temps s) (ix (Cell l r c)) - amb g l)%Q).
    unfold lost_top, lost_bottom. rewrite P2, P3. apply Qplus_comp.
    - destruct (tg_top g) as [[h a|sp h m]|] eqn:T; try reflexivity. apply sum_layer_ext. intros r c R C.
      rewrite at_cell_qat. rewrite (top_tcs_at g d G _ P6) by (try assumption; rewrite T; exists h, a; reflexivity).
      unfold amb. rewrite (gt_ambient d g G) by (rewrite T; exists h, a; reflexivity). rewrite T. cbn [top_ambient]. ring.
    - destruct (tg_bottom g) as [k|] eqn:T; try reflexivity. apply sum_layer_ext. intros r c R C.
      rewrite at_cell_qat. rewrite (bottom_tcs_at g d G _ P7) by (try assumption; congruence).
      pose proof (gt_pcb d g G ltac:(congruence)) as B. unfold amb.
      assert (to_ambient (type_of g 0) = false) as -> by (destruct (type_of g 0); try discriminate B; reflexivity).
      rewrite T. ring.
  Qed.

  (** Energy balance of a step. *)
  Lemma energy_step : forall (s s' : sim) qs powers r, assembled g d s -> good_sim d s -> queued (s_pg s) qs -> no_single_row g d ->
      emulate_step solve plugin d s = Ok (r, s') -> done r ->
      dissipates (s_pg s') d powers -> length powers = length (elements (s_pg s')) ->
      (heat_content s' - heat_content s ==
       an_step (s_an s) * (qsum powers + from_plugin d s' + enthalpy_in d s' - enthalpy_out d s' - lost_top d s' - lost_bottom d s'))%Q.
  Proof.
    intros s s' qs powers r A GS Qd NS E D DI LP.
    destruct (step_nodes s s' qs r A GS Qd E D) as (A' & GS' & SF & ST & EQ).
    pose proof (sources_total s' powers A' GS' DI LP) as ST1.
    pose proof (heat_total (s_an s) (s_temps s') G (as_physical g d s A)) as HT.
    pose proof (as_step g d s A) as SP.
    assert (an_type (s_an s) = AT_TRANSIENT) as TR by (destruct GS as (_ & _ & TR & _); exact TR).
    rewrite (qsum_ext (heat_out g d (s_an s) (s_temps s')) (fun n => qat (pg_sources (s_pg s')) (ix n) + / an_step (s_an s) * (ncap g d n * qat (s_temps s) (ix n)))%Q) in HT.
    2:{ intros n I. apply in_nodes in I. rewrite (EQ n I). unfold Qdiv. ring. }
    rewrite qsum_plus, qsum_scale, <- (content_nodes s A GS), ST1 in HT.
    rewrite (qsum_ext _ (fun n => / an_step (s_an s) * (ncap g d n * qat (s_temps s') (ix n)) + (nsink g d n * qat (s_temps s') (ix n) + outlet n * qat (s_temps s') (ix n)))%Q) in HT.
    2:{ intros n I. apply in_nodes in I. rewrite <- Qplus_assoc, (conv_column (s_an s) n G NS I). rewrite (base_eq g d (s_an s) n I).
        unfold capn. rewrite TR. unfold Qdiv. ring. }
    rewrite qsum_plus, qsum_scale, qsum_plus, <- (content_nodes s' A' GS') in HT.
    rewrite (sink_nodes (fun n => qat (s_temps s') (ix n))) in HT.
    destruct (as_power g d s' A') as [P1 P2 P3 P4 P5 P6 P7]. destruct (area_facts g d G) as (N1 & _).
    assert ((qsum (map (fun n => outlet n * qat (s_temps s') (ix n)) (nodes g d)) == enthalpy_out d s')%Q) as EO.
    { unfold outlet, enthalpy_out.
      apply (coolant_nodes (s_pg s') (NR - 1) (fun n => qat (s_temps s') (ix n)) _ P1 P4 ltac:(lia)).
      intros ch l c T Hl Hc W. destruct (wet_convection g d G ch l (NR - 1) c Hl T) as (_ & W2). rewrite (W2 W), at_cell_qat. cbn [ncon]. ring. }
    rewrite EO in HT.
    pose proof (lost_eq s' A') as LE.
    rewrite (sum_stack_ext d _ (fun l r c => sink_of g d l r c * qat (s_temps s') (ix (Cell l r c)) + (-1) * (sink_of g d l r c * amb g l))%Q) in LE
      by (intros; ring).
    rewrite sum_stack_plus in LE.
    assert ((sum_stack d (fun l r c => (-1) * (sink_of g d l r c * amb g l)) == - sum_stack d (fun l r c => sink_of g d l r c * amb g l))%Q) as NE.
    { unfold sum_stack. rewrite <- qsum_opp. apply qsum_ext. intros l _. rewrite sum_layer_scale. ring. }
    rewrite NE in LE.
    set (u := an_step (s_an s)) in *.
    assert (~ (u == 0)%Q) as NU by (intros Z0; rewrite Z0 in SP; discriminate SP).
    assert ((heat_content s' == u * (/ u * heat_content s'))%Q) as H1 by (field; exact NU).
    assert ((heat_content s == u * (/ u * heat_content s))%Q) as H2 by (field; exact NU).
    rewrite H1, H2.
    set (a := (/ u * heat_content s')%Q) in *. set (b := (/ u * heat_content s)%Q) in *.
    setoid_replace (u * a - u * b)%Q with (u * (a - b))%Q by ring. apply Qmult_comp; [reflexivity|]. lra.
  Qed.
End Sim.
