(** * C77: the template heat sinks, and the names given to plugins *)
From Coq Require Import ZArith QArith Bool Lia Lqa Qfield String Ascii List.
From Verif Require Import Base QSum Dims DimsSpec DimsProofs Queue QueueProofs Floorplan FloorplanSpec FloorplanProofs Stack StackSpec PowerGrid Emulate EmulateSpec SourceVectorProofs EmulateProofs HistoryProofs
     Conduct Matrix MatrixSpec BalanceSpec CellProofs NodeProofs LinkProofs SignProofs EnumProofs BalanceProofs VectorProofs StepProofs EnergyProofs NetProofs UniqueProofs FieldProofs LongRunProofs PropStack SimWitness MatrixWitness PropMatrix GridMap PropGridMap SinkTemplate SinkTemplateSpec.
Import ListNotations.
Local Open Scope Z_scope.

(** ** The conductance *)
(** Half a cell of the spreader, then the cell's share of 1 W/K; both templates. *)
Theorem C77_conductance : forall d sp h m a args, good_spreader d sp -> good_grid d -> (0 < h)%Q -> (0 < s_cell_length sp)%Q -> (0 < s_cell_width sp)%Q -> (0 < mt_kz m)%Q ->
    s_nrows sp * s_ncols sp < two32 ->
    exists k, initialize_pluggable cpp_init sp h m a args = Some k /\ initialize_pluggable py_init sp h m a args = Some k /\
      hk_ambient k = an_initial a /\
      one_after_other (spreader_top_bottom sp h m) (1 / qz (s_nrows sp * s_ncols sp)) (hk_conductance k) /\
      (qz (s_nrows sp * s_ncols sp) * hk_conductance k < 1)%Q.
Proof.
  intros d sp h m a args [B1 B2 RW CL CE R C] GG H CLp CW K W. assert (1 <= d_nrows d /\ 1 <= d_ncols d) as (NR & NC) by (destruct GG; lia).
  assert (1 <= s_nrows sp) by lia. assert (1 <= s_ncols sp) by lia. assert (N : 1 <= s_nrows sp * s_ncols sp) by (clear -H0 H1; nia). set (n := s_nrows sp * s_ncols sp) in *.
  exists (mkSink (an_initial a) (template_parallel (spreader_top_bottom sp h m) (1 / qz n))). unfold initialize_pluggable, cpp_init, py_init. fold n. rewrite u32_id by lia.
  destruct (Z.eqb_spec n 0); [lia|]. split; [reflexivity|]. split; [reflexivity|]. split; [reflexivity|]. cbn [hk_conductance].
  assert (Z0 : (0 < qz n)%Q) by (unfold qz, Qlt; cbn; lia).
  assert (S0 : (0 < spreader_top_bottom sp h m)%Q).
  { unfold spreader_top_bottom. apply Qlt_shift_div_l; [unfold Qdiv; apply Qmult_lt_0_compat; [exact H|reflexivity]|]. rewrite Qmult_0_l. repeat (apply Qmult_lt_0_compat); assumption. }
  set (x := spreader_top_bottom sp h m) in *. set (y := qz n) in *. unfold template_parallel.
  assert (Y : (0 < 1 / y)%Q) by (apply Qlt_shift_div_l; [assumption|lra]).
  assert (E : (x * (1 / y) / (x + 1 / y) == x / (x * y + 1))%Q).
  { field. assert (0 < x * y)%Q by (apply Qmult_lt_0_compat; assumption). split; lra. }
  assert (P : (0 < x * y)%Q) by (apply Qmult_lt_0_compat; assumption).
  unfold one_after_other. rewrite E. assert (0 < x / (x * y + 1))%Q by (apply Qlt_shift_div_l; lra).
  split.
  - split; [assumption|]. split; [assumption|]. split; [assumption|]. field. repeat split; lra.
  - setoid_replace (y * (x / (x * y + 1)))%Q with (x * y / (x * y + 1))%Q by (unfold Qdiv; ring). apply Qlt_shift_div_r; lra.
Qed.
Print Assumptions C77_conductance.

(** ** One call *)
Lemma cmap_map : forall {A B} (f : A -> cpp B) (g : A -> B) l, (forall a, In a l -> f a = Val (g a)) -> cmap f l = Val (map g l).
Proof.
  intros A B f g l. induction l as [|a l IH]; intros H; [reflexivity|]. cbn [cmap map]. rewrite (H a (or_introl eq_refl)). cbn [cbind]. rewrite IH by (intros b I; apply H; right; exact I). reflexivity.
Qed.
Lemma map_nth_range : forall {B} (f : Q -> B) (l : list Q), map (fun i => f (nth (Z.to_nat i) l 0%Q)) (zrange 0 (Z.of_nat (List.length l) - 1)) = map f l.
Proof.
  intros B f l. assert (LL : List.length (zrange 0 (Z.of_nat (List.length l) - 1)) = List.length l) by (pose proof (zrange_length 0 (Z.of_nat (List.length l) - 1)); lia).
  apply (nth_ext _ _ (f 0%Q) (f 0%Q)).
  - rewrite !map_length. exact LL.
  - intros n L. rewrite map_length, LL in L.
    rewrite (nth_indep _ (f 0%Q) ((fun i => f (nth (Z.to_nat i) l 0%Q)) 0)) by (rewrite map_length, LL; exact L).
    rewrite (map_nth (fun i => f (nth (Z.to_nat i) l 0%Q)) _ 0 n), map_nth. f_equal.
    pose proof (nth_zrange (Z.of_nat n) (Z.of_nat (List.length l) - 1) 0 ltac:(lia)) as E. rewrite Nat2Z.id in E. rewrite E. f_equal. lia.
Qed.
Lemma cpp_step_flows : forall k nr nc ts, 1 <= nc -> Z.of_nat (List.length ts) = nr * nc ->
    cpp_step k nr nc ts = Val (map (fun t => (hk_conductance k * (t - hk_ambient k))%Q) ts).
Proof.
  intros k nr nc ts NC L. unfold cpp_step. rewrite <- L.
  rewrite (cmap_map _ (fun i => (hk_conductance k * (nth (Z.to_nat i) ts 0 - hk_ambient k))%Q)).
  - f_equal. exact (map_nth_range (fun t => (hk_conductance k * (t - hk_ambient k))%Q) ts).
  - intros i I. apply in_zrange in I. unfold cpp_flow, cells_at. replace (i / nc * nc + i mod nc) with i by (pose proof (Z.div_mod i nc ltac:(lia)); lia).
    rewrite (nth_error_nth' ts 0%Q) by lia. reflexivity.
Qed.

Lemma in_place_cpp : forall {M} (solve : M -> list Q -> error_t * list Q) nr nc,
    (forall m b e x, solve m b = (e, x) -> List.length x = List.length b) -> in_place solve (cpp_plugin nr nc).
Proof.
  intros M solve nr nc H. split; [exact H|]. intros k t v bad fl k'. unfold cpp_plugin. destruct (cpp_step k nr nc t) as [flows| |]; [|congruence|congruence].
  destruct (Nat.leb_spec (List.length flows) (List.length v)); [|congruence]. intros E. assert (fl = flows ++ skipn (List.length flows) v) as -> by congruence. rewrite app_length, skipn_length. lia.
Qed.

(** The Python template, called through its loader, answers as the C++ template does. *)
Theorem C77_python_same : forall nr nc k ts old, 1 <= nr -> 1 <= nc -> nr * nc < two32 -> Z.of_nat (List.length ts) = nr * nc ->
    py_plugin py_step nr nc k ts old = cpp_plugin nr nc k ts old.
Proof.
  intros nr nc k ts old R C W L. unfold py_plugin, cpp_plugin, py_step. rewrite (cpp_step_flows k nr nc ts C L). rewrite u32_id by (split; [nia|exact W]).
  rewrite <- L, Nat2Z.id, firstn_all, !map_length, Nat.eqb_refl. cbn [andb]. destruct (_ <=? _)%nat; [|reflexivity]. rewrite map_map. reflexivity.
Qed.
Print Assumptions C77_python_same.

(** A script is believed exactly when it returns a list of one value per cell; the
    numbers of the list become the flows of the cells, in order. *)
Theorem C77_python_list : forall {S} (script : S -> list Q -> pyresult * S) nr nc st st' ts old r bad flows st2,
    nr * nc = Z.of_nat (List.length ts) -> nr * nc < two32 -> List.length old = List.length ts -> script st ts = (r, st') ->
    py_plugin script nr nc st ts old = (bad, flows, st2) ->
    st2 = st' /\ (bad = false <-> exists l, r = PyList l /\ List.length l = List.length ts) /\ (bad = true -> flows = old) /\
    (forall ns, r = PyList (map PyNumber ns) -> bad = false -> flows = ns).
Proof.
  intros S script nr nc st st' ts old r bad flows st2 L W LO E P. unfold py_plugin in P. rewrite L in P. rewrite u32_id in P by lia. rewrite Nat2Z.id, firstn_all, E in P.
  destruct r as [| |l].
  - assert (bad = true /\ flows = old /\ st2 = st') as (-> & -> & ->) by (split; [|split]; congruence). split; [reflexivity|]. split; [split; [discriminate|intros (l & F & _); discriminate F]|]. split; [reflexivity|]. intros ns F _; discriminate F.
  - assert (bad = true /\ flows = old /\ st2 = st') as (-> & -> & ->) by (split; [|split]; congruence). split; [reflexivity|]. split; [split; [discriminate|intros (l & F & _); discriminate F]|]. split; [reflexivity|]. intros ns F _; discriminate F.
  - replace (List.length ts <=? List.length old)%nat with true in P by (symmetry; apply Nat.leb_le; lia). rewrite andb_true_r in P. rewrite (skipn_all2 old) in P by lia. rewrite app_nil_r in P.
    destruct (Nat.eqb_spec (List.length l) (List.length ts)) as [EL|NL].
    + assert (bad = false /\ flows = map as_double l /\ st2 = st') as (-> & -> & ->) by (split; [|split]; congruence). split; [reflexivity|]. split; [split; [intros _; exists l; auto|reflexivity]|]. split; [discriminate|].
      intros ns F _. assert (l = map PyNumber ns) as -> by congruence. rewrite map_map. apply map_id.
    + assert (bad = true /\ flows = old /\ st2 = st') as (-> & -> & ->) by (split; [|split]; congruence). split; [reflexivity|]. split; [split; [discriminate|intros (l' & F & K); exfalso; apply NL; congruence]|]. split; [reflexivity|]. intros ns _ F; discriminate F.
Qed.
Print Assumptions C77_python_list.
(** An element of the list that is not a number is not reported: the cell gets -1 W. *)
Theorem C77_python_values_refuted : forall {S} (script : S -> list Q -> pyresult * S) nr nc st st' ts old l i,
    nr * nc = Z.of_nat (List.length ts) -> nr * nc < two32 -> List.length old = List.length ts ->
    script st ts = (PyList l, st') -> List.length l = List.length ts -> nth_error l i = Some PyOther ->
    exists flows, py_plugin script nr nc st ts old = (false, flows, st') /\ nth_error flows i = Some (- (1))%Q.
Proof.
  intros S script nr nc st st' ts old l i L W LO E EL N. exists (map as_double l). split; [|rewrite nth_error_map, N; reflexivity].
  unfold py_plugin. rewrite L. rewrite u32_id by lia. rewrite Nat2Z.id, firstn_all, E, EL, Nat.eqb_refl.
  replace (List.length ts <=? List.length old)%nat with true by (symmetry; apply Nat.leb_le; lia). cbn [andb]. rewrite (skipn_all2 old) by lia. rewrite app_nil_r. reflexivity.
Qed.
Print Assumptions C77_python_values_refuted.

(** ** A step of a simulation *)
Theorem C77_flows : forall {M} solve d (s s' : sim M heatsink) qs r sp h m,
    (forall m b e x, solve m b = (e, x) -> List.length x = List.length b) -> good_sim d s -> queued (s_pg s) qs ->
    pg_top (s_pg s) = Some (SinkPluggable sp h m) -> let plugin := cpp_plugin (s_nrows sp) (s_ncols sp) in
    emulate_step solve plugin d s = Ok (r, s') -> done r ->
    s_plugin s' = s_plugin s /\
    skipn (Z.to_nat (chip_cells d)) (pg_sources (s_pg s')) =
      map (fun t => (- (hk_conductance (s_plugin s) * (t - hk_ambient (s_plugin s))))%Q) (spreader_temps d s).
Proof.
  intros M solve d s s' qs r sp h m LEN GS Q T plugin E D. assert (IP : in_place solve plugin) by (apply in_place_cpp; exact LEN).
  destruct (C65_called solve plugin d s s' qs r sp h m IP GS Q T E D) as (before & flows & P & L1 & L2 & SRC).
  pose proof GS as ((_ & _ & _ & _ & _ & SP & _) & _). destruct (SP _ _ _ T) as (_ & NC). unfold plugin, cpp_plugin in P. fold (spreader_temps d s) in P, L1.
  rewrite (cpp_step_flows (s_plugin s) (s_nrows sp) (s_ncols sp) (spreader_temps d s) ltac:(lia) L1) in P. rewrite map_length in P. replace (_ <=? _)%nat with true in P by (symmetry; apply Nat.leb_le; lia). rewrite (skipn_all2 before) in P by lia. rewrite app_nil_r in P.
  split; [congruence|]. rewrite SRC. assert (flows = map (fun t => (hk_conductance (s_plugin s) * (t - hk_ambient (s_plugin s)))%Q) (spreader_temps d s)) as -> by congruence. rewrite map_map. reflexivity.
Qed.
Print Assumptions C77_flows.

Section Template.
  Variable solve : sysmatrix -> list Q -> error_t * list Q.
  Hypothesis LEN : forall m b e x, solve m b = (e, x) -> List.length x = List.length b.
  Hypothesis EX : exact solve.
  Variables (g : tgrid) (d : dims) (sp : spreader) (h : Q) (m : material).
  Hypothesis G : good_tgrid d g.
  Hypothesis P : physical g d.
  Hypothesis S : solid_stack g d.
  Hypothesis T : tg_top g = Some (SinkPluggable sp h m).
  Notation plugin := (cpp_plugin (s_nrows sp) (s_ncols sp)).
  Notation sim := (sim sysmatrix heatsink).
  Notation ix := (idx g d).
  Lemma IP : in_place solve plugin.
  Proof. apply in_place_cpp. exact LEN. Qed.
  Lemma top_of : forall s : sim, assembled g d s -> pg_top (s_pg s) = Some (SinkPluggable sp h m).
  Proof. intros s A. rewrite (go_top _ _ _ (as_power g d s A)). exact T. Qed.
  Lemma spr_is : spr g = sp /\ sp_h g = h /\ sp_m g = m.
  Proof. unfold spr, sp_h, sp_m. rewrite T. auto. Qed.

  (** What a step solves. *)
  Lemma tpl_step : forall (s s' : sim) qs r, assembled g d s -> good_sim d s -> queued (s_pg s) qs -> emulate_step solve plugin d s = Ok (r, s') -> done r ->
      assembled g d s' /\ good_sim d s' /\ same_fields (s_pg s) (s_pg s') /\ an_step (s_an s') = an_step (s_an s) /\ s_plugin s' = s_plugin s /\
      forall n, valid g d n ->
        (heat_out g d (s_an s) (s_temps s') n ==
         match n with
         | Cell l r0 c => at_cell d (pg_sources (s_pg s')) l r0 c
         | Spr _ _ => - (hk_conductance (s_plugin s) * (qat (s_temps s) (ix n) - hk_ambient (s_plugin s)))
         end + ncap g d n / an_step (s_an s) * qat (s_temps s) (ix n))%Q.
  Proof.
    intros s s' qs r A GS Qd E D. destruct (step_nodes solve plugin IP EX g d s s' qs r A GS Qd E D) as (A' & GS' & SF & ST & EQ).
    destruct (C77_flows solve d s s' qs r sp h m LEN GS Qd (top_of s A) E D) as (PS & SRC).
    split; [exact A'|]. split; [exact GS'|]. split; [exact SF|]. split; [exact ST|]. split; [exact PS|]. intros n V. rewrite (EQ n V). apply Qplus_comp; [|reflexivity].
    destruct n as [l r0 c|r0 c]; [rewrite (at_cell_qat g d); reflexivity|].
    pose proof (idx_range g d G _ V) as IR. pose proof (cells_count g d s A GS) as CC. destruct V as (_ & R & C). cbn [idx] in *. destruct spr_is as (ES & _ & _). rewrite ES in *.
    assert (CP : 0 <= chip_cells d) by (pose proof GS as (GP & _); destruct (spreader_offset_0 d (s_pg s) sp h m GP (top_of s A)) as (_ & _ & CP & _); lia).
    set (i := d_nlayers d * d_nrows d * d_ncols d + r0 * s_ncols sp + c) in *. assert (EI : i = chip_cells d + (r0 * s_ncols sp + c)) by (unfold i, chip_cells; lia).
    assert (0 <= r0 * s_ncols sp + c) by nia. set (j := Z.to_nat (r0 * s_ncols sp + c)).
    assert (EN : Z.to_nat i = (Z.to_nat (chip_cells d) + j)%nat) by (unfold j; lia).
    assert (SK : forall v : list Q, qat v i = nth j (skipn (Z.to_nat (chip_cells d)) v) 0%Q).
    { intros v. unfold qat. rewrite EN. clear. generalize (Z.to_nat (chip_cells d)). intros n. revert v. induction n as [|n IH]; intros v; [reflexivity|]. destruct v as [|x v]; [destruct j; reflexivity|]. cbn [Nat.add nth skipn]. apply IH. }
    rewrite !SK, SRC. fold (spreader_temps d s).
    assert (LJ : (j < List.length (spreader_temps d s))%nat) by (unfold spreader_temps; rewrite skipn_length; lia).
    rewrite (nth_indep _ 0%Q ((fun t => (- (hk_conductance (s_plugin s) * (t - hk_ambient (s_plugin s))))%Q) 0%Q)) by (rewrite map_length; exact LJ).
    rewrite (map_nth (fun t => (- (hk_conductance (s_plugin s) * (t - hk_ambient (s_plugin s))))%Q)). reflexivity.
  Qed.

  Lemma no_amb : forall (s : sim) lo hi, assembled g d s -> (forall k, pg_bottom (s_pg s) = Some k -> lo <= bs_ambient k /\ bs_ambient k <= hi)%Q ->
      ambient_between (s_pg s) lo hi.
  Proof.
    intros s lo hi A B. split; [|exact B]. intros h' a E. rewrite (top_of s A) in E. discriminate E.
  Qed.
  Lemma tpl_above : forall (s s' : sim) qs r lo, assembled g d s -> good_sim d s -> queued (s_pg s) qs -> emulate_step solve plugin d s = Ok (r, s') -> done r ->
      (forall n, valid g d n -> (ncap g d n / an_step (s_an s) * lo + nsink g d n * lo <=
         match n with
         | Cell l r0 c => at_cell d (pg_sources (s_pg s')) l r0 c
         | Spr _ _ => - (hk_conductance (s_plugin s) * (qat (s_temps s) (ix n) - hk_ambient (s_plugin s)))
         end + ncap g d n / an_step (s_an s) * qat (s_temps s) (ix n))%Q) ->
      at_least lo (s_temps s').
  Proof.
    intros s s' qs r lo A GS Qd E D K i I. destruct (tpl_step s s' qs r A GS Qd E D) as (A' & GS' & _ & _ & _ & EQ).
    assert (an_type (s_an s) = AT_TRANSIENT) as TR by (destruct GS as (_ & _ & TR & _); exact TR).
    rewrite (cells_count g d s' A' GS') in I. destruct (node_of g d G i I) as (n & V & <-).
    apply (solid_above g d G P (s_an s) S TR (as_step g d s A)); [|assumption]. intros k W. rewrite (EQ k W). unfold kb. rewrite (base_eq g d (s_an s) k W). unfold capn. rewrite TR.
    specialize (K k W). lra.
  Qed.
  Lemma tpl_below : forall (s s' : sim) qs r hi, assembled g d s -> good_sim d s -> queued (s_pg s) qs -> emulate_step solve plugin d s = Ok (r, s') -> done r ->
      (forall n, valid g d n -> (
         match n with
         | Cell l r0 c => at_cell d (pg_sources (s_pg s')) l r0 c
         | Spr _ _ => - (hk_conductance (s_plugin s) * (qat (s_temps s) (ix n) - hk_ambient (s_plugin s)))
         end + ncap g d n / an_step (s_an s) * qat (s_temps s) (ix n) <= ncap g d n / an_step (s_an s) * hi + nsink g d n * hi)%Q) ->
      forall i, 0 <= i < Z.of_nat (List.length (s_temps s')) -> (qat (s_temps s') i <= hi)%Q.
  Proof.
    intros s s' qs r hi A GS Qd E D K i I. destruct (tpl_step s s' qs r A GS Qd E D) as (A' & GS' & _ & _ & _ & EQ).
    assert (an_type (s_an s) = AT_TRANSIENT) as TR by (destruct GS as (_ & _ & TR & _); exact TR).
    rewrite (cells_count g d s' A' GS') in I. destruct (node_of g d G i I) as (n & V & <-).
    apply (solid_below g d G P (s_an s) S TR (as_step g d s A)); [|assumption]. intros k W. rewrite (EQ k W). unfold kb. rewrite (base_eq g d (s_an s) k W). unfold capn. rewrite TR.
    specialize (K k W). lra.
  Qed.
  (** The sources of a cell of the chip. *)
  Lemma cell_src : forall (s : sim) ps l r c, assembled g d s -> dissipates (s_pg s) d ps -> valid g d (Cell l r c) ->
      (at_cell d (pg_sources (s_pg s)) l r c == expected_source (s_pg s) d ps l r c)%Q /\
      (boundary_source (s_pg s) d l r c == nsink g d (Cell l r c) * amb g l)%Q.
  Proof.
    intros s ps l r c A D V. pose proof V as V0. cbn [valid] in V0. pose proof V0 as V1. unfold in_grid in V1. split; [apply D; lia|].
    rewrite (boundary_eq g d G (s_pg s) (as_power g d s A)) by exact V0. rewrite (solid_dry g d S (Cell l r c) V). cbn [andb]. ring.
  Qed.
  Lemma cell_zero : forall (s : sim) ps l r c, assembled g d s -> dissipates (s_pg s) d ps -> Forall (fun p => p == 0)%Q ps -> valid g d (Cell l r c) ->
      (at_cell d (pg_sources (s_pg s)) l r c == nsink g d (Cell l r c) * amb g l)%Q.
  Proof.
    intros s ps l r c A D Z0 V. destruct (cell_src s ps l r c A D V) as (E1 & E2). rewrite E1, (expected_zero _ _ _ _ _ _ Z0). exact E2.
  Qed.
  Lemma cell_pos : forall (s : sim) ps l r c, assembled g d s -> good_sim d s -> dissipates (s_pg s) d ps -> Forall (fun p => 0 <= p)%Q ps -> valid g d (Cell l r c) ->
      (nsink g d (Cell l r c) * amb g l <= at_cell d (pg_sources (s_pg s)) l r c)%Q.
  Proof.
    intros s ps l r c A GS D Z0 V. destruct (cell_src s ps l r c A D V) as (E1 & E2). rewrite E1, <- E2.
    assert (ZZ : Forall (fun p => p == 0)%Q (map (fun _ : Q => 0%Q) ps)) by (clear; induction ps; constructor; [reflexivity|assumption]).
    rewrite <- (expected_zero d (s_pg s) _ l r c ZZ). apply expected_le; [destruct GS as (GP & _); exact GP|].
    clear -Z0. induction Z0; constructor; assumption.
  Qed.
  Lemma cap_rate : forall (s : sim) n, assembled g d s -> valid g d n -> (0 <= ncap g d n / an_step (s_an s))%Q.
  Proof.
    intros s n A V. unfold Qdiv. apply Qmult_le_0_compat; [apply (ncap_nonneg g d G P n V)|]. apply Qlt_le_weak, Qinv_lt_0_compat. exact (as_step g d s A).
  Qed.
  Lemma gentle_rate : forall (s : sim) k r c, assembled g d s -> gentle k sp h m (s_an s) -> (hk_conductance k <= ncap g d (Spr r c) / an_step (s_an s))%Q.
  Proof.
    intros s k r c A GE. unfold gentle in GE. destruct spr_is as (E1 & E2 & E3). unfold ncap. rewrite E1, E2, E3. apply Qle_shift_div_l; [exact (as_step g d s A)|exact GE].
  Qed.

  (** A property of the temperatures kept by every step. *)
  Section Kept.
    Variables (pg0 : PowerGrid.pgrid) (a0 : analysis) (k : heatsink) (Pw : Q -> Prop) (Inv : list Q -> Prop).
    Hypothesis Pw0 : Pw 0%Q.
    Hypothesis Step : forall (s s' : sim) qs r ps, assembled g d s -> good_sim d s -> queued (s_pg s) qs -> same_fields pg0 (s_pg s) -> s_plugin s = k -> an_step (s_an s) = an_step a0 ->
        emulate_step solve plugin d s = Ok (r, s') -> done r -> assembled g d s' -> good_sim d s' -> dissipates (s_pg s') d ps -> Forall Pw ps -> Inv (s_temps s) -> Inv (s_temps s').
    Lemma powers_nth : forall j qs, Forall (Forall Pw) qs -> Forall Pw (map (fun l => nth j l 0%Q) qs).
    Proof.
      intros j qs H. induction H as [|l qs H HH IH]; constructor; [|exact IH]. destruct (Nat.lt_ge_cases j (List.length l)) as [L|L].
      - rewrite Forall_forall in H. apply H. apply nth_In. exact L.
      - rewrite nth_overflow by exact L. exact Pw0.
    Qed.
    Lemma powers_give : forall qs vs, Forall (Forall Pw) (give qs vs) -> Forall (Forall Pw) qs.
    Proof.
      induction qs as [|l qs IH]; intros [|v vs] H; try exact H; constructor; cbn [give] in H; inversion H as [|? ? H1 H2]; subst.
      - apply Forall_app in H1. tauto.
      - exact (IH vs H2).
    Qed.
    Lemma powers_given : forall t qs, Forall (Forall Pw) (given qs t) -> Forall (Forall Pw) qs.
    Proof.
      induction t as [|[r|vs e] t IH]; intros qs H; cbn [given] in H; [exact H|exact (IH _ H)|]. exact (powers_give _ _ (IH _ H)).
    Qed.
    Lemma kept_history : forall (s : sim) t s', history solve plugin d s t s' -> forall L n tot, at_step d L n tot s ->
        Forall went_well t -> n + Z.of_nat (steps_of t) < two32 -> small_queues (given tot t) -> Forall (Forall Pw) (given tot t) ->
        assembled g d s -> same_fields pg0 (s_pg s) -> s_plugin s = k -> an_step (s_an s) = an_step a0 -> Inv (s_temps s) -> Inv (s_temps s').
    Proof.
      intros s t s' H. induction H as [s|s r s1 t s2 E H IH|s pv vs e pg' pv' t s2 Qp E H IH]; intros L n tot A W B SQ Z0 AS SF PK AN0 IV.
      - exact IV.
      - inversion W as [|? ? W1 W2]; subst. cbn [went_well] in W1. cbn [given] in SQ, Z0.
        unfold steps_of in B. cbn [filter is_step List.length] in B. fold (steps_of t) in B.
        destruct (step_at solve plugin IP d L n tot s r s1 A E W1 ltac:(lia)) as (A1 & _).
        pose proof (at_good d L n tot s A) as GS. pose proof (at_queues d L n tot s A) as Qd.
        destruct (tpl_step s s1 _ r AS GS Qd E W1) as (AS1 & GS1 & SF1 & AN1 & PK1 & _).
        apply (IH L (n + 1) tot A1 W2 ltac:(lia) SQ Z0 AS1 (same_fields_trans _ _ _ SF SF1) PK1 ltac:(congruence)).
        pose proof (at_n d L n tot s A) as Hn.
        refine (Step s s1 _ r _ AS GS Qd SF eq_refl AN0 E W1 AS1 GS1 (at_power d L (n + 1) tot s1 A1 ltac:(lia)) _ IV). apply powers_nth. exact (powers_given t tot Z0).
      - inversion W as [|? ? W1 W2]; subst. cbn [went_well] in W1. subst e. cbn [given] in SQ, Z0.
        unfold steps_of in B. cbn [filter is_step List.length] in B. fold (steps_of t) in B.
        pose proof (small_given t _ SQ) as SQ1.
        destruct (insert_at d L n tot s pv vs pg' pv' A Qp SQ1 E) as (A1 & _).
        destruct (insert_temps g d s L n tot pv vs pg' pv' A Qp SQ1 E AS) as (AS1 & SF1).
        exact (IH L n (give tot vs) A1 W2 B SQ Z0 AS1 (same_fields_trans _ _ _ SF SF1) eq_refl AN0 IV).
    Qed.
  End Kept.

  (** ** The claims *)
  Section Claims.
    Variables (s s' : sim) (qs : list (list Q)) (t : list event).
    Hypothesis A : assembled g d s.
    Hypothesis GS : good_sim d s.
    Hypothesis T0 : an_time (s_an s) = 0.
    Hypothesis Qd : queued (s_pg s) qs.
    Hypothesis H : history solve plugin d s t s'.
    Hypothesis W : Forall went_well t.
    Hypothesis SM : small_queues (given qs t).
    Hypothesis B : Z.of_nat (steps_of t) < two32.
    Lemma bottom_same : forall pg, same_fields (s_pg s) pg -> pg_bottom pg = pg_bottom (s_pg s).
    Proof. intros pg (_ & _ & _ & _ & _ & F & _). congruence. Qed.
    Lemma stays : forall x0, zeros (given qs t) -> (forall b, pg_bottom (s_pg s) = Some b -> bs_ambient b == x0)%Q -> (hk_ambient (s_plugin s) == x0)%Q ->
        uniform x0 (s_temps s) -> uniform x0 (s_temps s').
    Proof.
      intros x0 Z0 SU KA U.
      apply (kept_history (s_pg s) (s_an s) (s_plugin s) (fun p => p == 0)%Q (uniform x0)) with (s := s) (t := t) (L := an_slot_length (s_an s)) (n := 0) (tot := qs); try assumption; try reflexivity; try (apply at_start; assumption); try apply same_fields_refl; try lia.
      intros u u' qu r ps Au Gu Qu SF PK AN1 E D Au' Gu' DS ZP UU i I.
      assert (AB : ambient_between (s_pg u') x0 x0).
      { apply no_amb; [assumption|]. destruct (tpl_step u u' qu r Au Gu Qu E D) as (_ & _ & SF1 & _). intros b Eb. rewrite (bottom_same _ (same_fields_trans _ _ _ SF SF1)) in Eb. rewrite (SU b Eb). split; apply Qle_refl. }
      assert (KK : forall n, valid g d n -> (match n with
         | Cell l r0 c => at_cell d (pg_sources (s_pg u')) l r0 c
         | Spr _ _ => - (hk_conductance (s_plugin u) * (qat (s_temps u) (ix n) - hk_ambient (s_plugin u)))
         end == nsink g d n * x0 /\ qat (s_temps u) (ix n) == x0)%Q).
      { intros n V. assert (UX : (qat (s_temps u) (ix n) == x0)%Q) by (apply UU; rewrite (cells_count g d u Au Gu); apply (idx_range g d G n V)).
        split; [|exact UX]. destruct n as [l r0 c|r0 c].
        - rewrite (cell_zero u' ps l r0 c Au' DS ZP V). destruct (amb_between g d G P u' x0 x0 l r0 c Au' AB V) as (K1 & K2). cbn [nsink]. lra.
        - rewrite UX, PK, KA. cbn [nsink]. ring. }
      assert (LO : (x0 <= qat (s_temps u') i)%Q) by (apply (tpl_above u u' qu r x0 Au Gu Qu E D); [|exact I]; intros n V; destruct (KK n V) as (K1 & K2); rewrite K1, K2; lra).
      assert (HI : (qat (s_temps u') i <= x0)%Q) by (apply (tpl_below u u' qu r x0 Au Gu Qu E D); [|exact I]; intros n V; destruct (KK n V) as (K1 & K2); rewrite K1, K2; lra).
      lra.
    Qed.
    Lemma warm : forall lo, Forall (Forall (fun p => 0 <= p)%Q) (given qs t) -> gentle (s_plugin s) sp h m (s_an s) -> (0 <= hk_conductance (s_plugin s))%Q ->
        (forall b, pg_bottom (s_pg s) = Some b -> lo <= bs_ambient b)%Q -> (lo <= hk_ambient (s_plugin s))%Q ->
        at_least lo (s_temps s) -> at_least lo (s_temps s').
    Proof.
      intros lo Z0 GE CP SU KA U.
      apply (kept_history (s_pg s) (s_an s) (s_plugin s) (fun p => 0 <= p)%Q (at_least lo)) with (s := s) (t := t) (L := an_slot_length (s_an s)) (n := 0) (tot := qs); try assumption; try reflexivity; try (apply at_start; assumption); try apply same_fields_refl; try lia; try lra.
      intros u u' qu r ps Au Gu Qu SF PK AN1 E D Au' Gu' DS ZP UU.
      apply (tpl_above u u' qu r lo Au Gu Qu E D). intros n V.
      assert (UX : (lo <= qat (s_temps u) (ix n))%Q) by (apply UU; rewrite (cells_count g d u Au Gu); apply (idx_range g d G n V)).
      pose proof (cap_rate u n Au V) as CR. set (x := qat (s_temps u) (ix n)) in *.
      destruct n as [l r0 c|r0 c].
      - pose proof (cell_pos u' ps l r0 c Au' Gu' DS ZP V) as CPo.
        assert (K1 : (nsink g d (Cell l r0 c) * lo <= nsink g d (Cell l r0 c) * amb g l)%Q).
        { assert (exists hi, ambient_between (s_pg u') lo hi) as (hi & AB).
          { destruct (tpl_step u u' qu r Au Gu Qu E D) as (_ & _ & SF1 & _). pose proof (bottom_same _ (same_fields_trans _ _ _ SF SF1)) as BS.
            destruct (pg_bottom (s_pg s)) as [b|] eqn:EB.
            - exists (bs_ambient b). apply no_amb; [assumption|]. intros b' Eb. rewrite BS in Eb. assert (b' = b) as -> by congruence. split; [exact (SU b eq_refl)|apply Qle_refl].
            - exists lo. apply no_amb; [assumption|]. intros b' Eb. rewrite BS in Eb. discriminate Eb. }
          exact (proj1 (amb_between g d G P u' lo hi l r0 c Au' AB V)). }
        assert (ncap g d (Cell l r0 c) / an_step (s_an u) * lo <= ncap g d (Cell l r0 c) / an_step (s_an u) * x)%Q by (rewrite !(Qmult_comm (_ / _)); apply Qmult_le_compat_r; assumption).
        lra.
      - assert (GR : (hk_conductance (s_plugin u) <= ncap g d (Spr r0 c) / an_step (s_an u))%Q) by (apply gentle_rate; [assumption|]; unfold gentle in *; rewrite AN1, PK; exact GE).
        cbn [nsink]. rewrite PK in *. set (q := (ncap g d (Spr r0 c) / an_step (s_an u))%Q) in *. set (kk := hk_conductance (s_plugin s)) in *. set (am := hk_ambient (s_plugin s)) in *.
        assert (0 <= (q - kk) * (x - lo))%Q by (apply Qmult_le_0_compat; lra). assert (0 <= kk * (am - lo))%Q by (apply Qmult_le_0_compat; lra). lra.
    Qed.
    Lemma betw : forall lo hi, zeros (given qs t) -> gentle (s_plugin s) sp h m (s_an s) -> (0 <= hk_conductance (s_plugin s))%Q ->
        (forall b, pg_bottom (s_pg s) = Some b -> lo <= bs_ambient b /\ bs_ambient b <= hi)%Q -> (lo <= hk_ambient (s_plugin s) /\ hk_ambient (s_plugin s) <= hi)%Q ->
        between lo hi (s_temps s) -> between lo hi (s_temps s').
    Proof.
      intros lo hi Z0 GE CP SU (KA1 & KA2) U.
      apply (kept_history (s_pg s) (s_an s) (s_plugin s) (fun p => p == 0)%Q (between lo hi)) with (s := s) (t := t) (L := an_slot_length (s_an s)) (n := 0) (tot := qs); try assumption; try reflexivity; try (apply at_start; assumption); try apply same_fields_refl; try lia.
      intros u u' qu r ps Au Gu Qu SF PK AN1 E D Au' Gu' DS ZP UU.
      assert (AB : ambient_between (s_pg u') lo hi).
      { apply no_amb; [assumption|]. destruct (tpl_step u u' qu r Au Gu Qu E D) as (_ & _ & SF1 & _). intros b Eb. rewrite (bottom_same _ (same_fields_trans _ _ _ SF SF1)) in Eb. exact (SU b Eb). }
      assert (KK : forall n, valid g d n -> let y := match n with
         | Cell l r0 c => at_cell d (pg_sources (s_pg u')) l r0 c
         | Spr _ _ => (- (hk_conductance (s_plugin u) * (qat (s_temps u) (ix n) - hk_ambient (s_plugin u))))%Q
         end in (ncap g d n / an_step (s_an u) * lo + nsink g d n * lo <= y + ncap g d n / an_step (s_an u) * qat (s_temps u) (ix n) /\
                 y + ncap g d n / an_step (s_an u) * qat (s_temps u) (ix n) <= ncap g d n / an_step (s_an u) * hi + nsink g d n * hi)%Q).
      { intros n V. assert (UX : (lo <= qat (s_temps u) (ix n) /\ qat (s_temps u) (ix n) <= hi)%Q) by (apply UU; rewrite (cells_count g d u Au Gu); apply (idx_range g d G n V)).
        pose proof (cap_rate u n Au V) as CR. set (x := qat (s_temps u) (ix n)) in *. destruct n as [l r0 c|r0 c].
        - pose proof (cell_zero u' ps l r0 c Au' DS ZP V) as CZ. destruct (amb_between g d G P u' lo hi l r0 c Au' AB V) as (K1 & K2). cbn [nsink] in *. cbv zeta.
          set (q := (ncap g d (Cell l r0 c) / an_step (s_an u))%Q) in *. assert (0 <= q * (x - lo))%Q by (apply Qmult_le_0_compat; lra). assert (0 <= q * (hi - x))%Q by (apply Qmult_le_0_compat; lra). split; lra.
        - assert (GR : (hk_conductance (s_plugin u) <= ncap g d (Spr r0 c) / an_step (s_an u))%Q) by (apply gentle_rate; [assumption|]; unfold gentle in *; rewrite AN1, PK; exact GE).
          cbn [nsink]. cbv zeta. rewrite PK in *. set (q := (ncap g d (Spr r0 c) / an_step (s_an u))%Q) in *. set (kk := hk_conductance (s_plugin s)) in *. set (am := hk_ambient (s_plugin s)) in *.
          assert (0 <= (q - kk) * (x - lo))%Q by (apply Qmult_le_0_compat; lra). assert (0 <= kk * (am - lo))%Q by (apply Qmult_le_0_compat; lra).
          assert (0 <= (q - kk) * (hi - x))%Q by (apply Qmult_le_0_compat; lra). assert (0 <= kk * (hi - am))%Q by (apply Qmult_le_0_compat; lra). split; lra. }
      intros i I. split.
      - apply (tpl_above u u' qu r lo Au Gu Qu E D); [|exact I]. intros n V. exact (proj1 (KK n V)).
      - apply (tpl_below u u' qu r hi Au Gu Qu E D); [|exact I]. intros n V. exact (proj2 (KK n V)).
    Qed.
  End Claims.
End Template.

(** ** Runs *)
Lemma grid_top : forall {PS} g d (s : sim sysmatrix PS) t, assembled g d s -> pg_top (s_pg s) = t -> tg_top g = t.
Proof. intros PS g d s t A E. rewrite <- (go_top _ _ _ (as_power g d s A)). exact E. Qed.

(** The heat that the stack gains in a step is what the elements dissipate in the slot,
    less what the template gives to the air (at the temperatures before the step) and
    what the board takes. *)
Theorem C77_energy : forall solve g d (s s1 s2 : sim sysmatrix heatsink) qs t r sp h m,
    (forall m b e x, solve m b = (e, x) -> List.length x = List.length b) -> exact solve ->
    let plugin := cpp_plugin (s_nrows sp) (s_ncols sp) in
    assembled g d s -> good_sim d s -> an_time (s_an s) = 0 -> queued (s_pg s) qs ->
    pg_top (s_pg s) = Some (SinkPluggable sp h m) -> solid_stack g d ->
    history solve plugin d s t s1 -> Forall went_well t -> small_queues (given qs t) -> Z.of_nat (steps_of t) + 1 < two32 ->
    emulate_step solve plugin d s1 = Ok (r, s2) -> done r ->
    let slot := Z.to_nat (slots_begun (an_slot_length (s_an s)) (Z.of_nat (steps_of t) + 1)) in
    s_plugin s2 = s_plugin s /\
    (heat_content s2 - heat_content s1 ==
     an_step (s_an s) * (qsum (map (fun l => nth (slot - 1) l 0) (given qs t)) - to_the_air (s_plugin s) (spreader_temps d s1) - lost_bottom d s2))%Q.
Proof.
  intros solve g d s s1 s2 qs t r sp h m LEN EX plugin A GS T0 Q T S H W SM B E D slot.
  assert (IPl : in_place solve plugin) by (apply in_place_cpp; exact LEN).
  pose proof (C28_energy solve plugin g d s s1 s2 qs t r IPl EX A GS T0 Q S H W SM B E D) as EN. cbv zeta in EN. fold slot in EN.
  pose proof (as_grid _ _ _ A) as G. pose proof (as_physical _ _ _ A) as P. pose proof (grid_top g d s _ A T) as TG.
  assert (PK : s_plugin s1 = s_plugin s /\ pg_top (s_pg s1) = Some (SinkPluggable sp h m) /\ good_sim d s1 /\ exists q1, queued (s_pg s1) q1).
  { destruct (history_at solve plugin IPl d s t s1 H _ 0 qs (at_start d s qs GS T0 Q) W ltac:(lia) SM) as (AT & (K1 & _) & _).
    split; [|split; [rewrite <- T; apply K1|split; [exact (at_good _ _ _ _ _ AT)|eexists; exact (at_queues _ _ _ _ _ AT)]]].
    clear -LEN EX G P S TG H GS T0 Q A W SM B.
    assert (forall (u : sim sysmatrix heatsink) t u', history solve plugin d u t u' -> forall L n tot, at_step d L n tot u -> Forall went_well t -> n + Z.of_nat (steps_of t) < two32 -> small_queues (given tot t) -> assembled g d u -> s_plugin u' = s_plugin u) as X.
    { intros u v u' HH. induction HH as [u|u r u1 v u2 E HH IH|u pv vs e pg' pv' v u2 Qp E HH IH]; intros L n tot AT W' B' SQ AS.
      - reflexivity.
      - inversion W' as [|? ? W1 W2]; subst. cbn [went_well] in W1. cbn [given] in SQ. unfold steps_of in B'. cbn [filter is_step List.length] in B'. fold (steps_of v) in B'.
        destruct (step_at solve plugin (in_place_cpp _ _ _ LEN) d L n tot u r u1 AT E W1 ltac:(lia)) as (A1 & _).
        destruct (tpl_step solve LEN EX g d sp h m G TG u u1 _ r AS (at_good _ _ _ _ _ AT) (at_queues _ _ _ _ _ AT) E W1) as (AS1 & _ & _ & _ & PK1 & _).
        rewrite <- PK1. exact (IH L (n + 1) tot A1 W2 ltac:(lia) SQ AS1).
      - inversion W' as [|? ? W1 W2]; subst. cbn [went_well] in W1. subst e. cbn [given] in SQ. unfold steps_of in B'. cbn [filter is_step List.length] in B'. fold (steps_of v) in B'.
        pose proof (small_given v _ SQ) as SQ1. destruct (insert_at d L n tot u pv vs pg' pv' AT Qp SQ1 E) as (A1 & _).
        destruct (insert_temps g d u L n tot pv vs pg' pv' AT Qp SQ1 E AS) as (AS1 & _).
        exact (IH L n (give tot vs) A1 W2 B' SQ AS1). }
    exact (X s t s1 H _ 0 qs (at_start d s qs GS T0 Q) W ltac:(lia) SM A). }
  destruct PK as (PK & T1 & GS1 & (q1 & Q1)).
  destruct (C77_flows solve d s1 s2 q1 r sp h m LEN GS1 Q1 T1 E D) as (PK2 & SRC). split; [congruence|]. rewrite EN.
  assert (T2 : pg_top (s_pg s2) = Some (SinkPluggable sp h m)).
  { destruct (history_at solve plugin IPl d s t s1 H _ 0 qs (at_start d s qs GS T0 Q) W ltac:(lia) SM) as (AT & _).
    destruct (step_at solve plugin IPl d _ _ _ s1 r s2 AT E D ltac:(lia)) as (_ & (J1 & _) & _). rewrite <- T1. apply J1. }
  assert (LT : lost_top d s2 = 0%Q) by (unfold lost_top; rewrite T2; reflexivity). rewrite LT.
  assert (FP : (from_plugin d s2 == - to_the_air (s_plugin s) (spreader_temps d s1))%Q).
  { unfold from_plugin, to_the_air. rewrite SRC, PK. generalize (spreader_temps d s1). clear. intros l. induction l as [|x l IH]; [reflexivity|]. cbn [map]. rewrite !qsum_cons, IH. ring. }
  rewrite FP. ring.
Qed.
Print Assumptions C77_energy.

(** With nothing dissipated and everything at the ambient temperature, nothing happens. *)
Theorem C77_stays : forall solve g d (s s' : sim sysmatrix heatsink) qs t sp h m x0,
    (forall m b e x, solve m b = (e, x) -> List.length x = List.length b) -> exact solve ->
    assembled g d s -> good_sim d s -> an_time (s_an s) = 0 -> queued (s_pg s) qs -> pg_top (s_pg s) = Some (SinkPluggable sp h m) -> solid_stack g d ->
    history solve (cpp_plugin (s_nrows sp) (s_ncols sp)) d s t s' -> Forall went_well t -> small_queues (given qs t) -> Z.of_nat (steps_of t) < two32 ->
    zeros (given qs t) -> (forall b, pg_bottom (s_pg s) = Some b -> bs_ambient b == x0)%Q -> (hk_ambient (s_plugin s) == x0)%Q ->
    uniform x0 (s_temps s) -> uniform x0 (s_temps s').
Proof.
  intros solve g d s s' qs t sp h m x0 LEN EX A GS T0 Qd T S H W SM B Z0 SU KA U.
  exact (stays solve LEN EX g d sp h m (as_grid _ _ _ A) (as_physical _ _ _ A) S (grid_top g d s _ A T) s s' qs t A GS T0 Qd H W SM B x0 Z0 SU KA U).
Qed.
Print Assumptions C77_stays.

(** With a step short enough, power never leads below the ambients and the start. *)
Theorem C77_warm : forall solve g d (s s' : sim sysmatrix heatsink) qs t sp h m lo,
    (forall m b e x, solve m b = (e, x) -> List.length x = List.length b) -> exact solve ->
    assembled g d s -> good_sim d s -> an_time (s_an s) = 0 -> queued (s_pg s) qs -> pg_top (s_pg s) = Some (SinkPluggable sp h m) -> solid_stack g d ->
    history solve (cpp_plugin (s_nrows sp) (s_ncols sp)) d s t s' -> Forall went_well t -> small_queues (given qs t) -> Z.of_nat (steps_of t) < two32 ->
    Forall (Forall (fun p => 0 <= p)%Q) (given qs t) -> gentle (s_plugin s) sp h m (s_an s) -> (0 <= hk_conductance (s_plugin s))%Q ->
    (forall b, pg_bottom (s_pg s) = Some b -> lo <= bs_ambient b)%Q -> (lo <= hk_ambient (s_plugin s))%Q ->
    at_least lo (s_temps s) -> at_least lo (s_temps s').
Proof.
  intros solve g d s s' qs t sp h m lo LEN EX A GS T0 Qd T S H W SM B Z0 GE CP SU KA U.
  exact (warm solve LEN EX g d sp h m (as_grid _ _ _ A) (as_physical _ _ _ A) S (grid_top g d s _ A T) s s' qs t A GS T0 Qd H W SM B lo Z0 GE CP SU KA U).
Qed.
Print Assumptions C77_warm.

Theorem C77_between : forall solve g d (s s' : sim sysmatrix heatsink) qs t sp h m lo hi,
    (forall m b e x, solve m b = (e, x) -> List.length x = List.length b) -> exact solve ->
    assembled g d s -> good_sim d s -> an_time (s_an s) = 0 -> queued (s_pg s) qs -> pg_top (s_pg s) = Some (SinkPluggable sp h m) -> solid_stack g d ->
    history solve (cpp_plugin (s_nrows sp) (s_ncols sp)) d s t s' -> Forall went_well t -> small_queues (given qs t) -> Z.of_nat (steps_of t) < two32 ->
    zeros (given qs t) -> gentle (s_plugin s) sp h m (s_an s) -> (0 <= hk_conductance (s_plugin s))%Q ->
    (forall b, pg_bottom (s_pg s) = Some b -> lo <= bs_ambient b /\ bs_ambient b <= hi)%Q -> (lo <= hk_ambient (s_plugin s) /\ hk_ambient (s_plugin s) <= hi)%Q ->
    between lo hi (s_temps s) -> between lo hi (s_temps s').
Proof.
  intros solve g d s s' qs t sp h m lo hi LEN EX A GS T0 Qd T S H W SM B Z0 GE CP SU KA U.
  exact (betw solve LEN EX g d sp h m (as_grid _ _ _ A) (as_physical _ _ _ A) S (grid_top g d s _ A T) s s' qs t A GS T0 Qd H W SM B lo hi Z0 GE CP SU KA U).
Qed.
Print Assumptions C77_between.

(** A step no longer than [vhc h^2 / 2 k] is short enough. *)
Theorem C77_gentle_enough : forall d sp h m a args k, good_spreader d sp -> good_grid d -> (0 < h)%Q -> (0 < s_cell_length sp)%Q -> (0 < s_cell_width sp)%Q -> (0 < mt_kz m)%Q ->
    s_nrows sp * s_ncols sp < two32 -> initialize_pluggable cpp_init sp h m a args = Some k -> (0 < an_step a)%Q ->
    (an_step a <= mt_vhc m * (h * h) / (2 * mt_kz m))%Q -> gentle k sp h m a /\ (0 < hk_conductance k)%Q.
Proof.
  intros d sp h m a args k B GG H CLp CW K W E ST LE.
  destruct (C77_conductance d sp h m a args B GG H CLp CW K W) as (k' & E1 & _ & _ & (X0 & Y0 & Z0 & EQ) & _). assert (k' = k) as -> by congruence. split; [|exact Z0].
  set (x := spreader_top_bottom sp h m) in *. set (y := (1 / qz (s_nrows sp * s_ncols sp))%Q) in *. set (z := hk_conductance k) in *.
  assert (ZX : (z < x)%Q).
  { assert (F : (1 / z * (x * y * z) == (1 / x + 1 / y) * (x * y * z))%Q) by (rewrite EQ; reflexivity).
    assert (F1 : (1 / z * (x * y * z) == x * y)%Q) by (field; lra). assert (F2 : ((1 / x + 1 / y) * (x * y * z) == (y + x) * z)%Q) by (field; split; lra).
    assert ((x - z) * y == x * z)%Q by (rewrite F1, F2 in F; setoid_replace ((x - z) * y)%Q with (x * y - y * z)%Q by ring; rewrite F; ring). assert (0 < x * z)%Q by (apply Qmult_lt_0_compat; assumption).
    destruct (Qlt_le_dec z x) as [L|L]; [exact L|exfalso]. assert (0 <= (z - x) * y)%Q by (apply Qmult_le_0_compat; lra). lra. }
  unfold gentle. apply Qle_trans with (x * an_step a)%Q; [apply Qmult_le_compat_r; apply Qlt_le_weak; assumption|].
  assert (XV : (x * (h / 2) == mt_kz m * s_cell_length sp * s_cell_width sp)%Q) by (unfold x, spreader_top_bottom; field; lra).
  assert (LE2 : (an_step a * (2 * mt_kz m) <= mt_vhc m * (h * h))%Q).
  { apply Qmult_le_compat_r with (z := (2 * mt_kz m)%Q) in LE; [|lra]. rewrite (Qmult_comm (mt_vhc m * (h * h) / (2 * mt_kz m))), Qmult_div_r in LE by lra. exact LE. }
  (* x (h/2) step <= cap (h/2) *)
  assert (P2 : (0 < h / 2)%Q) by (unfold Qdiv; apply Qmult_lt_0_compat; [exact H|reflexivity]).
  apply (Qmult_lt_0_le_reg_r _ _ (h / 2)); [exact P2|].
  setoid_replace (x * an_step a * (h / 2))%Q with (x * (h / 2) * an_step a)%Q by ring. rewrite XV. unfold spreader_capacity.
  assert (0 < s_cell_length sp * s_cell_width sp)%Q as AP by (apply Qmult_lt_0_compat; assumption). set (ar := (s_cell_length sp * s_cell_width sp)%Q) in *.
  setoid_replace (mt_kz m * s_cell_length sp * s_cell_width sp * an_step a)%Q with ((an_step a * (2 * mt_kz m)) * (ar * (1 # 2)))%Q by (unfold ar; ring).
  match goal with |- (_ <= ?v)%Q => setoid_replace v with ((mt_vhc m * (h * h)) * (ar * (1 # 2)))%Q by (unfold ar; field) end.
  apply Qmult_le_compat_r; [exact LE2|lra].
Qed.
Print Assumptions C77_gentle_enough.

(** ** More power never cools *)
Section Pair.
  Variable solve : sysmatrix -> list Q -> error_t * list Q.
  Hypothesis LEN : forall m b e x, solve m b = (e, x) -> List.length x = List.length b.
  Hypothesis EX : exact solve.
  Variables (g : tgrid) (d : dims) (sp : spreader) (h : Q) (m : material).
  Hypothesis G : good_tgrid d g.
  Hypothesis P : physical g d.
  Hypothesis S : solid_stack g d.
  Hypothesis T : tg_top g = Some (SinkPluggable sp h m).
  Notation plugin := (cpp_plugin (s_nrows sp) (s_ncols sp)).
  Notation sim := (sim sysmatrix heatsink).
  Lemma pair_step : forall (s s' u u' : sim) qs qu r r' ps pu, assembled g d s -> assembled g d u -> good_sim d s -> good_sim d u ->
      queued (s_pg s) qs -> queued (s_pg u) qu -> s_plugin u = s_plugin s -> gentle (s_plugin s) sp h m (s_an s) ->
      an_step (s_an u) = an_step (s_an s) -> same_fields (s_pg s) (s_pg u) ->
      emulate_step solve plugin d s = Ok (r, s') -> done r -> emulate_step solve plugin d u = Ok (r', u') -> done r' ->
      dissipates (s_pg s') d ps -> dissipates (s_pg u') d pu -> Forall2 Qle ps pu ->
      cooler (s_temps s) (s_temps u) -> cooler (s_temps s') (s_temps u').
  Proof.
    intros s s' u u' qs qu r r' ps pu As Au Gs Gu Qs Qu PK GE SE SF E D E' D' DS DU PL (CL & C).
    destruct (tpl_step solve LEN EX g d sp h m G T s s' qs r As Gs Qs E D) as (As' & Gs' & SFs & STs & _ & EQs).
    destruct (tpl_step solve LEN EX g d sp h m G T u u' qu r' Au Gu Qu E' D') as (Au' & Gu' & SFu & STu & _ & EQu).
    assert (an_type (s_an s) = AT_TRANSIENT) as TR by (destruct Gs as (_ & _ & TR & _); exact TR).
    assert (an_type (s_an u) = AT_TRANSIENT) as TRu by (destruct Gu as (_ & _ & TRu & _); exact TRu).
    pose proof (cells_count g d s' As' Gs') as C1. pose proof (cells_count g d u' Au' Gu') as C2. pose proof (cells_count g d s As Gs) as C3.
    split; [lia|]. intros i I. rewrite C1 in I. destruct (node_of g d G i I) as (n & V & <-).
    pose proof (as_step g d s As) as SP.
    apply (solid_compare g d G P (s_an s) S TR SP); [|assumption].
    intros k W. rewrite (EQs k W). rewrite <- (heat_out_analysis g d (s_an s) (s_an u) _ k) by congruence. rewrite (EQu k W), SE, PK.
    pose proof (idx_range g d G k W) as R. specialize (C (idx g d k) ltac:(lia)).
    pose proof (cap_rate g d G P s k As W) as Nq.
    set (x := qat (s_temps s) (idx g d k)) in *. set (y := qat (s_temps u) (idx g d k)) in *.
    destruct k as [l r0 c|r0 c].
    - assert (at_cell d (pg_sources (s_pg s')) l r0 c <= at_cell d (pg_sources (s_pg u')) l r0 c)%Q as K.
      { cbn [valid] in W. unfold in_grid in W. rewrite (DS l r0 c), (DU l r0 c) by lia.
        assert (same_fields (s_pg s') (s_pg u')) as SF'.
        { destruct SFs as (a1 & a2 & a3 & a4 & a5 & a6 & a7 & a8 & a9 & a10 & a11). destruct SFu as (b1 & b2 & b3 & b4 & b5 & b6 & b7 & b8 & b9 & b10 & b11).
          destruct SF as (c1 & c2 & c3 & c4 & c5 & c6 & c7 & c8 & c9 & c10 & c11). unfold same_fields. repeat split; congruence. }
        rewrite (expected_same _ _ _ _ _ _ _ SF'). apply expected_le; [destruct Gs' as (GP & _); exact GP|exact PL]. }
      set (q := (ncap g d (Cell l r0 c) / an_step (s_an s))%Q) in *. assert (0 <= q * (y - x))%Q by (apply Qmult_le_0_compat; lra). lra.
    - pose proof (gentle_rate g d sp h m T s (s_plugin s) r0 c As GE) as GR. set (q := (ncap g d (Spr r0 c) / an_step (s_an s))%Q) in *. set (kk := hk_conductance (s_plugin s)) in *. set (am := hk_ambient (s_plugin s)) in *.
      assert (0 <= (q - kk) * (y - x))%Q by (apply Qmult_le_0_compat; lra). lra.
  Qed.
  Lemma pair_history : forall (s : sim) t s', history solve plugin d s t s' -> forall (u : sim) t' u', history solve plugin d u t' u' ->
      Forall2 more t t' -> forall L n tot tot', at_step d L n tot s -> at_step d L n tot' u ->
      Forall went_well t -> Forall went_well t' -> n + Z.of_nat (steps_of t) < two32 ->
      small_queues (given tot t) -> small_queues (given tot' t') -> at_most tot tot' ->
      assembled g d s -> assembled g d u -> s_plugin u = s_plugin s -> gentle (s_plugin s) sp h m (s_an s) ->
      an_step (s_an u) = an_step (s_an s) -> same_fields (s_pg s) (s_pg u) ->
      cooler (s_temps s) (s_temps u) -> cooler (s_temps s') (s_temps u').
  Proof.
    assert (IPl : in_place solve plugin) by (apply in_place_cpp; exact LEN).
    intros s t s' H. induction H as [s|s r s1 t s2 E H IH|s pv vs e pg' pv' t s2 Qp E H IH];
      intros u t' u' H' M L n tot tot' A A' W W' B SQ SQ' AM AS AU PK GE SE SF C.
    - inversion M; subst. inversion H'; subst. exact C.
    - inversion M as [|? e' ? t2 M1 M2]; subst. destruct e' as [r'|]; [|destruct M1].
      inversion H' as [|? ? u1 ? ? E' H2|]; subst.
      inversion W as [|? ? W1 W2]; subst. inversion W' as [|? ? W1' W2']; subst. cbn [went_well] in W1, W1'.
      cbn [given] in SQ, SQ'. unfold steps_of in B. cbn [filter is_step List.length] in B. fold (steps_of t) in B.
      destruct (step_at solve plugin IPl d L n tot s r s1 A E W1 ltac:(lia)) as (A1 & _).
      destruct (step_at solve plugin IPl d L n tot' u r' u1 A' E' W1' ltac:(lia)) as (A1' & _).
      pose proof (at_good d L n tot s A) as GS. pose proof (at_queues d L n tot s A) as Qd.
      pose proof (at_good d L n tot' u A') as GU. pose proof (at_queues d L n tot' u A') as Qu.
      destruct (tpl_step solve LEN EX g d sp h m G T s s1 _ r AS GS Qd E W1) as (AS1 & GS1 & SF1 & AN1 & PK1 & _).
      destruct (tpl_step solve LEN EX g d sp h m G T u u1 _ r' AU GU Qu E' W1') as (AU1 & GU1 & SF1' & AN1' & PK1' & _).
      pose proof (at_n d L n tot s A) as Hn.
      assert (same_fields (s_pg s1) (s_pg u1)) as SF2.
      { apply (same_fields_trans _ (s_pg s)); [apply same_fields_sym; exact SF1|]. apply (same_fields_trans _ (s_pg u)); assumption. }
      refine (IH u1 t2 u' H2 M2 L (n + 1) tot tot' A1 A1' W2 W2' ltac:(lia) SQ SQ' AM AS1 AU1 ltac:(congruence) _ ltac:(congruence) SF2 _); [unfold gentle in *; rewrite AN1, PK1; exact GE|].
      refine (pair_step s s1 u u1 _ _ r r' _ _ AS AU GS GU Qd Qu PK GE SE SF E W1 E' W1' (at_power d L (n + 1) tot s1 A1 ltac:(lia)) (at_power d L (n + 1) tot' u1 A1' ltac:(lia)) _ C).
      apply at_most_nth. exact AM.
    - inversion M as [|? e' ? t2 M1 M2]; subst. destruct e' as [|vs' e']; [destruct M1|]. cbn [more] in M1.
      inversion H' as [| |? pw ? ? pgu pwu ? ? Qp' E' H2]; subst.
      inversion W as [|? ? W1 W2]; subst. inversion W' as [|? ? W1' W2']; subst. cbn [went_well] in W1, W1'. subst e e'.
      cbn [given] in SQ, SQ'. unfold steps_of in B. cbn [filter is_step List.length] in B. fold (steps_of t) in B.
      pose proof (small_given t _ SQ) as SQ1. pose proof (small_given t2 _ SQ') as SQ1'.
      destruct (insert_at d L n tot s pv vs pg' pv' A Qp SQ1 E) as (A1 & _).
      destruct (insert_at d L n tot' u pw vs' pgu pwu A' Qp' SQ1' E') as (A1' & _).
      destruct (insert_temps g d s L n tot pv vs pg' pv' A Qp SQ1 E AS) as (AS1 & SF1).
      destruct (insert_temps g d u L n tot' pw vs' pgu pwu A' Qp' SQ1' E' AU) as (AU1 & SF1').
      refine (IH (with_pg u pgu) t2 u' H2 M2 L n (give tot vs) (give tot' vs') A1 A1' W2 W2' B SQ SQ' (at_most_give _ _ _ _ AM M1) AS1 AU1 PK GE SE _ C).
      cbn [with_pg s_pg]. apply (same_fields_trans _ (s_pg s)); [apply same_fields_sym; exact SF1|]. apply (same_fields_trans _ (s_pg u)); assumption.
  Qed.
End Pair.

(** Two simulations of the same stack with the same sink, from the same temperatures;
    the second is given at least the powers of the first, in the same calls. *)
Theorem C77_monotone : forall solve g d (s s' u u' : sim sysmatrix heatsink) qs qu t tu sp h m,
    (forall m b e x, solve m b = (e, x) -> List.length x = List.length b) -> exact solve ->
    assembled g d s -> assembled g d u -> good_sim d s -> good_sim d u ->
    an_time (s_an s) = 0 -> s_an u = s_an s -> s_temps u = s_temps s -> same_fields (s_pg s) (s_pg u) -> s_plugin u = s_plugin s ->
    queued (s_pg s) qs -> queued (s_pg u) qu -> at_most qs qu -> solid_stack g d -> pg_top (s_pg s) = Some (SinkPluggable sp h m) ->
    gentle (s_plugin s) sp h m (s_an s) -> let plugin := cpp_plugin (s_nrows sp) (s_ncols sp) in
    history solve plugin d s t s' -> history solve plugin d u tu u' -> Forall2 more t tu ->
    Forall went_well t -> Forall went_well tu -> small_queues (given qs t) -> small_queues (given qu tu) -> Z.of_nat (steps_of t) < two32 ->
    cooler (s_temps s') (s_temps u').
Proof.
  intros solve g d s s' u u' qs qu t tu sp h m LEN EX A Au GS Gu T0 EA ET SF PK Q Qu AM S T GE plugin H Hu MO W Wu SM SMu B.
  apply (pair_history solve LEN EX g d sp h m (as_grid _ _ _ A) (as_physical _ _ _ A) S (grid_top g d s _ A T) s t s' H u tu u' Hu MO (an_slot_length (s_an s)) 0 qs qu); try assumption.
  - apply at_start; assumption.
  - rewrite <- EA. apply at_start; [assumption|congruence|assumption].
  - rewrite EA. reflexivity.
  - split; [rewrite ET; reflexivity|]. intros i _. rewrite ET. apply Qle_refl.
Qed.
Print Assumptions C77_monotone.

(** ** Witnesses: the chip of SimWitness under the spreader of PropGridMap.v *)
Definition tp_sink (amb : Q) : heatsink := mkSink amb (template_parallel (spreader_top_bottom pl_spreader 4 wmat) (1 / qz 4)).
Example C77_sink_witness :
    good_spreader wd pl_spreader /\ good_grid wd /\ (0 < mt_kz wmat)%Q /\
    initialize_pluggable cpp_init pl_spreader 4 wmat (wan 2 0) "" = Some (tp_sink 300) /\ (hk_conductance (tp_sink 300) == 100 # 401)%Q /\
    gentle (tp_sink 300) pl_spreader 4 wmat (wan 2 0) /\ (an_step (wan 2 0) <= mt_vhc wmat * (4 * 4) / (2 * mt_kz wmat))%Q.
Proof.
  split; [exact (proj1 (spr_good pl_grid wd pl_good ltac:(do 3 eexists; reflexivity)))|]. split; [apply wd_good|].
  split; [reflexivity|]. split; [reflexivity|]. split; [reflexivity|]. split; vm_compute; discriminate.
Qed.
Definition tp_an (step : Q) : analysis := mkAnalysis AT_TRANSIENT step 2 0 310.
Definition tp_matrix (step : Q) : sysmatrix := get (mkSysmatrix [] [] []) (fill_system_matrix (system_matrix_build 12 64) pl_grid (tp_an step) wd).
Definition tp_sim (step a b c e amb : Q) (temps : list Q) : sim sysmatrix heatsink :=
  mkSim temps (pl_pg (qq a b) (qq c e) (repeat 0%Q 12)) (tp_matrix step) (tp_an step) (tp_sink amb).
Notation tp_step known s := (emulate_step (guess known) (cpp_plugin 2 2) wd s).
Definition tp_next (known : list (list Q)) (s : sim sysmatrix heatsink) : sim sysmatrix heatsink := match tp_step known s with Ok p => snd p | _ => s end.
Lemma tp_good : forall step a b c e amb temps, List.length temps = 12%nat -> good_sim wd (tp_sim step a b c e amb temps).
Proof.
  intros step a b c e amb temps L. unfold good_sim, tp_sim. cbn [s_pg s_temps s_an tp_an an_type an_slot_length an_time]. split; [apply pl_pg_good; reflexivity|]. split; [rewrite L; reflexivity|]. unfold two32. split; [reflexivity|]. lia.
Qed.
Lemma tp_queued : forall step a b c e amb temps, queued (s_pg (tp_sim step a b c e amb temps)) [[a; b]; [c; e]].
Proof. intros. constructor; [apply qq_rep|]. constructor; [apply qq_rep|]. constructor. Qed.
Lemma tp_solid : solid_stack pl_grid wd.
Proof. intros l L. cbn in L. assert (l = 0 \/ l = 1) as [-> | ->] by lia; reflexivity. Qed.
Lemma tp_assembled : forall step a b c e amb temps, (0 < step)%Q -> fill_system_matrix (system_matrix_build 12 64) pl_grid (tp_an step) wd = Ok (tp_matrix step) ->
    assembled pl_grid wd (tp_sim step a b c e amb temps).
Proof.
  intros step a b c e amb temps ST F. constructor; cbn [tp_sim s_pg s_an s_matrix]; [exact pl_good|exact pl_physical|constructor; try reflexivity; vm_compute; reflexivity| |exact ST]. exists (system_matrix_build 12 64). split; [reflexivity|]. split; [reflexivity|]. exact F.
Qed.
Lemma tp_run : forall known s, match tp_step known s with Ok p => Some (fst p) | _ => None end = Some TDICE_STEP_DONE ->
    tp_step known s = Ok (TDICE_STEP_DONE, tp_next known s).
Proof. intros known s A. unfold tp_next. destruct (tp_step known s) as [(r, s')| |]; try discriminate A. cbn in A |- *. congruence. Qed.
Lemma tp_once : forall known s s', tp_step known s = Ok (TDICE_STEP_DONE, s') -> history (guess known) (cpp_plugin 2 2) wd s [Stepped TDICE_STEP_DONE] s'.
Proof. intros known s s' E. eapply H_step; [exact E|apply H_nil]. Qed.

(** One step with power; the chip starts between 296 and 316 degrees. *)
Definition tp_before : list Q := [154016 # 525; 52257 # 175; 61771 # 210; 314921 # 1050; 1987 # 6; 16409 # 50; 25348 # 75; 24088 # 75; 1980044 # 6675; 5989856 # 20025; 661886 # 2225; 6030758 # 20025]%Q.
Definition tp_sim1 := tp_sim 1 4 6 8 10 300 tp_before.
Definition tp_sim2 := tp_next [pl_after] tp_sim1.
Example C77_energy_witness :
    (forall m b e x, guess [pl_after] m b = (e, x) -> List.length x = List.length b) /\ exact (guess [pl_after]) /\
    assembled pl_grid wd tp_sim1 /\ good_sim wd tp_sim1 /\ an_time (s_an tp_sim1) = 0 /\ queued (s_pg tp_sim1) [[4; 6]; [8; 10]]%Q /\
    pg_top (s_pg tp_sim1) = Some (SinkPluggable pl_spreader 4 wmat) /\ solid_stack pl_grid wd /\
    emulate_step (guess [pl_after]) (cpp_plugin (s_nrows pl_spreader) (s_ncols pl_spreader)) wd tp_sim1 = Ok (TDICE_STEP_DONE, tp_sim2) /\
    gentle (s_plugin tp_sim1) pl_spreader 4 wmat (s_an tp_sim1) /\ (0 <= hk_conductance (s_plugin tp_sim1))%Q /\ at_least 293 (s_temps tp_sim1) /\
    (293 <= hk_ambient (s_plugin tp_sim1))%Q /\
    ~ (heat_content tp_sim2 - heat_content tp_sim1 == 0)%Q /\ ~ (to_the_air (s_plugin tp_sim1) (spreader_temps wd tp_sim1) == 0)%Q.
Proof.
  split; [exact (proj1 (guess_in_place [pl_after]))|]. split; [apply guess_exact|].
  split; [apply tp_assembled; [reflexivity|vm_compute; reflexivity]|]. split; [apply tp_good; reflexivity|].
  split; [reflexivity|]. split; [apply tp_queued|]. split; [reflexivity|]. split; [exact tp_solid|].
  split; [apply tp_run; vm_compute; reflexivity|]. split; [vm_compute; discriminate|]. split; [vm_compute; discriminate|].
  split. { intros i I. cbn in I. assert (i = 0 \/ i = 1 \/ i = 2 \/ i = 3 \/ i = 4 \/ i = 5 \/ i = 6 \/ i = 7 \/ i = 8 \/ i = 9 \/ i = 10 \/ i = 11) as K by lia. repeat destruct K as [->|K]; [..|subst i]; vm_compute; discriminate. }
  split; [vm_compute; discriminate|]. split; vm_compute; discriminate.
Qed.
(** One step without power, from 320, 300 and 305 degrees; ambients at 310. *)
Definition tp_sim3 := tp_sim 1 0 0 0 0 310 (repeat 320 4 ++ repeat 300 4 ++ repeat 305 4)%Q.
Definition tp_between : list Q := (repeat (217029780 # 694933) 4 ++ repeat (214047120 # 694933) 4 ++ repeat (425111065 # 1389866) 4)%Q.
Example C77_between_witness :
    assembled pl_grid wd tp_sim3 /\ good_sim wd tp_sim3 /\ queued (s_pg tp_sim3) [[0; 0]; [0; 0]]%Q /\ zeros [[0; 0]; [0; 0]]%Q /\
    history (guess [tp_between]) (cpp_plugin (s_nrows pl_spreader) (s_ncols pl_spreader)) wd tp_sim3 [Stepped TDICE_STEP_DONE] (tp_next [tp_between] tp_sim3) /\
    gentle (s_plugin tp_sim3) pl_spreader 4 wmat (s_an tp_sim3) /\ between 300 320 (s_temps tp_sim3) /\ s_temps (tp_next [tp_between] tp_sim3) = tp_between.
Proof.
  split; [apply tp_assembled; [reflexivity|vm_compute; reflexivity]|]. split; [apply tp_good; reflexivity|].
  split; [apply tp_queued|]. split; [repeat constructor; reflexivity|].
  split; [apply tp_once, tp_run; vm_compute; reflexivity|]. split; [vm_compute; discriminate|].
  split. { intros i I. cbn in I. assert (i = 0 \/ i = 1 \/ i = 2 \/ i = 3 \/ i = 4 \/ i = 5 \/ i = 6 \/ i = 7 \/ i = 8 \/ i = 9 \/ i = 10 \/ i = 11) as K by lia. repeat destruct K as [->|K]; [..|subst i]; split; vm_compute; discriminate. }
  vm_compute. reflexivity.
Qed.
(** At rest. *)
Definition tp_sim4 := tp_sim 1 0 0 0 0 310 (repeat 310%Q 12).
Example C77_stays_witness :
    assembled pl_grid wd tp_sim4 /\ good_sim wd tp_sim4 /\ zeros [[0; 0]; [0; 0]]%Q /\ queued (s_pg tp_sim4) [[0; 0]; [0; 0]]%Q /\ uniform 310 (s_temps tp_sim4) /\
    history (guess [repeat 310%Q 12]) (cpp_plugin (s_nrows pl_spreader) (s_ncols pl_spreader)) wd tp_sim4 [Stepped TDICE_STEP_DONE] (tp_next [repeat 310%Q 12] tp_sim4).
Proof.
  split; [apply tp_assembled; [reflexivity|vm_compute; reflexivity]|]. split; [apply tp_good; reflexivity|]. split; [repeat constructor; reflexivity|]. split; [apply tp_queued|].
  split. { intros i I. cbn in I. assert (i = 0 \/ i = 1 \/ i = 2 \/ i = 3 \/ i = 4 \/ i = 5 \/ i = 6 \/ i = 7 \/ i = 8 \/ i = 9 \/ i = 10 \/ i = 11) as K by lia. repeat destruct K as [->|K]; [..|subst i]; reflexivity. }
  apply tp_once, tp_run; vm_compute; reflexivity.
Qed.

(** When the step is too long, the flow computed from the temperatures before the step
    cools the spreader below everything around it: nothing dissipated, all ambients and
    the chip at 310, the spreader at 400, and a step of 4000 s. *)
Definition tp_cold : list Q := (repeat (152972052021170510 # 493790989384421) 4 ++ repeat (152905718951666510 # 493790989384421) 4 ++ repeat (152795137353364400 # 493790989384421) 4)%Q.
Definition tp_sim5 := tp_sim 4000 0 0 0 0 310 (repeat 310 8 ++ repeat 400 4)%Q.
Theorem C77_cold_refuted :
    ~ (forall solve g d (s s' : sim sysmatrix heatsink) qs t sp h m lo,
    (forall m b e x, solve m b = (e, x) -> List.length x = List.length b) -> exact solve ->
    assembled g d s -> good_sim d s -> an_time (s_an s) = 0 -> queued (s_pg s) qs -> pg_top (s_pg s) = Some (SinkPluggable sp h m) -> solid_stack g d ->
    history solve (cpp_plugin (s_nrows sp) (s_ncols sp)) d s t s' -> Forall went_well t -> small_queues (given qs t) -> Z.of_nat (steps_of t) < two32 ->
    Forall (Forall (fun p => 0 <= p)%Q) (given qs t) -> (0 <= hk_conductance (s_plugin s))%Q ->
    (forall b, pg_bottom (s_pg s) = Some b -> lo <= bs_ambient b)%Q -> (lo <= hk_ambient (s_plugin s))%Q ->
    at_least lo (s_temps s) -> at_least lo (s_temps s')).
Proof.
  intros X. assert (K : at_least 310 (s_temps (tp_next [tp_cold] tp_sim5))).
  { apply (X (guess [tp_cold]) pl_grid wd tp_sim5 _ [[0; 0]; [0; 0]]%Q [Stepped TDICE_STEP_DONE] pl_spreader 4%Q wmat 310%Q).
    - exact (proj1 (guess_in_place [tp_cold])).
    - apply guess_exact.
    - apply tp_assembled; [reflexivity|vm_compute; reflexivity].
    - apply tp_good; reflexivity.
    - reflexivity.
    - apply tp_queued.
    - reflexivity.
    - exact tp_solid.
    - apply tp_once, tp_run; vm_compute; reflexivity.
    - constructor; [left; reflexivity|constructor].
    - cbn [given]. repeat constructor.
    - reflexivity.
    - cbn [given]. repeat constructor; vm_compute; discriminate.
    - vm_compute; discriminate.
    - intros b E. injection E as <-. vm_compute; discriminate.
    - vm_compute; discriminate.
    - intros i I. cbn in I. assert (i = 0 \/ i = 1 \/ i = 2 \/ i = 3 \/ i = 4 \/ i = 5 \/ i = 6 \/ i = 7 \/ i = 8 \/ i = 9 \/ i = 10 \/ i = 11) as K by lia. repeat destruct K as [->|K]; [..|subst i]; vm_compute; discriminate. }
  specialize (K 8). assert (E : s_temps (tp_next [tp_cold] tp_sim5) = tp_cold) by (vm_compute; reflexivity). rewrite E in K.
  assert (C : (310 <= nth (Z.to_nat 8) tp_cold 0)%Q) by (apply K; split; reflexivity || discriminate). vm_compute in C. apply C. reflexivity.
Qed.
Print Assumptions C77_cold_refuted.

(** ** Names *)
Local Open Scope string_scope.
Lemma has_no_cons : forall c a t, has_no c (String a t) -> a <> c /\ has_no c t.
Proof. intros c a t H. split; [intros ->; exact (H 0%nat eq_refl)|intros n; exact (H (S n))]. Qed.
Lemma first_none : forall c s, has_no c s -> find_first c s = None.
Proof. intros c s. induction s as [|a t IH]; intros H; [reflexivity|]. apply has_no_cons in H. destruct H as (N & H). cbn. destruct (Ascii.eqb_spec a c); [congruence|]. rewrite (IH H). reflexivity. Qed.
Lemma last_none : forall c s, has_no c s -> find_last c s = None.
Proof. intros c s. induction s as [|a t IH]; intros H; [reflexivity|]. apply has_no_cons in H. destruct H as (N & H). cbn. rewrite (IH H). destruct (Ascii.eqb_spec a c); [congruence|reflexivity]. Qed.
Lemma first_at : forall c a b, has_no c a -> find_first c (a ++ String c b) = Some (String.length a).
Proof.
  intros c a b. induction a as [|x a IH]; intros H; cbn; [rewrite Ascii.eqb_refl; reflexivity|]. apply has_no_cons in H. destruct H as (N & H).
  destruct (Ascii.eqb_spec x c); [congruence|]. rewrite (IH H). reflexivity.
Qed.
Lemma last_at : forall c a b, has_no c b -> find_last c (a ++ String c b) = Some (String.length a).
Proof.
  intros c a b H. induction a as [|x a IH]; cbn; [rewrite (last_none c b H), Ascii.eqb_refl; reflexivity|]. rewrite IH. reflexivity.
Qed.
Lemma substring_all : forall s, substring 0 (String.length s) s = s.
Proof. induction s as [|a s IH]; [reflexivity|]. cbn. rewrite IH. reflexivity. Qed.
Lemma upto_at : forall a b, substring 0 (String.length a) (a ++ b) = a.
Proof. intros a b. induction a as [|x a IH]; cbn; [destruct b; reflexivity|]. rewrite IH. reflexivity. Qed.
Lemma string_length_app : forall a b, String.length (a ++ b) = (String.length a + String.length b)%nat.
Proof. intros a b. induction a as [|x a IH]; [reflexivity|]. cbn. rewrite IH. reflexivity. Qed.
Lemma from_at : forall a c b, from (String.length a + 1) (a ++ String c b) = b.
Proof.
  intros a c b. unfold from. rewrite string_length_app. cbn [String.length]. replace (String.length a + S (String.length b) - (String.length a + 1))%nat with (String.length b) by lia.
  induction a as [|x a IH]; cbn; [apply substring_all|exact IH].
Qed.

(** The first word of the arguments is the text before the first space; the module is
    that word without its last extension; the directory of the FMU is split at its last
    slash, and what is opened is the word again unless it lies in the root. *)
Theorem C77_names : forall w s, word_of w s ->
    first_word s = w /\
    (has_no "." w -> module_name s = w) /\
    (forall name ext, w = name ++ "." ++ ext -> has_no "." ext -> module_name s = name) /\
    (has_no "/" w -> fmu_path s = "" /\ fmu_name s = w /\ fmu_directory s = w) /\
    (forall path name, w = path ++ "/" ++ name -> has_no "/" name -> fmu_path s = path /\ fmu_name s = name /\ (path <> "" -> fmu_directory s = w)).
Proof.
  intros w s (NS & E).
  assert (F : first_word s = w).
  { unfold first_word. destruct E as [->|(rest & ->)]; [rewrite (first_none _ _ NS); reflexivity|]. change (" " ++ rest) with (String " " rest). rewrite (first_at _ _ rest NS). apply upto_at. }
  split; [exact F|]. unfold module_name, fmu_directory, fmu_path, fmu_name. cbv zeta. rewrite F.
  split; [intros H; rewrite (last_none _ _ H); reflexivity|].
  split. { intros name ext -> H. change ("." ++ ext) with (String "." ext). rewrite (last_at _ name ext H). apply upto_at. }
  split; [intros H; rewrite (last_none _ _ H); auto|].
  intros path name -> H. change ("/" ++ name) with (String "/" name). rewrite (last_at _ path name H), upto_at, from_at. split; [reflexivity|]. split; [reflexivity|].
  intros NE. destruct (String.eqb_spec path ""); [congruence|reflexivity].
Qed.
Print Assumptions C77_names.
Example C77_names_witness : word_of "models/plate.v1" "models/plate.v1 --fine" /\ module_name "models/plate.v1 --fine" = "models/plate" /\ fmu_path "models/plate.v1 --fine" = "models".
Proof. split; [|split; reflexivity]. split; [|right; exists "--fine"; reflexivity]. intros n. do 15 (destruct n as [|n]; [discriminate|]). destruct n; discriminate. Qed.
(** An FMU in the root of the file system is looked for in the working directory; a
    script given relative to the working directory without extension has no name left. *)
Theorem C77_names_refuted :
    ~ (forall w s, word_of w s -> fmu_directory s = w) /\ (exists w s, word_of w s /\ w <> "" /\ module_name s = "").
Proof.
  assert (Q1 : forall w, has_no " " w -> word_of w w) by (intros w H; split; [exact H|left; reflexivity]).
  split.
  - intros H. specialize (H "/plate" "/plate" (Q1 "/plate" ltac:(intros n; do 7 (destruct n as [|n]; [discriminate|]); discriminate))). vm_compute in H. discriminate H.
  - exists "./plate", "./plate". split; [apply Q1; intros n; do 8 (destruct n as [|n]; [discriminate|]); discriminate|]. split; [discriminate|reflexivity].
Qed.

(** ** The file of a plugin *)
(** [dlopen] is given the plugin when it is absolute, and otherwise the working
    directory, a slash and the plugin; cut to 2047 characters of the plugin. The buffer
    of 2048 characters is overflowed exactly when it is relative, the directory fits and
    the whole does not. *)
Theorem C77_path : forall cwd plugin, plugin <> "" ->
    let cut := substring 0 2047 plugin in
    let absolute := exists rest, plugin = String "/" rest in
    (absolute -> plugin_path cwd plugin = Ok (Some cut)) /\
    (~ absolute -> (String.length cwd < 2047)%nat -> (String.length cwd + 1 + String.length cut < 2048)%nat -> plugin_path cwd plugin = Ok (Some (cwd ++ "/" ++ cut))) /\
    (~ absolute -> (2047 <= String.length cwd)%nat -> plugin_path cwd plugin = Ok None) /\
    (plugin_path cwd plugin = UB <-> ~ absolute /\ (String.length cwd < 2047)%nat /\ (2048 <= String.length cwd + 1 + String.length cut)%nat).
Proof.
  intros cwd plugin NE cut absolute. unfold plugin_path. change (buffer_size - 1)%nat with 2047%nat. fold cut. set (n := String.length cwd). set (c := String.length cut). clearbody n c.
  change buffer_size with 2048%nat. destruct plugin as [|a rest]; [congruence|].
  destruct (Ascii.eqb_spec a "/") as [->|N].
  - assert (AB : absolute) by (exists rest; reflexivity). split; [reflexivity|]. split; [intros X; contradiction|]. split; [intros X; contradiction|]. split; [discriminate|intros (X & _); contradiction].
  - assert (AB : ~ absolute) by (intros (r2 & E); congruence).
    destruct (Nat.ltb_spec 2047 (n + 1)) as [L|L].
    + split; [intros X; contradiction|]. split; [lia|]. split; [reflexivity|]. split; [discriminate|lia].
    + destruct (Nat.ltb_spec 2048 (n + 1 + c + 1)) as [L2|L2].
      * split; [intros X; contradiction|]. split; [lia|]. split; [lia|]. split; [intros _; split; [exact AB|lia]|reflexivity].
      * split; [intros X; contradiction|]. split; [reflexivity|]. split; [lia|]. split; [discriminate|lia].
Qed.
Print Assumptions C77_path.
Fixpoint letters (n : nat) : string := match n with O => "" | S n => String "a" (letters n) end.
(** A directory of 1024 characters and a file name of 1024. *)
Theorem C77_path_refuted : ~ (forall cwd plugin, (String.length cwd <= 1024)%nat -> (String.length plugin <= 1024)%nat -> plugin_path cwd plugin <> UB).
Proof.
  intros H. assert (L : forall n, String.length (letters n) = n) by (induction n as [|n IH]; [reflexivity|cbn; rewrite IH; reflexivity]).
  apply (H (letters 1024) (letters 1024)); [rewrite L; constructor|rewrite L; constructor|vm_compute; reflexivity].
Qed.
Print Assumptions C77_path_refuted.
