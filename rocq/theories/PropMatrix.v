(** * C25-C33: the system matrix and the physics of the simulated temperatures *)
From Coq Require Import ZArith List Bool QArith Lia Lqa Sorted Permutation.
From Verif Require Import Base QSum Dims DimsSpec DimsProofs Queue QueueProofs Floorplan FloorplanSpec FloorplanProofs FlpMatrixProofs TempProofs
     Stack StackSpec StackProofs PowerGrid Emulate EmulateSpec SourceProofs LayerProofs SourceVectorProofs EmulateProofs HistoryProofs
     Conduct Matrix MatrixSpec CellProofs NodeProofs LinkProofs SignProofs CscProofs NetProofs EnumProofs CountProofs
     BalanceSpec BalanceProofs VectorProofs StepProofs EnergyProofs UniqueProofs FieldProofs LongRunProofs
     PropStack SimWitness MatrixWitness.
Import ListNotations.
Local Open Scope Z_scope.

(** ** C25, C26: storage *)
(** Channel model and spreader as compute_number_of_connections receives them;
    the number of coefficients it is meant to compute, without the reduction
    modulo 2^32. *)
Definition model_of (g : tgrid) : channel_model := match tg_channel g with Some ch => ch_model ch | None => CM_NONE end.
Definition spreader_of (g : tgrid) : option (Z * Z) :=
  match tg_top g with Some (SinkPluggable s _ _) => Some (s_nrows s, s_ncols s) | _ => None end.
Definition only_4rm (g : tgrid) (d : dims) : Prop :=
  (model_of g = CM_NONE \/ model_of g = CM_MC_4RM) /\
  forall l, 0 <= l < d_nlayers d -> is_solid (type_of g l) = true \/ type_of g l = LT_CHANNEL_4RM.
Definition meant_4rm (g : tgrid) (d : dims) : Z :=
  let L := d_nlayers d in let R := d_nrows d in let C := d_ncols d in
  L * R * C + 2 * (L - 1) * R * C + 2 * L * (R - 1) * C + 2 * L * R * (C - 1) +
  match spreader_of g with
  | Some (sr, sc) => sr * sc + 2 * (sr - 1) * sc + 2 * sr * (sc - 1) + 2 * R * C
  | None => 0
  end.

Lemma spreader_part_eq : forall g d, spreader_part g d =
    match spreader_of g with
    | Some (sr, sc) => sr * sc + 2 * (sr - 1) * sc + 2 * sr * (sc - 1) + 2 * d_nrows d * d_ncols d
    | None => 0
    end.
Proof. intros g d. unfold spreader_part, spreader_of. destruct (tg_top g) as [[h a|s h m]|]; try reflexivity. ring. Qed.

Lemma total_4rm : forall g d an, good_tgrid d g -> only_4rm g d -> total (map (col g d an) (nodes g d)) = meant_4rm g d.
Proof. intros g d an G (_ & H). rewrite (count_4rm g d an G H), spreader_part_eq. reflexivity. Qed.

Lemma number_4rm : forall g d k, only_4rm g d -> number_of_connections (d_nlayers d) (d_nrows d) (d_ncols d) k (model_of g) (spreader_of g) = u32 (meant_4rm g d).
Proof.
  intros g d k ([M|M] & _); rewrite M; unfold number_of_connections, meant_4rm; destruct (spreader_of g) as [[sr sc]|]; unfold u32;
    rewrite ?Z.add_0_r; try reflexivity;
    rewrite Zplus_mod_idemp_l, <- Z.add_assoc, Zplus_mod_idemp_l; f_equal; ring.
Qed.

(** C25 holds for solid and 4RM stacks, with or without spreader, whose number of
    coefficients is below 2^32: every position allocated is written. *)
Theorem C25_exact_partial : forall g d an k, good_tgrid d g -> only_4rm g d -> meant_4rm g d < two32 ->
    let nnz := number_of_connections (d_nlayers d) (d_nrows d) (d_ncols d) k (model_of g) (spreader_of g) in
    exists m, fill_system_matrix (system_matrix_build (unknowns g d) nnz) g an d = Ok m /\
      zat (sm_ptr m) (unknowns g d) = nnz /\ nnz = meant_4rm g d /\
      Z.of_nat (length (sm_rows m)) = nnz /\ Z.of_nat (length (sm_vals m)) = nnz.
Proof.
  intros g d an k G O B nnz. pose proof (total_4rm g d an G O) as T. pose proof (number_4rm g d k O) as N.
  assert (0 <= meant_4rm g d) as P by (rewrite <- T; unfold total; lia).
  rewrite u32_id in N by lia. fold nnz in N.
  pose proof (fill_ok g d an _ (unknowns g d) nnz (columns_ok g d an G)) as F.
  rewrite map_length in F. specialize (F (eq_sym (nodes_length g d G)) ltac:(lia)).
  rewrite T, N, Z.sub_diag in F. cbn [Z.to_nat repeat] in F. rewrite N. eexists. split; [exact F|].
  rewrite !app_nil_r. cbn [sm_ptr sm_rows sm_vals]. rewrite !map_length.
  destruct (matrix_csc g d an G [] [] eq_refl) as (_ & L).
  unfold stored in L. cbn [sm_ptr] in L. unfold total in T, L. rewrite L. auto.
Qed.
Print Assumptions C25_exact_partial.

(** Without the bound the allocation wraps around and the fill writes past its
    end. *)
Theorem C25_wrap_overflow : forall g d an k, good_tgrid d g -> only_4rm g d -> two32 <= meant_4rm g d ->
    let nnz := number_of_connections (d_nlayers d) (d_nrows d) (d_ncols d) k (model_of g) (spreader_of g) in
    forall m, fill_system_matrix (system_matrix_build (unknowns g d) nnz) g an d <> Ok m.
Proof.
  intros g d an k G O B nnz m H. pose proof (total_4rm g d an G O) as T. pose proof (number_4rm g d k O) as N. fold nnz in N.
  unfold fill_system_matrix in H. rewrite (columns_ok g d an G) in H.
  destruct (arr_set (sm_ptr (system_matrix_build (unknowns g d) nnz)) 0 0) as [p| |]; try discriminate H. cbn [bind] in H.
  apply write_bound in H; [|rewrite T; unfold two32 in *; lia]. cbn [sm_rows system_matrix_build] in H. rewrite repeat_length in H.
  pose proof (Z.mod_pos_bound (meant_4rm g d) two32 ltac:(reflexivity)) as U. unfold u32 in N. fold two32 in N. rewrite T in H. rewrite Z2Nat.id in H; lia.
Qed.
Print Assumptions C25_wrap_overflow.

(** Two-resistor and pin-fin channels: number of channels in the stack. *)
Definition channels_of (g : tgrid) (d : dims) : Z :=
  Z.of_nat (length (filter (fun l => match type_of g l with LT_BOTTOM_WALL => true | _ => false end) (zrange 0 (d_nlayers d - 1)))).
Definition meant_2rm (g : tgrid) (d : dims) : Z :=
  let L := d_nlayers d in let R := d_nrows d in let C := d_ncols d in let k := channels_of g d in
  (L - 4 * k) * (3 * (R * C) + 2 * ((R - 1) * C) + 2 * (R * (C - 1))) +
  k * (14 * (R * C) + (match model_of g with CM_MC_2RM => 4 | _ => 2 end) * ((R - 1) * C)) +
  match spreader_of g with
  | Some (sr, sc) => sr * sc + 2 * (sr - 1) * sc + 2 * sr * (sc - 1) + 2 * R * C
  | None => 0
  end.
Lemma channels_eq : forall g d, channels2 g d = channels_of g d.
Proof.
  intros g d. unfold channels2, channels_of. induction (zrange 0 (d_nlayers d - 1)) as [|l ls IH]; [reflexivity|].
  cbn [map filter]. rewrite zsum_cons, IH. destruct (type_of g l); cbn [length]; lia.
Qed.
Lemma number_2rm : forall g d, model_of g <> CM_NONE -> model_of g <> CM_MC_4RM ->
    number_of_connections (d_nlayers d) (d_nrows d) (d_ncols d) (channels_of g d) (model_of g) (spreader_of g) = u32 (meant_2rm g d).
Proof.
  intros g d M1 M2. set (k := channels_of g d). set (L := d_nlayers d). set (R := d_nrows d). set (C := d_ncols d).
  pose proof (Z.div_mod (k * 4) two32 ltac:(discriminate)) as Q1. fold (u32 (k * 4)) in Q1. set (q1 := k * 4 / two32) in *.
  pose proof (Z.div_mod (L - u32 (k * 4)) two32 ltac:(discriminate)) as Q2. fold (u32 (L - u32 (k * 4))) in Q2. set (q2 := (L - u32 (k * 4)) / two32) in *.
  set (tmp := match model_of g with CM_MC_2RM => 4 | _ => 2 end).
  set (X := 3 * (R * C) + 2 * ((R - 1) * C) + 2 * (R * (C - 1))).
  assert (E : forall x y, u32 (x + y * two32) = u32 x) by (intros x y; unfold u32; apply Z.mod_add; discriminate).
  assert (B : forall nlc nle, nlc = u32 (k * 4) -> nle = u32 (L - u32 (k * 4)) ->
    u32 (nle * R * C + 2 * nle * R * C + 2 * nle * (R - 1) * C + 2 * nle * R * (C - 1) + nlc * R * C + 2 * (nlc + k) * R * C + tmp * k * (R - 1) * C) =
    u32 ((L - 4 * k) * X + k * (14 * (R * C) + tmp * ((R - 1) * C)))).
  { intros nlc nle E1 E2. assert (nlc = 4 * k - q1 * two32) as -> by lia. assert (nle = L - 4 * k + (q1 - q2) * two32) as -> by lia.
    rewrite <- (E ((L - 4 * k) * X + k * (14 * (R * C) + tmp * ((R - 1) * C))) ((q1 - q2) * X - 3 * q1 * (R * C))). f_equal. unfold X. ring. }
  unfold number_of_connections, meant_2rm. fold k L R C.
  assert (forall A, match model_of g with CM_NONE | CM_MC_4RM => A | _ => u32 (u32 (L - u32 (k * 4)) * R * C + 2 * u32 (L - u32 (k * 4)) * R * C + 2 * u32 (L - u32 (k * 4)) * (R - 1) * C + 2 * u32 (L - u32 (k * 4)) * R * (C - 1) + u32 (k * 4) * R * C + 2 * (u32 (k * 4) + k) * R * C + tmp * k * (R - 1) * C) end =
    u32 ((L - 4 * k) * X + k * (14 * (R * C) + tmp * ((R - 1) * C)))) as B2.
  { intros A. rewrite B by reflexivity. destruct (model_of g); congruence. }
  cbv zeta. fold tmp. rewrite B2. fold X.
  destruct (spreader_of g) as [[sr sc]|]; unfold u32; [|f_equal; try ring; rewrite Z.add_0_r; reflexivity].
  rewrite Zplus_mod_idemp_l, <- Z.add_assoc, Zplus_mod_idemp_l. f_equal; try ring; reflexivity.
Qed.

(** C25 is false for two-resistor and pin-fin channels: 2 * rows * columns
    positions of the allocation stay unwritten, in every such stack (the matrix
    itself is complete: see C26). *)
Theorem C25_two_resistor_partial : forall g d an, good_tgrid d g -> model_of g <> CM_NONE -> model_of g <> CM_MC_4RM -> meant_2rm g d < two32 ->
    let nnz := number_of_connections (d_nlayers d) (d_nrows d) (d_ncols d) (channels_of g d) (model_of g) (spreader_of g) in
    exists m, fill_system_matrix (system_matrix_build (unknowns g d) nnz) g an d = Ok m /\
      zat (sm_ptr m) (unknowns g d) = nnz - 2 * (d_nrows d * d_ncols d) /\
      Z.of_nat (length (sm_rows m)) = nnz /\ Z.of_nat (length (sm_vals m)) = nnz.
Proof.
  intros g d an G M1 M2 B nnz. pose proof (number_2rm g d M1 M2) as N. fold nnz in N.
  assert (exists ch, tg_channel g = Some ch /\ ch_model ch <> CM_MC_4RM /\ model_of g = ch_model ch) as (ch & T & M & MM).
  { unfold model_of in *. destruct (tg_channel g) as [ch|]; [exists ch; auto|congruence]. }
  pose proof (count_2rm g d an G ch T M) as K.
  assert (total (map (col g d an) (nodes g d)) + 2 * (d_nrows d * d_ncols d) = meant_2rm g d) as K2.
  { rewrite K, spreader_part_eq, channels_eq. unfold meant_2rm, around. rewrite MM.
    unfold is_2rm. destruct (ch_model ch); cbn [b2z]; ring. }
  clear K. pose proof (gt_grid d g G) as GG. assert (0 <= d_nrows d * d_ncols d) as A0 by (apply Z.mul_nonneg_nonneg; destruct GG; lia).
  assert (0 <= total (map (col g d an) (nodes g d))) as P by (unfold total; lia).
  rewrite u32_id in N by lia.
  pose proof (fill_ok g d an _ (unknowns g d) nnz (columns_ok g d an G)) as F.
  rewrite map_length in F. specialize (F (eq_sym (nodes_length g d G)) ltac:(lia)).
  eexists. split; [exact F|]. cbn [sm_ptr sm_rows sm_vals]. rewrite !app_length, !map_length, !repeat_length.
  destruct (matrix_csc g d an G [] [] eq_refl) as (_ & L). unfold stored in L. cbn [sm_ptr] in L. rewrite L.
  unfold total in *. lia.
Qed.
Print Assumptions C25_two_resistor_partial.

(** C26: every filled matrix is well-formed compressed-column storage of as many
    columns as cells. *)
Theorem C26_storage : forall g d an m, good_tgrid d g -> filled g d an m -> csc (unknowns g d) m.
Proof.
  intros g d an m G (m0 & H1 & H2 & H3). destruct (fill_stored g d an m0 m G H1 H2 H3) as (rt & vt & -> & L & _).
  exact (proj1 (matrix_csc g d an G rt vt L)).
Qed.
Print Assumptions C26_storage.

(** ** C27: reciprocity *)
Definition index (d : dims) (l r c : Z) : Z := (l * d_nrows d + r) * d_ncols d + c.
(** Cells [i] and [j] of a channel, next to each other along the flow. *)
Definition along_flow (g : tgrid) (d : dims) (i j : Z) : Prop :=
  exists l r c, in_grid d l r c /\ is_coolant (type_of g l) = true /\ (type_of g l = LT_CHANNEL_4RM -> Z.odd c = true) /\
    i = index d l r c /\ (j = index d l (r - 1) c \/ j = index d l (r + 1) c).

Lemma conv_neighbour : forall g d an n m v, good_tgrid d g -> valid g d n -> In (m, Conv v) (all_links (links_of g d an n)) ->
    along_flow g d (idx g d n) (idx g d m).
Proof.
  intros g d an n m v G V I. destruct (wet g n) eqn:W.
  - destruct n as [l r c|r c]; [|discriminate W].
    destruct (wet_place g l r c W) as (W1 & W2). exists l, r, c. split; [exact V|]. split; [assumption|]. split; [assumption|]. split; [reflexivity|].
    cbn [valid] in V.
    assert (m = Cell l (r - 1) c \/ m = Cell l (r + 1) c) as [-> | ->]; [|left; reflexivity|right; reflexivity].
    destruct (layer_cases g d G l c ltac:(unfold in_grid in V; lia)) as [K|[(K & _)|(ch & b & F & [(-> & T)|[(-> & T)|[(-> & T)|(-> & T)]]])]].
    + rewrite (links_solid g d an) in I by assumption. exfalso. destruct K as [K|(K & K2)]; [destruct (type_of g l); discriminate|rewrite W2 in K2 by assumption; discriminate].
    + rewrite (links_liquid4 g d an) in I by assumption. unfold liquid4_links, all_links in I. cbn [k_before k_after] in I.
      rewrite !in_app_iff, !in_pw in I. intuition congruence.
    + rewrite T in W1. discriminate.
    + rewrite T in W1. destruct (ch_model ch); discriminate.
    + rewrite (links_cool g d an ch) in I by assumption. unfold liquid2_links, all_links in I. cbn [k_before k_after In] in I.
      rewrite ?in_app_iff, ?in_pw in I. cbn [In] in I. rewrite ?in_app_iff, ?in_pw in I. intuition congruence.
    + rewrite T in W1. discriminate.
  - destruct (dry_conv g d an n m (Conv v) W I) as (x & E). discriminate.
Qed.

(** Coefficients of two cells are equal unless coolant flows from one to the
    other; then they are opposite. *)
Theorem C27_any_stack : forall g d an m, good_tgrid d g -> physical g d -> filled g d an m ->
    forall i j, 0 <= i < unknowns g d -> 0 <= j < unknowns g d ->
      (coefficient m i j == coefficient m j i)%Q \/
      (along_flow g d i j /\ along_flow g d j i /\ coefficient m i j == - coefficient m j i)%Q.
Proof.
  intros g d an m G P (m0 & H1 & H2 & H3) i j I J. destruct (fill_stored g d an m0 m G H1 H2 H3) as (rt & vt & -> & L & _).
  destruct (node_of g d G i I) as (a & Va & <-). destruct (node_of g d G j J) as (b & Vb & <-).
  destruct (node_dec a b) as [<-|NE]; [left; reflexivity|].
  destruct (in_dec node_dec a (map fst (all_links (links_of g d an b)))) as [A|A].
  - apply in_map_iff in A. destruct A as ((a' & f) & E & A). cbn [fst] in E. subst a'.
    pose proof (coeff_link g d an G rt vt a b f Vb A) as C1.
    pose proof (coeff_back g d an G rt vt P b a f Vb A) as C2. rewrite C1, C2.
    destruct f as [x|v]; [left; reflexivity|right]. unfold fval. split; [|split].
    + destruct (reciprocal g d an G P b a (Conv v) Vb A) as (_ & [y|w] & F & O); [destruct O|].
      exact (conv_neighbour g d an a b w G Va F).
    + exact (conv_neighbour g d an b a v G Vb A).
    + ring.
  - assert (~ In b (map fst (all_links (links_of g d an a)))) as B.
    { intros B. apply in_map_iff in B. destruct B as ((b' & f) & E & B). cbn [fst] in E. subst b'.
      destruct (reciprocal g d an G P a b f Va B) as (_ & f' & F & _). apply A. apply in_map_iff. exists (a, f'). auto. }
    left. rewrite (coeff_none g d an G rt vt a b Va Vb NE A), (coeff_none g d an G rt vt b a Vb Va (not_eq_sym NE) B). reflexivity.
Qed.
Print Assumptions C27_any_stack.

Theorem C27_reciprocal : forall g d an m, good_tgrid d g -> physical g d -> solid_stack g d -> filled g d an m ->
    forall i j, 0 <= i < unknowns g d -> 0 <= j < unknowns g d -> (coefficient m i j == coefficient m j i)%Q.
Proof.
  intros g d an m G P S F i j I J. destruct (C27_any_stack g d an m G P F i j I J) as [E|((l & r & c & L & C & _) & _)]; [exact E|].
  exfalso. unfold in_grid in L. specialize (S l ltac:(lia)). destruct (type_of g l); discriminate.
Qed.
Print Assumptions C27_reciprocal.

(** ** C28, C33: energy *)
(** One more step after any successful history: the heat content changes by the
    step time multiplied by: the powers of the slot, what the plugin of the
    spreader gives, the enthalpy of the incoming coolant, minus that of the
    outgoing coolant, minus what the sinks give to the ambient. *)
Theorem C33_energy_partial : forall {PS} solve plugin g d (s s1 s2 : sim sysmatrix PS) qs t r,
    in_place solve plugin -> exact solve -> assembled g d s -> good_sim d s -> an_time (s_an s) = 0 -> queued (s_pg s) qs ->
    no_single_row g d ->
    history solve plugin d s t s1 -> Forall went_well t -> small_queues (given qs t) -> Z.of_nat (steps_of t) + 1 < two32 ->
    emulate_step solve plugin d s1 = Ok (r, s2) -> done r ->
    let k := Z.to_nat (slots_begun (an_slot_length (s_an s)) (Z.of_nat (steps_of t) + 1)) in
    (heat_content s2 - heat_content s1 ==
     an_step (s_an s) * (qsum (map (fun l => nth (k - 1) l 0) (given qs t)) + from_plugin d s2
                         + enthalpy_in d s2 - enthalpy_out d s2 - lost_top d s2 - lost_bottom d s2))%Q.
Proof.
  intros PS solve plugin g d s s1 s2 qs t r IP EX A GS T0 Q NSR H W SM B E D k.
  destruct (history_at solve plugin IP d s t s1 H _ 0 qs (at_start d s qs GS T0 Q) W ltac:(lia) SM) as (AT & K & _).
  destruct K as (K1 & K2 & K3 & K4 & K5).
  assert (assembled g d s1) as A1.
  { apply (assembled_same g d s s1 A K1 K2); [|assumption].
    destruct (at_good _ _ _ _ _ AT) as (_ & _ & Z1 & _). destruct GS as (_ & _ & Z2 & _). congruence. }
  destruct (step_at solve plugin IP d _ _ _ s1 r s2 AT E D ltac:(lia)) as (AT2 & _ & _).
  pose proof (at_power _ _ _ _ _ AT2 ltac:(lia)) as DP. cbn [Z.add] in *.
  pose proof (energy_step solve plugin IP EX g d (as_grid _ _ _ A) s1 s2 _ _ r A1 (at_good _ _ _ _ _ AT) (at_queues _ _ _ _ _ AT) NSR E D DP) as R.
  rewrite map_length in R. pose proof (at_queues _ _ _ _ _ AT2) as Q2. apply Forall2_len in Q2. rewrite map_length in Q2.
  specialize (R (eq_sym Q2)). rewrite K4 in R. rewrite R. 
  replace (Z.to_nat (slots_begun (an_slot_length (s_an s)) (Z.of_nat (steps_of t) + 1) - 1)) with (k - 1)%nat by (unfold k; lia). reflexivity.
Qed.
Print Assumptions C33_energy_partial.

Lemma no_coolant_zero : forall g d pg f, solid_stack g d -> pg_types pg = tg_types g -> (sum_coolant d pg f == 0)%Q.
Proof.
  intros g d pg f S T. unfold sum_coolant. destruct (pg_channel pg) as [ch|]; [|reflexivity].
  apply qsum_zero. intros l L. apply in_zrange in L. apply qsum_zero. intros c _.
  unfold coolant_cell. rewrite T. change (nth (Z.to_nat l) (tg_types g) LT_NONE) with (type_of g l).
  specialize (S l ltac:(lia)). destruct (type_of g l); try discriminate S; reflexivity.
Qed.

Theorem C28_energy : forall {PS} solve plugin g d (s s1 s2 : sim sysmatrix PS) qs t r,
    in_place solve plugin -> exact solve -> assembled g d s -> good_sim d s -> an_time (s_an s) = 0 -> queued (s_pg s) qs ->
    solid_stack g d ->
    history solve plugin d s t s1 -> Forall went_well t -> small_queues (given qs t) -> Z.of_nat (steps_of t) + 1 < two32 ->
    emulate_step solve plugin d s1 = Ok (r, s2) -> done r ->
    let k := Z.to_nat (slots_begun (an_slot_length (s_an s)) (Z.of_nat (steps_of t) + 1)) in
    (heat_content s2 - heat_content s1 ==
     an_step (s_an s) * (qsum (map (fun l => nth (k - 1) l 0) (given qs t)) + from_plugin d s2 - lost_top d s2 - lost_bottom d s2))%Q.
Proof.
  intros PS solve plugin g d s s1 s2 qs t r IP EX A GS T0 Q S H W SM B E D k.
  pose proof (C33_energy_partial solve plugin g d s s1 s2 qs t r IP EX A GS T0 Q (or_intror S) H W SM B E D) as R. cbv zeta in R. fold k in R.
  rewrite R. clear R.
  destruct (history_at solve plugin IP d s t s1 H _ 0 qs (at_start d s qs GS T0 Q) W ltac:(lia) SM) as (AT & (K1 & K2 & K3 & K4 & K5) & _).
  destruct (step_at solve plugin IP d _ _ _ s1 r s2 AT E D ltac:(lia)) as (_ & (J1 & _) & _).
  pose proof (grid_of_same g d _ _ (grid_of_same g d _ _ (as_power _ _ _ A) K1) J1) as GO.
  unfold enthalpy_in, enthalpy_out. rewrite !(no_coolant_zero g d) by (assumption || apply (go_types _ _ _ GO)). ring.
Qed.
Print Assumptions C28_energy.

(** The convective coefficients: for every cell, the column of the matrix sums to
    capacity / step, plus the conductance to the sink, plus, for the coolant cells
    of the last row, the enthalpy leaving per degree; the row likewise, with the
    coolant cells of the first row. *)
Definition coolant_at (g : tgrid) (l c : Z) : option channel :=
  match tg_channel g with
  | Some ch => if coolant_cell ch (type_of g l) c then Some ch else None
  | None => None
  end.
Definition sink_at (g : tgrid) (d : dims) (tops bottoms : list Q) (l r c : Z) : Q :=
  if to_ambient (type_of g l) then qat tops (r * d_ncols d + c)
  else if to_pcb (type_of g l) then qat bottoms (r * d_ncols d + c) else 0%Q.

Lemma sink_at_eq : forall g d tops bottoms l r c, good_tgrid d g -> top_tcs g d = Ok tops -> bottom_tcs g d = Ok bottoms -> in_grid d l r c ->
    (sink_at g d tops bottoms l r c == nsink g d (Cell l r c))%Q.
Proof.
  intros g d tops bottoms l r c G HT HB I. unfold sink_at, nsink, sink_of, qat. pose proof I as (L & R & C).
  destruct (gt_shape d g G l L) as [(S & A & _ & Bp)|(b & j & ch & T & -> & B0 & B1 & J & F)].
  - destruct (to_ambient (type_of g l)) eqn:TA.
    + destruct (A eq_refl) as (-> & HA). rewrite (top_tcs_at g d G tops HT HA r c R C).
      destruct (type_of g (d_nlayers d - 1)); try discriminate TA; reflexivity.
    + destruct (to_pcb (type_of g l)) eqn:TP.
      * destruct (Bp eq_refl) as (-> & HN). rewrite (bottom_tcs_at g d G bottoms HB HN r c R C).
        destruct (type_of g 0); try discriminate TP; reflexivity.
      * destruct (type_of g l); try discriminate TA; try discriminate TP; reflexivity.
  - destruct (nth_error (expected_channel_types (ch_model ch)) j) as [t|] eqn:E; [|apply nth_error_None in E; lia].
    destruct (F j t E) as (-> & _). unfold expected_channel_types in E.
    destruct (ch_model ch); repeat (destruct j as [|j]; cbn in E; try discriminate E; try (injection E as <-; reflexivity)).
Qed.

Lemma wet_coolant : forall g d l r c, good_tgrid d g -> in_grid d l r c ->
    match coolant_at g l c with
    | Some ch => wet g (Cell l r c) = true /\ (ncon g d (Cell l r c) == convection ch d l c)%Q
    | None => wet g (Cell l r c) = false
    end.
Proof.
  intros g d l r c G I. unfold coolant_at. destruct (tg_channel g) as [ch|] eqn:T.
  - destruct (wet_convection g d G ch l r c ltac:(destruct I; lia) T) as (W1 & W2). unfold coolant_cell. rewrite W1.
    destruct (wet g (Cell l r c)); [|reflexivity]. split; [reflexivity|]. unfold ncon. rewrite W2 by reflexivity. reflexivity.
  - destruct (wet g (Cell l r c)) eqn:W; [|reflexivity]. destruct (wet_channel g d G (Cell l r c) I W) as (ch & E). congruence.
Qed.

Theorem C33_columns_partial : forall g d an m caps tops bottoms, good_tgrid d g -> physical g d -> no_single_row g d -> filled g d an m ->
    an_type an = AT_TRANSIENT -> cells_capacities g d = Ok caps -> top_tcs g d = Ok tops -> bottom_tcs g d = Ok bottoms ->
    forall l r c, in_grid d l r c ->
      let j := index d l r c in
      (qsum (map (fun i => coefficient m i j) (zrange 0 (unknowns g d - 1))) ==
       qat caps j / an_step an + sink_at g d tops bottoms l r c
       + match coolant_at g l c with Some ch => if (r =? d_nrows d - 1)%Z then 2 * convection ch d l c else 0 | None => 0 end)%Q /\
      (qsum (map (fun i => coefficient m j i) (zrange 0 (unknowns g d - 1))) ==
       qat caps j / an_step an + sink_at g d tops bottoms l r c
       + match coolant_at g l c with Some ch => if (r =? 0)%Z then 2 * convection ch d l c else 0 | None => 0 end)%Q.
Proof.
  intros g d an m caps tops bottoms G P NS (m0 & H1 & H2 & H3) TR HC HT HB l r c I j.
  destruct (fill_stored g d an m0 m G H1 H2 H3) as (rt & vt & -> & _ & _).
  set (n := Cell l r c). assert (valid g d n) as V by exact I. change j with (idx g d n).
  rewrite (capacities_eq g d G) in HC. injection HC as <-. rewrite (qat_nodes g d G _ n V).
  rewrite (sink_at_eq g d tops bottoms l r c G HT HB I). fold n.
  pose proof (base_eq g d an n V) as BE. unfold capn in BE. rewrite TR in BE.
  pose proof (wet_coolant g d l r c G I) as WC. fold n in WC. split.
  - rewrite (column_formula g d an G rt vt n V), <- Qplus_assoc, (conv_column g d an n G NS V), BE. unfold outlet. change (nrow n) with r.
    destruct (coolant_at g l c) as [ch|].
    + destruct WC as (-> & N). cbn [andb]. destruct (r =? d_nrows d - 1)%Z; rewrite ?N; ring.
    + rewrite WC. cbn [andb]. ring.
  - set (ones := map (fun _ => 1%Q) (nodes g d)).
    assert (forall k, valid g d k -> qat ones (idx g d k) == 1)%Q as O by (intros k K; unfold ones; rewrite (qat_nodes g d G _ k K); reflexivity).
    pose proof (row_formula g d an G rt vt P ones n V) as RF. rewrite (heat_uniform g d G P an ones 1 n NS V O) in RF.
    unfold row_times in RF. rewrite (qsum_ext _ (fun i => coefficient (stored (map (col g d an) (nodes g d)) rt vt) (idx g d n) i)) in RF.
    + rewrite RF. unfold kb. rewrite BE. unfold inlet. change (nrow n) with r.
      destruct (coolant_at g l c) as [ch|].
      * destruct WC as (-> & N). cbn [andb]. destruct (r =? 0)%Z; rewrite ?N; ring.
      * rewrite WC. cbn [andb]. ring.
    + intros i Hi. apply in_zrange in Hi. destruct (node_of g d G i ltac:(lia)) as (k & K & <-). rewrite (O k K). ring.
Qed.
Print Assumptions C33_columns_partial.

(** ** C29: equilibrium *)
(** Nothing dissipated and everything at the temperature of the surroundings: the
    uniform vector solves the equations of the step. *)
Theorem C29_uniform_solves_partial : forall {PS} g d (s : sim sysmatrix PS) ps x0,
    assembled g d s -> good_sim d s -> no_plugin (s_pg s) -> no_single_row g d -> surroundings (s_pg s) x0 ->
    dissipates (s_pg s) d ps -> Forall (fun p => p == 0)%Q ps -> uniform x0 (s_temps s) ->
    solution (s_matrix s) (unknowns g d)
      (map (fun i => qat (pg_sources (s_pg s)) i + qat (pg_caps (s_pg s)) i / an_step (s_an s) * qat (s_temps s) i)%Q (zrange 0 (unknowns g d - 1)))
      (map (fun _ => x0) (zrange 0 (unknowns g d - 1))).
Proof.
  intros PS g d s ps x0 A GS NP NS SU D ZE U. pose proof (as_grid _ _ _ A) as G.
  assert (0 < unknowns g d) as N0 by (apply unknowns_pos; assumption).
  split; [rewrite map_length, zrange_length; lia|]. intros i I.
  assert (forall (f : Z -> Q) k, 0 <= k < unknowns g d -> qat (map f (zrange 0 (unknowns g d - 1))) k = f k) as QM.
  { intros f k K. unfold qat. rewrite (nth_indep _ 0%Q (f 0)) by (rewrite map_length; pose proof (zrange_length 0 (unknowns g d - 1)); lia).
    rewrite map_nth, nth_zrange by lia. reflexivity. }
  rewrite QM by assumption. destruct (node_of g d G i I) as (n & V & <-).
  rewrite (assembled_row g d s A _ n V).
  assert (an_type (s_an s) = AT_TRANSIENT) as TR by (destruct GS as (_ & _ & T & _); exact T).
  pose proof (zero_unpowered g d G s ps A NP D ZE) as UN.
  rewrite (uniform_row g d G (as_physical _ _ _ A) s s x0 n _ A NS UN SU TR V).
  - rewrite (caps_eq g d s A), (qat_nodes g d G _ n V). rewrite (U (idx g d n)) by (rewrite (cells_count g d s A GS); assumption). reflexivity.
  - intros k K. rewrite QM by (apply idx_range; assumption). reflexivity.
Qed.
Print Assumptions C29_uniform_solves_partial.

(** The simulation stays there, whatever the number of steps. *)
Theorem C29_stays_partial : forall {PS} solve plugin g d (s s' : sim sysmatrix PS) qs t x0,
    in_place solve plugin -> exact solve -> assembled g d s -> good_sim d s -> an_time (s_an s) = 0 -> queued (s_pg s) qs ->
    physical_flow g -> no_single_row g d -> no_plugin (s_pg s) -> surroundings (s_pg s) x0 ->
    history solve plugin d s t s' -> Forall went_well t -> small_queues (given qs t) -> Z.of_nat (steps_of t) < two32 ->
    zeros (given qs t) -> uniform x0 (s_temps s) -> uniform x0 (s_temps s').
Proof.
  intros PS solve plugin g d s s' qs t x0 IP EX A GS T0 Q FL NS NP SU H W SM B ZE U.
  pose proof (as_grid _ _ _ A) as G. pose proof (as_physical _ _ _ A) as P.
  apply (unpowered_history solve plugin IP EX g d G (s_pg s) (uniform x0)) with (s := s) (t := t) (L := an_slot_length (s_an s)) (n := 0) (tot := qs); try assumption.
  - intros u u' qu r Au Gu Qu SF E D UN. apply (step_uniform solve plugin IP EX g d G P u u' qu r x0); try assumption.
    apply (surroundings_same (s_pg s)); assumption.
  - apply at_start; assumption.
  - apply same_fields_refl.
Qed.
Print Assumptions C29_stays_partial.

(** ** C30: no spontaneous hot or cold spots *)
Theorem C30_between : forall {PS} solve plugin g d (s s' : sim sysmatrix PS) qs t lo hi,
    in_place solve plugin -> exact solve -> assembled g d s -> good_sim d s -> an_time (s_an s) = 0 -> queued (s_pg s) qs ->
    solid_stack g d -> no_plugin (s_pg s) -> ambient_between (s_pg s) lo hi ->
    history solve plugin d s t s' -> Forall went_well t -> small_queues (given qs t) -> Z.of_nat (steps_of t) < two32 ->
    zeros (given qs t) -> between lo hi (s_temps s) -> between lo hi (s_temps s').
Proof.
  intros PS solve plugin g d s s' qs t lo hi IP EX A GS T0 Q S NP AB H W SM B ZE U.
  pose proof (as_grid _ _ _ A) as G. pose proof (as_physical _ _ _ A) as P.
  apply (unpowered_history solve plugin IP EX g d G (s_pg s) (between lo hi)) with (s := s) (t := t) (L := an_slot_length (s_an s)) (n := 0) (tot := qs); try assumption.
  - intros u u' qu r Au Gu Qu SF E D UN. apply (step_between solve plugin IP EX g d G P u u' qu r lo hi); try assumption.
    destruct SF as (_ & _ & _ & _ & F5 & F6 & _). unfold ambient_between in *. rewrite F5, F6. assumption.
  - apply at_start; assumption.
  - apply same_fields_refl.
Qed.
Print Assumptions C30_between.

(** ** C31: more power never cools any cell *)
(** Two simulations of the same stack from the same temperatures; the values
    queued at the start and those inserted later are at least as large in the
    second; same calls. *)
Theorem C31_monotone : forall {PS} solve plugin g d (s s' u u' : sim sysmatrix PS) qs qu t tu,
    in_place solve plugin -> exact solve -> assembled g d s -> assembled g d u -> good_sim d s -> good_sim d u ->
    an_time (s_an s) = 0 -> s_an u = s_an s -> s_temps u = s_temps s -> same_fields (s_pg s) (s_pg u) ->
    queued (s_pg s) qs -> queued (s_pg u) qu -> at_most qs qu -> solid_stack g d -> no_plugin (s_pg s) ->
    history solve plugin d s t s' -> history solve plugin d u tu u' -> Forall2 more t tu ->
    Forall went_well t -> Forall went_well tu -> small_queues (given qs t) -> small_queues (given qu tu) -> Z.of_nat (steps_of t) < two32 ->
    cooler (s_temps s') (s_temps u').
Proof.
  intros PS solve plugin g d s s' u u' qs qu t tu IP EX A Au GS Gu T0 EA ET SF Q Qu AM S NP H Hu MO W Wu SM SMu B.
  pose proof (as_grid _ _ _ A) as G. pose proof (as_physical _ _ _ A) as P.
  apply (cooler_history solve plugin IP EX g d G P s t s' H u tu u' Hu MO (an_slot_length (s_an s)) 0 qs qu); try assumption.
  - apply at_start; assumption.
  - rewrite <- EA. apply at_start; [assumption|congruence|assumption].
  - rewrite EA. reflexivity.
  - split; [rewrite ET; reflexivity|]. intros i _. rewrite ET. apply Qle_refl.
Qed.
Print Assumptions C31_monotone.

(** ** C32: at most one solution *)
Lemma qat_forall2 : forall x y : list Q, Z.of_nat (length x) = Z.of_nat (length y) ->
    (forall i, 0 <= i < Z.of_nat (length x) -> (qat x i == qat y i)%Q) -> Forall2 Qeq x y.
Proof.
  induction x as [|a x IH]; intros [|b y] L H; try discriminate L; constructor.
  - apply (H 0). cbn [length]. lia.
  - apply IH; [cbn [length] in L; lia|]. intros i I. specialize (H (i + 1) ltac:(cbn [length]; lia)). unfold qat in *.
    replace (Z.to_nat (i + 1)) with (S (Z.to_nat i)) in H by lia. exact H.
Qed.
Theorem C32_unique : forall g d an m b x y, good_tgrid d g -> physical g d -> physical_flow g -> filled g d an m ->
    an_type an = AT_TRANSIENT -> (0 < an_step an)%Q ->
    solution m (unknowns g d) b x -> solution m (unknowns g d) b y -> Forall2 Qeq x y.
Proof.
  intros g d an m b x y G P FL (m0 & H1 & H2 & H3) TR ST (LX & X) (LY & Y).
  destruct (fill_stored g d an m0 m G H1 H2 H3) as (rt & vt & -> & _ & _).
  apply qat_forall2; [lia|]. intros i I. destruct (node_of g d G i ltac:(lia)) as (n & V & <-).
  apply (unique_temps g d an G P TR ST FL); [|exact V]. intros k K. pose proof (idx_range g d G k K) as R.
  rewrite <- !(row_formula g d an G rt vt P) by exact K. rewrite X, Y by exact R. reflexivity.
Qed.
Print Assumptions C32_unique.

(** ** Refutations and witnesses *)
(** Two layers of 20000 x 20000 cells: an accepted description. *)
Definition dbig : dims := mkDims 10 10 10 10 5 [2%Q; 1%Q] 2 20000 20000 800000000 200000 100000.
Lemma dbig_parsed : parse_dims 200000 100000 10 5 (Uniform 10) [2%Q; 1%Q] 0 = Ok (Some dbig).
Proof. vm_compute. reflexivity. Qed.
Lemma dbig_good : good_tgrid dbig gsolid.
Proof.
  constructor; try (cbn; lia); try discriminate; try (intros _; reflexivity).
  - unfold good_grid, dbig. cbn. unfold two32. repeat split; try lia; try reflexivity. left. repeat split; reflexivity.
  - constructor; cbn; unfold two32; lia.
  - split; [intros (s & h & m & E); discriminate E|discriminate].
  - intros l L. left. assert (l = 0 \/ l = 1) as [-> | ->] by (cbn in L; lia); cbn.
    + repeat split; try discriminate.
    + repeat split; try discriminate; intros; try reflexivity; exists 7%Q, 300%Q; reflexivity.
Qed.
Theorem C25_wrap_refuted : exists g d, good_tgrid d g /\ only_4rm g d /\
    parse_dims 200000 100000 10 5 (Uniform 10) [2%Q; 1%Q] 0 = Ok (Some d) /\
    forall an k m, fill_system_matrix (system_matrix_build (unknowns g d) (number_of_connections (d_nlayers d) (d_nrows d) (d_ncols d) k (model_of g) (spreader_of g))) g an d <> Ok m.
Proof.
  exists gsolid, dbig. split; [apply dbig_good|].
  assert (only_4rm gsolid dbig) as O.
  { split; [left; reflexivity|]. intros l L. left. cbn in L. assert (l = 0 \/ l = 1) as [-> | ->] by lia; reflexivity. }
  split; [exact O|]. split; [apply dbig_parsed|]. intros an k m. apply (C25_wrap_overflow gsolid dbig an k dbig_good O). vm_compute. discriminate.
Qed.
Print Assumptions C25_wrap_refuted.

(** A two-resistor channel between two layers. *)
Definition d2rm : dims := mkDims 10 10 10 10 5 [2%Q; 1%Q; 1%Q; 1%Q; 1%Q; 3%Q] 6 2 2 24 20 10.
Definition ch2rm : channel := get chcool (declare_channel (Decl2RM 1 4 6 wmat (3 # 1000000000000) 1 2 3 4 300) 20 2).
Definition g2rm : tgrid :=
  mkTgrid [LT_SOLID; LT_BOTTOM_WALL; LT_VWALL_CHANNEL; LT_CHANNEL_2RM; LT_TOP_WALL; LT_SOLID] (map wlayer (d_heights d2rm)) (Some ch2rm) None None.
Lemma g2rm_good : good_tgrid d2rm g2rm.
Proof.
  constructor; try (cbn; lia); try discriminate; try (intros _; reflexivity).
  - unfold good_grid, d2rm. cbn. unfold two32. repeat split; try lia; try reflexivity. left. repeat split; reflexivity.
  - constructor; cbn; unfold two32; lia.
  - split; [intros (s & h & m & E); discriminate E|discriminate].
  - intros (h & a & E). discriminate E.
  - intros H. exfalso. apply H. reflexivity.
  - assert (forall j l, (j < 4)%nat -> l = 1 + Z.of_nat j -> in_channel g2rm d2rm 1 j l) as IC.
    { intros j l J ->. exists ch2rm. split; [reflexivity|]. split; [reflexivity|]. split; [lia|]. split; [cbn; lia|]. split; [cbn; lia|].
      intros i t E. do 4 (destruct i as [|i]; [injection E as <-; split; reflexivity|]). destruct i; discriminate E. }
    intros l L. cbn in L. assert (l = 0 \/ l = 1 \/ l = 2 \/ l = 3 \/ l = 4 \/ l = 5) as [-> |[-> |[-> |[-> |[-> | ->]]]]] by lia.
    + left. cbn. repeat split; discriminate.
    + right. exists 1, 0%nat. apply IC; lia.
    + right. exists 1, 1%nat. apply IC; lia.
    + right. exists 1, 2%nat. apply IC; lia.
    + right. exists 1, 3%nat. apply IC; lia.
    + left. cbn. repeat split; discriminate.
Qed.
Theorem C25_two_resistor_refuted : exists g d, good_tgrid d g /\
    let nnz := number_of_connections (d_nlayers d) (d_nrows d) (d_ncols d) (channels_of g d) (model_of g) (spreader_of g) in
    forall an, exists m, fill_system_matrix (system_matrix_build (unknowns g d) nnz) g an d = Ok m /\ zat (sm_ptr m) (unknowns g d) <> nnz.
Proof.
  exists g2rm, d2rm. split; [apply g2rm_good|]. intros nnz an.
  destruct (C25_two_resistor_partial g2rm d2rm an g2rm_good ltac:(discriminate) ltac:(discriminate) ltac:(reflexivity)) as (m & F & E & _).
  exists m. split; [exact F|]. unfold nnz. rewrite E. vm_compute. discriminate.
Qed.
Print Assumptions C25_two_resistor_refuted.
Example C25_witness : good_tgrid wd gsolid /\ only_4rm gsolid wd /\ meant_4rm gsolid wd = 32.
Proof.
  split; [apply gsolid_good|]. split; [|reflexivity].
  split; [left; reflexivity|]. intros l L. left. exact (wsimm_solid l L).
Qed.

(** With one row of coolant cells equilibrium is not preserved: the cell is both
    inlet and outlet but receives only one of the two terms on its diagonal. *)
Definition xrow : list Q :=
  [10585039807367550 # 35283406612693; 622681435642650 # 2075494506629; 10585039807367550 # 35283406612693;
   10585051937647425 # 35283406612693; 10586558082690800 # 35283406612693; 10585051937647425 # 35283406612693;
   10585029735877800 # 35283406612693; 10585250905927800 # 35283406612693; 10585029735877800 # 35283406612693]%Q.
Theorem C29_single_row_refuted : exists solve g d (s s' : sim sysmatrix unit) r,
    in_place solve wplugin /\ exact solve /\ assembled g d s /\ good_sim d s /\ physical_flow g /\ no_plugin (s_pg s) /\ surroundings (s_pg s) 300 /\
    an_time (s_an s) = 0 /\ queued (s_pg s) [] /\ uniform 300 (s_temps s) /\
    emulate_step solve wplugin d s = Ok (r, s') /\ done r /\ ~ uniform 300 (s_temps s').
Proof.
  exists (guess [xrow]), gcool, (dcool 1), (scool 1 (repeat 0%Q 9) (repeat 300%Q 9)).
  destruct (emulate_step (guess [xrow]) wplugin (dcool 1) (scool 1 (repeat 0%Q 9) (repeat 300%Q 9))) as [[r s']| |] eqn:E; [|vm_compute in E; discriminate|vm_compute in E; discriminate].
  exists s', r. split; [apply guess_in_place|]. split; [apply guess_exact|]. split; [apply scool_assembled; auto|]. split; [apply scool_good; auto|]. split; [apply gcool_flow|].
  split; [discriminate|]. split; [split; [intros h a X; injection X as _ <-; reflexivity|split; [discriminate|intros ch X; injection X as <-; reflexivity]]|].
  split; [reflexivity|]. split; [constructor|]. split.
  { intros i I. cbn in I. assert (i = 0 \/ i = 1 \/ i = 2 \/ i = 3 \/ i = 4 \/ i = 5 \/ i = 6 \/ i = 7 \/ i = 8) as X by lia.
    repeat (destruct X as [-> | X]; [reflexivity|]). subst. reflexivity. }
  split; [reflexivity|]. vm_compute in E. injection E as <- <-. split; [right; reflexivity|].
  intros U. specialize (U 4 ltac:(cbn; lia)). vm_compute in U. discriminate U.
Qed.
Print Assumptions C29_single_row_refuted.

Definition qq (a b : Q) : queue := q_put (q_put q_empty a) b.
Lemma qq_rep : forall a b, qrep (qq a b) [a; b].
Proof. intros. apply (q_put_rep _ [a]); [apply (q_put_rep _ []); [apply q_empty_rep|]|]; unfold two32; cbn; lia. Qed.

(** Two steps of a solid chip with power: temperatures before, between, after;
    without power likewise. *)
Definition h2 : list Q := [305; 306; 305; 306; 304; 305; 305; 304]%Q.
Definition h1 : list Q := [317129 # 1050; 319121 # 1050; 105243 # 350; 320521 # 1050; 47413 # 150; 16049 # 50; 9713 # 30; 15673 # 50]%Q.
Definition h0 : list Q :=
  [152459659 # 551250; 152065091 # 551250; 144264059 # 551250; 160143091 # 551250; 16245136 # 39375; 17546533 # 39375; 6235814 # 13125; 15138659 # 39375]%Q.
Definition z1 : list Q := [317129 # 1050; 319121 # 1050; 105243 # 350; 320521 # 1050; 47419 # 150; 16057 # 50; 48571 # 150; 15673 # 50]%Q.
Definition z0 : list Q :=
  [152430259 # 551250; 151947491 # 551250; 144234659 # 551250; 160143091 # 551250; 32516543 # 78750; 35200607 # 78750; 12480469 # 26250; 30275743 # 78750]%Q.
Definition sone (start : list Q) (a b c e : Q) : sim sysmatrix unit := wsimm (qq a b) (qq c e) (repeat 0%Q 8) start 2.
Lemma sone_queued : forall h a b c e, queued (s_pg (sone h a b c e)) [[a; b]; [c; e]].
Proof. intros. constructor; [apply qq_rep|]. constructor; [apply qq_rep|]. constructor. Qed.
Lemma two_small : forall a b c e : Q, small_queues [[a; b]; [c; e]].
Proof. intros. constructor; [|constructor; [|constructor]]; unfold two32; cbn; lia. Qed.
Definition next solve (d : dims) (s : sim sysmatrix unit) : sim sysmatrix unit :=
  match emulate_step solve wplugin d s with Ok p => snd p | _ => s end.
Definition answer_of solve (d : dims) (s : sim sysmatrix unit) : option simresult :=
  match emulate_step solve wplugin d s with Ok p => Some (fst p) | _ => None end.
Lemma next_ok : forall solve d s r, answer_of solve d s = Some r -> emulate_step solve wplugin d s = Ok (r, next solve d s).
Proof.
  intros solve d s r H. unfold answer_of, next in *. destruct (emulate_step solve wplugin d s) as [[r' s']| |]; try discriminate. cbn in *. congruence.
Qed.

Example C28_witness : exists solve s t s1 r s2,
    in_place solve wplugin /\ exact solve /\ assembled gsolid wd s /\ good_sim wd s /\ an_time (s_an s) = 0 /\ queued (s_pg s) [[4; 6]; [8; 10]]%Q /\
    solid_stack gsolid wd /\ history solve wplugin wd s t s1 /\ Forall went_well t /\ small_queues (given [[4; 6]; [8; 10]]%Q t) /\
    Z.of_nat (steps_of t) + 1 < two32 /\ emulate_step solve wplugin wd s1 = Ok (r, s2) /\ done r /\ steps_of t = 1%nat /\
    ~ (heat_content s2 - heat_content s1 == 0)%Q.
Proof.
  set (sv := guess [h1; h2]). set (s0 := sone h0 4 6 8 10).
  exists sv, s0, [Stepped TDICE_STEP_DONE], (next sv wd s0), TDICE_SLOT_DONE, (next sv wd (next sv wd s0)).
  split; [apply guess_in_place|]. split; [apply guess_exact|]. split; [apply wsimm_assembled|].
  split; [apply wsimm_good; try reflexivity; unfold two32; lia|]. split; [reflexivity|]. split; [apply sone_queued|]. split; [apply wsimm_solid|].
  split; [eapply H_step; [apply next_ok; vm_compute; reflexivity|constructor]|].
  split; [constructor; [left; reflexivity|constructor]|]. split; [apply two_small|]. split; [reflexivity|].
  split; [apply next_ok; vm_compute; reflexivity|]. split; [right; reflexivity|]. split; [reflexivity|]. vm_compute. discriminate.
Qed.

(** The same chip without power. *)
Example C30_witness : exists solve s t s',
    exact solve /\ assembled gsolid wd s /\ good_sim wd s /\ an_time (s_an s) = 0 /\ queued (s_pg s) [[0; 0]; [0; 0]]%Q /\
    no_plugin (s_pg s) /\ ambient_between (s_pg s) 200 500 /\ history solve wplugin wd s t s' /\ Forall went_well t /\ steps_of t = 2%nat /\
    small_queues (given [[0; 0]; [0; 0]]%Q t) /\ zeros (given [[0; 0]; [0; 0]]%Q t) /\ between 200 500 (s_temps s).
Proof.
  set (sv := guess [z1; h2]). set (s0 := sone z0 0 0 0 0).
  exists sv, s0, [Stepped TDICE_STEP_DONE; Stepped TDICE_SLOT_DONE], (next sv wd (next sv wd s0)).
  split; [apply guess_exact|]. split; [apply wsimm_assembled|]. split; [apply wsimm_good; try reflexivity; unfold two32; lia|]. split; [reflexivity|]. split; [apply sone_queued|].
  split; [discriminate|]. split; [split; [intros h a E; injection E as _ <-; split; vm_compute; discriminate|intros k E; injection E as <-; split; vm_compute; discriminate]|].
  split; [eapply H_step; [apply next_ok; vm_compute; reflexivity|]; eapply H_step; [apply next_ok; vm_compute; reflexivity|constructor]|].
  split; [constructor; [left; reflexivity|constructor; [right; reflexivity|constructor]]|]. split; [reflexivity|]. split; [apply two_small|].
  split; [unfold zeros; cbn; repeat constructor; reflexivity|].
  intros i I. cbn in I. assert (i = 0 \/ i = 1 \/ i = 2 \/ i = 3 \/ i = 4 \/ i = 5 \/ i = 6 \/ i = 7) as X by lia.
  repeat (destruct X as [-> | X]; [split; vm_compute; discriminate|]). subst. split; vm_compute; discriminate.
Qed.

(** Two runs, the second with more power in one element; it is warmer somewhere. *)
Definition hot : list Q := [300; 301; 302; 303; 304; 305; 306; 307]%Q.
Definition cold1 : list Q :=
  [195941950385521841876349 # 645662003187787286240; 196223216734813726968099 # 645662003187787286240;
   196453406312590502471349 # 645662003187787286240; 196728709244837357685099 # 645662003187787286240;
   97432840663502407656183 # 322831001593893643120; 97531719857787611708073 # 322831001593893643120;
   97606590404347017581013 # 322831001593893643120; 97697708637306475605963 # 322831001593893643120]%Q.
Definition warm1 : list Q :=
  [195941958498228832927011 # 645662003187787286240; 196224017930634022371261 # 645662003187787286240;
   98226703556644204338693 # 322831001593893643120; 98364378850758969754443 # 322831001593893643120;
   779462758005551219303001 # 2582648012751149144960; 780261746021943673387431 # 2582648012751149144960;
   780852725406916726110471 # 2582648012751149144960; 781581864771377465952441 # 2582648012751149144960]%Q.
Example C31_witness : exists solve s s' u u' t,
    exact solve /\ assembled gsolid wd s /\ assembled gsolid wd u /\ good_sim wd s /\ good_sim wd u /\ s_an u = s_an s /\ s_temps u = s_temps s /\
    same_fields (s_pg s) (s_pg u) /\ queued (s_pg s) [[4; 6]; [8; 10]]%Q /\ queued (s_pg u) [[4; 6]; [9; 10]]%Q /\
    at_most [[4; 6]; [8; 10]]%Q [[4; 6]; [9; 10]]%Q /\ history solve wplugin wd s t s' /\ history solve wplugin wd u t u' /\ Forall2 more t t /\
    Forall went_well t /\ (at_cell wd (s_temps s') 1 0 1 < at_cell wd (s_temps u') 1 0 1)%Q.
Proof.
  set (sv := guess [cold1; warm1]). set (s0 := sone hot 4 6 8 10). set (u0 := sone hot 4 6 9 10).
  exists sv, s0, (next sv wd s0), u0, (next sv wd u0), [Stepped TDICE_STEP_DONE].
  split; [apply guess_exact|]. split; [apply wsimm_assembled|]. split; [apply wsimm_assembled|].
  split; [apply wsimm_good; try reflexivity; unfold two32; lia|]. split; [apply wsimm_good; try reflexivity; unfold two32; lia|].
  split; [reflexivity|]. split; [reflexivity|]. split; [unfold same_fields; repeat (split; [reflexivity|]); reflexivity|].
  split; [apply sone_queued|]. split; [apply sone_queued|].
  split; [repeat constructor; vm_compute; discriminate|].
  split; [eapply H_step; [apply next_ok; vm_compute; reflexivity|constructor]|].
  split; [eapply H_step; [apply next_ok; vm_compute; reflexivity|constructor]|].
  split; [constructor; [exact I|constructor]|]. split; [constructor; [left; reflexivity|constructor]|]. vm_compute. reflexivity.
Qed.

(** Coolant: at equilibrium. *)
Definition x300 : list Q := repeat 300%Q 18.
Example C29_witness : exists solve s t s',
    in_place solve wplugin /\ exact solve /\ assembled gcool (dcool 2) s /\ good_sim (dcool 2) s /\ an_time (s_an s) = 0 /\ queued (s_pg s) [] /\
    physical_flow gcool /\ no_single_row gcool (dcool 2) /\ no_plugin (s_pg s) /\ surroundings (s_pg s) 300 /\
    history solve wplugin (dcool 2) s t s' /\ Forall went_well t /\ small_queues (given [] t) /\ steps_of t = 1%nat /\ zeros (given [] t) /\ uniform 300 (s_temps s).
Proof.
  set (sv := guess [x300]). set (s0 := scool 2 (repeat 0%Q 18) x300). exists sv, s0, [Stepped TDICE_SLOT_DONE], (next sv (dcool 2) s0).
  split; [apply guess_in_place|]. split; [apply guess_exact|]. split; [apply scool_assembled; auto|]. split; [apply scool_good; auto|].
  split; [reflexivity|]. split; [constructor|]. split; [apply gcool_flow|]. split; [left; vm_compute; discriminate|]. split; [discriminate|].
  split; [split; [intros h a X; injection X as _ <-; reflexivity|split; [discriminate|intros ch X; injection X as <-; reflexivity]]|].
  split; [eapply H_step; [apply next_ok; vm_compute; reflexivity|constructor]|]. split; [constructor; [right; reflexivity|constructor]|].
  split; [constructor|]. split; [reflexivity|]. split; [constructor|].
  intros i I. change (length (s_temps s0)) with 18%nat in I. unfold qat. change (s_temps s0) with (repeat 300%Q 18).
  assert (nth (Z.to_nat i) (repeat 300 18) 0 = 300)%Q as ->; [|reflexivity].
  rewrite (nth_indep _ 0%Q 300%Q) by (rewrite repeat_length; lia). apply nth_repeat.
Qed.

(** Coolant in a heated chip. *)
Definition c1 : list Q := [310; 310; 310; 310; 310; 310; 310; 305; 310; 310; 308; 310; 306; 305; 306; 306; 305; 306]%Q.
Definition c0 : list Q :=
  [310; 313; 310; 310; 1556 # 5; 310; 935 # 3; 12786091 # 42000; 935 # 3; 32716 # 105; 4312307 # 14000; 32716 # 105;
   322571 # 1050; 138107 # 450; 322571 # 1050; 322571 # 1050; 275539 # 900; 322571 # 1050]%Q.
Example C33_witness : exists solve s s2 r,
    exact solve /\ assembled gcool (dcool 2) s /\ good_sim (dcool 2) s /\ an_time (s_an s) = 0 /\ queued (s_pg s) [] /\ no_single_row gcool (dcool 2) /\
    emulate_step solve wplugin (dcool 2) s = Ok (r, s2) /\ done r /\
    ~ (enthalpy_out (dcool 2) s2 - enthalpy_in (dcool 2) s2 == 0)%Q /\ ~ (heat_content s2 - heat_content s == 0)%Q.
Proof.
  set (sv := guess [c1]). set (s0 := scool 2 (repeat 0%Q 18) c0). exists sv, s0, (next sv (dcool 2) s0), TDICE_SLOT_DONE.
  split; [apply guess_exact|].
  split; [apply scool_assembled; auto|]. split; [apply scool_good; auto|]. split; [reflexivity|]. split; [constructor|].
  split; [left; vm_compute; discriminate|]. split; [apply next_ok; vm_compute; reflexivity|]. split; [right; reflexivity|]. split; vm_compute; discriminate.
Qed.
