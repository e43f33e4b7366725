(** * C60: temperatures of stacks of solids on the non-uniform grid *)
From Coq Require Import ZArith List Bool QArith Lia ZifyBool Lqa Qminmax Permutation.
From Verif Require Import Base QSum DList Dims DimsSpec DimsProofs Queue QueueProofs Floorplan FloorplanSpec FloorplanProofs Stack StackSpec StackProofs PowerGrid Emulate EmulateSpec Conduct Matrix MatrixSpec BalanceSpec CellProofs LayerProofs NodeProofs NetProofs NonUniform NuParallel NuParProofs NuSpec NuCountProofs NuPositionProofs NuGridProofs NuPairProofs NuTouchProofs NuMatrix NuMatrixSpec NuMatrixProofs NuTableProofs NuCoeffProofs NuLeaveProofs NuSource NuSourceSpec NuSourceProofs NuStepProofs PropNonUniform PropNuGrid PropNuMatrix PropNuSource NuEmulate NuRunSpec NuFlatProofs NuRunProofs SimWitness MatrixWitness NuMini PropNuRun NuSolidSpec NuSolidProofs.
Import ListNotations.
Local Open Scope Z_scope.

(** ** The matrix *)
Theorem C60_matrix : forall g d an cells cs m a, solid_network g d an cells cs m a -> let n := Z.of_nat (length cells) in
    (forall i j, 0 <= i < n -> 0 <= j < n -> i <> j ->
       (coefficient m i j == coefficient m j i)%Q /\ (coefficient m i j <= 0)%Q /\
       ((coefficient m i j < 0)%Q <-> exists k, In k cs /\ (k_node1 k = i /\ k_node2 k = j \/ k_node1 k = j /\ k_node2 k = i))) /\
    (forall i, 0 <= i < n -> (qsum (map (fun j => coefficient m i j) (zrange 0 (n - 1))) == stored_rate g d an (at_cell cells i) + to_air g d (at_cell cells i))%Q).
Proof.
  intros g d an cells cs m a SL n. split.
  - intros i j I J NE. destruct (pair_facts g d an cells cs m a SL i j I J NE) as (P1 & P2 & P3). split; [exact P1|]. split; [exact P2|]. split; [|exact P3]. intros NEG. destruct (joined_dec cells cs i j) as [X|NO]; [exact X|exfalso].
    assert (U : (coefficient m i j == 0)%Q); [|lra]. pose proof (sl_network _ _ _ _ _ _ _ SL) as NW. apply (coefficient_unconnected g d an cells cs m (nw_conns _ _ _ _ _ _ NW) (nw_matrix _ _ _ _ _ _ NW)); [exact J|exact NE|]. intros k IK. specialize (NO k IK). unfold joins in NO. split; intros E; injection E; intros; apply NO; lia.
  - intros i I. eapply Qeq_trans; [exact (row_sums g d an cells cs m a SL i I)|exact (b_split g d an cells cs m a SL i)].
Qed.
Print Assumptions C60_matrix.

(** At most one solution, and less heat gives lower temperatures. *)
Definition determined (d : dims) (an : analysis) (cells : list cell) (cs : list conn) : Prop :=
  an_type an = AT_TRANSIENT /\ (0 < an_step an)%Q \/ an_type an = AT_STEADY /\ (forall i, 0 <= i < Z.of_nat (length cells) -> cooled d cells cs i).
Theorem C60_unique : forall g d an cells cs m a b x x', solid_network g d an cells cs m a -> determined d an cells cs ->
    let n := Z.of_nat (length cells) in solution m n b x -> solution m n b x' -> forall i, 0 <= i < n -> (qat x i == qat x' i)%Q.
Proof.
  intros g d an cells cs m a b x x' SL U n S S' i I. apply Qle_antisym; eapply (solid_compare g d an cells cs m a SL U b b); eauto; intros; apply Qle_refl.
Qed.
Print Assumptions C60_unique.

(** ** Simulations *)
Lemma share_zero : forall els ps k, Forall (fun p => p == 0)%Q ps -> (share els ps k == 0)%Q.
Proof.
  intros els. induction els as [|e els IH]; intros ps k H; destruct ps as [|p ps]; try reflexivity. inversion H; subst. cbn [share]. destruct (k <? pieces e)%nat; [rewrite H2; unfold Qdiv; ring|apply IH; assumption].
Qed.
Lemma share_le : forall els ps ps' k, Forall2 Qle ps ps' -> (share els ps k <= share els ps' k)%Q.
Proof.
  intros els. induction els as [|e els IH]; intros ps ps' k H; inversion H as [|p p' r r' P R]; subst; cbn [share]; try apply Qle_refl. destruct (k <? pieces e)%nat; [|apply IH; assumption].
  unfold Qdiv. apply Qmult_le_compat_r; [exact P|]. apply Qinv_le_0_compat. unfold qz, Qle. cbn. lia.
Qed.
Lemma share_nonneg : forall els ps k, Forall (Qle 0) ps -> (0 <= share els ps k)%Q.
Proof.
  intros els. induction els as [|e els IH]; intros ps k H; destruct ps as [|p ps]; try apply Qle_refl. inversion H; subst. cbn [share]. destruct (k <? pieces e)%nat; [|apply IH; assumption].
  unfold Qdiv. apply Qmult_le_0_compat; [assumption|]. apply Qinv_le_0_compat. unfold qz, Qle. cbn. lia.
Qed.
Lemma nth_slot : forall (P : Q -> Prop) vs slot n, P 0%Q -> Forall (Forall P) vs -> Forall P (slot_powers slot n vs).
Proof.
  intros P vs slot n Z0 H. unfold slot_powers. induction H as [|q vs HQ H IH]; cbn [map]; constructor; [|exact IH].
  set (k := (n / Z.to_nat slot)%nat). clearbody k. revert k. induction HQ as [|p q HP HQ IHq]; intros [|k]; cbn; auto.
Qed.
Lemma nth_slot2 : forall vs vs' slot n, at_most vs vs' -> Forall2 Qle (slot_powers slot n vs) (slot_powers slot n vs').
Proof.
  intros vs vs' slot n H. unfold slot_powers. induction H as [|q q' vs vs' HQ H IH]; cbn [map]; constructor; [|exact IH].
  set (k := (n / Z.to_nat slot)%nat). clearbody k. revert k. induction HQ as [|p p' q q' HP HQ IHq]; intros [|k]; cbn; auto; apply Qle_refl.
Qed.
Lemma head_now : forall (P : Q -> Prop) vs, Forall (fun q => q <> []) vs -> Forall (Forall P) vs -> Forall P (powers_now vs).
Proof. intros P vs NE H. unfold powers_now. induction H as [|q vs HQ H IH]; cbn [map]; constructor; inversion NE; subst; [destruct HQ; [congruence|assumption]|apply IH; assumption]. Qed.
Lemma head_now2 : forall vs vs', at_most vs vs' -> Forall2 Qle (powers_now vs) (powers_now vs').
Proof. intros vs vs' H. unfold powers_now. induction H as [|q q' vs vs' HQ H IH]; cbn [map]; constructor; [|exact IH]. destruct HQ; [apply Qle_refl|assumption]. Qed.
Lemma same_cut_pieces : forall pg pg' l, same_cut pg pg' -> map pieces (flp_at pg l) = map pieces (flp_at pg' l).
Proof.
  intros pg pg' l H. specialize (H l). revert H. generalize (flp_at pg l) (flp_at pg' l). intros els. induction els as [|e els IH]; intros [|e' els'] H; try discriminate; [reflexivity|]. cbn [map] in *. injection H as H1 H2 H3. rewrite (IH els' H3). f_equal. unfold pieces. congruence.
Qed.

(** The heat of a cell of a solid stack: its share of the power and the air. *)
Section Heat.
  Variables (g : tgrid) (d : dims) (an : analysis) (hs : list Q) (G : list nlayer) (cs : list conn) (m : sysmatrix) (a : Q) (pg : npgrid).
  Hypothesis SL : solid_network g d an (np_cells pg) cs m a.
  Hypothesis GE : np_grid pg = g.
  Hypothesis CN : np_cells pg = number hs 0 G.
  Definition share_at (ps : nat -> list Q) (l k : nat) : Q := if is_source (type_of g (Z.of_nat l)) then share (flp_at pg l) (ps l) k else 0%Q.
  Lemma solid_heat : forall ps l k, (l < length G)%nat -> (k < length (layer_block G l))%nat ->
      (heat_of pg d hs G ps l k == share_at ps l k + a * to_air g d (at_cell (np_cells pg) (first_cell G l + Z.of_nat k)))%Q.
  Proof.
    intros ps l k L K. rewrite CN, at_grid_cell by assumption. unfold heat_of. rewrite GE. rewrite (air_heat g d an (np_cells pg) cs m a SL). unfold from_board, from_inlet. rewrite (sl_bottom _ _ _ _ _ _ _ SL), (sl_channel _ _ _ _ _ _ _ SL). unfold share_at. ring.
  Qed.
End Heat.

Section Run.
  Context {PS : Type}.
  Variable solve : sysmatrix -> list Q -> error_t * list Q.
  Variable plugin : PS -> list Q -> list Q -> bool * list Q * PS.
  Hypothesis IP : in_place solve plugin.
  Hypothesis EX : exact solve.
  Variables (g : tgrid) (d : dims) (hs : list Q) (G : list nlayer) (cs : list conn) (qs : nat -> list (list Q)) (s0 : nsim PS) (a : Q).
  Hypothesis ST : nu_start g d hs G cs qs s0.
  Hypothesis SL : solid_network g d (n_an s0) (np_cells (n_pg s0)) cs (n_matrix s0) a.
  Let cells := np_cells (n_pg s0).
  Let N := Z.of_nat (length cells).
  Definition slots (n : nat) : nat -> list Q := fun l => slot_powers (an_slot_length (n_an s0)) n (qs l).

  (** The equations of a step. *)
  Lemma solid_step : forall n s r s', nu_steps solve plugin d n s0 s -> Z.of_nat n + 1 < two32 -> nu_emulate_step solve plugin d s = Ok (r, s') -> went_on r ->
      length (n_temps s) = length cells /\ length (n_temps s') = length cells /\
      exists b, solution (n_matrix s0) N b (n_temps s') /\
        forall i, 0 <= i < N -> exists l k, (l < length G)%nat /\ (k < length (layer_block G l))%nat /\ i = first_cell G l + Z.of_nat k /\
          (qat b i == share_at g (n_pg s0) (slots n) l k + a * to_air g d (at_cell cells i) + stored_rate g d (n_an s0) (at_cell cells i) * qat (n_temps s) i)%Q.
  Proof.
    intros n s r s' H B E W. pose proof (steps_running solve plugin IP EX g d hs G cs qs s0 ST n s H ltac:(lia)) as RN. destruct (step_spec solve plugin IP EX g d hs G cs qs s0 ST n s r s' RN B E W) as (RN' & _ & V & b & SOL & BV).
    split; [exact (rn_temps _ _ _ _ _ _ _ _ RN)|]. split; [exact (rn_temps _ _ _ _ _ _ _ _ RN')|]. exists b. split; [exact SOL|]. intros i I.
    pose proof (st_ready _ _ _ _ _ _ _ ST) as R. pose proof (rd_cells _ _ _ _ _ R) as CN. destruct (place G i) as (l & k & L & K & EI); [unfold N, cells in I; rewrite CN, number_length in I; exact I|]. exists l, k. split; [exact L|]. split; [exact K|]. split; [exact EI|].
    assert (LG : length G = length (tg_types g)). { rewrite <- (st_grid _ _ _ _ _ _ _ ST). apply (rd_air _ _ _ _ _ R). rewrite (st_grid _ _ _ _ _ _ _ ST). destruct (sl_top _ _ _ _ _ _ _ SL) as (h & T). exists h, a. exact T. }
    rewrite BV by exact I. rewrite EI at 1. rewrite V by (exact K || lia). rewrite (solid_heat g d (n_an s0) hs G cs (n_matrix s0) a (n_pg s0) SL (st_grid _ _ _ _ _ _ _ ST) CN) by assumption. rewrite <- EI.
    rewrite (start_caps g d hs G cs qs s0 ST i I). unfold stored_rate. rewrite (st_type _ _ _ _ _ _ _ ST). reflexivity.
  Qed.
  Lemma start_determined : determined d (n_an s0) cells cs.
  Proof. left. split; [exact (st_type _ _ _ _ _ _ _ ST)|exact (st_step _ _ _ _ _ _ _ ST)]. Qed.
  Lemma stored_pos : forall i, 0 <= i < N -> (0 < stored_rate g d (n_an s0) (at_cell cells i))%Q.
  Proof. intros i I. unfold stored_rate. rewrite (st_type _ _ _ _ _ _ _ ST). apply div_pos; [apply (capacity_pos g d (n_an s0) cells cs (n_matrix s0) a SL); exact I|exact (st_step _ _ _ _ _ _ _ ST)]. Qed.

  Lemma warm_step : forall n s r s' lo, (lo <= a)%Q -> (forall l, Forall (Qle 0) (slots n l)) -> nu_steps solve plugin d n s0 s -> Z.of_nat n + 1 < two32 -> nu_emulate_step solve plugin d s = Ok (r, s') -> went_on r ->
      (forall i, 0 <= i < N -> (lo <= qat (n_temps s) i)%Q) -> forall i, 0 <= i < N -> (lo <= qat (n_temps s') i)%Q.
  Proof.
    intros n s r s' lo LA NN H B E W P i I. destruct (solid_step n s r s' H B E W) as (_ & _ & b & SOL & BV). apply (solid_above g d (n_an s0) cells cs (n_matrix s0) a SL start_determined b (n_temps s') lo SOL); [|exact I].
    clear i I. intros i I. destruct (BV i I) as (l & k & _ & _ & _ & ->). rewrite (b_split g d (n_an s0) cells cs (n_matrix s0) a SL i).
    assert (S : (0 <= share_at g (n_pg s0) (slots n) l k)%Q) by (unfold share_at; destruct (is_source _); [apply share_nonneg; apply NN|lra]).
    destruct (air_nonneg g d (n_an s0) cells cs (n_matrix s0) a SL i I) as (A & _). pose proof (stored_pos i I) as SP. specialize (P i I).
    assert (0 <= to_air g d (at_cell cells i) * (a - lo))%Q by (apply Qmult_le_0_compat; lra). assert (0 <= stored_rate g d (n_an s0) (at_cell cells i) * (qat (n_temps s) i - lo))%Q by (apply Qmult_le_0_compat; lra). lra.
  Qed.
  Lemma cool_step : forall n s r s' hi, (a <= hi)%Q -> (forall l, Forall (fun p => p == 0)%Q (slots n l)) -> nu_steps solve plugin d n s0 s -> Z.of_nat n + 1 < two32 -> nu_emulate_step solve plugin d s = Ok (r, s') -> went_on r ->
      (forall i, 0 <= i < N -> (qat (n_temps s) i <= hi)%Q) -> forall i, 0 <= i < N -> (qat (n_temps s') i <= hi)%Q.
  Proof.
    intros n s r s' hi LA NN H B E W P i I. destruct (solid_step n s r s' H B E W) as (_ & _ & b & SOL & BV). apply (solid_below g d (n_an s0) cells cs (n_matrix s0) a SL start_determined b (n_temps s') hi SOL); [|exact I].
    clear i I. intros i I. destruct (BV i I) as (l & k & _ & _ & _ & ->). rewrite (b_split g d (n_an s0) cells cs (n_matrix s0) a SL i).
    assert (S : (share_at g (n_pg s0) (slots n) l k == 0)%Q) by (unfold share_at; destruct (is_source _); [apply share_zero; apply NN|reflexivity]).
    destruct (air_nonneg g d (n_an s0) cells cs (n_matrix s0) a SL i I) as (A & _). pose proof (stored_pos i I) as SP. specialize (P i I).
    assert (0 <= to_air g d (at_cell cells i) * (hi - a))%Q by (apply Qmult_le_0_compat; lra). assert (0 <= stored_rate g d (n_an s0) (at_cell cells i) * (hi - qat (n_temps s) i))%Q by (apply Qmult_le_0_compat; lra). lra.
  Qed.
  Lemma run_length : forall n s, nu_steps solve plugin d n s0 s -> Z.of_nat n < two32 -> length (n_temps s) = length cells.
  Proof. intros n s H B. exact (rn_temps _ _ _ _ _ _ _ _ (steps_running solve plugin IP EX g d hs G cs qs s0 ST n s H B)). Qed.
End Run.

(** Without power, no cell becomes hotter or colder than all of the cells and the
    air were. *)
Theorem C60_between : forall {PS} solve (plugin : PS -> list Q -> list Q -> bool * list Q * PS) g d hs G cs qs (s0 s : nsim PS) n a lo hi,
    in_place solve plugin -> exact solve -> nu_start g d hs G cs qs s0 -> solid_network g d (n_an s0) (np_cells (n_pg s0)) cs (n_matrix s0) a ->
    (forall l, BalanceSpec.zeros (qs l)) -> (lo <= a <= hi)%Q -> between lo hi (n_temps s0) ->
    nu_steps solve plugin d n s0 s -> Z.of_nat n < two32 -> between lo hi (n_temps s).
Proof.
  intros PS solve plugin g d hs G cs qs s0 s n a lo hi IP EX ST SL Z0 (LO & HI) BW H. pose proof (st_temps _ _ _ _ _ _ _ ST) as L0. remember s0 as s1 eqn:E1 in H at 1. revert E1. induction H as [|n sx r s1' s2 H IH E W]; intros -> B; [exact BW|].
  specialize (IH eq_refl ltac:(lia)). pose proof (run_length solve plugin IP EX g d hs G cs qs s0 ST n s1' H ltac:(lia)) as L1. pose proof (run_length solve plugin IP EX g d hs G cs qs s0 ST (Datatypes.S n) s2 (NS_step _ _ _ _ _ _ _ _ H E W) ltac:(lia)) as L2.
  assert (ZS : forall l, Forall (fun p => p == 0)%Q (slots qs s0 n l)) by (intros l; apply nth_slot; [reflexivity|apply Z0]).
  intros i I. rewrite L2 in I. unfold between in IH. rewrite L1 in IH. split.
  - apply (warm_step solve plugin IP EX g d hs G cs qs s0 a ST SL n s1' r s2 lo LO) with (2 := H); auto; [|lia|intros j J; apply IH; exact J].
    intros l. specialize (ZS l). eapply Forall_impl; [|exact ZS]. cbn. intros p P. lra.
  - apply (cool_step solve plugin IP EX g d hs G cs qs s0 a ST SL n s1' r s2 hi HI) with (2 := H); auto; [lia|intros j J; apply IH; exact J].
Qed.
Print Assumptions C60_between.
Theorem C60_stays : forall {PS} solve (plugin : PS -> list Q -> list Q -> bool * list Q * PS) g d hs G cs qs (s0 s : nsim PS) n a,
    in_place solve plugin -> exact solve -> nu_start g d hs G cs qs s0 -> solid_network g d (n_an s0) (np_cells (n_pg s0)) cs (n_matrix s0) a ->
    (forall l, BalanceSpec.zeros (qs l)) -> uniform a (n_temps s0) -> nu_steps solve plugin d n s0 s -> Z.of_nat n < two32 -> uniform a (n_temps s).
Proof.
  intros PS solve plugin g d hs G cs qs s0 s n a IP EX ST SL Z0 U H B i I. assert (BW : between a a (n_temps s0)) by (intros j J; rewrite (U j J); split; apply Qle_refl).
  destruct (C60_between solve plugin g d hs G cs qs s0 s n a a a IP EX ST SL Z0 (conj (Qle_refl a) (Qle_refl a)) BW H B i I). apply Qle_antisym; assumption.
Qed.
Print Assumptions C60_stays.
(** With power values that are not negative, no cell cools below the air and the
    coldest cell at the start. *)
Theorem C60_warm : forall {PS} solve (plugin : PS -> list Q -> list Q -> bool * list Q * PS) g d hs G cs qs (s0 s : nsim PS) n a lo,
    in_place solve plugin -> exact solve -> nu_start g d hs G cs qs s0 -> solid_network g d (n_an s0) (np_cells (n_pg s0)) cs (n_matrix s0) a ->
    (forall l, Forall (Forall (Qle 0)) (qs l)) -> (lo <= a)%Q -> Forall (Qle lo) (n_temps s0) ->
    nu_steps solve plugin d n s0 s -> Z.of_nat n < two32 -> Forall (Qle lo) (n_temps s).
Proof.
  intros PS solve plugin g d hs G cs qs s0 s n a lo IP EX ST SL Z0 LO BW H. pose proof (st_temps _ _ _ _ _ _ _ ST) as L0.
  assert (FI : forall x, Forall (Qle lo) x <-> forall i, 0 <= i < Z.of_nat (length x) -> (lo <= qat x i)%Q).
  { intros x. rewrite Forall_forall. split; [intros F i I; apply F; unfold qat; apply nth_In; lia|]. intros F y I. apply (In_nth _ _ 0%Q) in I. destruct I as (j & J & <-). specialize (F (Z.of_nat j) ltac:(lia)). unfold qat in F. rewrite Nat2Z.id in F. exact F. }
  remember s0 as s1 eqn:E1 in H at 1. revert E1. induction H as [|n sx r s1' s2 H IH E W]; intros -> B; [exact BW|].
  specialize (IH eq_refl ltac:(lia)). pose proof (run_length solve plugin IP EX g d hs G cs qs s0 ST n s1' H ltac:(lia)) as L1. pose proof (run_length solve plugin IP EX g d hs G cs qs s0 ST (Datatypes.S n) s2 (NS_step _ _ _ _ _ _ _ _ H E W) ltac:(lia)) as L2.
  rewrite FI in IH |- *. rewrite L1 in IH. rewrite L2. apply (warm_step solve plugin IP EX g d hs G cs qs s0 a ST SL n s1' r s2 lo LO) with (2 := H); auto; [|lia]. intros l. apply nth_slot; [apply Qle_refl|apply Z0].
Qed.
Print Assumptions C60_warm.

(** Two simulations of the same grid, whose connections may come in another order:
    less power and a cooler start give cooler temperatures after any number of
    steps. *)
Lemma same_coefficient : forall m m' i j, same_matrix m m' -> (coefficient m i j == coefficient m' i j)%Q.
Proof.
  intros m m' i j (P & R & V). unfold coefficient. rewrite P, R. apply qsum_ext. intros k _. destruct (zat (sm_rows m') k =? i); [|reflexivity]. unfold qat. generalize (Z.to_nat k). induction V; intros [|z]; cbn; auto; reflexivity.
Qed.
Lemma same_solution : forall m m' n b x, same_matrix m m' -> solution m n b x -> solution m' n b x.
Proof.
  intros m m' n b x S (L & H). split; [exact L|]. intros i I. rewrite <- (H i I). unfold row_times. apply qsum_ext. intros j _. rewrite (same_coefficient m m' i j S). reflexivity.
Qed.
Lemma share_cut : forall els els' ps k, map pieces els = map pieces els' -> (share els ps k == share els' ps k)%Q.
Proof.
  intros els. induction els as [|e els IH]; intros [|e' els'] ps k H; try discriminate; [reflexivity|]. cbn [map] in H. injection H as H1 H2. destruct ps as [|p ps]; [reflexivity|]. cbn [share]. rewrite H1. destruct (k <? pieces e')%nat; [reflexivity|apply IH; exact H2].
Qed.
Lemma share_at_le : forall g pg pg' ps ps' l k, same_cut pg pg' -> Forall2 Qle (ps l) (ps' l) -> (share_at g pg ps l k <= share_at g pg' ps' l k)%Q.
Proof.
  intros g pg pg' ps ps' l k C H. unfold share_at. destruct (is_source _); [|apply Qle_refl]. rewrite (share_cut _ _ _ k (same_cut_pieces pg pg' l C)). apply share_le. exact H.
Qed.
Lemma same_place : forall G l k l' k', (l < length G)%nat -> (k < length (layer_block G l))%nat -> (l' < length G)%nat -> (k' < length (layer_block G l'))%nat ->
    first_cell G l + Z.of_nat k = first_cell G l' + Z.of_nat k' -> l = l' /\ k = k'.
Proof.
  intros G. assert (F0 : forall L G, first_cell (L :: G) 0 = 0) by reflexivity. assert (FP : forall G l, 0 <= first_cell G l) by (intros; unfold first_cell; lia).
  induction G as [|L G IH]; intros l k l' k' HL HK HL' HK' E; [cbn in HL; lia|]. destruct l as [|l], l' as [|l']; rewrite ?F0, ?first_cons in E; change (layer_block (L :: G) 0) with (snd L) in *.
  - lia.
  - specialize (FP G l'). lia.
  - specialize (FP G l). lia.
  - change (layer_block (L :: G) (Datatypes.S l)) with (layer_block G l) in HK. change (layer_block (L :: G) (Datatypes.S l')) with (layer_block G l') in HK'. cbn [length] in *. destruct (IH l k l' k') as (-> & ->); auto; lia.
Qed.
Theorem C60_monotone : forall {PS} solve (plugin : PS -> list Q -> list Q -> bool * list Q * PS) g d hs G cs cs' qs qs' (s0 s u0 u : nsim PS) n a,
    in_place solve plugin -> exact solve -> nu_start g d hs G cs qs s0 -> nu_start g d hs G cs' qs' u0 ->
    solid_network g d (n_an s0) (np_cells (n_pg s0)) cs (n_matrix s0) a ->
    Permutation cs cs' -> n_an s0 = n_an u0 -> same_cut (n_pg s0) (n_pg u0) -> (forall l, at_most (qs l) (qs' l)) -> cooler (n_temps s0) (n_temps u0) ->
    nu_steps solve plugin d n s0 s -> nu_steps solve plugin d n u0 u -> Z.of_nat n < two32 -> cooler (n_temps s) (n_temps u).
Proof.
  intros PS solve plugin g d hs G cs cs' qs qs' s0 s u0 u n a IP EX ST ST' SL PC AN CUT LE CO. revert s u.
  assert (CE : np_cells (n_pg u0) = np_cells (n_pg s0)) by (rewrite (rd_cells _ _ _ _ _ (st_ready _ _ _ _ _ _ _ ST)), (rd_cells _ _ _ _ _ (st_ready _ _ _ _ _ _ _ ST')); reflexivity).
  pose proof (st_network _ _ _ _ _ _ _ ST) as NW. pose proof (st_network _ _ _ _ _ _ _ ST') as NW'. rewrite CE, <- AN in NW'.
  pose proof (matrix_any_order g d (n_an s0) (np_cells (n_pg s0)) cs cs' _ _ (nw_conns _ _ _ _ _ _ NW) PC (nw_matrix _ _ _ _ _ _ NW) (nw_matrix _ _ _ _ _ _ NW')) as SM.
  assert (SM' : same_matrix (n_matrix u0) (n_matrix s0)) by (destruct SM as (A & B & C); split; [auto|split; [auto|]]; clear - C; induction C; constructor; [symmetry; assumption|assumption]).
  assert (SL' : solid_network g d (n_an u0) (np_cells (n_pg u0)) cs' (n_matrix u0) a).
  { rewrite CE, <- AN. destruct SL as [S1 S2 S3 S4 S5 S6]. constructor; auto. intros k K. apply S3. eapply Permutation_in; [apply Permutation_sym; exact PC|exact K]. }
  induction n as [|n IH]; intros s u HS HU B; inversion HS as [|n1 x1 r s1 x2 HS1 ES WS]; subst; inversion HU as [|n2 y1 r' u1 y2 HU1 EU WU]; subst; [exact CO|].
  specialize (IH s1 u1 HS1 HU1 ltac:(lia)).
  destruct (solid_step solve plugin IP EX g d hs G cs qs s0 a ST SL n s1 r s HS1 ltac:(lia) ES WS) as (L1 & L2 & b & SOL & BV).
  destruct (solid_step solve plugin IP EX g d hs G cs' qs' u0 a ST' SL' n u1 r' u HU1 ltac:(lia) EU WU) as (L1' & L2' & b' & SOL' & BV'). rewrite CE in *. rewrite <- AN in BV'.
  split; [congruence|]. rewrite L2. apply (same_solution _ _ _ _ _ SM') in SOL'.
  apply (solid_compare g d (n_an s0) _ cs _ a SL (start_determined g d hs G cs qs s0 ST) b b' _ _ SOL SOL').
  intros i I. destruct (BV i I) as (l & k & HL & HK & EI & ->). destruct (BV' i I) as (l' & k' & HL' & HK' & EI' & ->).
  destruct (same_place G l k l' k' HL HK HL' HK' ltac:(lia)) as (<- & <-).
  pose proof (stored_pos g d hs G cs qs s0 a ST SL i I) as SP. destruct IH as (_ & IH). rewrite L1 in IH. specialize (IH i I).
  assert (PW : (share_at g (n_pg s0) (slots qs s0 n) l k <= share_at g (n_pg u0) (slots qs' u0 n) l k)%Q) by (apply share_at_le; [exact CUT|]; unfold slots; rewrite <- AN; apply nth_slot2; apply LE).
  assert (0 <= stored_rate g d (n_an s0) (at_cell (np_cells (n_pg s0)) i) * (qat (n_temps u1) i - qat (n_temps s1) i))%Q by (apply Qmult_le_0_compat; lra). lra.
Qed.
Print Assumptions C60_monotone.

(** ** Steady state *)
Definition steady_start {PS} (g : tgrid) (d : dims) (hs : list Q) (G : list nlayer) (cs : list conn) (qs : nat -> list (list Q)) (s : nsim PS) (a : Q) : Prop :=
  an_type (n_an s) = AT_STEADY /\ np_grid (n_pg s) = g /\ ready (n_pg s) d hs G qs /\ solid_network g d (n_an s) (np_cells (n_pg s)) cs (n_matrix s) a /\
  (forall i, 0 <= i < Z.of_nat (length (np_cells (n_pg s))) -> cooled d (np_cells (n_pg s)) cs i) /\
  (forall l, (l < length (tg_types g))%nat -> is_source (type_of g (Z.of_nat l)) = true -> Forall (fun q => q <> []) (qs l)).
Lemma steady_equation : forall {PS} solve g d hs G cs qs (s s' : nsim PS) r a, exact solve -> steady_start g d hs G cs qs s a -> nu_emulate_steady solve d s = Ok (r, s') -> r <> TDICE_SOLVER_ERROR ->
    exists b, solution (n_matrix s) (Z.of_nat (length (np_cells (n_pg s)))) b (n_temps s') /\
      forall i, 0 <= i < Z.of_nat (length (np_cells (n_pg s))) -> exists l k, (l < length G)%nat /\ (k < length (layer_block G l))%nat /\ i = first_cell G l + Z.of_nat k /\
          (qat b i == share_at g (n_pg s) (fun l => powers_now (qs l)) l k + a * to_air g d (at_cell (np_cells (n_pg s)) i))%Q.
Proof.
  intros PS solve g d hs G cs qs s s' r a EX (TY & GE & R & SL & _ & NE) E NR. destruct (sl_top _ _ _ _ _ _ _ SL) as (htc & TA). unfold nu_emulate_steady in E. rewrite TY, GE, TA in E. pose proof (sl_network _ _ _ _ _ _ _ SL) as NW.
  pose proof (nw_grid _ _ _ _ _ _ NW) as GT. pose proof (nw_physical _ _ _ _ _ _ NW) as PH. pose proof (nw_cells _ _ _ _ _ _ NW) as CW. pose proof (rd_cells _ _ _ _ _ R) as CN.
  destruct (update_full (n_pg s) d hs G qs ltac:(rewrite GE; exact GT) ltac:(rewrite GE; exact PH) R ltac:(rewrite GE, <- CN; exact CW) ltac:(rewrite GE; exact NE)) as (pg' & U & RD & G1 & C1 & _ & V & _). rewrite U in E. cbn [bind] in E.
  destruct (nu_rhs_steady pg') as [b| |] eqn:RH; try discriminate. cbn [bind] in E. destruct (solve (n_matrix s) b) as (e3, x) eqn:SO. destruct e3; [|injection E as <- <-; congruence]. injection E as <- <-. cbn [n_temps].
  set (cells := np_cells (n_pg s)) in *.
  assert (BL : length b = length cells).
  { unfold nu_rhs_steady in RH. apply map_out_forall in RH. assert (length b = length (zrange 0 (Z.of_nat (length (np_cells pg')) - 1))) as -> by (clear - RH; induction RH; cbn; congruence). rewrite zrange_seq, map_length, seq_length, C1. reflexivity. }
  assert (SOL := EX _ _ _ SO). rewrite BL in SOL. exists b. split; [exact SOL|].
  assert (LG : length G = length (tg_types g)) by (rewrite <- GE; apply (rd_air _ _ _ _ _ R); rewrite GE; unfold has_ambient; eauto).
  assert (BV : forall i, 0 <= i < Z.of_nat (length cells) -> qat b i = qat (np_sources pg') i).
  { intros i I. unfold nu_rhs_steady in RH. pose proof (map_out_nth _ _ _ (Z.to_nat i) 0 0%Q RH) as X. rewrite zrange_seq, map_length, seq_length, C1 in X. specialize (X ltac:(fold cells; lia)).
    rewrite (nth_indep _ 0 (Z.of_nat 0)) in X by (rewrite map_length, seq_length; fold cells; lia). rewrite map_nth, seq_nth in X by (fold cells; lia). replace (Z.of_nat (0 + Z.to_nat i)) with i in X by lia.
    unfold qat at 1. unfold arr_get in X. destruct ((0 <=? i) && (i <? Z.of_nat (length (np_sources pg')))); [|discriminate]. destruct (nth_error (np_sources pg') (Z.to_nat i)) eqn:NN; [|discriminate]. unfold qat. rewrite (nth_error_nth _ _ _ NN). injection X as <-. reflexivity. }
  intros i I. destruct (place G i) as (l & k & HL & HK & EI); [rewrite CN, number_length in I; exact I|]. exists l, k. split; [exact HL|]. split; [exact HK|]. split; [exact EI|].
  rewrite BV by exact I. rewrite EI at 1. rewrite V by (rewrite ?GE; exact HK || lia). fold cells in CN.
  pose proof (solid_heat g d (n_an s) hs G cs (n_matrix s) a (n_pg s) SL GE CN (fun l => powers_now (qs l)) l k HL HK) as SH. rewrite <- EI in SH. exact SH.
Qed.
(** The steady state depends on the power alone, grows with it, and without power
    is that of the air. *)
Theorem C60_steady : forall {PS} solve g d hs G cs cs' qs qs' (s s' u u' : nsim PS) r r' a, exact solve ->
    steady_start g d hs G cs qs s a -> steady_start g d hs G cs' qs' u a -> Permutation cs cs' -> n_an s = n_an u -> same_cut (n_pg s) (n_pg u) -> (forall l, Forall2 Qle (powers_now (qs l)) (powers_now (qs' l))) ->
    nu_emulate_steady solve d s = Ok (r, s') -> r <> TDICE_SOLVER_ERROR -> nu_emulate_steady solve d u = Ok (r', u') -> r' <> TDICE_SOLVER_ERROR ->
    cooler (n_temps s') (n_temps u').
Proof.
  intros PS solve g d hs G cs cs' qs qs' s s' u u' r r' a EX ST ST' PC AN CUT LE E NR E' NR'.
  destruct (steady_equation solve g d hs G cs qs s s' r a EX ST E NR) as (b & SOL & BV). destruct (steady_equation solve g d hs G cs' qs' u u' r' a EX ST' E' NR') as (b' & SOL' & BV').
  destruct ST as (TY & GE & R & SL & CO & NE). destruct ST' as (TY' & GE' & R' & SL' & CO' & NE').
  assert (CE : np_cells (n_pg u) = np_cells (n_pg s)) by (rewrite (rd_cells _ _ _ _ _ R), (rd_cells _ _ _ _ _ R'); reflexivity). rewrite CE in *.
  pose proof (sl_network _ _ _ _ _ _ _ SL) as NW. pose proof (sl_network _ _ _ _ _ _ _ SL') as NW'. rewrite <- AN in NW'.
  pose proof (matrix_any_order g d (n_an s) (np_cells (n_pg s)) cs cs' _ _ (nw_conns _ _ _ _ _ _ NW) PC (nw_matrix _ _ _ _ _ _ NW) (nw_matrix _ _ _ _ _ _ NW')) as SM.
  assert (SM' : same_matrix (n_matrix u) (n_matrix s)) by (destruct SM as (A & B & C); split; [auto|split; [auto|]]; clear - C; induction C; constructor; [symmetry; assumption|assumption]).
  apply (same_solution _ _ _ _ _ SM') in SOL'. split; [destruct SOL, SOL'; lia|]. destruct SOL as (LX & SOL). rewrite LX.
  apply (solid_compare g d (n_an s) _ cs _ a SL (or_intror (conj TY CO)) b b' _ _ (conj LX SOL) SOL').
  intros i I. destruct (BV i I) as (l & k & HL & HK & EI & ->). destruct (BV' i I) as (l' & k' & HL' & HK' & EI' & ->). destruct (same_place G l k l' k' HL HK HL' HK' ltac:(lia)) as (<- & <-).
  pose proof (share_at_le g (n_pg s) (n_pg u) (fun l => powers_now (qs l)) (fun l => powers_now (qs' l)) l k CUT (LE l)). lra.
Qed.
Print Assumptions C60_steady.
Theorem C60_steady_air : forall {PS} solve g d hs G cs qs (s s' : nsim PS) r a, exact solve -> steady_start g d hs G cs qs s a ->
    nu_emulate_steady solve d s = Ok (r, s') -> r <> TDICE_SOLVER_ERROR ->
    ((forall l, Forall (Qle 0) (powers_now (qs l))) -> Forall (Qle a) (n_temps s')) /\
    ((forall l, Forall (fun p => p == 0)%Q (powers_now (qs l))) -> Forall (Qeq a) (n_temps s')).
Proof.
  intros PS solve g d hs G cs qs s s' r a EX ST E NR. destruct (steady_equation solve g d hs G cs qs s s' r a EX ST E NR) as (b & SOL & BV). destruct ST as (TY & GE & R & SL & CO & NE).
  set (cells := np_cells (n_pg s)) in *.
  assert (FI : forall P : Q -> Prop, (forall i, 0 <= i < Z.of_nat (length cells) -> P (qat (n_temps s') i)) -> Forall P (n_temps s')).
  { intros P H. apply Forall_forall. intros y I. apply (In_nth _ _ 0%Q) in I. destruct I as (j & J & <-). destruct SOL as (LX & _). specialize (H (Z.of_nat j) ltac:(lia)). unfold qat in H. rewrite Nat2Z.id in H. exact H. }
  assert (SB : forall i, (sl_b g d (n_an s) cells i == to_air g d (at_cell cells i))%Q) by (intros i; rewrite (b_split g d (n_an s) cells cs (n_matrix s) a SL i); unfold stored_rate; rewrite TY; ring).
  assert (UP : (forall l, Forall (Qle 0) (powers_now (qs l))) -> forall i, 0 <= i < Z.of_nat (length cells) -> (a <= qat (n_temps s') i)%Q).
  { intros NN. apply (solid_above g d (n_an s) cells cs (n_matrix s) a SL (or_intror (conj TY CO)) b _ a SOL). intros i I. rewrite SB. destruct (BV i I) as (l & k & _ & _ & _ & ->).
    assert (0 <= share_at g (n_pg s) (fun l => powers_now (qs l)) l k)%Q by (unfold share_at; destruct (is_source _); [apply share_nonneg; apply NN|lra]). lra. }
  split.
  - intros NN. apply FI. exact (UP NN).
  - intros Z0. apply FI. intros i I. apply Qle_antisym; [apply UP; [|exact I]; intros l; eapply Forall_impl; [|apply Z0]; cbn; intros; lra|].
    apply (solid_below g d (n_an s) cells cs (n_matrix s) a SL (or_intror (conj TY CO)) b _ a SOL); [|exact I]. clear i I. intros i I. rewrite SB. destruct (BV i I) as (l & k & _ & _ & _ & ->).
    assert (share_at g (n_pg s) (fun l => powers_now (qs l)) l k == 0)%Q by (unfold share_at; destruct (is_source _); [apply share_zero; apply Z0|reflexivity]). lra.
Qed.
Print Assumptions C60_steady_air.

(** ** The grids of stacks without channels *)
Lemma solid_types : forall d es L, Forall no_channel es -> In L (flat_map (kind_layers d) es) -> fst L = 0.
Proof.
  intros d es L H I. apply in_flat_map in I. destruct I as (e & IE & I). rewrite Forall_forall in H. specialize (H e IE). destruct e as [x|dx dy|m]; cbn [kind_layers] in I.
  - revert I. generalize 0 at 1 as z. induction (rev (nd_layers x)) as [|ly ls IHl]; intros z I; [contradiction|]. cbn [die_layers] in I. destruct I as [<-|I]; [reflexivity|exact (IHl _ I)].
  - destruct I as [<-|[]]; reflexivity.
  - contradiction.
Qed.
Lemma in_both : forall a b x y, inside a x y -> inside b x y -> (0 < common_x a b /\ 0 < common_y a b)%Q.
Proof.
  intros a b x y ((A1 & A2) & A3 & A4) ((B1 & B2) & B3 & B4). unfold common_x, common_y, common. split.
  - destruct (Q.min_spec (r_x1 a) (r_x1 b)) as [(_ & ->)|(_ & ->)], (Q.max_spec (r_x0 a) (r_x0 b)) as [(_ & ->)|(_ & ->)]; lra.
  - destruct (Q.min_spec (r_y1 a) (r_y1 b)) as [(_ & ->)|(_ & ->)], (Q.max_spec (r_y0 a) (r_y0 b)) as [(_ & ->)|(_ & ->)]; lra.
Qed.
Theorem C60_stack : forall d top past es,
    nu_stack_ok d top es -> Forall some_cells es -> Forall (fun e => 0 < nu_nlayers e) es -> es <> [] -> Forall no_channel es -> is_pluggable top = false ->
    let g := grid d top es in good_geometry g ->
    exists n es' st rs, nu_grid d top past es = Ok (n, es', st) /\ all_regions d st = Ok rs /\
    forall mem, par_run rs lstart mem -> exists cs, walk_forward (ls_heap mem) (ls_reg mem 0) = Ok cs /\
      sound_conns (ns_cells st) cs /\ (same_cover g -> forall i, 0 <= i < Z.of_nat (length (ns_cells st)) -> cooled d (ns_cells st) cs i).
Proof.
  intros d top past es OK SC PL NE NC NP g GG.
  assert (BS : bottom_solid es).
  { unfold bottom_solid. assert (F : Forall no_channel (rev es)) by (apply Forall_rev; exact NC). destruct (rev es) as [|e r] eqn:RE; [apply (f_equal (@rev _)) in RE; rewrite rev_involutive in RE; cbn in RE; congruence|]. inversion F; subst. destruct e; [reflexivity|reflexivity|contradiction]. }
  destruct (C56_connected_iff_touching d top past es OK SC PL BS GG) as (n & es' & st & rs & E & RS & CR & ALL). destruct (C41_cells d top past es OK SC) as (n1 & es1 & st1 & E1 & N1 & CN & CL). rewrite E in E1. injection E1 as <- <- <-. cbv zeta in CL. change (grid d top es) with g in CN, CL, CR, ALL.
  exists n, es', st, rs. split; [exact E|]. split; [exact RS|]. intros mem PR. destruct (ALL mem PR) as (cs & WF & ND & RG & TO & VA). exists cs. split; [exact WF|].
  assert (LL : Z.of_nat (length g) = d_nlayers d).
  { destruct OK as (GK & _ & _ & NL & _). rewrite NL. unfold g, grid, spreader_layer. rewrite NP, app_nil_r. pose proof (layers_length d (rev es) (Forall_rev GK)) as X. rewrite total_layers_rev in X. exact X. }
  assert (T0 : forall l, NuSpec.type_at g l = 0).
  { intros l. unfold NuSpec.type_at. destruct (Nat.lt_ge_cases l (length (map fst g))) as [H|H]; [|apply nth_overflow; exact H]. assert (I : In (nth l (map fst g) 0) (map fst g)) by (apply nth_In; exact H). apply in_map_iff in I. destruct I as (L & <- & I). apply (solid_types d (rev es)); [apply Forall_rev; exact NC|]. unfold g, grid, spreader_layer in I. rewrite NP, app_nil_r in I. exact I. }
  assert (LAY : forall l i, in_layer g l i -> 0 <= i < n /\ c_layer (at_cell (ns_cells st) i) = Z.of_nat l).
  { intros l i (HL & I). assert (0 <= i < n) as R.
    { split; [unfold first_cell in I; lia|]. rewrite N1, CN, number_length. assert (first_cell g (Datatypes.S l) <= Z.of_nat (length (grid_cells g))); [|lia]. rewrite <- (firstn_skipn (Datatypes.S l) g) at 2. rewrite grid_cells_app, app_length. unfold first_cell. lia. }
    split; [exact R|]. destruct (CL l HL) as (_ & _ & X). apply (X i R) in I. destruct I as (c & NN & <-). unfold at_cell. rewrite (nth_error_nth _ _ _ NN). reflexivity. }
  split.
  - intros k K. destruct (VA k K) as [(D & len & (l & I1 & I2 & _ & _ & LP & _) & LV)|[(D & len & (l & I1 & I2 & _ & _ & LP & _) & LV)|(D & (la & lb & _ & _ & _ & x & y & IX & IY) & VE)]].
    + split; [lra|]. right. split; [left; exact D|]. destruct (LAY l _ I1) as (_ & ->). destruct (LAY l _ I2) as (_ & ->). reflexivity.
    + split; [lra|]. right. split; [right; exact D|]. destruct (LAY l _ I1) as (_ & ->). destruct (LAY l _ I2) as (_ & ->). reflexivity.
    + split; [|left; exact D]. rewrite VE. destruct (in_both _ _ x y IX IY) as (P1 & P2). apply Qmult_lt_0_compat; assumption.
  - intros CO i I.
    assert (UP : forall m l i, (length g - 1 - l = m)%nat -> in_layer g l i -> cooled d (ns_cells st) cs i).
    { clear i I. induction m as [|m IH]; intros l i M I.
      - destruct (LAY l i I) as (R & C). apply Cooled_top; [lia|]. destruct I as (HL & _). rewrite C. lia.
      - destruct (LAY l i I) as (R & C). pose proof I as (HL & _). assert (GP : proper (rect_at (grid_rects g) i)) by (apply GG; rewrite N1, CN, number_length in R; exact R).
        assert (IN : inside (rect_at (grid_rects g) i) (r_x0 (rect_at (grid_rects g) i)) (r_y0 (rect_at (grid_rects g) i))) by (destruct GP; unfold inside; split; split; lra).
        destruct (CO l (Datatypes.S l) i _ _ ltac:(lia) I IN) as (j & J & JN).
        assert (IJ : i < j) by (destruct I as (_ & I), J as (_ & J); lia).
        assert (TZ : touch_z g i j). { exists l, (Datatypes.S l). split; [split; [lia|]; left; split; [reflexivity|]; unfold side_by_side; rewrite !T0; reflexivity|]. split; [exact I|]. split; [exact J|]. eauto. }
        destruct (proj2 (TO i j IJ) (or_intror (or_intror TZ))) as (k & K & NK). unfold nodes in NK. injection NK as <- <-. apply Cooled_up; [exact K|]. apply (IH (Datatypes.S l)); [lia|exact J]. }
    destruct (place g i) as (l & k & HL & HK & EI); [rewrite CN, number_length in I; exact I|]. apply (UP (length g - 1 - l)%nat l); [reflexivity|]. split; [exact HL|].
    assert (FS : first_cell g (Datatypes.S l) = first_cell g l + Z.of_nat (length (layer_block g l))).
    { clear - HL. generalize dependent l. induction g as [|L G IH]; intros l HL; [cbn in HL; lia|]. destruct l as [|l]; [unfold first_cell; cbn; rewrite app_nil_r; reflexivity|]. rewrite (first_cons L G (Datatypes.S l)), (first_cons L G l). cbn in HL. rewrite IH by lia. change (layer_block (L :: G) (Datatypes.S l)) with (layer_block G l). lia. }
    lia.
Qed.
Print Assumptions C60_stack.

(** Layers that cover one rectangle exactly. *)
Lemma tiled_cover : forall G r, (forall L, In L G -> tiles (layer_rects L) r) -> same_cover G.
Proof.
  intros G r H l l' i x y HL' I IN.
  assert (AT : forall l k, (l < length G)%nat -> (k < length (layer_block G l))%nat -> in_layer G l (first_cell G l + Z.of_nat k) /\ rect_at (grid_rects G) (first_cell G l + Z.of_nat k) = nth k (layer_rects (nth l G (0, []))) rect0).
  { clear. intros l k HL HK. assert (FS : first_cell G (Datatypes.S l) = first_cell G l + Z.of_nat (length (layer_block G l))).
    { clear - HL. generalize dependent l. induction G as [|L G IH]; intros l HL; [cbn in HL; lia|]. destruct l as [|l]; [unfold first_cell; cbn; rewrite app_nil_r; reflexivity|]. rewrite (first_cons L G (Datatypes.S l)), (first_cons L G l). cbn in HL. rewrite IH by lia. change (layer_block (L :: G) (Datatypes.S l)) with (layer_block G l). lia. }
    split; [split; [exact HL|]; lia|]. clear FS. unfold rect_at, grid_rects. generalize dependent l. induction G as [|L G IH]; intros l HL HK; [cbn in HL; lia|]. destruct l as [|l].
    - change (layer_block (L :: G) 0) with (snd L) in HK. unfold first_cell. cbn [firstn grid_cells flat_map length nth]. rewrite map_app, app_nth1 by (rewrite map_length; lia). replace (Z.to_nat (Z.of_nat 0 + Z.of_nat k)) with k by lia. reflexivity.
    - change (layer_block (L :: G) (Datatypes.S l)) with (layer_block G l) in HK. rewrite first_cons. cbn [grid_cells flat_map nth]. rewrite map_app, app_nth2 by (rewrite map_length; unfold first_cell; lia). rewrite map_length. cbn in HL. rewrite <- (IH l ltac:(lia) HK). unfold grid_cells. f_equal. unfold first_cell. lia. }
  pose proof I as (HL & IR). set (k := Z.to_nat (i - first_cell G l)).
  assert (FS : first_cell G (Datatypes.S l) = first_cell G l + Z.of_nat (length (layer_block G l))).
  { clear - HL. generalize dependent l. induction G as [|L G IH]; intros l HL; [cbn in HL; lia|]. destruct l as [|l]; [unfold first_cell; cbn; rewrite app_nil_r; reflexivity|]. rewrite (first_cons L G (Datatypes.S l)), (first_cons L G l). cbn in HL. rewrite IH by lia. change (layer_block (L :: G) (Datatypes.S l)) with (layer_block G l). lia. }
  destruct (AT l k HL ltac:(lia)) as (_ & RE). replace (first_cell G l + Z.of_nat k) with i in RE by lia.
  assert (LR : forall l, length (layer_rects (nth l G (0, []))) = length (layer_block G l)) by (intros m; unfold layer_rects, layer_block; apply map_length).
  assert (IC : inside r x y). { apply (proj2 (H _ (nth_In G (0, []) HL)) (rect_at (grid_rects G) i)); [|exact IN]. rewrite RE. apply nth_In. rewrite LR. lia. }
  destruct (proj1 (H _ (nth_In G (0, []) HL')) x y IC) as (k' & c & NK & IC' & _). assert (K' : (k' < length (layer_block G l'))%nat) by (rewrite <- LR; apply nth_error_Some; congruence).
  destruct (AT l' k' HL' K') as (IL & RE'). exists (first_cell G l' + Z.of_nat k'). split; [exact IL|]. rewrite RE', (nth_error_nth _ _ _ NK). exact IC'.
Qed.

(** ** Witnesses: the small stack of NuMini.v *)
Lemma mini_solid : forall t p q (s : nsim unit), mini_sim None t p q = Ok s -> solid_network (mini_grid None) mini_dims (n_an s) (np_cells (n_pg s)) mini_conns (n_matrix s) 300%Q.
Proof.
  intros t p q s E. destruct (mini_network None _ _ _ s I E) as (E1 & E2 & _ & E4 & E5 & E6 & _). rewrite E2. constructor; [exact E6| | |reflexivity|reflexivity|exists 1%Q; reflexivity]; rewrite E4.
  - assert (B : forallb (fun c => ((c_layer c =? 0) || (c_layer c =? 1)) && negb (c_channel c)) mini_cells = true) by (vm_compute; reflexivity). rewrite forallb_forall in B. intros c IC. specialize (B c IC). unfold solid_cell. assert (c_layer c = 0 \/ c_layer c = 1) as [H|H] by lia; rewrite H; (split; [cbn; lia|]); (split; [lia|left; reflexivity]).
  - assert (B : forallb (fun k => Qlt_bool 0 (k_value k) && ((k_dir k =? 0) || ((k_dir k =? 1) || (k_dir k =? 2)) && (c_layer (at_cell mini_cells (k_node1 k)) =? c_layer (at_cell mini_cells (k_node2 k))))) mini_conns = true) by (vm_compute; reflexivity).
    rewrite forallb_forall in B. intros k K. specialize (B k K). apply andb_true_iff in B. destruct B as (B1 & B2). apply Qlt_bool_iff' in B1. split; [exact B1|]. lia.
Qed.
Lemma mini_cooled : forall i, 0 <= i < Z.of_nat (length mini_cells) -> cooled mini_dims mini_cells mini_conns i.
Proof.
  assert (B : forallb (fun k => (k_node2 k =? 4) && (k_dir k =? 0) || negb (k_dir k =? 0)) mini_conns = true) by (vm_compute; reflexivity).
  assert (C : forallb (fun i => existsb (fun k => (k_node1 k =? i) && (k_node2 k =? 4)) mini_conns) [0; 1; 2; 3] = true) by (vm_compute; reflexivity).
  assert (T : cooled mini_dims mini_cells mini_conns 4) by (apply Cooled_top; [vm_compute; split; [discriminate|reflexivity]|vm_compute; reflexivity]).
  intros i R. change (Z.of_nat (length mini_cells)) with 5 in R. rewrite forallb_forall in C. destruct (Z.eq_dec i 4) as [->|N4]; [exact T|]. assert (IC : In i [0; 1; 2; 3]) by (cbn; lia). specialize (C i IC). apply existsb_exists in C. destruct C as (k & K & KK). assert (k_node1 k = i) as <- by lia. apply Cooled_up; [exact K|]. assert (k_node2 k = 4) as -> by lia. exact T.
Qed.
Lemma nth_option : forall {A B} (f : A -> B) v l, nth l (map (option_map f) v) None = option_map f (nth l v None).
Proof. intros A B f v. induction v as [|x v IH]; intros [|l]; cbn; auto. Qed.
Example C60_witness : exists s0 s1 u0 u1 : nsim unit,
    in_place (guess [repeat 300%Q 5; mini_after]) wplugin /\ exact (guess [repeat 300%Q 5; mini_after]) /\
    nu_start (mini_grid None) mini_dims mini_hs mini_G mini_conns (mini_powers mini_off mini_off) s0 /\ nu_start (mini_grid None) mini_dims mini_hs mini_G mini_conns (mini_powers mini_p mini_q) u0 /\
    solid_network (mini_grid None) mini_dims (n_an s0) (np_cells (n_pg s0)) mini_conns (n_matrix s0) 300%Q /\ n_an s0 = n_an u0 /\ same_cut (n_pg s0) (n_pg u0) /\
    (forall l, at_most (mini_powers mini_off mini_off l) (mini_powers mini_p mini_q l)) /\ cooler (n_temps s0) (n_temps u0) /\ uniform 300%Q (n_temps s0) /\
    nu_steps (guess [repeat 300%Q 5; mini_after]) wplugin mini_dims 1 s0 s1 /\ nu_steps (guess [repeat 300%Q 5; mini_after]) wplugin mini_dims 1 u0 u1 /\
    n_temps s1 = repeat 300%Q 5 /\ n_temps u1 = mini_after.
Proof.
  set (S := guess [repeat 300%Q 5; mini_after]).
  assert (Y : match mini_sim None AT_TRANSIENT mini_off mini_off with Ok s => match nu_emulate_step S wplugin mini_dims s with Ok (TDICE_STEP_DONE, s') => n_temps s' | _ => [] end | _ => [] end = repeat 300%Q 5) by (vm_compute; reflexivity).
  assert (Y' : match mini_sim None AT_TRANSIENT mini_p mini_q with Ok s => match nu_emulate_step S wplugin mini_dims s with Ok (TDICE_STEP_DONE, s') => n_temps s' | _ => [] end | _ => [] end = mini_after) by (vm_compute; reflexivity).
  assert (CU : match mini_sim None AT_TRANSIENT mini_off mini_off, mini_sim None AT_TRANSIENT mini_p mini_q with Ok s, Ok u => map (option_map (map (fun e => (so_dx e, so_dy e)))) (np_flps (n_pg s)) = map (option_map (map (fun e => (so_dx e, so_dy e)))) (np_flps (n_pg u)) | _, _ => True end) by (vm_compute; reflexivity).
  destruct (mini_sim None AT_TRANSIENT mini_off mini_off) as [s0| |] eqn:E; try discriminate Y. destruct (nu_emulate_step S wplugin mini_dims s0) as [[r s1]| |] eqn:X; try discriminate Y. destruct r; try discriminate Y.
  destruct (mini_sim None AT_TRANSIENT mini_p mini_q) as [u0| |] eqn:E'; try discriminate Y'. destruct (nu_emulate_step S wplugin mini_dims u0) as [[r u1]| |] eqn:X'; try discriminate Y'. destruct r; try discriminate Y'.
  destruct (mini_network None _ _ _ s0 I E) as (_ & A2 & A3 & _). destruct (mini_network None _ _ _ u0 I E') as (_ & A2' & A3' & _).
  exists s0, s1, u0, u1. split; [apply guess_in_place|]. split; [apply guess_exact|]. split; [exact (mini_start None _ _ s0 I E)|]. split; [exact (mini_start None _ _ u0 I E')|]. split; [exact (mini_solid _ _ _ s0 E)|]. split; [congruence|].
  split. { intros l. apply (f_equal (fun v => match nth l v None with Some x => x | None => [] end)) in CU. rewrite !nth_option in CU. unfold flp_at. destruct (nth l (np_flps (n_pg s0)) None), (nth l (np_flps (n_pg u0)) None); exact CU. }
  split. { intros l. unfold mini_powers. destruct (l =? 0)%nat; repeat constructor; discriminate. }
  rewrite A3, A3'. split; [split; [reflexivity|intros; apply Qle_refl]|]. split; [intros i IR; cbn in IR; assert (i = 0 \/ i = 1 \/ i = 2 \/ i = 3 \/ i = 4) as [->|[->|[->|[->| ->]]]] by lia; reflexivity|].
  split; [econstructor; [constructor|exact X|left; reflexivity]|]. split; [econstructor; [constructor|exact X'|left; reflexivity]|]. split; assumption.
Qed.
Example C60_steady_witness : exists s0 s1 : nsim unit,
    exact (guess [mini_rest]) /\ steady_start (mini_grid None) mini_dims mini_hs mini_G mini_conns (mini_powers mini_p mini_q) s0 300%Q /\
    nu_emulate_steady (guess [mini_rest]) mini_dims s0 = Ok (TDICE_END_OF_SIMULATION, s1) /\ n_temps s1 = mini_rest.
Proof.
  assert (Y : match mini_sim None AT_STEADY mini_p mini_q with Ok s => match nu_emulate_steady (guess [mini_rest]) mini_dims s with Ok (TDICE_END_OF_SIMULATION, s') => n_temps (s' : nsim unit) | _ => [] end | _ => [] end = mini_rest) by (vm_compute; reflexivity).
  destruct (mini_sim None AT_STEADY mini_p mini_q) as [s0| |] eqn:E; try discriminate Y. destruct (nu_emulate_steady (guess [mini_rest]) mini_dims s0) as [[r s1]| |] eqn:S; try discriminate Y. destruct r; try discriminate Y.
  destruct (mini_network None _ _ _ s0 I E) as (E1 & E2 & _ & E4 & E5 & E6 & _). exists s0, s1. split; [apply guess_exact|]. split; [|split; [exact S|exact Y]].
  split; [rewrite E2; reflexivity|]. split; [exact E1|]. split; [exact E5|]. split; [exact (mini_solid _ _ _ s0 E)|]. split; [rewrite E4; exact mini_cooled|]. intros [|[|l]] HL _; cbn in HL; try lia; repeat constructor; discriminate.
Qed.
Example C60_stack_witness : nu_stack_ok mini_dims demo_top mini_stack /\ Forall some_cells mini_stack /\ Forall (fun e => 0 < nu_nlayers e) mini_stack /\ mini_stack <> [] /\ Forall no_channel mini_stack /\
    is_pluggable demo_top = false /\ good_geometry mini_G /\ same_cover mini_G /\ length (grid_cells mini_G) = 5%nat.
Proof.
  destruct mini_ok as (OK & SC). split; [exact OK|]. split; [exact SC|]. split; [repeat constructor|]. split; [discriminate|]. split; [repeat constructor|]. split; [reflexivity|]. split; [apply geometry_sound; vm_compute; reflexivity|]. split; [|vm_compute; reflexivity].
  assert (RR : map (fun r => mkRect (Qred (r_x0 r)) (Qred (r_y0 r)) (Qred (r_x1 r)) (Qred (r_y1 r))) (grid_rects mini_G) = [mkRect 0 0 100 300; mkRect 100 0 300 100; mkRect 100 100 300 200; mkRect 100 200 300 300; mkRect 0 0 300 300]%Q) by (vm_compute; reflexivity).
  assert (F0 : first_cell mini_G 0 = 0) by reflexivity. assert (F1 : first_cell mini_G 1 = 4) by (vm_compute; reflexivity). assert (F2 : first_cell mini_G 2 = 5) by (vm_compute; reflexivity). assert (FL : length mini_G = 2%nat) by reflexivity.
  assert (IN : forall j x y, inside (rect_at (grid_rects mini_G) j) x y <-> inside (rect_at [mkRect 0 0 100 300; mkRect 100 0 300 100; mkRect 100 100 300 200; mkRect 100 200 300 300; mkRect 0 0 300 300]%Q j) x y).
  { intros j x y. rewrite <- RR. unfold rect_at. change rect0 with ((fun r => mkRect (Qred (r_x0 r)) (Qred (r_y0 r)) (Qred (r_x1 r)) (Qred (r_y1 r))) rect0) at 2. rewrite map_nth. unfold inside. cbn [r_x0 r_x1 r_y0 r_y1]. rewrite !Qred_correct. reflexivity. }
  clear RR. intros l l' i x y HL' (HL & IR) H. rewrite FL in *.
  assert (AL : (0 <= x < 300 /\ 0 <= y < 300)%Q).
  { apply IN in H. assert (l = 0 \/ l = 1)%nat as [-> | ->] by lia; change (first_cell mini_G 0) with 0 in IR; rewrite ?F1, ?F2 in IR; [assert (i = 0 \/ i = 1 \/ i = 2 \/ i = 3) as [->|[->|[->| ->]]] by lia|assert (i = 4) as -> by lia]; destruct H as ((H1 & H2) & H3 & H4); cbv [rect_at Z.to_nat Pos.to_nat Pos.iter_op nth Nat.add r_x0 r_x1 r_y0 r_y1] in H1, H2, H3, H4; split; split; lra. }
  destruct AL as ((X0 & X1) & Y0 & Y1). unfold in_layer. assert (l' = 0 \/ l' = 1)%nat as [-> | ->] by lia; rewrite FL, ?F0, ?F1, ?F2.
  - destruct (Qlt_le_dec x 100); [exists 0|destruct (Qlt_le_dec y 100); [exists 1|destruct (Qlt_le_dec y 200); [exists 2|exists 3]]]; (split; [lia|]); apply IN; split; split; cbv [rect_at Z.to_nat Pos.to_nat Pos.iter_op nth Nat.add r_x0 r_x1 r_y0 r_y1]; lra.
  - exists 4. split; [lia|]. apply IN. split; split; cbv [rect_at Z.to_nat Pos.to_nat Pos.iter_op nth Nat.add r_x0 r_x1 r_y0 r_y1]; lra.
Qed.
