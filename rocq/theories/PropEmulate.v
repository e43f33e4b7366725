(** * C16-C22: power traces, slots, time, end of simulation, reset *)
From Coq Require Import ZArith List Bool QArith Lia Lqa.
From Verif Require Import Base QSum Dims DimsSpec Queue QueueProofs Floorplan FloorplanSpec Stack StackSpec PowerGrid Emulate EmulateSpec
     SourceProofs LayerProofs SourceVectorProofs EmulateProofs HistoryProofs SimProofs SimWitness.
Import ListNotations.
Local Open Scope Z_scope.

(** C16: from time 0, whatever the calls (steps and insertions in any order,
    all accepted), after n steps exactly ceil(n / L) values of every element
    have been consumed, oldest first, and the sources of the chip are those of
    the value of the current slot: value number ceil(n / L) given for the
    element, in the file or through insert_power_values. *)
Theorem C16_powers_in_order : forall {M PS} solve plugin d (s s' : sim M PS) qs t,
    in_place solve plugin -> good_sim d s -> an_time (s_an s) = 0 -> queued (s_pg s) qs ->
    history solve plugin d s t s' -> Forall went_well t ->
    Z.of_nat (steps_of t) < two32 -> small_queues (given qs t) ->
    let k := Z.to_nat (slots_begun (an_slot_length (s_an s)) (Z.of_nat (steps_of t))) in
    Forall (fun l => (k <= length l)%nat) (given qs t) /\
    queued (s_pg s') (map (skipn k) (given qs t)) /\
    (steps_of t <> O -> dissipates (s_pg s') d (map (fun l => nth (k - 1) l 0%Q) (given qs t))).
Proof.
  intros M PS solve plugin d s s' qs t IP GS T Q H W B SM.
  destruct (history_at solve plugin IP d s t s' H _ _ _ (at_start d s qs GS T Q) W ltac:(lia) SM) as (AS & _ & _).
  destruct AS as [_ _ _ _ EN QU PO]. rewrite Z.add_0_l in *. split; [exact EN|]. split; [exact QU|].
  intro N. specialize (PO ltac:(lia)).
  replace (Z.to_nat (slots_begun (an_slot_length (s_an s)) (Z.of_nat (steps_of t))) - 1)%nat
    with (Z.to_nat (slots_begun (an_slot_length (s_an s)) (Z.of_nat (steps_of t)) - 1)) by lia. exact PO.
Qed.
Print Assumptions C16_powers_in_order.

(** C17: insertion. *)
Theorem C17_insert_powers : forall d pg qs vs pv, good_pgrid d pg -> queued pg qs -> qrep pv vs -> small_queues qs ->
    exists pg' pv', insert_power_values pg pv = Ok (if (length qs <=? length vs)%nat then TDICE_SUCCESS else TDICE_FAILURE, pg', pv') /\
      queued pg' (give qs vs) /\ qrep pv' (skipn (length qs) vs) /\
      same_fields pg pg' /\ pg_sources pg' = pg_sources pg /\ good_pgrid d pg'.
Proof.
  intros d pg qs vs pv GP Q V SM. destruct (insert_power_values_spec pg d qs vs pv GP Q V SM) as (pg' & pv' & E & G & S & Q' & V' & SR).
  eauto 10.
Qed.
Print Assumptions C17_insert_powers.

(** C18 is false of the code: when a queue is empty, the elements before it have
    already lost the value of the refused slot. *)
Theorem C18_all_or_nothing_refuted : exists (d : dims) (s s' : sim unit unit),
    good_sim d s /\ queued (s_pg s) [[5%Q]; []] /\
    emulate_step wsolve wplugin d s = Ok (TDICE_END_OF_SIMULATION, s') /\
    queued (s_pg s') [[]; []].
Proof.
  pose proof (wsim_good (q_put q_empty 5) q_empty (repeat 0%Q 8) (repeat 300%Q 8) 2 0 eq_refl eq_refl ltac:(unfold two32; lia) ltac:(unfold two32; lia)) as GS.
  pose proof (wpg_queued (q_put q_empty 5) q_empty (repeat 0%Q 8) [5%Q] [] (q_put_rep _ [] _ q_empty_rep ltac:(unfold two32; cbn; lia)) q_empty_rep) as QU.
  destruct (emulate_step_spec wsolve wplugin w_in_place wd _ _ GS QU) as (r & s' & E & _ & _ & _ & Q' & X).
  pose proof (proj2 (step_end_iff wsolve wplugin w_in_place wd _ _ r s' GS QU E)) as EE. 
  rewrite EE in E by (split; [reflexivity|right; left; reflexivity]).
  exists wd. eexists. exists s'. split; [exact GS|]. split; [exact QU|]. split; [exact E|exact Q'].
Qed.
Print Assumptions C18_all_or_nothing_refuted.

(** What holds: the slot is refused iff some queue is empty, and exactly the
    elements before the first empty queue lose one value. *)
Theorem C18_exact_loss_partial : forall {M PS} solve plugin d (s : sim M PS) qs,
    in_place solve plugin -> good_sim d s -> queued (s_pg s) qs -> on_boundary s ->
    exists r s', emulate_step solve plugin d s = Ok (r, s') /\
      (r = TDICE_END_OF_SIMULATION <-> In [] qs) /\
      (forall a b, qs = a ++ [] :: b -> ~ In [] a -> queued (s_pg s') (map (@tl Q) a ++ [] :: b)).
Proof.
  intros M PS solve plugin d s qs IP GS Q B.
  destruct (emulate_step_spec solve plugin IP d s qs GS Q) as (r & s' & E & _ & _ & _ & Q' & X).
  exists r, s'. split; [exact E|]. split.
  - rewrite (step_end_iff solve plugin IP d s qs r s' GS Q E). tauto.
  - intros a b -> NI. unfold on_boundary in B. rewrite B in Q'. cbn [Z.eqb] in Q'.
    rewrite take_heads_partial in Q'; [exact Q'|]. rewrite Forall_forall. intros l Hl El. subst l. contradiction.
Qed.
Print Assumptions C18_exact_loss_partial.

(** C19: answers and time of n successful steps, with any insertions between
    them; fewer than 2^32 steps (the step counter is 32 bits wide). *)
Theorem C19_steps_and_slots : forall {M PS} solve plugin d (s s' : sim M PS) qs t,
    in_place solve plugin -> good_sim d s -> an_time (s_an s) = 0 -> queued (s_pg s) qs ->
    history solve plugin d s t s' -> Forall went_well t ->
    Z.of_nat (steps_of t) < two32 -> small_queues (given qs t) ->
    answers t = map (fun i => if Z.of_nat i mod an_slot_length (s_an s) =? 0 then TDICE_SLOT_DONE else TDICE_STEP_DONE) (seq 1 (steps_of t)) /\
    get_simulated_time (s_an s') = (inject_Z (Z.of_nat (steps_of t)) * an_step (s_an s))%Q.
Proof.
  intros M PS solve plugin d s s' qs t IP GS T Q H W B SM.
  destruct (history_at solve plugin IP d s t s' H _ _ _ (at_start d s qs GS T Q) W ltac:(lia) SM) as (AS & K & A).
  split; [rewrite A; apply map_ext; intro i; rewrite Z.add_0_l; reflexivity|].
  destruct AS as [_ _ TM _ _ _ _]. destruct K as (_ & _ & _ & KS & _). unfold get_simulated_time. rewrite TM, KS. reflexivity.
Qed.
Print Assumptions C19_steps_and_slots.

(** A successful emulate_slot called on a slot boundary performs exactly L steps
    (L-1 answered STEP_DONE, the last SLOT_DONE) and takes exactly one value of
    every element.  It always returns. *)
Theorem C19_slot_duration : forall {M PS} solve plugin d (s s1 : sim M PS) qs t,
    in_place solve plugin -> good_sim d s -> an_time (s_an s) = 0 -> queued (s_pg s) qs ->
    history solve plugin d s t s1 -> Forall went_well t -> small_queues (given qs t) ->
    let L := an_slot_length (s_an s) in let n := Z.of_nat (steps_of t) in
    n + L < two32 ->
    exists r s2, emulate_slot solve plugin (Z.to_nat L) d s1 = Ok (r, s2) /\ r <> TDICE_STEP_DONE /\
      (r = TDICE_SLOT_DONE ->
        an_time (s_an s2) = n + (L - n mod L) /\
        (n mod L = 0 ->
           history solve plugin d s1 (repeat (Stepped TDICE_STEP_DONE) (Z.to_nat (L - 1)) ++ [Stepped TDICE_SLOT_DONE]) s2 /\
           forall q1, queued (s_pg s1) q1 -> queued (s_pg s2) (map (@tl Q) q1))).
Proof.
  intros M PS solve plugin d s s1 qs t IP GS T Q H W SM L n B.
  assert (L0 : 0 < L) by (destruct GS as (_ & _ & _ & X & _); unfold L; lia).
  pose proof (Z.mod_pos_bound n L L0) as MB.
  destruct (history_at solve plugin IP d s t s1 H _ _ _ (at_start d s qs GS T Q) W ltac:(unfold n, L in *; lia) SM) as (AS & K & _).
  rewrite Z.add_0_l in AS. fold L n in AS.
  destruct (slot_ends solve plugin IP d L n _ s1 AS SM ltac:(lia) (Z.to_nat L) ltac:(lia)) as (r & s2 & E & N & F).
  exists r, s2. split; [exact E|]. split; [exact N|]. intros ->. specialize (F eq_refl).
  split; [apply (at_time _ _ _ _ _ F)|]. intro Z0.
  destruct (slot_history solve plugin _ _ _ _ _ E) as (k & HK & _).
  assert (ST : steps_of (repeat (Stepped TDICE_STEP_DONE) k ++ [Stepped TDICE_SLOT_DONE]) = S k).
  { unfold steps_of. rewrite filter_app, app_length. cbn [filter is_step length].
    replace (filter is_step (repeat (Stepped TDICE_STEP_DONE) k)) with (repeat (Stepped TDICE_STEP_DONE) k); [rewrite repeat_length; lia|].
    clear. induction k; cbn; congruence. }
  assert (KL : k = Z.to_nat (L - 1)).
  { (* the answers tell where the slot ends *)
    assert (WW : Forall went_well (repeat (Stepped TDICE_STEP_DONE) k ++ [Stepped TDICE_SLOT_DONE])).
    { apply Forall_app. split; [clear; induction k; constructor; [left; reflexivity|assumption]|constructor; [right; reflexivity|constructor]]. }
    assert (KB : Z.of_nat k < L).
    { destruct (Z.lt_ge_cases (Z.of_nat k) L) as [|G]; [assumption|]. exfalso.
      (* L steps already ended the slot *)
      set (j := Z.to_nat (L - 1)).
      assert (exists m, k = (S j + m)%nat) as (m & KM) by (exists (k - S j)%nat; unfold j; lia).
      rewrite KM, repeat_app in HK. rewrite <- app_assoc in HK.
      assert (SPL : forall t1 a t2 b, history solve plugin d a (t1 ++ t2) b -> exists c, history solve plugin d a t1 c).
      { clear. induction t1 as [|e t1 IH]; intros a t2 b H; [exists a; constructor|]. cbn [app] in H. inversion H; subst.
        - match goal with HH : history _ _ _ _ (t1 ++ t2) _ |- _ => destruct (IH _ _ _ HH) as (c & Hc) end. exists c. eapply H_step; eassumption.
        - match goal with HH : history _ _ _ _ (t1 ++ t2) _ |- _ => destruct (IH _ _ _ HH) as (c & Hc) end. exists c. eapply H_insert; eassumption. }
      destruct (SPL _ _ _ _ HK) as (c & HC).
      assert (WJ : Forall went_well (repeat (Stepped TDICE_STEP_DONE) (S j))) by (clear; generalize (S j); intro p; induction p; constructor; [left; reflexivity|assumption]).
      assert (SJ : steps_of (repeat (Stepped TDICE_STEP_DONE) (S j)) = S j).
      { unfold steps_of. replace (filter is_step (repeat (Stepped TDICE_STEP_DONE) (S j))) with (repeat (Stepped TDICE_STEP_DONE) (S j)); [apply repeat_length|].
        clear. generalize (S j). intro p. induction p; cbn; congruence. }
      assert (GJ : forall p tot, given tot (repeat (Stepped TDICE_STEP_DONE) p) = tot) by (clear; induction p; intro tot; cbn; auto).
      destruct (history_at solve plugin IP d s1 _ c HC L n _ AS WJ) as (_ & _ & A).
      { rewrite SJ. unfold j. lia. }
      { rewrite GJ. exact SM. }
      rewrite SJ in A. assert (AJ : forall p, answers (repeat (Stepped TDICE_STEP_DONE) p) = repeat TDICE_STEP_DONE p) by (clear; induction p as [|p IHp]; [reflexivity|]; cbn [repeat answers flat_map app]; f_equal; exact IHp).
      rewrite AJ in A. pose proof (f_equal (fun l => nth j l TDICE_WRONG_CONFIG) A) as A1. cbn beta in A1.
      rewrite nth_repeat' in A1 by lia.
      rewrite (nth_indep _ TDICE_WRONG_CONFIG ((fun i => if (n + Z.of_nat i) mod L =? 0 then TDICE_SLOT_DONE else TDICE_STEP_DONE) O)) in A1 by (rewrite map_length, seq_length; lia).
      rewrite (map_nth (fun i => if (n + Z.of_nat i) mod L =? 0 then TDICE_SLOT_DONE else TDICE_STEP_DONE)) in A1.
      rewrite seq_nth in A1 by lia. replace (n + Z.of_nat (1 + j)) with (n + 1 * L) in A1 by (unfold j; lia).
      rewrite Z.mod_add, Z0 in A1 by lia. discriminate. }
    assert (GJ : forall p tot, given tot (repeat (Stepped TDICE_STEP_DONE) p ++ [Stepped TDICE_SLOT_DONE]) = tot) by (clear; induction p; intro tot; cbn; auto).
    destruct (history_at solve plugin IP d s1 _ s2 HK L n _ AS WW) as (A2 & _ & _).
    { rewrite ST. lia. }
    { rewrite GJ. exact SM. }
    rewrite ST in A2. pose proof (at_time _ _ _ _ _ A2) as X1. pose proof (at_time _ _ _ _ _ F) as X2. rewrite Z0 in X2. lia. }
  subst k. split; [exact HK|]. intros q1 Q1.
  pose proof (queued_fun _ _ _ Q1 (at_queues _ _ _ _ _ AS)) as ->.
  pose proof (at_queues _ _ _ _ _ F) as QF. rewrite Z0 in QF.
  rewrite map_map. 
  assert (SB : slots_begun L (n + (L - 0)) = slots_begun L n + 1).
  { unfold slots_begun. replace (n + (L - 0) + L - 1) with (n + L - 1 + 1 * L) by lia. rewrite Z.div_add by lia. reflexivity. }
  rewrite SB in QF. pose proof (slots_begun_nonneg L n L0 ltac:(unfold n; lia)) as NN.
  replace (Z.to_nat (slots_begun L n + 1)) with (S (Z.to_nat (slots_begun L n))) in QF by lia.
  erewrite map_ext; [exact QF|]. intro l. cbn beta.
  change (S (Z.to_nat (slots_begun L n))) with (1 + Z.to_nat (slots_begun L n))%nat. rewrite <- StackProofs.skipn_skipn'.
  destruct (skipn (Z.to_nat (slots_begun L n)) l); reflexivity.
Qed.
Print Assumptions C19_slot_duration.

(** C20: a successful step that does not start a slot leaves the sources of the
    chip and the queues as they are; the right-hand side it solves is
    source + capacity / step * temperature, cell by cell. *)
Theorem C20_constant_within_slot : forall {M PS} solve plugin d (s s' : sim M PS) qs r,
    in_place solve plugin -> good_sim d s -> queued (s_pg s) qs -> ~ on_boundary s ->
    emulate_step solve plugin d s = Ok (r, s') -> r = TDICE_STEP_DONE \/ r = TDICE_SLOT_DONE ->
    (forall l r c, 0 <= l < d_nlayers d -> 0 <= r < d_nrows d -> 0 <= c < d_ncols d ->
        at_cell d (pg_sources (s_pg s')) l r c = at_cell d (pg_sources (s_pg s)) l r c) /\
    queued (s_pg s') qs /\ same_fields (s_pg s) (s_pg s').
Proof.
  intros M PS solve plugin d s s' qs r IP GS Q NB E R.
  destruct (emulate_step_spec solve plugin IP d s qs GS Q) as (r0 & s0 & E0 & _ & SF & _ & Q' & X).
  rewrite E in E0. assert (r0 = r /\ s0 = s') as [-> ->] by (split; congruence). unfold on_boundary in NB.
  apply Z.eqb_neq in NB. rewrite NB in *. split; [|split; assumption].
  assert (SC : same_chip d (pg_sources (s_pg s')) (pg_sources (s_pg s))) by (destruct R as [-> | ->]; apply X).
  intros l0 r0 c0 Hl Hr Hc. unfold at_cell. apply SC. destruct GS as ((G & _) & _).
  destruct (cell_index d r0 c0 G Hr Hc) as [I _]. unfold chip_cells. nia.
Qed.
Print Assumptions C20_constant_within_slot.

(** emulate_slot is a sequence of steps: how the steps are requested does not
    matter. *)
Theorem C20_slot_is_steps : forall {M PS} solve plugin fuel d (s s' : sim M PS) r,
    emulate_slot solve plugin fuel d s = Ok (r, s') ->
    exists k, history solve plugin d s (repeat (Stepped TDICE_STEP_DONE) k ++ [Stepped r]) s' /\ r <> TDICE_STEP_DONE.
Proof. intros M PS solve plugin fuel d s s' r. apply slot_history. Qed.
Print Assumptions C20_slot_is_steps.

(** The equation solved by a successful step. *)
Theorem C20_step_equation : forall {M PS} solve plugin d (s s' : sim M PS) qs r,
    in_place solve plugin -> good_sim d s -> queued (s_pg s) qs ->
    emulate_step solve plugin d s = Ok (r, s') -> r = TDICE_STEP_DONE \/ r = TDICE_SLOT_DONE ->
    exists b, solve (s_matrix s) b = (TDICE_SUCCESS, s_temps s') /\ length b = length (s_temps s) /\
      forall i, (i < length b)%nat ->
        nth i b 0%Q = (nth i (pg_sources (s_pg s')) 0 + nth i (pg_caps (s_pg s)) 0 / an_step (s_an s) * nth i (s_temps s) 0)%Q.
Proof.
  intros M PS solve plugin d s s' qs r IP GS Q E R.
  destruct (emulate_step_spec solve plugin IP d s qs GS Q) as (r0 & s0 & E0 & _ & _ & _ & _ & X).
  rewrite E in E0. assert (r0 = r /\ s0 = s') as [-> ->] by (split; congruence).
  destruct R as [-> | ->]; destruct X as (_ & _ & _ & _ & X); exact X.
Qed.
Print Assumptions C20_step_equation.

(** C21: END_OF_SIMULATION is answered exactly on a slot boundary with an empty
    queue; temperatures and time are kept; all further steps (and slots) are
    answered the same way and keep them, until values are inserted; if every
    element receives a value the next step is not refused. *)
Theorem C21_end_of_simulation : forall {M PS} solve plugin d (s : sim M PS) qs,
    in_place solve plugin -> good_sim d s -> queued (s_pg s) qs ->
    exists r s', emulate_step solve plugin d s = Ok (r, s') /\
      (r = TDICE_END_OF_SIMULATION <-> on_boundary s /\ In [] qs) /\
      (r = TDICE_END_OF_SIMULATION ->
         s_temps s' = s_temps s /\ s_an s' = s_an s /\
         (forall fuel, emulate_slot solve plugin (S fuel) d s = Ok (TDICE_END_OF_SIMULATION, s')) /\
         (forall n, exists s2, history solve plugin d s' (repeat (Stepped TDICE_END_OF_SIMULATION) n) s2 /\
            s_temps s2 = s_temps s /\ s_an s2 = s_an s) /\
         (forall n s2 pv vs pg' pv' r3 s3,
            history solve plugin d s' (repeat (Stepped TDICE_END_OF_SIMULATION) n) s2 ->
            qrep pv vs -> small_queues qs -> insert_power_values (s_pg s2) pv = Ok (TDICE_SUCCESS, pg', pv') ->
            emulate_step solve plugin d (with_pg s2 pg') = Ok (r3, s3) -> r3 <> TDICE_END_OF_SIMULATION)).
Proof.
  intros M PS solve plugin d s qs IP GS Q.
  destruct (emulate_step_spec solve plugin IP d s qs GS Q) as (r & s' & E & GS' & _ & _ & Q' & X).
  exists r, s'. split; [exact E|]. split; [apply (step_end_iff solve plugin IP d s qs r s' GS Q E)|].
  intros ->. destruct X as (B & FA & T & A & P).
  split; [exact T|]. split; [exact A|]. split; [intro fuel; cbn [emulate_slot]; rewrite E; reflexivity|].
  destruct (step_end_keeps solve plugin IP d s s' GS (ex_intro _ qs Q) E) as (_ & _ & _ & _ & B' & ST).
  split.
  - intro n. destruct (end_repeats solve plugin IP d n s' GS' B' ST) as (s2 & H & T2 & A2 & _). exists s2. split; [exact H|]. split; congruence.
  - intros n s2 pv vs pg' pv' r3 s3 H V SM EI E3.
    (* queues never grow by steps *)
    assert (SH : forall n s q, good_sim d s -> queued (s_pg s) q -> small_queues q ->
       forall s2, history solve plugin d s (repeat (Stepped TDICE_END_OF_SIMULATION) n) s2 ->
       good_sim d s2 /\ exists q2, queued (s_pg s2) q2 /\ small_queues q2).
    { assert (TS : forall q, small_queues q -> small_queues (snd (fst (take_heads q)))).
      { unfold small_queues. induction q as [|[|x l] q IH]; intro F; [exact F|exact F|]. cbn [take_heads].
        inversion F as [|? ? F1 F2]. subst. specialize (IH F2). destruct (take_heads q) as [[b q'] h]. cbn [fst snd] in *. constructor; [cbn [length] in F1; lia|exact IH]. }
      clear - IP TS. induction n as [|n IH]; intros s q GS Q SM s2 H; cbn [repeat] in H; inversion H; subst; [eauto|].
      match goal with HE : emulate_step solve plugin d s = Ok (_, ?y), HH : history _ _ _ ?y _ _ |- _ =>
        destruct (emulate_step_spec solve plugin IP d s q GS Q) as (r0 & s0 & E0 & GS' & _ & _ & Q' & X);
        rewrite HE in E0; assert (s0 = y) as -> by congruence; apply (IH y _ GS' Q') ; [|exact HH] end.
      destruct (_ =? 0); [apply TS; exact SM|exact SM]. }
    assert (SM' : small_queues (snd (fst (take_heads qs)))).
    { assert (TS : forall q, small_queues q -> small_queues (snd (fst (take_heads q)))).
      { unfold small_queues. induction q as [|[|x l] q IH]; intro F; [exact F|exact F|]. cbn [take_heads].
        inversion F as [|? ? F1 F2]. subst. specialize (IH F2). destruct (take_heads q) as [[b q'] h]. cbn [fst snd] in *. constructor; [cbn [length] in F1; lia|exact IH]. }
      apply TS. exact SM. }
    rewrite B in Q'. destruct (SH n s' _ GS' Q' SM' s2 H) as (GS2 & q2 & Q2 & SM2).
    pose proof GS2 as (GP2 & LT2 & TY2 & SL2 & TM2).
    destruct (insert_power_values_spec (s_pg s2) d q2 vs pv GP2 Q2 V SM2) as (pg2 & pv2 & EI2 & GP3 & SF3 & Q3 & _ & _).
    rewrite EI in EI2. assert (pg2 = pg') as -> by congruence.
    assert (LE : (length q2 <= length vs)%nat) by (destruct (Nat.leb_spec (length q2) (length vs)); [assumption|congruence]).
    assert (GS3 : good_sim d (with_pg s2 pg')).
    { unfold good_sim, with_pg. cbn [s_pg s_temps s_an]. split; [exact GP3|]. split; [|auto]. rewrite LT2. symmetry. apply SF3. }
    intros ->. destruct (proj1 (step_end_iff solve plugin IP d (with_pg s2 pg') (give q2 vs) _ s3 GS3 Q3 E3) eq_refl) as [_ I].
    revert I. clear - LE. revert vs LE. induction q2 as [|l q2 IH]; intros [|v vs] L I; cbn [length] in L; try lia; [destruct I|destruct I|].
      cbn [give] in I. destruct I as [I|I]; [destruct l; discriminate|]. apply (IH vs); [lia|exact I].
Qed.
Print Assumptions C21_end_of_simulation.

Theorem C21_wrong_config : forall {M PS} solve plugin d (s : sim M PS),
    (an_type (s_an s) <> AT_TRANSIENT ->
       emulate_step solve plugin d s = Ok (TDICE_WRONG_CONFIG, s) /\
       forall fuel, emulate_slot solve plugin (S fuel) d s = Ok (TDICE_WRONG_CONFIG, s)) /\
    (an_type (s_an s) <> AT_STEADY -> emulate_steady solve d s = Ok (TDICE_WRONG_CONFIG, s)).
Proof.
  intros M PS solve plugin d s. split; intro H.
  - assert (E : emulate_step solve plugin d s = Ok (TDICE_WRONG_CONFIG, s)) by (unfold emulate_step; destruct (an_type (s_an s)); congruence).
    split; [exact E|]. intro fuel. cbn [emulate_slot]. rewrite E. reflexivity.
  - unfold emulate_steady. destruct (an_type (s_an s)); congruence.
Qed.
Print Assumptions C21_wrong_config.

(** A fresh simulation with the same model, parameters and remaining values as
    [s]: time 0, initial temperatures, any sources. *)
Definition fresh_like {M PS} (s t : sim M PS) : Prop :=
  s_temps t = map (fun _ => an_initial (s_an s)) (s_temps s) /\ s_matrix t = s_matrix s /\ s_plugin t = s_plugin s /\
  s_an t = mkAnalysis (an_type (s_an s)) (an_step (s_an s)) (an_slot_length (s_an s)) 0 (an_initial (s_an s)) /\
  s_pg t = set_sources (s_pg s) (pg_flps (s_pg s)) (pg_sources (s_pg t)) /\
  length (pg_sources (s_pg t)) = length (pg_sources (s_pg s)).

(** C22 is false of the code inside a slot: reset_thermal_state keeps the time, so
    the current slot goes on instead of a new one being started. *)
Theorem C22_reset_inside_slot_refuted : exists (d : dims) (s t : sim unit unit) r1 s1 t1,
    good_sim d s /\ fresh_like s t /\
    emulate_step wsolve wplugin d (reset_thermal_state s) = Ok (r1, s1) /\ r1 <> TDICE_END_OF_SIMULATION /\
    emulate_step wsolve wplugin d t = Ok (TDICE_END_OF_SIMULATION, t1).
Proof.
  set (s := wsim q_empty q_empty (repeat 0%Q 8) (repeat 320%Q 8) 2 1).
  set (t := wsim q_empty q_empty (repeat 0%Q 8) (repeat 300%Q 8) 2 0).
  assert (GS : forall T x, length T = 8%nat -> 0 <= x < 2 -> good_sim wd (wsim q_empty q_empty (repeat 0%Q 8) T 2 x)).
  { intros T x HT Hx. apply wsim_good; [reflexivity|exact HT|unfold two32; lia|unfold two32; lia]. }
  pose proof (wpg_queued q_empty q_empty (repeat 0%Q 8) [] [] q_empty_rep q_empty_rep) as QU.
  destruct (emulate_step_spec wsolve wplugin w_in_place wd (wsim q_empty q_empty (repeat 0%Q 8) (repeat 300%Q 8) 2 1) _ (GS (repeat 300%Q 8) 1 eq_refl ltac:(lia)) QU) as (r1 & s1 & E1 & _).
  destruct (emulate_step_spec wsolve wplugin w_in_place wd t _ (GS (repeat 300%Q 8) 0 eq_refl ltac:(lia)) QU) as (r2 & t1 & E2 & _).
  exists wd, s, t, r1, s1, t1. split; [apply GS; [reflexivity|lia]|]. split.
  { unfold fresh_like. repeat (split; [reflexivity|]). reflexivity. }
  split; [exact E1|]. split.
  - intro R. apply (step_end_iff wsolve wplugin w_in_place wd _ _ r1 s1 (GS (repeat 300%Q 8) 1 eq_refl ltac:(lia)) QU E1) in R. destruct R as [R _]. discriminate R.
  - assert (r2 = TDICE_END_OF_SIMULATION) as <-; [|exact E2].
    apply (proj2 (step_end_iff wsolve wplugin w_in_place wd t _ r2 t1 (GS (repeat 300%Q 8) 0 eq_refl ltac:(lia)) QU E2)).
    split; [reflexivity|left; reflexivity].
Qed.
Print Assumptions C22_reset_inside_slot_refuted.

(** What holds: called on a slot boundary, reset gives the answers and the
    temperatures of a fresh simulation for any number of further steps (while the
    step counter does not wrap); the plugin of the heat sink keeps its state. *)
Theorem C22_reset_on_boundary_partial : forall {M PS} solve plugin d (s t : sim M PS) qs tr s',
    in_place solve plugin -> good_sim d s -> queued (s_pg s) qs -> on_boundary s -> fresh_like s t ->
    Forall (fun e => is_step e = true) tr -> an_time (s_an s) + Z.of_nat (length tr) < two32 ->
    history solve plugin d (reset_thermal_state s) tr s' ->
    exists t', history solve plugin d t tr t' /\ s_temps t' = s_temps s' /\
      an_time (s_an t') = an_time (s_an s') - an_time (s_an s).
Proof.
  intros M PS solve plugin d s t qs tr s' IP GS Q B (F1 & F2 & F3 & F4 & F5 & F6) SO HB H.
  pose proof GS as (GP & LT & TY & SL & TM).
  assert (GR : good_sim d (reset_thermal_state s)).
  { unfold good_sim, reset_thermal_state. cbn [s_pg s_temps s_an]. rewrite map_length. auto. }
  destruct (same_course_history solve plugin IP d _ tr s' H SO (an_time (s_an s)) qs t GR Q) as (t' & H' & SC).
  { unfold same_course, on_boundary, reset_thermal_state. cbn [s_pg s_temps s_an s_matrix s_plugin]. rewrite F4.
    cbn [an_time an_type an_step an_slot_length an_initial]. unfold on_boundary in B.
    repeat (split; [first [congruence|lia|reflexivity|rewrite B, Z.mod_0_l by lia; reflexivity]|]).
    right. split; [exact B|]. split; [exact F5|]. congruence. }
  exists t'. split; [exact H'|]. destruct SC as (DT & ET & _). split; [congruence|lia].
Qed.
Print Assumptions C22_reset_on_boundary_partial.

(** ** The hypotheses can be met *)
(** Two elements, three values each; slots of two steps; three successful steps,
    one insertion in the middle. *)
Definition wq (a b : Q) : queue := q_put (q_put q_empty a) b.
Lemma wq_rep : forall a b, qrep (wq a b) [a; b].
Proof. intros a b. apply (q_put_rep (q_put q_empty a) [a]); [apply (q_put_rep q_empty []); [apply q_empty_rep|]|]; unfold two32; cbn; lia. Qed.

Example C16_witness : exists s t s',
    good_sim wd s /\ an_time (s_an s) = 0 /\ queued (s_pg s) [[4; 6]; [8; 10]]%Q /\
    history wsolve wplugin wd s t s' /\ Forall went_well t /\ steps_of t = 3%nat /\
    given [[4; 6]; [8; 10]]%Q t = [[4; 6; 1]; [8; 10; 2]]%Q /\ small_queues (given [[4; 6]; [8; 10]]%Q t) /\
    map (@length Q) [[4; 6; 1]; [8; 10; 2]]%Q = [3; 3]%nat.
Proof.
  set (s0 := wsim (wq 4 6) (wq 8 10) (repeat 0%Q 8) (repeat 300%Q 8) 2 0).
  assert (GS : good_sim wd s0) by (apply wsim_good; try reflexivity; unfold two32; lia).
  assert (QU : queued (s_pg s0) [[4; 6]; [8; 10]]%Q) by (apply wpg_queued; apply wq_rep).
  exists s0, [Stepped TDICE_STEP_DONE; Inserted [1%Q; 2%Q] TDICE_SUCCESS; Stepped TDICE_SLOT_DONE; Stepped TDICE_STEP_DONE].
  destruct (emulate_step wsolve wplugin wd s0) as [[r1 s1]| |] eqn:E1; try (vm_compute in E1; discriminate).
  assert (r1 = TDICE_STEP_DONE) as -> by (vm_compute in E1; congruence).
  destruct (insert_power_values (s_pg s1) (wq 1 2)) as [[[e pg2] pv2]| |] eqn:E2; try (vm_compute in E1; injection E1 as <-; vm_compute in E2; discriminate).
  assert (e = TDICE_SUCCESS) as -> by (vm_compute in E1; injection E1 as <-; vm_compute in E2; congruence).
  destruct (emulate_step wsolve wplugin wd (with_pg s1 pg2)) as [[r3 s3]| |] eqn:E3;
    try (vm_compute in E1; injection E1 as <-; vm_compute in E2; injection E2 as <- _; vm_compute in E3; discriminate).
  assert (r3 = TDICE_SLOT_DONE) as -> by (vm_compute in E1; injection E1 as <-; vm_compute in E2; injection E2 as <- _; vm_compute in E3; congruence).
  destruct (emulate_step wsolve wplugin wd s3) as [[r4 s4]| |] eqn:E4;
    try (vm_compute in E1; injection E1 as <-; vm_compute in E2; injection E2 as <- _; vm_compute in E3; injection E3 as <-; vm_compute in E4; discriminate).
  assert (r4 = TDICE_STEP_DONE) as -> by (vm_compute in E1; injection E1 as <-; vm_compute in E2; injection E2 as <- _; vm_compute in E3; injection E3 as <-; vm_compute in E4; congruence).
  exists s4. split; [exact GS|]. split; [reflexivity|]. split; [exact QU|]. split.
  { eapply H_step; [exact E1|]. eapply H_insert; [apply wq_rep|exact E2|]. eapply H_step; [exact E3|]. eapply H_step; [exact E4|]. constructor. }
  split; [constructor; [left; reflexivity|]; constructor; [reflexivity|]; constructor; [right; reflexivity|]; constructor; [left; reflexivity|]; constructor|].
  split; [reflexivity|]. split; [reflexivity|]. split; [constructor; [|constructor; [|constructor]]; unfold two32; cbn; lia|reflexivity].
Qed.

(** The other hypotheses: a boundary with an empty queue, and one without. *)
Example C21_witness : exists (s : sim unit unit) qs, good_sim wd s /\ queued (s_pg s) qs /\ on_boundary s /\ In [] qs /\ small_queues qs.
Proof.
  exists (wsim (wq 4 6) q_empty (repeat 0%Q 8) (repeat 300%Q 8) 2 4), [[4; 6]; []]%Q.
  split; [apply wsim_good; try reflexivity; unfold two32; lia|]. split; [apply wpg_queued; [apply wq_rep|apply q_empty_rep]|].
  split; [reflexivity|]. split; [right; left; reflexivity|]. constructor; [|constructor; [|constructor]]; unfold two32; cbn; lia.
Qed.
