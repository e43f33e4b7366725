From Coq Require Import ZArith List Bool QArith Lia Lqa.
From Verif Require Import Base QSum Dims DimsSpec DimsProofs Queue QueueProofs Floorplan FloorplanSpec
     FloorplanProofs FlpMatrixProofs TempProofs Stack StackSpec StackProofs PowerGrid Emulate EmulateSpec SourceProofs LayerProofs SourceVectorProofs.
Import ListNotations.
Local Open Scope Z_scope.

Section EmulateProofs.
  Context {M PS : Type}.
  Variable solve : M -> list Q -> error_t * list Q.
  Variable plugin : PS -> list Q -> list Q -> bool * list Q * PS.
  Hypothesis IP : in_place solve plugin.

  Lemma slot_completed_spec : forall a, 0 < an_slot_length a ->
      slot_completed a = Ok (an_time a mod an_slot_length a =? 0).
  Proof. intros a H. unfold slot_completed. destruct (Z.eqb_spec (an_slot_length a) 0); [lia|reflexivity]. Qed.

  Lemma fill_cells_spec : forall n step src caps temps, length src = n -> length caps = n -> length temps = n ->
      exists b, fill_cells n step src caps temps = Ok b /\ length b = n /\
        forall i, (i < n)%nat -> nth i b 0%Q = (nth i src 0 + nth i caps 0 / step * nth i temps 0)%Q.
  Proof.
    induction n as [|n IH]; intros step src caps temps L1 L2 L3.
    - exists temps. cbn. repeat split; [lia|]. intros i Hi. lia.
    - destruct src as [|x src], caps as [|c caps], temps as [|t temps]; cbn [length] in *; try lia.
      destruct (IH step src caps temps ltac:(lia) ltac:(lia) ltac:(lia)) as (b & E & L & W).
      cbn [fill_cells]. rewrite E. cbn [bind]. eexists. split; [reflexivity|]. split; [cbn; lia|].
      intros [|i] Hi; [reflexivity|]. cbn [nth]. apply W. lia.
  Qed.

  Lemma spreader_offset_0 : forall d pg sp h m, good_pgrid d pg -> pg_top pg = Some (SinkPluggable sp h m) ->
      spreader_offset d sp 0 0 = chip_cells d /\ u32 (s_ncols sp * s_nrows sp) = spreader_cells (pg_top pg) /\
      0 < chip_cells d /\ 0 < spreader_cells (pg_top pg).
  Proof.
    intros d pg sp h m GP ET. pose proof GP as (G & NL & LH & NC & NC2 & SP & _).
    destruct (SP _ _ _ ET) as [S1 S2]. pose proof G as ((R1 & R2) & (C1 & C2) & A & _).
    rewrite ET in *. cbn [spreader_cells] in *.
    assert (0 < chip_cells d) as CP by (unfold chip_cells; rewrite <- Z.mul_assoc; apply Z.mul_pos_pos; [lia|]; apply Z.mul_pos_pos; lia).
    assert (0 < s_nrows sp * s_ncols sp) as SPP by (apply Z.mul_pos_pos; lia).
    assert (d_nlayers d * d_nrows d <= chip_cells d) as X.
    { unfold chip_cells. rewrite <- (Z.mul_1_r (d_nlayers d * d_nrows d)) at 1. apply Z.mul_le_mono_nonneg_l; [|lia].
      apply Z.mul_nonneg_nonneg; lia. }
    assert (0 <= d_nlayers d * d_nrows d) by (apply Z.mul_nonneg_nonneg; lia).
    unfold spreader_offset. rewrite Z.mul_0_l. rewrite (u32_id 0) by (unfold two32; lia).
    rewrite (u32_id (d_nlayers d * d_nrows d)) by lia. fold (chip_cells d). rewrite !Z.add_0_r.
    rewrite (u32_id (chip_cells d)) by lia. rewrite !(u32_id (chip_cells d)) by lia.
    rewrite (Z.mul_comm (s_ncols sp)). rewrite u32_id by lia. repeat split; lia.
  Qed.

  (** The plugin changes only the sources of the spreader. *)
  Definition same_chip (d : dims) (a b : list Q) : Prop :=
    length a = length b /\ forall i, (i < Z.to_nat (chip_cells d))%nat -> nth i a 0%Q = nth i b 0%Q.

  Lemma good_pgrid_sources : forall d pg s, good_pgrid d pg -> length s = length (pg_sources pg) ->
      good_pgrid d (set_sources pg (pg_flps pg) s).
  Proof.
    intros d pg s (G & NL & LH & NC & NC2 & SP & NCL & LS & LC & LT & LB & LTY & FL) L.
    unfold good_pgrid, set_sources. cbn [pg_nlayers pg_ncells pg_ncells_layer pg_types pg_flps pg_top pg_bottom pg_channel pg_sources pg_caps pg_top_tcs pg_bottom_tcs].
    repeat (split; [first [assumption|congruence]|]). exact FL.
  Qed.

  Lemma pluggable_spec : forall d (s : sim M PS), good_sim d s ->
      exists e s', pluggable_heatsink plugin d s = Ok (e, s') /\ good_sim d s' /\
        s_temps s' = s_temps s /\ s_an s' = s_an s /\ s_matrix s' = s_matrix s /\
        exists v, s_pg s' = set_sources (s_pg s) (pg_flps (s_pg s)) v /\ same_chip d v (pg_sources (s_pg s)).
  Proof.
    intros d s (GP & LT & TY & SL & TM). unfold pluggable_heatsink.
    assert (DEF : exists e s', Ok (TDICE_SUCCESS, s) = Ok (e, s') /\ good_sim d s' /\
        s_temps s' = s_temps s /\ s_an s' = s_an s /\ s_matrix s' = s_matrix s /\
        exists v, s_pg s' = set_sources (s_pg s) (pg_flps (s_pg s)) v /\ same_chip d v (pg_sources (s_pg s))).
    { exists TDICE_SUCCESS, s. split; [reflexivity|]. split; [unfold good_sim; auto|]. repeat (split; [reflexivity|]).
      exists (pg_sources (s_pg s)). split; [destruct (s_pg s); reflexivity|split; auto]. }
    destruct (pg_top (s_pg s)) as [[h t|sp h m]|] eqn:ET; [exact DEF| |exact DEF]. clear DEF.
    destruct (spreader_offset_0 d (s_pg s) sp h m GP ET) as (EO & EN & CP & SPP). rewrite EO, EN.
    pose proof GP as (G & NL & LH & NC & NC2 & SP & NCL & LS & LC & _).
    set (off := Z.to_nat (chip_cells d)). set (n := Z.to_nat (spreader_cells (pg_top (s_pg s)))).
    assert (LS' : length (pg_sources (s_pg s)) = (off + n)%nat) by (unfold off, n; lia).
    assert (LT' : length (s_temps s) = (off + n)%nat) by (unfold off, n; lia).
    replace (off + n <=? length (pg_sources (s_pg s)))%nat with true by (symmetry; apply Nat.leb_le; lia).
    replace (off + n <=? length (s_temps s))%nat with true by (symmetry; apply Nat.leb_le; lia). cbn [andb].
    destruct (plugin (s_plugin s) _ _) as [[bad flows] ps] eqn:EP.
    apply (proj2 IP) in EP. rewrite firstn_length, skipn_length in EP.
    assert (BK : forall fl, length fl = length flows ->
       same_chip d (firstn off (pg_sources (s_pg s)) ++ fl ++ skipn (off + n) (pg_sources (s_pg s))) (pg_sources (s_pg s))).
    { intros fl Lf. split.
      - rewrite !app_length, firstn_length, skipn_length. lia.
      - intros i Hi. rewrite app_nth1 by (rewrite firstn_length; unfold off; lia). apply nth_firstn_lt. exact Hi. }
    assert (GS : forall fl, length fl = length flows -> forall (e : error_t) (s' : sim M PS), s' = mkSim (s_temps s) (set_sources (s_pg s) (pg_flps (s_pg s)) (firstn off (pg_sources (s_pg s)) ++ fl ++ skipn (off + n) (pg_sources (s_pg s)))) (s_matrix s) (s_an s) ps ->
        exists (e' : error_t) (s'' : sim M PS), Ok (e, s') = Ok (e', s'') /\ good_sim d s'' /\
        s_temps s'' = s_temps s /\ s_an s'' = s_an s /\ s_matrix s'' = s_matrix s /\
        exists v, s_pg s'' = set_sources (s_pg s) (pg_flps (s_pg s)) v /\ same_chip d v (pg_sources (s_pg s))).
    { intros fl Lf e s' ->. eexists. eexists. split; [reflexivity|]. split.
      - unfold good_sim. cbn [s_pg s_temps s_an]. split; [apply good_pgrid_sources; [exact GP|apply BK; exact Lf]|]. auto.
      - repeat (split; [reflexivity|]). eexists. split; [reflexivity|]. apply BK. exact Lf. }
    destruct bad.
    - apply (GS flows eq_refl _ _ eq_refl).
    - apply (GS (map Qopp flows)) ; [apply map_length|reflexivity].
  Qed.

  Lemma dissipates_chip : forall d pg pg' ps, good_pgrid d pg -> dissipates pg d ps ->
      same_fields pg pg' -> same_chip d (pg_sources pg') (pg_sources pg) -> dissipates pg' d ps.
  Proof.
    intros d pg pg' ps (G & NL & _) D SF [_ SC] l r c Hl Hr Hc. rewrite (expected_same _ _ _ _ _ _ _ SF), <- (D l r c Hl Hr Hc).
    unfold at_cell. rewrite SC; [reflexivity|]. destruct (cell_index d r c G Hr Hc) as [I _]. unfold chip_cells. nia.
  Qed.

  (** One step. *)
  Lemma emulate_step_spec : forall d (s : sim M PS) qs, good_sim d s -> queued (s_pg s) qs ->
      let boundary := (an_time (s_an s) mod an_slot_length (s_an s) =? 0) in
      exists r s', emulate_step solve plugin d s = Ok (r, s') /\ good_sim d s' /\ same_fields (s_pg s) (s_pg s') /\
        s_matrix s' = s_matrix s /\
        queued (s_pg s') (if boundary then snd (fst (take_heads qs)) else qs) /\
        match r with
        | TDICE_WRONG_CONFIG => False
        | TDICE_END_OF_SIMULATION =>
            boundary = true /\ fst (fst (take_heads qs)) = false /\ s_temps s' = s_temps s /\ s_an s' = s_an s /\ s_plugin s' = s_plugin s
        | TDICE_SOLVER_ERROR => s_an s' = s_an s /\ (boundary = true -> fst (fst (take_heads qs)) = true)
        | _ =>
            (boundary = true -> fst (fst (take_heads qs)) = true) /\
            s_an s' = increase_by_step_time (s_an s) /\
            r = (if an_time (s_an s') mod an_slot_length (s_an s') =? 0 then TDICE_SLOT_DONE else TDICE_STEP_DONE) /\
            (if boundary then dissipates (s_pg s') d (snd (take_heads qs))
             else same_chip d (pg_sources (s_pg s')) (pg_sources (s_pg s))) /\
            exists b, solve (s_matrix s) b = (TDICE_SUCCESS, s_temps s') /\
              length b = length (s_temps s) /\
              forall i, (i < length b)%nat ->
                nth i b 0%Q = (nth i (pg_sources (s_pg s')) 0 + nth i (pg_caps (s_pg s)) 0 / an_step (s_an s) * nth i (s_temps s) 0)%Q
        end.
  Proof.
    intros d s qs GS Q boundary. pose proof GS as (GP & LT & TY & SL & TM).
    unfold emulate_step. rewrite TY. rewrite slot_completed_spec by lia. cbn [bind]. fold boundary.
    (* the state after the source update *)
    assert (U : exists e1 pg1, (if boundary then update_source_vector (s_pg s) d else Ok (TDICE_SUCCESS, s_pg s)) = Ok (e1, pg1) /\
      good_pgrid d pg1 /\ same_fields (s_pg s) pg1 /\
      queued pg1 (if boundary then snd (fst (take_heads qs)) else qs) /\
      (e1 = TDICE_FAILURE -> boundary = true /\ fst (fst (take_heads qs)) = false) /\
      (e1 = TDICE_SUCCESS -> (boundary = true -> fst (fst (take_heads qs)) = true) /\
         if boundary then dissipates pg1 d (snd (take_heads qs)) else pg1 = s_pg s)).
    { destruct boundary.
      - destruct (update_source_vector_spec _ _ _ GP Q) as (pg1 & E & GP1 & SF & Q1 & W). rewrite E.
        eexists. exists pg1. split; [reflexivity|]. split; [exact GP1|]. split; [exact SF|]. split; [exact Q1|].
        destruct (fst (fst (take_heads qs))); split; try discriminate; auto.
        intros _. split; [reflexivity|]. apply W. reflexivity.
      - exists TDICE_SUCCESS, (s_pg s). split; [reflexivity|]. split; [exact GP|]. split; [apply same_fields_refl|].
        split; [exact Q|]. split; [discriminate|]. intros _. split; [discriminate|reflexivity]. }
    destruct U as (e1 & pg1 & E1 & GP1 & SF1 & Q1 & UF & US). rewrite E1. cbn [bind].
    assert (LT1 : Z.of_nat (length (s_temps s)) = pg_ncells pg1) by (rewrite LT; symmetry; apply SF1).
    destruct e1.
    2:{ destruct (UF eq_refl) as [B1 B2]. eexists. eexists. split; [reflexivity|]. cbn [s_pg s_matrix s_temps s_an s_plugin].
        split; [unfold good_sim; cbn [s_pg s_temps s_an]; auto|]. auto 10. }
    destruct (US eq_refl) as [B1 B2]. clear UF US E1.
    set (s1 := mkSim (s_temps s) pg1 (s_matrix s) (s_an s) (s_plugin s)).
    assert (GS1 : good_sim d s1) by (unfold good_sim, s1; cbn [s_pg s_temps s_an]; auto).
    destruct (pluggable_spec d s1 GS1) as (e2 & s2 & E2 & GS2 & T2 & A2 & M2 & v & P2 & C2).
    rewrite E2. cbn [bind]. unfold s1 in T2, A2, M2, P2, C2. cbn [s_pg s_temps s_an s_matrix] in T2, A2, M2, P2, C2.
    assert (SF2 : same_fields pg1 (s_pg s2)) by (rewrite P2; unfold same_fields, set_sources; repeat (split; [reflexivity|]); reflexivity).
    assert (SF : same_fields (s_pg s) (s_pg s2)) by (eapply same_fields_trans; eassumption).
    assert (Q2 : queued (s_pg s2) (if boundary then snd (fst (take_heads qs)) else qs)).
    { rewrite P2. exact Q1. }
    destruct e2.
    2:{ eexists. eexists. split; [reflexivity|]. split; [exact GS2|]. split; [exact SF|]. split; [exact M2|]. split; [exact Q2|].
        split; [exact A2|exact B1]. }
    pose proof GS2 as (GP2 & LT2 & TY2 & SL2 & TM2).
    pose proof GP2 as (G & NL & LH & NC & NC2 & SP & NCL & LS & LC & _).
    destruct (fill_cells_spec (Z.to_nat (chip_cells d + spreader_cells (pg_top (s_pg s2)))) (an_step (s_an s2)) (pg_sources (s_pg s2)) (pg_caps (s_pg s2)) (s_temps s2))
      as (b & EB & LB & WB); try lia.
    unfold fill_system_vector. rewrite EB. cbn [bind].
    destruct (solve (s_matrix s2) b) as [e3 x] eqn:ES. pose proof (proj1 IP _ _ _ _ ES) as LX.
    destruct e3.
    2:{ eexists. eexists. split; [reflexivity|]. cbn [s_pg s_matrix s_an s_temps]. split.
        { unfold good_sim. cbn [s_pg s_temps s_an]. split; [exact GP2|]. split; [rewrite LX, LB; lia|]. auto. }
        auto 10. }
    assert (SL3 : 0 < an_slot_length (increase_by_step_time (s_an s2))) by (unfold increase_by_step_time; cbn [an_slot_length]; lia).
    rewrite slot_completed_spec by exact SL3. cbn [bind].
    eexists. eexists. split; [reflexivity|]. cbn [s_pg s_matrix s_an s_temps]. split.
    { unfold good_sim. cbn [s_pg s_temps s_an]. split; [exact GP2|]. split; [rewrite LX, LB; lia|].
      split; [exact TY2|]. split; [unfold increase_by_step_time; cbn [an_slot_length]; exact SL2|].
      unfold increase_by_step_time. cbn [an_time]. apply u32_range. }
    split; [exact SF|]. split; [exact M2|]. split; [exact Q2|].
    assert (PROG : (boundary = true -> fst (fst (take_heads qs)) = true) /\
       increase_by_step_time (s_an s2) = increase_by_step_time (s_an s) /\
       (if boundary then dissipates (s_pg s2) d (snd (take_heads qs)) else same_chip d (pg_sources (s_pg s2)) (pg_sources (s_pg s))) /\
       exists b0, solve (s_matrix s) b0 = (TDICE_SUCCESS, x) /\ length b0 = length (s_temps s) /\
              forall i, (i < length b0)%nat ->
                nth i b0 0%Q = (nth i (pg_sources (s_pg s2)) 0 + nth i (pg_caps (s_pg s)) 0 / an_step (s_an s) * nth i (s_temps s) 0)%Q).
    { split; [exact B1|]. split; [rewrite A2; reflexivity|]. split.
      - destruct boundary.
        + apply (dissipates_chip d pg1); [exact GP1|exact B2|exact SF2|]. rewrite P2. exact C2.
        + rewrite P2. cbn [set_sources pg_sources]. rewrite <- B2. exact C2.
      - exists b. rewrite <- M2. split; [exact ES|]. split; [rewrite LB, <- T2; lia|].
        intros i Hi. rewrite WB by lia. rewrite A2, T2. destruct SF as (_ & _ & _ & _ & _ & _ & _ & CA & _). rewrite CA. reflexivity. }
    destruct PROG as (R1 & R2 & R3 & R4).
    destruct (an_time (increase_by_step_time (s_an s2)) mod an_slot_length (increase_by_step_time (s_an s2)) =? 0) eqn:EE;
      (split; [exact R1|]; split; [exact R2|]; split; [reflexivity|]; split; [exact R3|exact R4]).
  Qed.
End EmulateProofs.
