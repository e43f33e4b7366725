From Coq Require Import ZArith List Bool QArith Lia Lqa.
From Verif Require Import Base QSum Dims DimsSpec DimsProofs Queue QueueProofs Floorplan FloorplanSpec
     FloorplanProofs FlpMatrixProofs TempProofs Stack StackSpec StackProofs PowerGrid Emulate EmulateSpec SourceProofs LayerProofs SourceVectorProofs EmulateProofs HistoryProofs.
Import ListNotations.
Local Open Scope Z_scope.

Lemma take_heads_fail : forall qs, fst (fst (take_heads qs)) = false -> exists l, In l (snd (fst (take_heads qs))) /\ l = [].
Proof.
  induction qs as [|[|x l] r IH]; cbn [take_heads]; intro H.
  - discriminate.
  - exists []. split; [left; reflexivity|reflexivity].
  - destruct (take_heads r) as [[b r'] h]. cbn [fst snd] in *. destruct (IH H) as (l' & I & E). exists l'. split; [right; exact I|exact E].
Qed.
Lemma take_heads_fail_iff : forall qs, fst (fst (take_heads qs)) = false <-> In [] qs.
Proof.
  induction qs as [|[|x l] r IH]; cbn [take_heads].
  - split; [discriminate|intros []].
  - split; [left; reflexivity|reflexivity].
  - destruct (take_heads r) as [[b r'] h]. cbn [fst snd] in *. rewrite IH. split; [right; assumption|intros [|]; [discriminate|assumption]].
Qed.
(** On failure exactly the queues before the first empty one lose a value. *)
Lemma take_heads_partial : forall qs1 qs2, Forall (fun l => l <> []) qs1 ->
    take_heads (qs1 ++ [] :: qs2) = (false, map (@tl Q) qs1 ++ [] :: qs2, map (fun l => hd 0%Q l) qs1).
Proof.
  intros qs1 qs2 F. induction F as [|l qs1 H F IH]; [reflexivity|].
  destruct l as [|x l]; [congruence|]. cbn [app take_heads map tl hd]. rewrite IH. reflexivity.
Qed.

Lemma nth_repeat' : forall {A} (x d : A) n i, (i < n)%nat -> nth i (repeat x n) d = x.
Proof. intros A x d. induction n as [|n IH]; intros [|i] H; try lia; [reflexivity|]. cbn. apply IH. lia. Qed.

Section SimProofs.
  Context {M PS : Type}.
  Variable solve : M -> list Q -> error_t * list Q.
  Variable plugin : PS -> list Q -> list Q -> bool * list Q * PS.
  Hypothesis IP : in_place solve plugin.
  Notation sim := (sim M PS).

  (** ** End of the simulation *)
  Definition starved (s : sim) : Prop := exists qs, queued (s_pg s) qs /\ In [] qs.

  Lemma qrep_fun : forall q l l', qrep q l -> qrep q l' -> l = l'.
  Proof. intros q l l' [(m & A & _ & B) _ _ _ _] [(m' & A' & _ & B') _ _ _ _]. congruence. Qed.
  Lemma queued_fun : forall pg a b, queued pg a -> queued pg b -> a = b.
  Proof.
    intros pg a b. unfold queued. intro F. revert b. induction F as [|e l x y H F IH]; intros b G; inversion G; subst; [reflexivity|].
    f_equal; [eapply qrep_fun; eassumption|apply IH; assumption].
  Qed.

  Lemma step_end_iff : forall d s qs r s', good_sim d s -> queued (s_pg s) qs ->
      emulate_step solve plugin d s = Ok (r, s') ->
      (r = TDICE_END_OF_SIMULATION <-> on_boundary s /\ In [] qs).
  Proof.
    intros d s qs r s' GS Q E. destruct (emulate_step_spec solve plugin IP d s qs GS Q) as (r0 & s0 & E0 & _ & _ & _ & _ & X).
    rewrite E in E0. assert (r0 = r /\ s0 = s') as [-> ->] by (split; congruence). unfold on_boundary.
    rewrite <- take_heads_fail_iff. rewrite <- Z.eqb_eq. split.
    - intros ->. destruct X as (A & B & _). auto.
    - intros [B F]. rewrite B in X. destruct r; auto; try contradiction; destruct X as (X1 & X2); try (specialize (X1 eq_refl)); try (specialize (X2 eq_refl)); congruence.
  Qed.

  Lemma step_end_keeps : forall d s s', good_sim d s -> (exists qs, queued (s_pg s) qs) ->
      emulate_step solve plugin d s = Ok (TDICE_END_OF_SIMULATION, s') ->
      s_temps s' = s_temps s /\ s_an s' = s_an s /\ s_plugin s' = s_plugin s /\ good_sim d s' /\ on_boundary s' /\ starved s'.
  Proof.
    intros d s s' GS (qs & Q) E. destruct (emulate_step_spec solve plugin IP d s qs GS Q) as (r0 & s0 & E0 & GS' & _ & _ & Q' & X).
    rewrite E in E0. assert (r0 = TDICE_END_OF_SIMULATION /\ s0 = s') as [-> ->] by (split; congruence).
    destruct X as (B & F & T & A & P). rewrite B in Q'. split; [exact T|]. split; [exact A|]. split; [exact P|]. split; [exact GS'|].
    split; [unfold on_boundary; rewrite A; apply Z.eqb_eq; exact B|].
    exists (snd (fst (take_heads qs))). split; [exact Q'|]. destruct (take_heads_fail qs F) as (l & I & ->). exact I.
  Qed.

  Lemma end_repeats : forall d n s, good_sim d s -> on_boundary s -> starved s ->
      exists s', history solve plugin d s (repeat (Stepped TDICE_END_OF_SIMULATION) n) s' /\
        s_temps s' = s_temps s /\ s_an s' = s_an s /\ s_plugin s' = s_plugin s /\ good_sim d s' /\ on_boundary s' /\ starved s'.
  Proof.
    intros d. induction n as [|n IH]; intros s GS B ST.
    - exists s. split; [constructor|]. auto 10.
    - destruct ST as (qs & Q & I). destruct (emulate_step_spec solve plugin IP d s qs GS Q) as (r & s1 & E & _).
      pose proof (proj2 (step_end_iff d s qs r s1 GS Q E) (conj B I)) as ->.
      destruct (step_end_keeps d s s1 GS (ex_intro _ qs Q) E) as (T & A & P & GS1 & B1 & ST1).
      destruct (IH s1 GS1 B1 ST1) as (s' & H & T' & A' & P' & R).
      exists s'. split; [cbn [repeat]; eapply H_step; eassumption|]. repeat (split; [congruence|]). exact R.
  Qed.

  (** ** The duration of a slot *)
  Lemma slot_ends : forall d L n tot s, at_step d L n tot s -> small_queues tot -> n + L < two32 ->
      forall fuel, (Z.to_nat (L - n mod L) <= fuel)%nat ->
      exists r s', emulate_slot solve plugin fuel d s = Ok (r, s') /\ r <> TDICE_STEP_DONE /\
        (r = TDICE_SLOT_DONE -> at_step d L (n + (L - n mod L)) tot s').
  Proof.
    intros d L n tot s AS SM Hb.
    assert (L0 : 0 < L) by (destruct AS as [(_ & _ & _ & SL & _) HL _ _ _ _ _]; lia).
    assert (G : forall k n s, at_step d L n tot s -> n mod L + Z.of_nat k = L - 1 -> n + Z.of_nat k + 1 < two32 ->
       forall fuel, (S k <= fuel)%nat ->
       exists r s', emulate_slot solve plugin fuel d s = Ok (r, s') /\ r <> TDICE_STEP_DONE /\
        (r = TDICE_SLOT_DONE -> at_step d L (n + Z.of_nat k + 1) tot s')).
    { clear n s AS Hb. induction k as [|k IH]; intros n s AS Hk Hb [|fuel] Hf; try lia; cbn [emulate_slot].
      - pose proof AS as [GS _ _ N0 _ QU _]. destruct (emulate_step_spec solve plugin IP d s _ GS QU) as (r & s1 & E & _ & _ & _ & _ & X).
        rewrite E. cbn [bind]. destruct r; try (eexists; eexists; split; [reflexivity|]; split; [discriminate|]; discriminate).
        + exfalso. destruct (step_at solve plugin IP d L n tot s _ s1 AS E (or_introl eq_refl) ltac:(lia)) as (_ & _ & R).
          replace ((n + 1) mod L) with 0 in R; [discriminate|]. rewrite Z.add_mod by lia.
          destruct (Z.eq_dec L 1) as [->|]; [rewrite Z.mod_1_r; reflexivity|]. rewrite (Z.mod_small 1) by lia.
          replace (n mod L + 1) with L by lia. rewrite Z.mod_same by lia. reflexivity.
        + eexists. eexists. split; [reflexivity|]. split; [discriminate|]. intros _.
          destruct (step_at solve plugin IP d L n tot s _ s1 AS E (or_intror eq_refl) ltac:(lia)) as (A & _ & _).
          replace (n + Z.of_nat 0 + 1) with (n + 1) by lia. exact A.
      - pose proof AS as [GS _ _ N0 _ QU _]. destruct (emulate_step_spec solve plugin IP d s _ GS QU) as (r & s1 & E & _ & _ & _ & _ & X).
        assert (MM : (n + 1) mod L = n mod L + 1).
        { pose proof (Z.mod_pos_bound n L L0). rewrite Z.add_mod by lia. rewrite (Z.mod_small 1) by lia. apply Z.mod_small. pose proof (Z.mod_pos_bound n L L0). lia. }
        rewrite E. cbn [bind]. destruct r; try (eexists; eexists; split; [reflexivity|]; split; [discriminate|]; discriminate).
        + destruct (step_at solve plugin IP d L n tot s _ s1 AS E (or_introl eq_refl) ltac:(lia)) as (A & _ & _).
          destruct (IH (n + 1) s1 A ltac:(lia) ltac:(lia) fuel ltac:(lia)) as (r & s' & E2 & N & F).
          exists r, s'. split; [exact E2|]. split; [exact N|]. intro R. replace (n + Z.of_nat (S k) + 1) with (n + 1 + Z.of_nat k + 1) by lia. auto.
        + exfalso. destruct (step_at solve plugin IP d L n tot s _ s1 AS E (or_intror eq_refl) ltac:(lia)) as (_ & _ & R).
          destruct (Z.eqb_spec ((n + 1) mod L) 0); [|discriminate]. pose proof (Z.mod_pos_bound n L L0). lia. }
    intros fuel Hf. pose proof (Z.mod_pos_bound n L L0) as R.
    destruct (G (Z.to_nat (L - n mod L - 1)) n s AS ltac:(lia) ltac:(lia) fuel ltac:(lia)) as (r & s' & E & N & F).
    exists r, s'. split; [exact E|]. split; [exact N|]. intro H. replace (n + (L - n mod L)) with (n + Z.of_nat (Z.to_nat (L - n mod L - 1)) + 1) by lia. auto.
  Qed.

  (** ** Reset *)
  (** Same simulation up to the time and to sources about to be recomputed. *)
  Definition same_course (n dt : Z) (s t : sim) : Prop :=
    an_time (s_an s) - an_time (s_an t) = dt /\
    s_temps s = s_temps t /\ s_matrix s = s_matrix t /\ s_plugin s = s_plugin t /\
    an_type (s_an s) = an_type (s_an t) /\ an_step (s_an s) = an_step (s_an t) /\
    an_slot_length (s_an s) = an_slot_length (s_an t) /\ an_initial (s_an s) = an_initial (s_an t) /\
    0 < an_slot_length (s_an s) /\
    an_time (s_an s) mod an_slot_length (s_an s) = an_time (s_an t) mod an_slot_length (s_an s) /\
    0 <= an_time (s_an s) /\ 0 <= an_time (s_an t) /\ an_time (s_an s) + n < two32 /\ an_time (s_an t) + n < two32 /\
    (s_pg s = s_pg t \/
     on_boundary s /\ s_pg t = set_sources (s_pg s) (pg_flps (s_pg s)) (pg_sources (s_pg t)) /\
     length (pg_sources (s_pg s)) = length (pg_sources (s_pg t))).

  Lemma update_layers_ext : forall d pg f v ts fs l x, update_layers (set_sources pg f v) d l ts fs x = update_layers pg d l ts fs x.
  Proof.
    intros d pg f v. induction ts as [|t ts IH]; intros [|g fs] l x; try reflexivity.
    cbn [update_layers]. replace (update_layer (set_sources pg f v) d l t g x) with (update_layer pg d l t g x) by (destruct pg; reflexivity).
    destruct (update_layer pg d l t g x) as [[[e f'] s1]| |]; cbn [bind]; try reflexivity. destruct e; [|reflexivity]. rewrite IH. reflexivity.
  Qed.
  Lemma zeros_ext : forall (a b : list Q), length a = length b -> map (fun _ => 0%Q) a = map (fun _ => 0%Q) b.
  Proof. induction a as [|x a IH]; intros [|y b] L; cbn in L; try discriminate; [reflexivity|]. cbn. f_equal. apply IH. congruence. Qed.

  Lemma update_source_vector_ext : forall d pg v, Z.of_nat (length (pg_sources pg)) = pg_ncells pg -> length (pg_sources pg) = length v ->
      update_source_vector (set_sources pg (pg_flps pg) v) d = update_source_vector pg d.
  Proof.
    intros d pg v LP L. unfold update_source_vector. rewrite update_layers_ext.
    cbn [set_sources pg_ncells pg_sources pg_types pg_flps].
    rewrite !firstn_all2 by lia. rewrite !skipn_all2 by lia. rewrite (zeros_ext v (pg_sources pg)) by congruence.
    reflexivity.
  Qed.

  Definition retime (a : analysis) (s : sim) : sim := mkSim (s_temps s) (s_pg s) (s_matrix s) a (s_plugin s).
  Lemma pluggable_retime : forall d a (s : sim), pluggable_heatsink plugin d (retime a s) =
      do r <- pluggable_heatsink plugin d s ; Ok (fst r, retime a (snd r)).
  Proof.
    intros d a s. unfold pluggable_heatsink, retime. cbn [s_pg s_temps s_plugin s_matrix s_an].
    destruct (pg_top (s_pg s)) as [[h t|sp h m]|]; try reflexivity.
    destruct (_ && _); [|reflexivity]. destruct (plugin _ _ _) as [[bad fl] ps]. destruct bad; reflexivity.
  Qed.
  Lemma pluggable_an : forall d (s : sim) e s', pluggable_heatsink plugin d s = Ok (e, s') -> s_an s' = s_an s.
  Proof.
    intros d s e s'. unfold pluggable_heatsink.
    destruct (pg_top (s_pg s)) as [[h t|sp h m]|]; try congruence.
    destruct (_ && _); [|discriminate]. destruct (plugin _ _ _) as [[bad fl] ps].
    destruct bad; intro E; injection E as _ <-; reflexivity.
  Qed.

  Lemma same_course_retime : forall n dt (s : sim) a,
      an_type (s_an s) = an_type a -> an_step (s_an s) = an_step a -> an_slot_length (s_an s) = an_slot_length a ->
      an_initial (s_an s) = an_initial a -> 0 < an_slot_length (s_an s) ->
      an_time (s_an s) mod an_slot_length (s_an s) = an_time a mod an_slot_length (s_an s) ->
      0 <= an_time (s_an s) -> 0 <= an_time a -> an_time (s_an s) + n < two32 -> an_time a + n < two32 ->
      an_time (s_an s) - an_time a = dt -> same_course n dt s (retime a s).
  Proof.
    intros. unfold same_course, retime. cbn [s_temps s_pg s_matrix s_an s_plugin].
    repeat (split; [first [assumption|reflexivity]|]). left. reflexivity.
  Qed.

  Lemma same_course_step : forall d n dt s t r s', 0 <= n -> same_course (n + 1) dt s t ->
      Z.of_nat (length (pg_sources (s_pg s))) = pg_ncells (s_pg s) ->
      emulate_step solve plugin d s = Ok (r, s') ->
      exists t', emulate_step solve plugin d t = Ok (r, t') /\ same_course n dt s' t'.
  Proof.
    intros d n dt s t r s' Hn SC LP E. pose proof SC as (DT & ET & EM & EP & EA & ES & EL & EI & L0 & TM & T1 & T2 & B1 & B2 & PG).
    unfold emulate_step in E |- *. rewrite <- EA.
    destruct (an_type (s_an s)) eqn:TY.
    1,2: exists t; split; [congruence|]; assert (s' = s) as -> by congruence; unfold same_course in *; rewrite TY, <- EA; intuition lia.
    rewrite slot_completed_spec in E |- * by lia. cbn [bind] in E |- *.
    rewrite <- EL, <- TM.
    assert (U : (if an_time (s_an s) mod an_slot_length (s_an s) =? 0 then update_source_vector (s_pg t) d else Ok (TDICE_SUCCESS, s_pg t)) =
                (if an_time (s_an s) mod an_slot_length (s_an s) =? 0 then update_source_vector (s_pg s) d else Ok (TDICE_SUCCESS, s_pg s))).
    { destruct PG as [-> | (B & PT & LL)]; [reflexivity|]. unfold on_boundary in B. rewrite B. cbn [Z.eqb].
      rewrite PT. apply update_source_vector_ext; assumption. }
    rewrite U. clear U. revert E.
    generalize (if an_time (s_an s) mod an_slot_length (s_an s) =? 0 then update_source_vector (s_pg s) d else Ok (TDICE_SUCCESS, s_pg s)).
    intros [[e1 pg1]| |] E; cbn [bind] in E |- *; try discriminate.
    rewrite <- ET, <- EM, <- EP.
    change (mkSim (s_temps s) pg1 (s_matrix s) (s_an t) (s_plugin s)) with (retime (s_an t) (mkSim (s_temps s) pg1 (s_matrix s) (s_an s) (s_plugin s))).
    set (s1 := mkSim (s_temps s) pg1 (s_matrix s) (s_an s) (s_plugin s)) in *.
    assert (NOW : forall x : sim, s_an x = s_an s -> same_course n dt x (retime (s_an t) x)).
    { intros x X. apply same_course_retime; rewrite ?X; first [congruence|lia]. }
    destruct e1.
    2:{ eexists. split; [|apply NOW].
        - assert (r = TDICE_END_OF_SIMULATION) as -> by congruence. assert (s' = s1) as -> by congruence. reflexivity.
        - assert (s' = s1) as -> by congruence. reflexivity. }
    rewrite pluggable_retime. destruct (pluggable_heatsink plugin d s1) as [[e2 s2]| |] eqn:EPL; cbn [bind fst snd] in E |- *; try discriminate.
    apply pluggable_an in EPL. unfold s1 in EPL. cbn [s_an] in EPL.
    destruct e2.
    2:{ exists (retime (s_an t) s2). assert (r = TDICE_SOLVER_ERROR /\ s' = s2) as [-> ->] by (split; congruence). split; [reflexivity|]. apply NOW. exact EPL. }
    unfold retime. cbn [s_pg s_an s_temps s_matrix s_plugin]. rewrite EPL in E. rewrite <- ES.
    destruct (fill_system_vector _ _ _ _ _) as [b| |]; cbn [bind] in E |- *; try discriminate.
    destruct (solve (s_matrix s2) b) as [e3 x]. destruct e3.
    2:{ eexists. split; [assert (r = TDICE_SOLVER_ERROR) as -> by congruence; reflexivity|].
        assert (s' = mkSim x (s_pg s2) (s_matrix s2) (s_an s) (s_plugin s2)) as -> by congruence.
        change (mkSim x (s_pg s2) (s_matrix s2) (s_an t) (s_plugin s2)) with (retime (s_an t) (mkSim x (s_pg s2) (s_matrix s2) (s_an s) (s_plugin s2))).
        apply NOW. reflexivity. }
    assert (TI : forall a, 0 <= an_time a -> an_time a + (n + 1) < two32 -> an_time (increase_by_step_time a) = an_time a + 1).
    { intros a A1 A2. unfold increase_by_step_time. cbn [an_time]. apply u32_id. lia. }
    assert (MM : (an_time (s_an s) + 1) mod an_slot_length (s_an s) = (an_time (s_an t) + 1) mod an_slot_length (s_an s)).
    { rewrite Z.add_mod by lia. rewrite TM. rewrite <- Z.add_mod by lia. reflexivity. }
    rewrite slot_completed_spec in E |- * by (unfold increase_by_step_time; cbn [an_slot_length]; lia). cbn [bind] in E |- *.
    rewrite !TI in E |- * by lia. cbn [increase_by_step_time an_slot_length] in E |- *. rewrite <- EL, <- MM.
    eexists. split; [refine (f_equal2 (fun a b => Ok (a, b)) _ eq_refl); congruence|].
    assert (s' = mkSim x (s_pg s2) (s_matrix s2) (increase_by_step_time (s_an s)) (s_plugin s2)) as -> by congruence.
    apply (same_course_retime n dt (mkSim x (s_pg s2) (s_matrix s2) (increase_by_step_time (s_an s)) (s_plugin s2)) (increase_by_step_time (s_an t)));
      cbn [s_an]; rewrite ?TI by lia; cbn [increase_by_step_time an_slot_length an_type an_step an_initial]; first [congruence|lia].
  Qed.

  Lemma step_sources : forall d s qs r s', good_sim d s -> queued (s_pg s) qs -> emulate_step solve plugin d s = Ok (r, s') ->
      good_sim d s' /\ exists qs', queued (s_pg s') qs'.
  Proof.
    intros d s qs r s' GS Q E. destruct (emulate_step_spec solve plugin IP d s qs GS Q) as (r0 & s0 & E0 & GS' & _ & _ & Q' & _).
    rewrite E in E0. assert (s0 = s') as -> by congruence. eauto.
  Qed.

  Definition steps_only (t : list event) : Prop := Forall (fun e => is_step e = true) t.

  Lemma same_course_history : forall d s tr s', history solve plugin d s tr s' -> steps_only tr ->
      forall dt qs t, good_sim d s -> queued (s_pg s) qs -> same_course (Z.of_nat (length tr)) dt s t ->
      exists t', history solve plugin d t tr t' /\ same_course 0 dt s' t'.
  Proof.
    intros d s tr s' H. induction H as [s|s r s1 tr s2 E H IH|s pv vs e pg' pv' tr s2 V E H IH]; intros SO dt qs t GS Q SC.
    - exists t. split; [constructor|exact SC].
    - inversion SO as [|? ? _ SO']. subst. cbn [length] in SC. rewrite Nat2Z.inj_succ in SC. unfold Z.succ in SC.
      pose proof GS as (GP & _). pose proof GP as (_ & _ & _ & _ & _ & _ & _ & LS & _).
      destruct (same_course_step d (Z.of_nat (length tr)) dt s t r s1 ltac:(lia) SC LS E) as (t1 & E1 & SC1).
      destruct (step_sources d s qs r s1 GS Q E) as (GS1 & qs1 & Q1).
      destruct (IH SO' dt qs1 t1 GS1 Q1 SC1) as (t' & H' & SC').
      exists t'. split; [eapply H_step; eassumption|exact SC'].
    - inversion SO as [|? ? X _]. discriminate X.
  Qed.
End SimProofs.
