(** * Any number of steps *)
From Coq Require Import ZArith List Bool QArith Lia Lqa Sorted Permutation.
From Verif Require Import Base QSum Dims DimsSpec DimsProofs Queue QueueProofs Floorplan FloorplanSpec FloorplanProofs FlpMatrixProofs TempProofs Stack StackSpec StackProofs PowerGrid Emulate EmulateSpec SourceProofs LayerProofs SourceVectorProofs EmulateProofs HistoryProofs Conduct Matrix MatrixSpec CellProofs NodeProofs LinkProofs SignProofs CscProofs NetProofs EnumProofs BalanceSpec BalanceProofs VectorProofs StepProofs EnergyProofs UniqueProofs FieldProofs.
Import ListNotations.
Local Open Scope Z_scope.


Lemma zeros_give : forall qs vs, zeros (give qs vs) -> zeros qs.
Proof.
  induction qs as [|l qs IH]; intros [|v vs] H; cbn [give] in H; try exact H.
  inversion H as [|? ? A B]; subst. constructor; [|exact (IH vs B)]. apply Forall_app in A. exact (proj1 A).
Qed.
Lemma zeros_given : forall t qs, zeros (given qs t) -> zeros qs.
Proof.
  induction t as [|e t IH]; intros qs H; [exact H|]. destruct e; cbn [given] in H; [exact (IH _ H)|].
  apply (zeros_give _ vs). exact (IH _ H).
Qed.
Lemma zeros_nth : forall k qs, zeros qs -> Forall (fun p => p == 0)%Q (map (fun l => nth k l 0%Q) qs).
Proof.
  intros k qs H. induction H as [|l qs A B IH]; [constructor|]. constructor; [|exact IH].
  destruct (nth_in_or_default k l 0%Q) as [I|E]; [|rewrite E; reflexivity]. rewrite Forall_forall in A. exact (A _ I).
Qed.
Lemma at_most_give : forall qs qs' vs vs', at_most qs qs' -> Forall2 Qle vs vs' -> at_most (give qs vs) (give qs' vs').
Proof.
  intros qs qs' vs vs' H. revert vs vs'. induction H as [|l l' qs qs' A B IH]; intros vs vs' V; [constructor|].
  destruct V as [|v v' vs vs' V1 V2]; cbn [give]; [constructor; assumption|].
  constructor; [apply Forall2_app; [assumption|constructor; [assumption|constructor]]|apply IH; assumption].
Qed.
Lemma nth_le : forall l l' k, Forall2 Qle l l' -> (nth k l 0 <= nth k l' 0)%Q.
Proof.
  intros l l' k H. revert k. induction H as [|a b l l' A B IH]; intros [|k]; cbn; try apply Qle_refl; [assumption|apply IH].
Qed.
Lemma at_most_nth : forall k qs qs', at_most qs qs' -> Forall2 Qle (map (fun l => nth k l 0%Q) qs) (map (fun l => nth k l 0%Q) qs').
Proof.
  intros k qs qs' H. induction H as [|l l' qs qs' A B IH]; [constructor|]. constructor; [apply nth_le; assumption|exact IH].
Qed.

Section Long.
  Context {PS : Type}.
  Variable solve : sysmatrix -> list Q -> error_t * list Q.
  Variable plugin : PS -> list Q -> list Q -> bool * list Q * PS.
  Hypothesis IP : in_place solve plugin.
  Hypothesis EX : exact solve.
  Variables (g : tgrid) (d : dims).
  Hypothesis G : good_tgrid d g.
  Hypothesis P : physical g d.
  Notation sim := (sim sysmatrix PS).
  Notation ix := (idx g d).

  Lemma keep_plugin : forall pg pg', same_fields pg pg' -> no_plugin pg -> no_plugin pg'.
  Proof. intros pg pg' (_ & _ & _ & _ & S2 & _) H s h m E. rewrite S2 in E. exact (H s h m E). Qed.
  Lemma insert_temps : forall (s : sim) L n tot pv vs pg' pv', at_step d L n tot s -> qrep pv vs -> small_queues (give tot vs) ->
      insert_power_values (s_pg s) pv = Ok (TDICE_SUCCESS, pg', pv') -> assembled g d s ->
      assembled g d (with_pg s pg') /\ same_fields (s_pg s) pg'.
  Proof.
    intros s L n tot pv vs pg' pv' A Qp SQ E AS.
    destruct (insert_at d L n tot s pv vs pg' pv' A Qp SQ E) as (_ & (K & _)). cbn [with_pg s_pg] in K.
    split; [|exact K]. apply (assembled_same g d s (with_pg s pg') AS K); reflexivity.
  Qed.

  (** A property of the temperatures kept by unpowered steps. *)
  Section Unpowered.
    Variables (pg0 : pgrid) (Inv : list Q -> Prop).
    Hypothesis Step : forall (s s' : sim) qs r, assembled g d s -> good_sim d s -> queued (s_pg s) qs -> same_fields pg0 (s_pg s) ->
        emulate_step solve plugin d s = Ok (r, s') -> done r -> unpowered g d s' -> Inv (s_temps s) -> Inv (s_temps s').
    Lemma unpowered_history : forall (s : sim) t s', history solve plugin d s t s' -> forall L n tot, at_step d L n tot s ->
        Forall went_well t -> n + Z.of_nat (steps_of t) < two32 -> small_queues (given tot t) -> zeros (given tot t) ->
        assembled g d s -> no_plugin (s_pg s) -> same_fields pg0 (s_pg s) -> Inv (s_temps s) -> Inv (s_temps s').
    Proof.
      intros s t s' H. induction H as [s|s r s1 t s2 E H IH|s pv vs e pg' pv' t s2 Qp E H IH]; intros L n tot A W B SQ Z AS NP SF I.
      - exact I.
      - inversion W as [|? ? W1 W2]; subst. cbn [went_well] in W1. cbn [given] in SQ, Z.
        unfold steps_of in B. cbn [filter is_step length] in B. fold (steps_of t) in B.
        destruct (step_at solve plugin IP d L n tot s r s1 A E W1 ltac:(lia)) as (A1 & K1 & _).
        pose proof (at_good d L n tot s A) as GS. pose proof (at_queues d L n tot s A) as Qd.
        destruct (step_nodes solve plugin IP EX g d s s1 _ r AS GS Qd E W1) as (AS1 & GS1 & SF1 & _ & _).
        assert (no_plugin (s_pg s1)) as NP1 by exact (keep_plugin _ _ SF1 NP).
        apply (IH L (n + 1) tot A1 W2 ltac:(lia) SQ Z AS1 NP1 (same_fields_trans _ _ _ SF SF1)).
        apply (Step s s1 _ r AS GS Qd SF E W1); [|exact I].
        pose proof (at_n d L n tot s A) as Hn.
        apply (zero_unpowered g d G s1 _ AS1 NP1 (at_power d L (n + 1) tot s1 A1 ltac:(lia))). apply zeros_nth. exact (zeros_given t tot Z).
      - inversion W as [|? ? W1 W2]; subst. cbn [went_well] in W1. subst e. cbn [given] in SQ, Z.
        unfold steps_of in B. cbn [filter is_step length] in B. fold (steps_of t) in B.
        pose proof (small_given t _ SQ) as SQ1.
        destruct (insert_at d L n tot s pv vs pg' pv' A Qp SQ1 E) as (A1 & _).
        destruct (insert_temps s L n tot pv vs pg' pv' A Qp SQ1 E AS) as (AS1 & SF1).
        exact (IH L n (give tot vs) A1 W2 B SQ Z AS1 (keep_plugin _ _ SF1 NP) (same_fields_trans _ _ _ SF SF1) I).
    Qed.
  End Unpowered.

  (** ** Two simulations in lockstep *)

  Lemma heat_out_analysis : forall an an' x n, an_type an' = an_type an -> an_step an' = an_step an ->
      heat_out g d an' x n = heat_out g d an x n.
  Proof.
    intros [t s l k i] [t' s' l' k' i'] x n E1 E2. cbn in E1, E2. subst. reflexivity.
  Qed.

  Lemma step_cooler : forall (s s' u u' : sim) qs qu r r' ps pu, assembled g d s -> assembled g d u -> good_sim d s -> good_sim d u ->
      queued (s_pg s) qs -> queued (s_pg u) qu -> solid_stack g d -> no_plugin (s_pg s) ->
      an_step (s_an u) = an_step (s_an s) -> same_fields (s_pg s) (s_pg u) ->
      emulate_step solve plugin d s = Ok (r, s') -> done r -> emulate_step solve plugin d u = Ok (r', u') -> done r' ->
      dissipates (s_pg s') d ps -> dissipates (s_pg u') d pu -> Forall2 Qle ps pu ->
      cooler (s_temps s) (s_temps u) -> cooler (s_temps s') (s_temps u').
  Proof.
    intros s s' u u' qs qu r r' ps pu As Au Gs Gu Qs Qu S NP SE SF E D E' D' DS DU PL (CL & C).
    destruct (step_nodes solve plugin IP EX g d s s' qs r As Gs Qs E D) as (As' & Gs' & SFs & STs & EQs).
    destruct (step_nodes solve plugin IP EX g d u u' qu r' Au Gu Qu E' D') as (Au' & Gu' & SFu & STu & EQu).
    assert (an_type (s_an s) = AT_TRANSIENT) as TR by (destruct Gs as (_ & _ & TR & _); exact TR).
    assert (an_type (s_an u) = AT_TRANSIENT) as TRu by (destruct Gu as (_ & _ & TRu & _); exact TRu).
    pose proof (cells_count g d s' As' Gs') as C1. pose proof (cells_count g d u' Au' Gu') as C2. pose proof (cells_count g d s As Gs) as C3.
    split; [lia|]. intros i I. rewrite C1 in I. destruct (node_of g d G i I) as (n & V & <-).
    pose proof (as_step g d s As) as SP.
    apply (solid_compare g d G P (s_an s) S TR SP); [|assumption].
    intros m W. rewrite (EQs m W). rewrite <- (heat_out_analysis (s_an s) (s_an u) _ m) by congruence. rewrite (EQu m W), SE.
    pose proof (idx_range g d G m W) as R. specialize (C (ix m) ltac:(lia)).
    assert (0 <= ncap g d m / an_step (s_an s))%Q as Nq.
    { unfold Qdiv. apply Qmult_le_0_compat; [apply (ncap_nonneg g d G P m W)|]. apply Qlt_le_weak. apply Qinv_lt_0_compat. exact SP. }
    assert (qat (pg_sources (s_pg s')) (ix m) <= qat (pg_sources (s_pg u')) (ix m))%Q as K.
    { destruct m as [l r0 c|r0 c]; [|exfalso; apply (no_spreader_node g d s r0 c As NP W)].
      rewrite <- !at_cell_qat. cbn [valid] in W. unfold in_grid in W.
      rewrite (DS l r0 c), (DU l r0 c) by lia.
      assert (same_fields (s_pg s') (s_pg u')) as SF'.
      { destruct SFs as (a1 & a2 & a3 & a4 & a5 & a6 & a7 & a8 & a9 & a10 & a11). destruct SFu as (b1 & b2 & b3 & b4 & b5 & b6 & b7 & b8 & b9 & b10 & b11).
        destruct SF as (c1 & c2 & c3 & c4 & c5 & c6 & c7 & c8 & c9 & c10 & c11). unfold same_fields. repeat split; congruence. }
      rewrite (expected_same _ _ _ _ _ _ _ SF'). apply expected_le; [destruct Gs' as (GP & _); exact GP|exact PL]. }
    set (q := (ncap g d m / an_step (s_an s))%Q) in *.
    assert (q * qat (s_temps s) (ix m) <= q * qat (s_temps u) (ix m))%Q by (rewrite !(Qmult_comm q); apply Qmult_le_compat_r; assumption).
    lra.
  Qed.

  Lemma same_fields_sym : forall a b, same_fields a b -> same_fields b a.
  Proof. intros a b (a1 & a2 & a3 & a4 & a5 & a6 & a7 & a8 & a9 & a10 & a11). unfold same_fields. repeat split; congruence. Qed.

  Lemma cooler_history : forall (s : sim) t s', history solve plugin d s t s' -> forall (u : sim) t' u', history solve plugin d u t' u' ->
      Forall2 more t t' -> forall L n tot tot', at_step d L n tot s -> at_step d L n tot' u ->
      Forall went_well t -> Forall went_well t' -> n + Z.of_nat (steps_of t) < two32 ->
      small_queues (given tot t) -> small_queues (given tot' t') -> at_most tot tot' ->
      assembled g d s -> assembled g d u -> solid_stack g d -> no_plugin (s_pg s) ->
      an_step (s_an u) = an_step (s_an s) -> same_fields (s_pg s) (s_pg u) ->
      cooler (s_temps s) (s_temps u) -> cooler (s_temps s') (s_temps u').
  Proof.
    intros s t s' H. induction H as [s|s r s1 t s2 E H IH|s pv vs e pg' pv' t s2 Qp E H IH];
      intros u t' u' H' M L n tot tot' A A' W W' B SQ SQ' AM AS AU S NP SE SF C.
    - inversion M; subst. inversion H'; subst. exact C.
    - inversion M as [|? e' ? t2 M1 M2]; subst. destruct e' as [r'|]; [|destruct M1].
      inversion H' as [|? ? u1 ? ? E' H2|]; subst.
      inversion W as [|? ? W1 W2]; subst. inversion W' as [|? ? W1' W2']; subst. cbn [went_well] in W1, W1'.
      cbn [given] in SQ, SQ'. unfold steps_of in B. cbn [filter is_step length] in B. fold (steps_of t) in B.
      destruct (step_at solve plugin IP d L n tot s r s1 A E W1 ltac:(lia)) as (A1 & (_ & _ & _ & K1 & _) & _).
      destruct (step_at solve plugin IP d L n tot' u r' u1 A' E' W1' ltac:(lia)) as (A1' & (_ & _ & _ & K1' & _) & _).
      pose proof (at_good d L n tot s A) as GS. pose proof (at_queues d L n tot s A) as Qd.
      pose proof (at_good d L n tot' u A') as GU. pose proof (at_queues d L n tot' u A') as Qu.
      destruct (step_nodes solve plugin IP EX g d s s1 _ r AS GS Qd E W1) as (AS1 & GS1 & SF1 & _ & _).
      destruct (step_nodes solve plugin IP EX g d u u1 _ r' AU GU Qu E' W1') as (AU1 & GU1 & SF1' & _ & _).
      pose proof (at_n d L n tot s A) as Hn.
      assert (same_fields (s_pg s1) (s_pg u1)) as SF2.
      { apply (same_fields_trans _ (s_pg s)); [apply same_fields_sym; exact SF1|]. apply (same_fields_trans _ (s_pg u)); assumption. }
      apply (IH u1 t2 u' H2 M2 L (n + 1) tot tot' A1 A1' W2 W2' ltac:(lia) SQ SQ' AM AS1 AU1 S (keep_plugin _ _ SF1 NP) ltac:(congruence) SF2).
      refine (step_cooler s s1 u u1 _ _ r r' _ _ AS AU GS GU Qd Qu S NP SE SF E W1 E' W1' (at_power d L (n + 1) tot s1 A1 ltac:(lia)) (at_power d L (n + 1) tot' u1 A1' ltac:(lia)) _ C).
      apply at_most_nth. exact AM.
    - inversion M as [|? e' ? t2 M1 M2]; subst. destruct e' as [|vs' e']; [destruct M1|]. cbn [more] in M1.
      inversion H' as [| |? pw ? ? pgu pwu ? ? Qp' E' H2]; subst.
      inversion W as [|? ? W1 W2]; subst. inversion W' as [|? ? W1' W2']; subst. cbn [went_well] in W1, W1'. subst e e'.
      cbn [given] in SQ, SQ'. unfold steps_of in B. cbn [filter is_step length] in B. fold (steps_of t) in B.
      pose proof (small_given t _ SQ) as SQ1. pose proof (small_given t2 _ SQ') as SQ1'.
      destruct (insert_at d L n tot s pv vs pg' pv' A Qp SQ1 E) as (A1 & _).
      destruct (insert_at d L n tot' u pw vs' pgu pwu A' Qp' SQ1' E') as (A1' & _).
      destruct (insert_temps s L n tot pv vs pg' pv' A Qp SQ1 E AS) as (AS1 & SF1).
      destruct (insert_temps u L n tot' pw vs' pgu pwu A' Qp' SQ1' E' AU) as (AU1 & SF1').
      refine (IH (with_pg u pgu) t2 u' H2 M2 L n (give tot vs) (give tot' vs') A1 A1' W2 W2' B SQ SQ' (at_most_give _ _ _ _ AM M1) AS1 AU1 S (keep_plugin _ _ SF1 NP) SE _ C).
      cbn [with_pg s_pg]. apply (same_fields_trans _ (s_pg s)); [apply same_fields_sym; exact SF1|]. apply (same_fields_trans _ (s_pg u)); assumption.
  Qed.
End Long.
