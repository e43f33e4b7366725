From Coq Require Import ZArith List Bool QArith Lia Lqa.
From Verif Require Import Base QSum Dims DimsSpec DimsProofs Queue QueueProofs Floorplan FloorplanSpec
     FloorplanProofs FlpMatrixProofs TempProofs Stack StackSpec StackProofs PowerGrid Emulate EmulateSpec SourceProofs LayerProofs SourceVectorProofs EmulateProofs.
Import ListNotations.
Local Open Scope Z_scope.

(** ** Lists of queues *)
Lemma take_heads_skipn : forall k tot, Forall (fun l => (k < length l)%nat) tot ->
    take_heads (map (skipn k) tot) = (true, map (skipn (S k)) tot, map (fun l : list Q => nth k l 0%Q) tot).
Proof.
  intros k tot F. induction F as [|l tot H F IH]; [reflexivity|]. cbn [map take_heads].
  destruct (skipn k l) as [|x r] eqn:E.
  - exfalso. pose proof (f_equal (@length Q) E) as L. rewrite skipn_length in L. cbn in L. lia.
  - rewrite IH. f_equal; [f_equal|].
    + f_equal. change (S k) with (1 + k)%nat. rewrite <- (skipn_skipn' 1 k l), E. reflexivity.
    + f_equal. rewrite <- (Nat.add_0_r k), <- (nth_skipn k 0 l), E. reflexivity.
Qed.
Lemma take_heads_ok_iff : forall qs, fst (fst (take_heads qs)) = true <-> Forall (fun l => l <> []) qs.
Proof.
  induction qs as [|[|x l] r IH]; cbn [take_heads].
  - split; [constructor|reflexivity].
  - split; [discriminate|]. intro F. inversion F. congruence.
  - destruct (take_heads r) as [[b r'] h]. cbn [fst] in *. rewrite IH. split; intro F.
    + constructor; [discriminate|exact F].
    + inversion F. assumption.
Qed.
Lemma skipn_nonempty : forall k tot, Forall (fun l : list Q => l <> []) (map (skipn k) tot) -> Forall (fun l => (k < length l)%nat) tot.
Proof.
  intros k tot F. rewrite Forall_map in F. eapply Forall_impl; [|exact F]. intros l H. cbn beta in H.
  destruct (Nat.lt_ge_cases k (length l)) as [|G]; [assumption|]. exfalso. apply H. apply skipn_all2. exact G.
Qed.
Lemma give_skipn : forall k tot vs, Forall (fun l => (k <= length l)%nat) tot ->
    give (map (skipn k) tot) vs = map (skipn k) (give tot vs).
Proof.
  intros k tot vs F. revert vs. induction F as [|l tot H F IH]; intros [|v vs]; try reflexivity.
  cbn [map give]. rewrite IH. f_equal. rewrite skipn_app. replace (k - length l)%nat with O by lia. reflexivity.
Qed.
Lemma give_nth : forall k tot vs, Forall (fun l => (k < length l)%nat) tot ->
    map (fun l : list Q => nth k l 0%Q) (give tot vs) = map (fun l : list Q => nth k l 0%Q) tot.
Proof.
  intros k tot vs F. revert vs. induction F as [|l tot H F IH]; intros [|v vs]; try reflexivity.
  cbn [map give]. rewrite IH. f_equal. apply app_nth1. exact H.
Qed.
Lemma give_min : forall k tot vs, Forall (fun l : list Q => (k <= length l)%nat) tot -> Forall (fun l => (k <= length l)%nat) (give tot vs).
Proof.
  intros k tot vs F. revert vs. induction F as [|l tot H F IH]; intros [|v vs]; cbn [give]; try constructor; auto.
  rewrite app_length. lia.
Qed.
Lemma small_give : forall tot vs, small_queues (give tot vs) -> small_queues tot.
Proof.
  unfold small_queues. induction tot as [|l tot IH]; intros [|v vs] F; try exact F.
  cbn [give] in F. inversion F as [|? ? F1 F2]. subst. constructor; [rewrite app_length in F1; lia|]. apply (IH vs). exact F2.
Qed.
Lemma small_given : forall t tot, small_queues (given tot t) -> small_queues tot.
Proof.
  induction t as [|[r|vs e] t IH]; intros tot F; cbn [given] in F; [exact F|apply IH; exact F|].
  apply (small_give tot vs). apply IH. exact F.
Qed.
Lemma small_skipn : forall k tot, small_queues tot -> small_queues (map (skipn k) tot).
Proof.
  intros k tot F. unfold small_queues in *. rewrite Forall_map. eapply Forall_impl; [|exact F]. intros l H. cbn beta in *.
  rewrite skipn_length. lia.
Qed.

(** ** Slots *)
Lemma slots_begun_0 : forall L, 0 < L -> slots_begun L 0 = 0.
Proof. intros L H. unfold slots_begun. apply Z.div_small. lia. Qed.
Lemma slots_begun_boundary : forall L n, 0 < L -> 0 <= n -> n mod L = 0 -> slots_begun L (n + 1) = slots_begun L n + 1.
Proof.
  intros L n H Hn B. unfold slots_begun.
  pose proof (Z.div_mod n L ltac:(lia)) as D. rewrite B in D.
  replace (n + 1 + L - 1) with (0 + (n / L + 1) * L) by lia.
  replace (n + L - 1) with (L - 1 + (n / L) * L) by lia.
  rewrite !Z.div_add by lia. rewrite (Z.div_small 0) by lia. rewrite (Z.div_small (L - 1)) by lia. lia.
Qed.
Lemma slots_begun_inside : forall L n, 0 < L -> 0 <= n -> n mod L <> 0 ->
    slots_begun L (n + 1) = slots_begun L n /\ 1 <= slots_begun L n.
Proof.
  intros L n H Hn B. unfold slots_begun.
  pose proof (Z.div_mod n L ltac:(lia)) as D. pose proof (Z.mod_pos_bound n L H) as R.
  pose proof (Z.div_pos n L Hn H) as P.
  replace (n + 1 + L - 1) with (n mod L + (n / L + 1) * L) by lia.
  replace (n + L - 1) with (n mod L - 1 + (n / L + 1) * L) by lia.
  rewrite !Z.div_add by lia. rewrite (Z.div_small (n mod L)), (Z.div_small (n mod L - 1)) by lia. lia.
Qed.
Lemma slots_begun_nonneg : forall L n, 0 < L -> 0 <= n -> 0 <= slots_begun L n.
Proof. intros L n H Hn. unfold slots_begun. apply Z.div_pos; lia. Qed.
Lemma slots_begun_pos : forall L n, 0 < L -> 0 < n -> 1 <= slots_begun L n.
Proof. intros L n H Hn. unfold slots_begun. apply Z.div_le_lower_bound; lia. Qed.

Section History.
  Context {M PS : Type}.
  Variable solve : M -> list Q -> error_t * list Q.
  Variable plugin : PS -> list Q -> list Q -> bool * list Q * PS.
  Hypothesis IP : in_place solve plugin.
  Notation sim := (sim M PS).

  Definition keeps (s s' : sim) : Prop :=
    same_fields (s_pg s) (s_pg s') /\ s_matrix s' = s_matrix s /\
    an_slot_length (s_an s') = an_slot_length (s_an s) /\ an_step (s_an s') = an_step (s_an s) /\ an_initial (s_an s') = an_initial (s_an s).

  (** After [n] steps in all, elements having received [tot] in all. *)
  Record at_step (d : dims) (L : Z) (n : Z) (tot : list (list Q)) (s : sim) : Prop := {
    at_good : good_sim d s;
    at_L : an_slot_length (s_an s) = L;
    at_time : an_time (s_an s) = n;
    at_n : 0 <= n < two32;
    at_enough : Forall (fun l => (Z.to_nat (slots_begun L n) <= length l)%nat) tot;
    at_queues : queued (s_pg s) (map (skipn (Z.to_nat (slots_begun L n))) tot);
    at_power : 0 < n -> dissipates (s_pg s) d (map (fun l => nth (Z.to_nat (slots_begun L n - 1)) l 0%Q) tot)
  }.

  Lemma keeps_refl : forall s, keeps s s.
  Proof. intro s. split; [apply same_fields_refl|]. auto. Qed.
  Lemma keeps_trans : forall a b c, keeps a b -> keeps b c -> keeps a c.
  Proof.
    intros a b c (A1 & A2 & A3 & A4 & A5) (B1 & B2 & B3 & B4 & B5). split; [eapply same_fields_trans; eassumption|].
    repeat split; congruence.
  Qed.

  Lemma step_at : forall d L n tot s r s', at_step d L n tot s -> emulate_step solve plugin d s = Ok (r, s') ->
      r = TDICE_STEP_DONE \/ r = TDICE_SLOT_DONE -> n + 1 < two32 ->
      at_step d L (n + 1) tot s' /\ keeps s s' /\
      r = (if (n + 1) mod L =? 0 then TDICE_SLOT_DONE else TDICE_STEP_DONE).
  Proof.
    intros d L n tot s r s' AS E R Hn. destruct AS as [GS HL HT Hn0 EN QU PO].
    destruct (emulate_step_spec solve plugin IP d s _ GS QU) as (r' & s'' & E' & GS' & SF & MA & Q' & X).
    rewrite E in E'. assert (r' = r /\ s'' = s') as [-> ->] by (split; congruence). clear E'.
    pose proof GS as (_ & _ & _ & SL & _). rewrite HL, HT in *.
    assert (L0 : 0 < L) by lia.
    assert (Y : (n mod L = 0 -> fst (fst (take_heads (map (skipn (Z.to_nat (slots_begun L n))) tot))) = true) /\
      s_an s' = increase_by_step_time (s_an s) /\
      r = (if an_time (s_an s') mod an_slot_length (s_an s') =? 0 then TDICE_SLOT_DONE else TDICE_STEP_DONE) /\
            (if n mod L =? 0 then dissipates (s_pg s') d (snd (take_heads (map (skipn (Z.to_nat (slots_begun L n))) tot)))
             else same_chip d (pg_sources (s_pg s')) (pg_sources (s_pg s)))).
    { destruct R as [-> | ->]; destruct X as (X1 & X2 & X3 & X4 & _); (split; [intro B; apply X1; apply Z.eqb_eq; exact B|]; auto). }
    destruct Y as (Y1 & Y2 & Y3 & Y4). clear X.
    assert (T' : an_time (s_an s') = n + 1).
    { rewrite Y2. unfold increase_by_step_time. cbn [an_time]. rewrite HT. apply u32_id. lia. }
    assert (L' : an_slot_length (s_an s') = L) by (rewrite Y2; exact HL).
    split; [|split].
    - destruct (Z.eqb_spec (n mod L) 0) as [B|B].
      + specialize (Y1 B). apply take_heads_ok_iff in Y1. apply skipn_nonempty in Y1.
        rewrite (take_heads_skipn _ _ Y1) in Q', Y4. cbn [fst snd] in Q', Y4.
        pose proof (slots_begun_boundary L n L0 ltac:(lia) B) as SB. pose proof (slots_begun_nonneg L n L0 ltac:(lia)) as NN.
        split; auto; try lia.
        * rewrite SB. eapply Forall_impl; [|exact Y1]. cbn beta. intros l Hl. lia.
        * rewrite SB. replace (Z.to_nat (slots_begun L n + 1)) with (S (Z.to_nat (slots_begun L n))) by lia. exact Q'.
        * intros _. rewrite SB. replace (slots_begun L n + 1 - 1) with (slots_begun L n) by lia. exact Y4.
      + destruct (slots_begun_inside L n L0 ltac:(lia) B) as [SB S1].
        split; auto; try lia; rewrite ?SB; auto.
        intros _. assert (0 < n) as Hp. { destruct (Z.eq_dec n 0) as [->|]; [rewrite Z.mod_0_l in B; lia|lia]. }
        specialize (PO Hp). destruct GS as [GP _]. apply (dissipates_chip d (s_pg s)); auto.
    - split; [exact SF|]. split; [exact MA|]. rewrite Y2. auto.
    - rewrite Y3, T', L'. reflexivity.
  Qed.

  Lemma insert_at : forall d L n tot s pv vs pg' pv', at_step d L n tot s -> qrep pv vs -> small_queues (give tot vs) ->
      insert_power_values (s_pg s) pv = Ok (TDICE_SUCCESS, pg', pv') ->
      at_step d L n (give tot vs) (with_pg s pg') /\ keeps s (with_pg s pg').
  Proof.
    intros d L n tot s pv vs pg' pv' AS V SM E. destruct AS as [GS HL HT Hn0 EN QU PO].
    pose proof GS as (GP & LT & TY & SL & TM).
    destruct (insert_power_values_spec (s_pg s) d _ vs pv GP QU V (small_skipn _ _ (small_give _ _ SM))) as (pg2 & pv2 & E' & GP' & SF & Q' & _ & SR).
    assert (pg2 = pg') as -> by congruence.
    split; [|split; [exact SF|]; cbn [with_pg s_matrix s_an]; auto].
    assert (L0 : 0 < L) by lia.
    split; cbn [with_pg s_an s_pg]; auto.
    - unfold good_sim, with_pg. cbn [s_pg s_temps s_an]. split; [exact GP'|]. split; [|auto]. rewrite LT. symmetry. apply SF.
    - apply give_min. exact EN.
    - rewrite <- give_skipn by exact EN. exact Q'.
    - intro Hp. pose proof (slots_begun_pos L n L0 Hp) as S1. rewrite give_nth.
      + apply (dissipates_chip d (s_pg s)); auto. rewrite SR. split; auto.
      + eapply Forall_impl; [|exact EN]. cbn beta. intros l Hl. lia.
  Qed.

  Lemma history_at : forall d s t s', history solve plugin d s t s' -> forall L n tot, at_step d L n tot s ->
      Forall went_well t -> n + Z.of_nat (steps_of t) < two32 -> small_queues (given tot t) ->
      at_step d L (n + Z.of_nat (steps_of t)) (given tot t) s' /\ keeps s s' /\
      answers t = map (fun i => if (n + Z.of_nat i) mod L =? 0 then TDICE_SLOT_DONE else TDICE_STEP_DONE) (seq 1 (steps_of t)).
  Proof.
    intros d s t s' H. induction H as [s|s r s1 t s2 E H IH|s pv vs e pg' pv' t s2 V E H IH]; intros L n tot AS W Hb SM.
    - cbn [steps_of filter length given answers flat_map seq map]. replace (n + Z.of_nat 0) with n by lia.
      split; [exact AS|]. split; [apply keeps_refl|reflexivity].
    - inversion W as [|? ? W1 W2]. subst. cbn [went_well] in W1.
      unfold steps_of in *. cbn [filter is_step length given answers flat_map] in *.
      destruct (step_at d L n tot s r s1 AS E W1 ltac:(lia)) as (A1 & K1 & R1).
      destruct (IH L (n + 1) tot A1 W2 ltac:(lia) SM) as (A2 & K2 & R2).
      replace (n + Z.of_nat (S (length (filter is_step t)))) with (n + 1 + Z.of_nat (length (filter is_step t))) by lia.
      split; [exact A2|]. split; [eapply keeps_trans; eassumption|].
      cbn [app seq map]. change (answers t) with (flat_map (fun e => match e with Stepped r => [r] | _ => [] end) t) in R2. rewrite R2, R1.
      replace (n + Z.of_nat 1) with (n + 1) by lia. f_equal. rewrite <- (seq_shift _ 1), map_map. apply map_ext. intro i.
      replace (n + Z.of_nat (S i)) with (n + 1 + Z.of_nat i) by lia. reflexivity.
    - inversion W as [|? ? W1 W2]. subst. cbn [went_well] in W1. subst e.
      unfold steps_of in *. cbn [filter is_step length given answers flat_map app] in *.
      destruct (insert_at d L n tot s pv vs pg' pv' AS V (small_given _ _ SM) E) as (A1 & K1).
      destruct (IH L n (give tot vs) A1 W2 ltac:(lia) SM) as (A2 & K2 & R2).
      split; [exact A2|]. split; [eapply keeps_trans; eassumption|exact R2].
  Qed.

  Lemma at_start : forall d s qs, good_sim d s -> an_time (s_an s) = 0 -> queued (s_pg s) qs ->
      at_step d (an_slot_length (s_an s)) 0 qs s.
  Proof.
    intros d s qs GS T Q. pose proof GS as (_ & _ & _ & SL & _). split; auto; try (unfold two32; lia).
    - rewrite slots_begun_0 by lia. rewrite Forall_forall. intros l _. cbn. lia.
    - rewrite slots_begun_0 by lia. replace (map (skipn (Z.to_nat 0)) qs) with qs; [exact Q|]. rewrite <- (map_id qs) at 1. apply map_ext. reflexivity.
  Qed.

  (** ** Slots as sequences of steps *)
  Lemma history_app : forall d s t s' t' s'', history solve plugin d s t s' -> history solve plugin d s' t' s'' -> history solve plugin d s (t ++ t') s''.
  Proof.
    intros d s t s' t' s'' H. induction H; intro H'; cbn [app]; [exact H'| |].
    - eapply H_step; eauto.
    - eapply H_insert; eauto.
  Qed.

  Lemma slot_history : forall fuel d s r s', emulate_slot solve plugin fuel d s = Ok (r, s') ->
      exists k, history solve plugin d s (repeat (Stepped TDICE_STEP_DONE) k ++ [Stepped r]) s' /\ r <> TDICE_STEP_DONE.
  Proof.
    induction fuel as [|fuel IH]; intros d s r s' E; cbn [emulate_slot] in E; [discriminate|].
    destruct (emulate_step solve plugin d s) as [[r1 s1]| |] eqn:E1; cbn [bind] in E; try discriminate.
    destruct r1; try (injection E as <- <-; exists O; split; [eapply H_step; [exact E1|constructor]|discriminate]).
    destruct (IH d s1 r s' E) as (k & H & N). exists (S k). split; [|exact N]. cbn [repeat app]. eapply H_step; eassumption.
  Qed.
End History.
