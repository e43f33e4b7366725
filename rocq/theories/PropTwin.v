(** * Property C67: only the powers matter, not when they are given *)
From Coq Require Import ZArith List Bool QArith Lia.
From Verif Require Import Base QSum Dims DimsSpec Queue QueueProofs Floorplan FloorplanSpec Stack StackSpec PowerGrid Emulate EmulateSpec EmulateProofs
  SourceVectorProofs HistoryProofs TwinProofs.
Import ListNotations.
Local Open Scope list_scope.
Local Open Scope Z_scope.

(** The powers of slot [k] (from 0) when the elements are given [tot] in all. *)
Definition powers_in_slot (k : nat) (tot : list (list Q)) : list Q := map (fun l => nth k l 0%Q) tot.

(** What a user can observe of a simulation: the temperatures, the powers of the
    cells, the time, and the state of the plugin. *)
Definition same_simulation {M PS} (s s' : sim M PS) : Prop :=
  s_temps s = s_temps s' /\ pg_sources (s_pg s) = pg_sources (s_pg s') /\ s_an s = s_an s' /\ s_plugin s = s_plugin s' /\ s_matrix s = s_matrix s'.
(** The same simulation, up to the contents of the queues of the elements. *)
Definition but_for_queues {M PS} (s s' : sim M PS) : Prop := bare s = bare s'.

Section C67.
  Context {M PS : Type}.
  Variable solve : M -> list Q -> error_t * list Q.
  Variable plugin : PS -> list Q -> list Q -> bool * list Q * PS.
  Hypothesis IP : in_place solve plugin.
  Notation sim := (sim M PS).

  Lemma bare_same : forall s s' : sim, bare s = bare s' -> same_simulation s s'.
  Proof.
    intros s s' B. destruct (bare_fields s s' B) as (T & MM & AN & PL & BP). split; [exact T|].
    split; [change (pg_sources (bare_pgrid (s_pg s)) = pg_sources (bare_pgrid (s_pg s'))); congruence|]. auto.
  Qed.

  Lemma nth_powers : forall k tot j l, nth_error tot j = Some l -> nth_error (powers_in_slot k tot) j = Some (nth k l 0%Q).
  Proof. intros k tot j l N. unfold powers_in_slot. rewrite nth_error_map, N. reflexivity. Qed.

  Lemma heads_agree : forall t t' tot tot' k (els els' : list flpel), Forall2 (fun e l => qrep (fe_powers e) l) els (map (skipn k) tot) ->
      Forall2 (fun e l => qrep (fe_powers e) l) els' (map (skipn k) tot') -> length els = length els' ->
      Forall (fun l => (k < length l)%nat) tot -> Forall (fun l => (k < length l)%nat) tot' ->
      powers_in_slot k (given tot t) = powers_in_slot k (given tot' t') -> Forall2 same_head els els'.
  Proof.
    intros t t' tot tot' k els els' Q1 Q2 LE F1 F2 P.
    assert (AT : forall j l l', nth_error tot j = Some l -> nth_error tot' j = Some l' -> nth k l 0%Q = nth k l' 0%Q).
    { intros j l l' N N'. rewrite Forall_forall in F1, F2. pose proof (F1 l (nth_error_In _ _ N)) as X1. pose proof (F2 l' (nth_error_In _ _ N')) as X2.
      destruct (given_prefix t tot j k l N X1) as (a & NA & _ & EA). destruct (given_prefix t' tot' j k l' N' X2) as (b & NB & _ & EB).
      pose proof (nth_powers k _ _ _ NA) as PA. pose proof (nth_powers k _ _ _ NB) as PB. rewrite P, PB in PA. injection PA as PA. exact (eq_trans (eq_sym EA) (eq_trans (eq_sym PA) EB)). }
    clear P. revert els els' tot' Q1 Q2 LE F1 F2 AT. induction tot as [|l tot IH]; intros els els' tot' Q1 Q2 LE F1 F2 AT; cbn [map] in Q1.
    - inversion Q1; subst. destruct els'; [constructor|discriminate].
    - inversion Q1 as [|e ? es ? R1 Q1']; subst. destruct els' as [|e' es']; [discriminate|]. destruct tot' as [|l' tot']; cbn [map] in Q2; inversion Q2 as [|? ? ? ? R2 Q2']; subst.
      inversion F1 as [|? ? K1 F1']; subst. inversion F2 as [|? ? K2 F2']; subst. constructor.
      + assert (SK : forall m : list Q, (k < length m)%nat -> skipn k m = nth k m 0%Q :: skipn (S k) m).
        { clear. revert k. induction k as [|k IH]; intros [|x m] H; cbn in H; try lia; [reflexivity|]. change (skipn (S k) (x :: m)) with (skipn k m). rewrite IH by lia. reflexivity. }
        rewrite SK in R1, R2 by assumption. exists (nth k l 0%Q), (skipn (S k) l), (skipn (S k) l'). split; [exact R1|].
        rewrite (AT 0%nat l l' eq_refl eq_refl). exact R2.
      + apply (IH es es' tot'); auto. intros j a b N N'. apply (AT (S j) a b N N').
  Qed.

  Lemma twin_histories : forall d L size t t' (s s' s1 s2 : sim) n tot tot', (length t + length t' <= size)%nat ->
      history solve plugin d s t s1 -> history solve plugin d s' t' s2 -> bare s = bare s' ->
      at_step d L n tot s -> at_step d L n tot' s' -> Forall went_well t -> Forall went_well t' -> steps_of t = steps_of t' ->
      n + Z.of_nat (steps_of t) < two32 -> small_queues (given tot t) -> small_queues (given tot' t') ->
      (forall k, Z.of_nat k < slots_begun L (n + Z.of_nat (steps_of t)) -> powers_in_slot k (given tot t) = powers_in_slot k (given tot' t')) ->
      bare s1 = bare s2.
  Proof.
    intros d L size. induction size as [|size IH]; intros t t' s s' s1 s2 n tot tot' SZ H1 H2 B A1 A2 W1 W2 ST NB S1 S2 P.
    - destruct t; [|cbn in SZ; lia]. destruct t'; [|cbn in SZ; lia]. inversion H1; subst. inversion H2; subst. exact B.
    - destruct t as [|[r|vs e] t].
      + inversion H1; subst. destruct t' as [|[r|vs e] t']; [inversion H2; subst; exact B|discriminate|].
        inversion H2 as [| |? pv ? ? pg' pv' ? ? V E H2']; subst. inversion W2 as [|? ? We W2']; subst. cbn [went_well] in We. subst e.
        cbn [given] in *. destruct (insert_at d L n tot' s' pv vs pg' pv' A2 V (small_given _ _ S2) E) as (A2' & _).
        apply (IH [] t' s1 (with_pg s' pg') s1 s2 n tot (give tot' vs)); auto; [cbn in SZ |- *; lia|].
        rewrite (insert_bare s' _ _ _ _ E). exact B.
      + destruct t' as [|[r'|vs e] t']; [discriminate| |].
        * inversion H1 as [|? ? sa ? ? E1 H1'|]; subst. inversion H2 as [|? ? sb ? ? E2 H2'|]; subst.
          inversion W1 as [|? ? V1 W1']; subst. inversion W2 as [|? ? V2 W2']; subst. cbn [went_well] in V1, V2.
          unfold steps_of in *. cbn [filter is_step length given] in *.
          destruct (step_at solve plugin IP d L n tot s r sa A1 E1 V1 ltac:(lia)) as (A1' & _ & _).
          destruct (step_at solve plugin IP d L n tot' s' r' sb A2 E2 V2 ltac:(lia)) as (A2' & _ & _).
          destruct (step_twin solve plugin d s s' r sa r' sb E1 E2 V1 V2 B) as (_ & B').
          { intro SC. pose proof (at_good _ _ _ _ _ A1) as (_ & _ & _ & SL & _). pose proof (at_L _ _ _ _ _ A1) as HL. pose proof (at_time _ _ _ _ _ A1) as HT. pose proof (at_n _ _ _ _ _ A1) as Hn.
            rewrite (slot_completed_spec (s_an s)) in SC by lia. rewrite HT, HL in SC. assert (BD : n mod L = 0) by (apply Z.eqb_eq; congruence).
            assert (L0 : 0 < L) by lia. pose proof (slots_begun_boundary L n L0 ltac:(lia) BD) as SB. pose proof (slots_begun_nonneg L n L0 ltac:(lia)) as NN.
            apply (heads_agree t t' tot tot' (Z.to_nat (slots_begun L n))).
            - exact (at_queues _ _ _ _ _ A1).
            - exact (at_queues _ _ _ _ _ A2).
            - destruct (bare_fields s s' B) as (_ & _ & _ & _ & BP). assert (BF : pg_flps (bare_pgrid (s_pg s)) = pg_flps (bare_pgrid (s_pg s'))) by congruence. cbn [bare_pgrid set_sources pg_flps] in BF.
              unfold elements. clear - BF. revert BF. generalize (pg_flps (s_pg s)) as fs, (pg_flps (s_pg s')) as gs. induction fs as [|f fs IHf]; intros [|g gs] BF; try discriminate; [reflexivity|].
              cbn [map] in BF. cbn [flat_map]. rewrite !app_length, (IHf gs) by congruence. f_equal.
              assert (BG : option_map bare_floorplan f = option_map bare_floorplan g) by congruence. destruct f as [f|], g as [g|]; cbn [option_map] in BG; try discriminate; [|reflexivity].
              cbn [layer_elements]. rewrite <- (map_length bare_element (f_elements f)), <- (map_length bare_element (f_elements g)).
              change (map bare_element (f_elements f)) with (f_elements (bare_floorplan f)). change (map bare_element (f_elements g)) with (f_elements (bare_floorplan g)). congruence.
            - pose proof (at_enough _ _ _ _ _ A1') as EN. rewrite SB in EN. eapply Forall_impl; [|exact EN]. cbn beta. intros l Hl. refine (Nat.lt_le_trans _ _ _ _ Hl). lia.
            - pose proof (at_enough _ _ _ _ _ A2') as EN. rewrite SB in EN. eapply Forall_impl; [|exact EN]. cbn beta. intros l Hl. refine (Nat.lt_le_trans _ _ _ _ Hl). lia.
            - apply P. assert (MON : slots_begun L (n + 1) <= slots_begun L (n + Z.of_nat (S (length (filter is_step t))))) by (unfold slots_begun; apply Z.div_le_mono; lia). lia. }
          apply (IH t t' sa sb s1 s2 (n + 1) tot tot'); auto; try lia.
          intros k K. apply P. replace (n + Z.of_nat (S (length (filter is_step t)))) with (n + 1 + Z.of_nat (length (filter is_step t))) by lia. exact K.
        * inversion H2 as [| |? pv ? ? pg' pv' ? ? V E H2']; subst. inversion W2 as [|? ? We W2']; subst. cbn [went_well] in We. subst e.
          cbn [given] in *. destruct (insert_at d L n tot' s' pv vs pg' pv' A2 V (small_given _ _ S2) E) as (A2' & _).
          apply (IH (Stepped r :: t) t' s (with_pg s' pg') s1 s2 n tot (give tot' vs)); auto; [cbn in SZ |- *; lia|].
          rewrite (insert_bare s' _ _ _ _ E). exact B.
      + inversion H1 as [| |? pv ? ? pg' pv' ? ? V E H1']; subst. inversion W1 as [|? ? We W1']; subst. cbn [went_well] in We. subst e.
        cbn [given] in *. destruct (insert_at d L n tot s pv vs pg' pv' A1 V (small_given _ _ S1) E) as (A1' & _).
        apply (IH t t' (with_pg s pg') s' s1 s2 n (give tot vs) tot'); auto; [cbn in SZ; lia|].
        rewrite (insert_bare s _ _ _ _ E). exact B.
  Qed.

  (** C67: two runs of the same simulation with the same number of steps, in which every
      element has the same power in every slot begun so far, are in the same state and
      have given the same answers, whenever and in whatever portions the powers were
      given. *)
  Theorem C67_schedule : forall d (s s' s1 s2 : sim) qs qs' t t', good_sim d s -> good_sim d s' -> but_for_queues s s' ->
      an_time (s_an s) = 0 -> queued (s_pg s) qs -> queued (s_pg s') qs' ->
      history solve plugin d s t s1 -> history solve plugin d s' t' s2 -> Forall went_well t -> Forall went_well t' ->
      steps_of t = steps_of t' -> Z.of_nat (steps_of t) < two32 -> small_queues (given qs t) -> small_queues (given qs' t') ->
      (forall k, Z.of_nat k < slots_begun (an_slot_length (s_an s)) (Z.of_nat (steps_of t)) -> powers_in_slot k (given qs t) = powers_in_slot k (given qs' t')) ->
      same_simulation s1 s2 /\ answers t = answers t'.
  Proof.
    intros d s s' s1 s2 qs qs' t t' G1 G2 B T Q1 Q2 H1 H2 W1 W2 ST NB S1 S2 P.
    pose proof (at_start d s qs G1 T Q1) as A1. destruct (bare_fields s s' B) as (_ & _ & AN & _). assert (T' : an_time (s_an s') = 0) by congruence.
    pose proof (at_start d s' qs' G2 T' Q2) as A2. rewrite <- AN in A2. split.
    - apply bare_same. apply (twin_histories d (an_slot_length (s_an s)) _ t t' s s' s1 s2 0 qs qs' (le_n _)); auto.
    - destruct (history_at solve plugin IP d s t s1 H1 _ _ _ A1 W1 ltac:(lia) S1) as (_ & _ & R1).
      destruct (history_at solve plugin IP d s' t' s2 H2 _ _ _ A2 W2 ltac:(lia) S2) as (_ & _ & R2). rewrite R1, R2, ST. reflexivity.
  Qed.
End C67.
Print Assumptions C67_schedule.

(** ** A client that gives the powers slot by slot, and a local run *)
From Verif Require Import SimProofs PropEmulate Inspect Emulator EmulatorSpec Message MessageSpec Server ServerSpec ServerProofs ServerRunProofs.

(** [k] slots run by emulate_slot, one after the other. *)
Inductive local_run {M PS} (solve : M -> list Q -> error_t * list Q) (plugin : PS -> list Q -> list Q -> bool * list Q * PS) (d : dims) : nat -> sim M PS -> sim M PS -> Prop :=
| lr_0 : forall s, local_run solve plugin d 0 s s
| lr_S : forall k s fuel s1 s2, local_run solve plugin d k s s1 -> emulate_slot solve plugin fuel d s1 = Ok (TDICE_SLOT_DONE, s2) -> local_run solve plugin d (S k) s s2.

(** The requests of the client for the powers [wss], one list per slot, and the answers
    when all goes well. *)
Definition slot_requests (ws : list word) : list content := [(INSERT_POWERS, Z.of_nat (length ws) :: ws); (SIMULATE_SLOT, [])].
Definition slot_answers (ws : list word) : list content := [(INSERT_POWERS, [error_code TDICE_SUCCESS]); (SIMULATE_SLOT, [result_code TDICE_SLOT_DONE])].

Section C67_remote.
  Context {M PS : Type}.
  Variable solve : M -> list Q -> error_t * list Q.
  Variable plugin : PS -> list Q -> list Q -> bool * list Q * PS.
  Hypothesis IP : in_place solve plugin.
  Variables (encF : Q -> word) (decF : word -> Q).
  Variables (openable : list Z -> bool) (readable : list Z -> bool) (render : list line -> list byte).
  Variables (stack : list stkel) (o : output) (d : dims).
  Notation sim := (sim M PS).
  Notation talk := (talk encF decF openable readable render solve plugin stack o d).

  Definition slot_steps (L : Z) : list event := repeat (Stepped TDICE_STEP_DONE) (Z.to_nat (L - 1)) ++ [Stepped TDICE_SLOT_DONE].
  Definition fed_slot (L : Z) (vs : list Q) : list event := Inserted vs TDICE_SUCCESS :: slot_steps L.

  Lemma given_repeat : forall n q t, given q (repeat (Stepped TDICE_STEP_DONE) n ++ t) = given q t.
  Proof. induction n as [|n IH]; intros q t; [reflexivity|exact (IH q t)]. Qed.
  Lemma given_app : forall t t' q, given q (t ++ t') = given (given q t) t'.
  Proof. induction t as [|[r|vs e] t IH]; intros t' q; cbn [app given]; auto. Qed.
  Lemma steps_app : forall t t', steps_of (t ++ t') = (steps_of t + steps_of t')%nat.
  Proof. intros. unfold steps_of. rewrite filter_app, app_length. reflexivity. Qed.
  Lemma slot_steps_n : forall L, 0 < L -> steps_of (slot_steps L) = Z.to_nat L.
  Proof.
    intros L H. unfold slot_steps. rewrite steps_app. replace (steps_of (repeat (Stepped TDICE_STEP_DONE) (Z.to_nat (L - 1)))) with (Z.to_nat (L - 1)).
    - change (steps_of [Stepped TDICE_SLOT_DONE]) with 1%nat. lia.
    - generalize (Z.to_nat (L - 1)) as n. clear. induction n as [|n IH]; [reflexivity|]. cbn [repeat]. unfold steps_of in *. cbn [filter is_step length]. congruence.
  Qed.
  Lemma slot_steps_well : forall L, Forall went_well (slot_steps L).
  Proof. intro L. apply Forall_app. split; [generalize (Z.to_nat (L - 1)) as n; induction n; constructor; [left; reflexivity|assumption]|constructor; [right; reflexivity|constructor]]. Qed.

  (** One more slot of a run on a boundary. *)
  Lemma one_slot : forall (s s1 s2 : sim) qs t fuel, good_sim d s -> an_time (s_an s) = 0 -> queued (s_pg s) qs ->
      history solve plugin d s t s1 -> Forall went_well t -> small_queues (given qs t) ->
      Z.of_nat (steps_of t) mod an_slot_length (s_an s) = 0 -> Z.of_nat (steps_of t) + an_slot_length (s_an s) < two32 ->
      emulate_slot solve plugin fuel d s1 = Ok (TDICE_SLOT_DONE, s2) ->
      history solve plugin d s (t ++ slot_steps (an_slot_length (s_an s))) s2.
  Proof.
    intros s s1 s2 qs t fuel G T Q H W SM B0 B E.
    destruct (C19_slot_duration solve plugin d s s1 qs t IP G T Q H W SM B) as (r & s3 & E3 & _ & F).
    assert (X : Ok (r, s3) = Ok (TDICE_SLOT_DONE, s2)).
    { destruct (Nat.le_ge_cases fuel (Z.to_nat (an_slot_length (s_an s)))) as [LE|LE].
      - rewrite <- E3. apply (slot_mono solve plugin _ _ _ _ E _ LE).
      - rewrite <- E. symmetry. apply (slot_mono solve plugin _ _ _ _ E3 _ LE). }
    assert (r = TDICE_SLOT_DONE) as -> by congruence. assert (s3 = s2) as -> by congruence.
    destruct (F eq_refl) as (_ & HH). destruct (HH B0) as (HS & _). apply (history_app solve plugin d s t s1 _ s2 H HS).
  Qed.

  Lemma local_history : forall k (s s2 : sim) qs, local_run solve plugin d k s s2 -> good_sim d s -> an_time (s_an s) = 0 -> queued (s_pg s) qs -> small_queues qs ->
      Z.of_nat k * an_slot_length (s_an s) < two32 ->
      exists t, history solve plugin d s t s2 /\ Forall went_well t /\ (forall q, given q t = q) /\ Z.of_nat (steps_of t) = Z.of_nat k * an_slot_length (s_an s).
  Proof.
    intros k s s2 qs R. induction R as [s|k s fuel s1 s2 R IH E]; intros G T Q SM B.
    - exists []. split; [constructor|]. split; [constructor|]. split; reflexivity.
    - pose proof G as (_ & _ & _ & SL & _). destruct (IH G T Q SM ltac:(lia)) as (t & H & W & GV & ST).
      exists (t ++ slot_steps (an_slot_length (s_an s))). split; [|split; [|split]].
      + apply (one_slot s s1 s2 qs t fuel); auto; [rewrite GV; exact SM|rewrite ST; apply Z.mod_mul; lia|rewrite ST; lia].
      + apply Forall_app. split; [exact W|apply slot_steps_well].
      + intro q. rewrite given_app, GV. unfold slot_steps. apply given_repeat.
      + rewrite steps_app, slot_steps_n by lia. lia.
  Qed.

  (** Giving the values of one slot after the other. *)
  Lemma give_powers : forall tot vs m, Forall (fun l => length l = m) tot -> length vs = length tot ->
      powers_in_slot m (give tot vs) = vs /\ (forall k, (k < m)%nat -> powers_in_slot k (give tot vs) = powers_in_slot k tot) /\ Forall (fun l => length l = S m) (give tot vs) /\ length (give tot vs) = length tot.
  Proof.
    induction tot as [|l tot IH]; intros [|v vs] m F LV; try discriminate; cbn [give].
    - split; [reflexivity|]. split; [reflexivity|]. split; [constructor|reflexivity].
    - inversion F as [|? ? F1 F2]; subst. destruct (IH vs (length l) F2 ltac:(cbn in LV; lia)) as (A & B & C & D). unfold powers_in_slot in *. cbn [map].
      split; [f_equal; [rewrite app_nth2, Nat.sub_diag by lia; reflexivity|exact A]|].
      split; [intros k K; f_equal; [apply app_nth1; exact K|apply B; exact K]|].
      split; [constructor; [rewrite app_length; cbn; lia|exact C]|cbn [length]; congruence].
  Qed.
  Lemma fold_give : forall n vss tot m, Forall (fun vs => length vs = n) vss -> Forall (fun l => length l = m) tot -> length tot = n ->
      Forall (fun l => length l = (m + length vss)%nat) (fold_left give vss tot) /\ length (fold_left give vss tot) = n /\
      (forall k, (k < m)%nat -> powers_in_slot k (fold_left give vss tot) = powers_in_slot k tot) /\
      (forall k, (k < length vss)%nat -> powers_in_slot (m + k) (fold_left give vss tot) = nth k vss []).
  Proof.
    intros n vss. induction vss as [|vs vss IH]; intros tot m F FT LT; cbn [fold_left length].
    - rewrite Nat.add_0_r. split; [exact FT|]. split; [exact LT|]. split; [reflexivity|intros; lia].
    - inversion F as [|? ? F1 F2]; subst. destruct (give_powers tot vs m FT F1) as (A & B & C & D).
      destruct (IH (give tot vs) (S m) F2 C D) as (P1 & P2 & P3 & P4). split; [eapply Forall_impl; [|exact P1]; cbn beta; intros; lia|]. split; [exact P2|].
      split; [intros k K; rewrite P3 by lia; apply B; exact K|].
      intros [|k] K; [rewrite Nat.add_0_r, P3 by lia; exact A|]. replace (m + S k)%nat with (S m + k)%nat by lia. apply P4. lia.
  Qed.

  Lemma fed_given : forall L vss q, given q (flat_map (fed_slot L) vss) = fold_left give vss q.
  Proof.
    intros L vss. induction vss as [|vs vss IH]; intro q; cbn [flat_map fold_left]; [reflexivity|]. rewrite given_app. unfold fed_slot at 1. cbn [given]. unfold slot_steps. rewrite given_repeat. cbn [given]. apply IH.
  Qed.
  Lemma fed_steps : forall L vss, 0 < L -> Z.of_nat (steps_of (flat_map (fed_slot L) vss)) = Z.of_nat (length vss) * L.
  Proof.
    intros L vss H. induction vss as [|vs vss IH]; [reflexivity|]. cbn [flat_map length]. rewrite steps_app. unfold fed_slot at 1.
    change (steps_of (Inserted vs TDICE_SUCCESS :: slot_steps L)) with (steps_of (slot_steps L)). rewrite slot_steps_n by exact H. lia.
  Qed.
  Lemma fed_well : forall L vss, Forall went_well (flat_map (fed_slot L) vss).
  Proof. intros L vss. induction vss as [|vs vss IH]; [constructor|]. cbn [flat_map]. apply Forall_app. split; [constructor; [reflexivity|apply slot_steps_well]|exact IH]. Qed.

  Lemma remote_history : forall n s, good_sim d s -> an_time (s_an s) = 0 -> queued (s_pg s) (repeat [] n) -> (0 < n)%nat ->
      forall wss done (st st' : server M PS) rs x, talk st (flat_map slot_requests wss) st' rs x -> rs = flat_map slot_answers wss ->
      history solve plugin d s (flat_map (fed_slot (an_slot_length (s_an s))) done) (sv_sim st) ->
      Forall (fun ws => length ws = n) wss -> Forall (fun vs => length vs = n) done -> 2 * Z.of_nat n < two32 ->
      Z.of_nat (length done + length wss) * an_slot_length (s_an s) < two32 -> 2 * Z.of_nat (length done + length wss) < two32 ->
      history solve plugin d s (flat_map (fed_slot (an_slot_length (s_an s))) (done ++ map (map decF) wss)) (sv_sim st').
  Proof.
    intros n s G T Q N wss. pose proof G as (_ & _ & _ & SL & _). induction wss as [|ws wss IH]; intros done st st' rs x TK RS H F FD NB B B2; cbn [flat_map map] in *.
    - rewrite app_nil_r. inversion TK; subst; exact H.
    - assert (F1 : (length ws <= n /\ n <= length ws)%nat) by (inversion F; lia). pose proof (Forall_inv_tail F) as F2. cbn [slot_requests app slot_answers] in TK.
      set (L := an_slot_length (s_an s)) in *.
      (* the powers *)
      inversion TK as [|? ? st1 r1 ? ? rs1 ? HI TK1|? ? ? ? ? ? HI NG]; subst.
      2:{ destruct r as [c|]; [cbn [opt] in *; discriminate|discriminate]. }
      match goal with X : opt r1 ++ rs1 = _ |- _ => rename X into ER end.
      assert (INS : exists q pg q', queue_of (map decF ws) = Ok q /\ insert_power_values (s_pg (sv_sim st)) q = Ok (TDICE_SUCCESS, pg, q') /\ st1 = with_sim st (insert_into (sv_sim st) pg) /\ r1 = Some (INSERT_POWERS, [0])).
      { clear - HI. remember (INSERT_POWERS, Z.of_nat (length ws) :: ws) as c eqn:EC. remember Go_on as nx eqn:EG.
        destruct HI as [| | |ws0 rest q pg q' QO E| | | | | | | |ty ws0 BAD]; try discriminate.
        - assert (LL : length ws0 = length ws) by (apply Nat2Z.inj; congruence). assert (EW : ws0 ++ rest = ws) by congruence.
          subst ws. rewrite app_length in LL. destruct rest; [|cbn in LL; lia]. rewrite app_nil_r in *. exists q, pg, q'. auto.
        - exfalso. assert (ty = INSERT_POWERS) as -> by congruence. cbv in BAD. discriminate. }
      destruct INS as (q & pg & q' & QO & E & -> & ->). cbn [opt app] in ER. injection ER as ER.
      destruct (queue_of_spec (map decF ws)) as (q2 & QO2 & QR).
      { intro X. destruct ws; [cbn in F1; lia|discriminate]. }
      { rewrite map_length. lia. }
      assert (q2 = q) as -> by congruence.
      (* the slot *)
      inversion TK1 as [|? ? st2 r2 ? ? rs2 ? HS TK2|? ? ? r2 ? ? HS NG]; subst.
      2:{ exfalso. match goal with X : opt r2 = _ |- _ => rename X into ER end. clear - HS NG ER. remember (SIMULATE_SLOT, []) as c eqn:EC.
          destruct HS as [| | | | | | | |ws0 k res s' L0 ES| | |ty ws0 BAD]; try discriminate.
          cbn [opt] in ER. destruct res; try congruence; cbv in ER; discriminate. }
      assert (SLOT : exists k s', emulate_slot solve plugin k d (insert_into (sv_sim st) pg) = Ok (TDICE_SLOT_DONE, s') /\ st2 = with_sim (with_sim st (insert_into (sv_sim st) pg)) s' /\ opt r2 = [(SIMULATE_SLOT, [result_code TDICE_SLOT_DONE])]).
      { clear - HS. remember (SIMULATE_SLOT, []) as c eqn:EC. remember Go_on as nx eqn:EG.
        destruct HS as [| | | | | | | |ws0 k res s' L0 ES| | |ty ws0 BAD]; try discriminate; [|assert (ty = SIMULATE_SLOT) as -> by congruence; cbv in BAD; discriminate].
        destruct res; try discriminate. exists k, s'. auto. }
      destruct SLOT as (k & s' & ES & -> & R2). match goal with X : opt r2 ++ rs2 = _ |- _ => rename X into ER end. rewrite R2 in ER. cbn [app] in ER. injection ER as ER.
      assert (DG : forall vss, Forall (fun vs => length vs = n) vss -> 2 * Z.of_nat (length vss) < two32 -> small_queues (fold_left give vss (repeat [] n))).
      { intros vss FV LV. destruct (fold_give n vss (repeat [] n) 0 FV) as (P1 & _); [apply Forall_forall; intros l I; apply repeat_spec in I; subst; reflexivity|apply repeat_length|].
        unfold small_queues. eapply Forall_impl; [|exact P1]. cbn beta. intros l LL. rewrite LL. lia. }
      assert (H1 : history solve plugin d s (flat_map (fed_slot L) done ++ [Inserted (map decF ws) TDICE_SUCCESS]) (insert_into (sv_sim st) pg)).
      { apply (history_app solve plugin d s _ (sv_sim st)); [exact H|]. eapply H_insert; [exact QR|exact E|constructor]. }
      assert (H2 : history solve plugin d s ((flat_map (fed_slot L) done ++ [Inserted (map decF ws) TDICE_SUCCESS]) ++ slot_steps L) s').
      { apply (one_slot s (insert_into (sv_sim st) pg) s' (repeat [] n) _ k); auto.
        - apply Forall_app. split; [apply fed_well|constructor; [reflexivity|constructor]].
        - rewrite given_app, fed_given. cbn [given]. change (give (fold_left give done (repeat [] n)) (map decF ws)) with (fold_left give [map decF ws] (fold_left give done (repeat [] n))).
          rewrite <- fold_left_app. apply DG; [apply Forall_app; split; [exact FD|constructor; [rewrite map_length; lia|constructor]]|rewrite app_length; cbn [length] in *; lia].
        - rewrite steps_app. change (steps_of [Inserted (map decF ws) TDICE_SUCCESS]) with 0%nat. rewrite Nat.add_0_r, fed_steps by lia. apply Z.mod_mul. lia.
        - rewrite steps_app. change (steps_of [Inserted (map decF ws) TDICE_SUCCESS]) with 0%nat. rewrite Nat.add_0_r, fed_steps by lia. fold L. cbn [length] in B. nia. }
      replace (done ++ map decF ws :: map (map decF) wss) with ((done ++ [map decF ws]) ++ map (map decF) wss) by (rewrite <- app_assoc; reflexivity).
      apply (IH (done ++ [map decF ws]) _ _ _ _ TK2 ER); auto.
      + cbn [with_sim sv_sim]. rewrite flat_map_app. cbn [flat_map fed_slot]. rewrite app_nil_r. rewrite <- app_assoc in H2. exact H2.
      + apply Forall_app. split; [exact FD|constructor; [rewrite map_length; lia|constructor]].
      + rewrite app_length. cbn [length] in *. replace (length done + 1 + length wss)%nat with (length done + S (length wss))%nat by lia. exact B.
      + rewrite app_length. cbn [length] in *. lia.
  Qed.

  (** C67 for a client: giving the powers of every slot to a server whose queues are
      empty and simulating that slot, or having all the powers in the queues and running
      the slots locally, is the same. *)
  Theorem C67_remote : forall n (st st' : server M PS) (s s' : sim) wss qs rs x, (0 < n)%nat -> 2 * Z.of_nat n < two32 ->
      good_sim d (sv_sim st) -> good_sim d s -> but_for_queues (sv_sim st) s -> an_time (s_an s) = 0 ->
      queued (s_pg (sv_sim st)) (repeat [] n) -> queued (s_pg s) qs -> small_queues qs ->
      Forall (fun ws => length ws = n) wss -> Z.of_nat (length wss) * an_slot_length (s_an s) < two32 -> 2 * Z.of_nat (length wss) < two32 ->
      (forall k, (k < length wss)%nat -> powers_in_slot k qs = map decF (nth k wss [])) ->
      talk st (flat_map slot_requests wss) st' rs x -> rs = flat_map slot_answers wss ->
      local_run solve plugin d (length wss) s s' ->
      same_simulation (sv_sim st') s'.
  Proof.
    intros n st st' s s' wss qs rs x N NB G1 G2 B T Q1 Q2 SM F LB LB2 P TK RS LR.
    destruct (bare_fields (sv_sim st) s B) as (_ & _ & AN & _). assert (T1 : an_time (s_an (sv_sim st)) = 0) by congruence. pose proof G2 as (_ & _ & _ & SL & _).
    pose proof (remote_history n (sv_sim st) G1 T1 Q1 N wss [] st st' rs x TK RS (H_nil _ _ _ _) F (Forall_nil _) NB) as H1. rewrite AN in H1. cbn [length Nat.add app] in H1. specialize (H1 LB LB2).
    destruct (local_history _ s s' qs LR G2 T Q2 SM LB) as (t & H2 & W & GV & ST).
    set (L := an_slot_length (s_an s)) in *.
    assert (FV : Forall (fun vs : list Q => length vs = n) (map (map decF) wss)) by (apply Forall_forall; intros vs I; apply in_map_iff in I; destruct I as (ws & <- & I); rewrite map_length; rewrite Forall_forall in F; auto).
    destruct (fold_give n (map (map decF) wss) (repeat [] n) 0 FV) as (P1 & _ & _ & P4); [apply Forall_forall; intros l I; apply repeat_spec in I; subst; reflexivity|apply repeat_length|].
    rewrite map_length in P1, P4. cbn [Nat.add] in P1, P4.
    assert (SE : Z.of_nat (steps_of (flat_map (fed_slot L) (map (map decF) wss))) = Z.of_nat (length wss) * L) by (rewrite fed_steps, map_length by (unfold L; lia); reflexivity).
    apply (C67_schedule solve plugin IP d (sv_sim st) s (sv_sim st') s' (repeat [] n) qs _ t G1 G2 B T1 Q1 Q2 H1 H2); auto.
    - apply fed_well.
    - lia.
    - rewrite SE. exact LB.
    - rewrite fed_given. unfold small_queues. eapply Forall_impl; [|exact P1]. cbn beta. intros l LL. rewrite LL. exact LB2.
    - rewrite GV. exact SM.
    - intros k K. rewrite SE, AN in K. fold L in K. rewrite fed_given, GV.
      assert (KL : (k < length wss)%nat).
      { unfold slots_begun in K. rewrite Z.add_comm, Z.add_sub_swap, Z.add_comm in K. 
        assert ((Z.of_nat (length wss) * L + (L - 1)) / L = Z.of_nat (length wss)) by (rewrite Z.div_add_l by lia; rewrite Z.div_small by lia; lia). 
        replace (Z.of_nat (length wss) * L + L - 1) with (Z.of_nat (length wss) * L + (L - 1)) in K by lia. lia. }
      rewrite P by exact KL. rewrite P4 by exact KL. rewrite (nth_indep _ [] (map decF [])) by (rewrite map_length; exact KL). apply map_nth.
  Qed.
End C67_remote.
Print Assumptions C67_remote.

(** ** A server fed slot by slot, and the same run locally *)
From Verif Require Import SimWitness PropServer.
Definition tw_wss : list (list word) := [[7; 9]; [5; 2]].
Definition tw_q1 : queue := q_put (q_put q_empty 7) 5.
Definition tw_q2 : queue := q_put (q_put q_empty 9) 2.
Definition tw_local : sim unit unit := wsim tw_q1 tw_q2 (repeat 0%Q 8) (repeat 300%Q 8) 2 0.
Definition tw_slot (s : sim unit unit) : sim unit unit := match emulate_slot wsolve wplugin 5 wd s with Ok (_, s') => s' | _ => s end.
Definition tw_queue (ws : list word) : queue := match queue_of (map sv_dec ws) with Ok q => q | _ => q_empty end.
Definition tw_pg (s : sim unit unit) (ws : list word) : pgrid := match insert_power_values (s_pg s) (tw_queue ws) with Ok (_, pg, _) => pg | _ => s_pg s end.
Definition tw_left (s : sim unit unit) (ws : list word) : queue := match insert_power_values (s_pg s) (tw_queue ws) with Ok (_, _, q) => q | _ => q_empty end.
Definition tw_feed (s : sim unit unit) (ws : list word) : sim unit unit := insert_into s (tw_pg s ws).
Example C67_witness :
    good_sim wd (sv_sim sv_start) /\ good_sim wd tw_local /\ but_for_queues (sv_sim sv_start) tw_local /\
    queued (s_pg (sv_sim sv_start)) (repeat [] 2) /\ queued (s_pg tw_local) [[7; 5]; [9; 2]]%Q /\ small_queues [[7; 5]; [9; 2]]%Q /\
    (forall k, (k < length tw_wss)%nat -> powers_in_slot k [[7; 5]; [9; 2]]%Q = map sv_dec (nth k tw_wss [])) /\
    (exists st', talk sv_enc sv_dec sv_any sv_any sv_render wsolve wplugin [sv_die] sv_out wd sv_start (flat_map slot_requests tw_wss) st' (flat_map slot_answers tw_wss) Quit) /\
    (exists s', local_run wsolve wplugin wd (length tw_wss) tw_local s' /\ s_temps s' <> s_temps tw_local).
Proof.
  split; [apply wsim_good; try reflexivity; unfold two32; lia|]. split; [apply wsim_good; try reflexivity; unfold two32; lia|]. split; [reflexivity|].
  split; [apply wpg_queued; apply q_empty_rep|].
  split; [apply wpg_queued; [apply (q_put_rep _ [7%Q])|apply (q_put_rep _ [9%Q])]; (apply (q_put_rep _ []) || idtac); try apply q_empty_rep; cbn [length]; unfold two32; lia|].
  split; [constructor; [cbn [length]; unfold two32; lia|]; constructor; [cbn [length]; unfold two32; lia|constructor]|].
  split; [intros [|[|k]] K; [reflexivity|reflexivity|cbn in K; lia]|].
  assert (INS : forall st ws, queue_of (map sv_dec ws) = Ok (tw_queue ws) -> insert_power_values (s_pg (sv_sim st)) (tw_queue ws) = Ok (TDICE_SUCCESS, tw_pg (sv_sim st) ws, tw_left (sv_sim st) ws) ->
     handled sv_enc sv_dec sv_any sv_any sv_render wsolve wplugin [sv_die] sv_out wd st (INSERT_POWERS, Z.of_nat (length ws) :: ws) (with_sim st (tw_feed (sv_sim st) ws)) (Some (INSERT_POWERS, [0])) Go_on).
  { intros st ws Q E. replace (INSERT_POWERS, Z.of_nat (length ws) :: ws) with (INSERT_POWERS, Z.of_nat (length ws) :: ws ++ []) by (rewrite app_nil_r; reflexivity). eapply h_insert; eassumption. }
  assert (SLO : forall st, 0 < an_slot_length (s_an (sv_sim st)) -> emulate_slot wsolve wplugin 5 wd (sv_sim st) = Ok (TDICE_SLOT_DONE, tw_slot (sv_sim st)) ->
     handled sv_enc sv_dec sv_any sv_any sv_render wsolve wplugin [sv_die] sv_out wd st (SIMULATE_SLOT, []) (with_sim st (tw_slot (sv_sim st))) (Some (SIMULATE_SLOT, [result_code TDICE_SLOT_DONE])) Go_on).
  { intros st L E. exact (h_slot sv_enc sv_dec sv_any sv_any sv_render wsolve wplugin [sv_die] sv_out wd st [] 5 _ _ L E). }
  split.
  - set (s0 := sv_sim sv_start). set (s1 := tw_feed s0 [7; 9]). set (s2 := tw_slot s1). set (s3 := tw_feed s2 [5; 2]). set (s4 := tw_slot s3).
    exists (with_sim sv_start s4).
    apply (t_more _ _ _ _ _ _ _ _ _ _ sv_start _ (with_sim sv_start s1) (Some (INSERT_POWERS, [0])) _ _ (tl (flat_map slot_answers tw_wss))); [apply INS; vm_compute; reflexivity|].
    apply (t_more _ _ _ _ _ _ _ _ _ _ (with_sim sv_start s1) _ (with_sim sv_start s2) (Some (SIMULATE_SLOT, [result_code TDICE_SLOT_DONE])) _ _ (tl (tl (flat_map slot_answers tw_wss)))); [apply (SLO (with_sim sv_start s1)); vm_compute; reflexivity|].
    apply (t_more _ _ _ _ _ _ _ _ _ _ (with_sim sv_start s2) _ (with_sim sv_start s3) (Some (INSERT_POWERS, [0])) _ _ (tl (tl (tl (flat_map slot_answers tw_wss))))); [apply (INS (with_sim sv_start s2)); vm_compute; reflexivity|].
    apply (t_more _ _ _ _ _ _ _ _ _ _ (with_sim sv_start s3) _ (with_sim sv_start s4) (Some (SIMULATE_SLOT, [result_code TDICE_SLOT_DONE])) _ _ []); [apply (SLO (with_sim sv_start s3)); vm_compute; reflexivity|].
    apply t_closed.
  - exists (tw_slot (tw_slot tw_local)). split.
    + apply (lr_S _ _ _ 1 tw_local 5 (tw_slot tw_local)); [apply (lr_S _ _ _ 0 tw_local 5 tw_local); [constructor|vm_compute; reflexivity]|vm_compute; reflexivity].
    + intro X. apply (f_equal (fun l => Qnum (nth 4 l 0%Q))) in X. vm_compute in X. discriminate.
Qed.
