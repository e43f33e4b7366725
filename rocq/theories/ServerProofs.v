(** * The server loop refines the conversations of ServerSpec.v *)
From Coq Require Import ZArith List Bool QArith Lia.
From Verif Require Import Base Dims Queue Floorplan Stack PowerGrid Emulate Inspect Emulator Message MessageSpec MessageProofs Server ServerSpec ServerIoProofs.
Import ListNotations.
Local Open Scope Z_scope.

Lemma code_instant : forall i, instant_of (instant_code i) = i.
Proof. destruct i; reflexivity. Qed.
Lemma code_type : forall t, type_of_code (type_code t) = Some t.
Proof. destruct t; reflexivity. Qed.
Lemma code_quantity : forall q, quantity_of (quantity_code q) = Some q.
Proof. destruct q; reflexivity. Qed.

Lemma type_eqb_eq : forall a b, type_eqb a b = true <-> a = b.
Proof. destruct a, b; cbn; split; congruence. Qed.
Lemma quantity_eqb_eq : forall a b, quantity_eqb a b = true <-> a = b.
Proof. destruct a, b; cbn; split; congruence. Qed.

Lemma is_point_wanted : forall p t q, is_point p (Some t) (Some q) = true <-> wanted t q p.
Proof.
  intros p t q. unfold is_point, is_inspection_point, wanted. destruct (type_eqb (ip_type p) t) eqn:T; cbn [negb].
  - apply type_eqb_eq in T. destruct t; rewrite ?quantity_eqb_eq;
      (split; [intro H; try discriminate; repeat split; auto; try discriminate; intros [X|[X|X]]; discriminate|]);
      intros (_ & A & B & C); auto; congruence.
  - split; [discriminate|]. intros (X & _). apply type_eqb_eq in X. congruence.
Qed.
Lemma those_filter : forall t q l ps, those (wanted t q) l ps -> filter (fun p => is_point p (Some t) (Some q)) l = ps.
Proof.
  intros t q l ps H. induction H as [|x l ps W _ IH|x l ps W _ IH]; cbn [filter]; [reflexivity| |].
  - apply is_point_wanted in W. rewrite W, IH. reflexivity.
  - destruct (is_point x (Some t) (Some q)) eqn:X; [apply is_point_wanted in X; contradiction|exact IH].
Qed.
Lemma those_wanted : forall t q l ps, those (wanted t q) l ps -> Forall (wanted t q) ps.
Proof. intros t q l ps H. induction H; auto. Qed.

(** ** Words of a message *)
Lemma word_at_carries : forall m ty ws i, carries m ty ws -> 0 <= i < Z.of_nat (length ws) -> word_at m i = Ok (nth (Z.to_nat i) ws 0).
Proof.
  intros m ty ws i C B. destruct (carries_observe m ty ws C) as (_ & _ & X). unfold word_at.
  rewrite <- (Z2Nat.id i) at 1 by lia. rewrite (X (Z.to_nat i) 0) by lia. reflexivity.
Qed.
Lemma word_at_mid : forall m ty pre w post, carries m ty (pre ++ w :: post) -> word_at m (Z.of_nat (length pre)) = Ok w.
Proof.
  intros m ty pre w post C. rewrite (word_at_carries m ty _ _ C) by (rewrite app_length; cbn [length]; lia).
  rewrite Nat2Z.id, app_nth2, Nat.sub_diag by lia. reflexivity.
Qed.

Section Powers.
  Variable decF : word -> Q.
  Lemma put_powers_spec : forall ws m ty pre post q, carries m ty (pre ++ ws ++ post) ->
      put_powers decF m (length ws) (Z.of_nat (length pre)) q = put_all q (map decF ws).
  Proof.
    induction ws as [|w ws IH]; intros m ty pre post q C; cbn [length put_powers put_all map]; [reflexivity|].
    pose proof (word_at_mid m ty pre w (ws ++ post) C) as X. unfold word_at in X.
    destruct (extract_message_word m (Z.of_nat (length pre))) as [[w'|]| |]; cbn [bind] in X; try discriminate.
    assert (w' = w) by congruence. subst w'. cbn [bind]. destruct (queue_put q (decF w)); cbn [bind]; try reflexivity.
    replace (Z.of_nat (length pre) + 1) with (Z.of_nat (length (pre ++ [w]))) by (rewrite app_length; cbn [length]; lia).
    apply (IH m ty (pre ++ [w]) post). rewrite <- app_assoc. exact C.
  Qed.
End Powers.

(** ** The number of steps of a slot is bounded *)
Section Slot.
  Context {M PS : Type}.
  Variable solve : M -> list Q -> error_t * list Q.
  Variable plugin : PS -> list Q -> list Q -> bool * list Q * PS.
  Lemma plugin_keeps : forall d (s : sim M PS) e s', pluggable_heatsink plugin d s = Ok (e, s') -> s_an s' = s_an s.
  Proof.
    intros d s e s' H. unfold pluggable_heatsink in H. destruct (pg_top (s_pg s)) as [[|]|]; try (injection H as <- <-; reflexivity).
    destruct (_ && _); [|discriminate]. destruct (plugin _ _ _) as [[bad fl] ps]. destruct bad; injection H as <- <-; reflexivity.
  Qed.
  Lemma step_done_time : forall d (s : sim M PS) s', emulate_step solve plugin d s = Ok (TDICE_STEP_DONE, s') ->
      an_slot_length (s_an s') = an_slot_length (s_an s) /\ an_time (s_an s') = u32 (an_time (s_an s) + 1) /\
      an_time (s_an s') mod an_slot_length (s_an s) <> 0.
  Proof.
    intros d s s' H. unfold emulate_step in H. destruct (an_type (s_an s)); try discriminate.
    apply bind_ok in H. destruct H as (b & _ & H). apply bind_ok in H. destruct H as ([e1 pg1] & _ & H).
    destruct e1; [|discriminate]. apply bind_ok in H. destruct H as ([e2 s2] & P & H). apply plugin_keeps in P. cbn [s_an] in P.
    destruct e2; [|discriminate]. apply bind_ok in H. destruct H as (v & _ & H). destruct (solve _ _) as [e3 x].
    destruct e3; [|discriminate]. apply bind_ok in H. destruct H as (dn & D & H).
    assert (E1 : dn = false) by (destruct dn; [discriminate|reflexivity]).
    assert (E2 : s' = mkSim x (s_pg s2) (s_matrix s2) (increase_by_step_time (s_an s2)) (s_plugin s2)) by (destruct dn; congruence).
    subst dn s'. cbn [s_an increase_by_step_time an_slot_length an_time]. rewrite P in *. split; [reflexivity|]. split; [reflexivity|].
    unfold slot_completed in D. cbn [increase_by_step_time an_slot_length an_time] in D. destruct (_ =? 0); [discriminate|].
    destruct (Z.eqb_spec (u32 (an_time (s_an s) + 1) mod an_slot_length (s_an s)) 0); congruence.
  Qed.
  Lemma slot_mono : forall k d (s : sim M PS) r, emulate_slot solve plugin k d s = Ok r ->
      forall k', (k <= k')%nat -> emulate_slot solve plugin k' d s = Ok r.
  Proof.
    induction k as [|k IH]; intros d s r H k' L; [discriminate|]. destruct k' as [|k']; [lia|]. cbn [emulate_slot] in *.
    destruct (emulate_step solve plugin d s) as [[res s']| |]; cbn [bind] in *; try discriminate.
    destruct res; try exact H. apply IH; [exact H|lia].
  Qed.
  Lemma slot_enough : forall k' d (s : sim M PS) r, emulate_slot solve plugin k' d s = Ok r ->
      forall k, 0 < an_slot_length (s_an s) -> 0 <= an_time (s_an s) < two32 ->
      an_slot_length (s_an s) - an_time (s_an s) mod an_slot_length (s_an s) <= Z.of_nat k ->
      emulate_slot solve plugin k d s = Ok r.
  Proof.
    induction k' as [|k' IH]; intros d s r H k L T B; [discriminate|].
    pose proof (Z.mod_pos_bound (an_time (s_an s)) (an_slot_length (s_an s)) L) as MB.
    destruct k as [|k]; [lia|]. cbn [emulate_slot] in *.
    destruct (emulate_step solve plugin d s) as [[res s']| |] eqn:E; cbn [bind] in *; try discriminate.
    destruct res; try exact H. destruct (step_done_time d s s' E) as (E1 & E2 & E3).
    assert (W : an_time (s_an s) + 1 < two32).
    { destruct (Z.eq_dec (an_time (s_an s) + 1) two32) as [X|X]; [|lia]. exfalso. apply E3. rewrite E2, X. reflexivity. }
    rewrite u32_id in E2 by lia. rewrite E2 in E3.
    assert (MD : (an_time (s_an s) + 1) mod an_slot_length (s_an s) = an_time (s_an s) mod an_slot_length (s_an s) + 1).
    { destruct (Z.eq_dec (an_time (s_an s) mod an_slot_length (s_an s) + 1) (an_slot_length (s_an s))) as [X|X].
      - exfalso. apply E3. rewrite (Z.div_mod (an_time (s_an s)) (an_slot_length (s_an s))) by lia.
        rewrite <- Z.add_assoc, X. replace (an_slot_length (s_an s) * (an_time (s_an s) / an_slot_length (s_an s)) + an_slot_length (s_an s))
          with ((an_time (s_an s) / an_slot_length (s_an s) + 1) * an_slot_length (s_an s)) by ring. apply Z.mod_mul. lia.
      - symmetry. apply (Z.mod_unique_pos _ _ (an_time (s_an s) / an_slot_length (s_an s))); [lia|].
        rewrite (Z.div_mod (an_time (s_an s)) (an_slot_length (s_an s))) at 1 by lia. ring. }
    apply (IH d s' r H k); rewrite ?E1, ?E2; try lia.
  Qed.
  Lemma slot_of_enough : forall k d (s : sim M PS) r, 0 < an_slot_length (s_an s) -> emulate_slot solve plugin k d s = Ok r ->
      slot_of solve plugin d s = Ok r.
  Proof.
    intros k d s r L H. unfold slot_of. destruct k as [|k]; [discriminate|]. cbn [emulate_slot] in *.
    destruct (emulate_step solve plugin d s) as [[res s']| |] eqn:E; cbn [bind] in *; try discriminate.
    destruct res; try exact H. destruct (step_done_time d s s' E) as (E1 & E2 & E3).
    apply (slot_enough k d s' r H); rewrite ?E1; [exact L|rewrite E2; unfold u32, two32; apply Z.mod_pos_bound; lia|].
    pose proof (Z.mod_pos_bound (an_time (s_an s')) (an_slot_length (s_an s)) L). lia.
  Qed.
End Slot.

(** ** Output replies *)
Lemma wanted_quantity : forall d temps sources t q p, wanted t q p ->
    ip_values d temps sources p q = ip_values d temps sources p (ip_quantity p).
Proof.
  intros d temps sources t q p (T & _ & _ & Q). unfold ip_values. rewrite T.
  destruct t; try reflexivity; rewrite Q by auto; reflexivity.
Qed.

Section Fill.
  Variables (encF : Q -> word) (d : dims).
  Definition lengths_fit (p : ipoint) : Prop :=
    ip_type p = OT_TFLP -> Z.of_nat (length (ip_file p)) < two32 /\ Z.of_nat (length (header_of p)) < two32.
  Lemma point_words_spec : forall temps sources t q p vs, wanted t q p ->
      ip_values d temps sources p (ip_quantity p) = Ok (Some vs) -> lengths_fit p -> Z.of_nat (length vs) < two32 ->
      point_words encF d temps sources p (Some q) = Ok (result_words encF d (p, vs)).
  Proof.
    intros temps sources t q p vs W V LF LV. unfold point_words, result_words. rewrite (wanted_quantity d temps sources t q p W), V. cbn [bind].
    destruct (ip_type p) eqn:T; try reflexivity. destruct (LF T) as (L1 & L2). unfold header_of, die_elements in *.
    unfold ip_values in V. rewrite T in V.
    destruct (se_kind (ip_stkel p)) as [x| |]; try (destruct (flpel_value (ip_quantity p)); discriminate).
    rewrite !u32_id by lia. reflexivity.
  Qed.
  Lemma fill_points_spec : forall temps sources t q ty l ps, those (wanted t q) l ps -> forall vss m ws0,
      Forall2 (fun p vs => ip_values d temps sources p (ip_quantity p) = Ok (Some vs)) ps vss ->
      Forall lengths_fit ps -> Forall (fun vs => Z.of_nat (length vs) < two32) vss ->
      carries m ty ws0 -> is_word ty -> Forall is_word (ws0 ++ flat_map (result_words encF d) (combine ps vss)) ->
      2 * Z.of_nat (2 + length (ws0 ++ flat_map (result_words encF d) (combine ps vss))) < two32 ->
      exists m', fill_points encF d temps sources (Some t) (Some q) l m = Ok m' /\
        carries m' ty (ws0 ++ flat_map (result_words encF d) (combine ps vss)).
  Proof.
    intros temps sources t q ty l ps H. induction H as [|x l ps W H IH|x l ps W H IH]; intros vss m ws0 F LF LV C TY WW SZ; cbn [fill_points].
    - inversion F; subst. cbn [combine flat_map] in *. exists m. rewrite app_nil_r in *. auto.
    - inversion F as [|? vs ? vss' V F']; subst. inversion LF as [|? ? LF1 LF2]; subst. inversion LV as [|? ? LV1 LV2]; subst.
      pose proof W as W'. apply is_point_wanted in W'. rewrite W'. cbn [combine flat_map] in *. rewrite app_assoc in *.
      assert (X := SZ). rewrite app_length in X.
      apply Forall_app in WW. destruct WW as (WW1 & WW2). pose proof WW1 as WW3. apply Forall_app in WW3. destruct WW3 as (WW3 & WW4).
      unfold fill_message_inspection_point. rewrite (point_words_spec _ _ t q x vs W V LF1 LV1). cbn [bind].
      destruct (insert_words_spec (result_words encF d (x, vs)) m ty ws0 C TY WW3 WW4) as (m1 & -> & C1).
      { rewrite app_length in X. lia. }
      cbn [bind]. apply (IH vss' m1 (ws0 ++ result_words encF d (x, vs)) F' LF2 LV2 C1 TY); [apply Forall_app; auto|exact SZ].
    - destruct (is_point x (Some t) (Some q)) eqn:X; [apply is_point_wanted in X; contradiction|]. cbn [bind].
      apply (IH vss m ws0 F LF LV C TY WW SZ).
  Qed.
End Fill.

(** ** Output files *)
Section Files.
  Variable read : list byte -> option (list byte).
  Lemma seen_spec : forall n (seen : list (list byte)), existsb (fun x => if name_dec x n then true else false) seen = true <-> In n seen.
  Proof.
    intros n seen. rewrite existsb_exists. split.
    - intros (x & I & E). destruct (name_dec x n); [subst; exact I|discriminate].
    - intro I. exists n. split; [exact I|]. destruct (name_dec n n); congruence.
  Qed.
  Lemma append_files_spec : forall all, (length all <= 1024)%nat -> forall ps seen fs, picked read (map ip_file ps) seen fs -> forall m ty ws0,
      (forall n, In n (map ip_file ps) -> n <> [] -> In n all) -> incl seen all -> NoDup seen ->
      Forall (fun nb => Z.of_nat (length (fst nb)) < two32 /\ Z.of_nat (length (snd nb)) < two32) fs ->
      carries m ty ws0 -> is_word ty -> Forall is_word (ws0 ++ flat_map file_words fs) ->
      2 * Z.of_nat (2 + length (ws0 ++ flat_map file_words fs)) < two32 ->
      exists m', append_files read ps seen m = Ok (TDICE_SUCCESS, rev (map fst fs) ++ seen, m') /\
        carries m' ty (ws0 ++ flat_map file_words fs).
  Proof.
    intros all LA. induction ps as [|p ps IH]; intros seen fs P m ty ws0 AL IN ND LF C TY WW SZ; cbn [map append_files] in *.
    - inversion P; subst. exists m. cbn [map rev app flat_map] in *. rewrite app_nil_r in *. auto.
    - unfold append_file. assert (AL' : forall n, In n (map ip_file ps) -> n <> [] -> In n all) by (intros n I; apply AL; right; exact I).
      assert (NEW : ip_file p <> [] -> ~ In (ip_file p) seen -> Z.of_nat (length seen) < 1024).
      { intros NE NI. assert (X : (length (ip_file p :: seen) <= length all)%nat).
        { apply NoDup_incl_length; [constructor; assumption|]. intros x [<-|I]; [apply AL; [left; reflexivity|exact NE]|apply IN; exact I]. }
        cbn [length] in X. lia. }
      inversion P as [|n ns se fs0 SK P'|n b ns se fs0 NE NI RD P']; subst.
      + pose proof (IH seen fs P' m ty ws0 AL' IN ND LF C TY WW SZ) as SKIP.
        destruct (ip_file p) as [|b0 n0] eqn:FN; [exact SKIP|].
        destruct (existsb _ seen) eqn:EX; [exact SKIP|].
        assert (NI : ~ In (b0 :: n0) seen) by (intro X; apply seen_spec in X; congruence).
        unfold MAX_OUTPUT_FILES. destruct (Z.eqb_spec (Z.of_nat (length seen)) 1024) as [X|X]; [exfalso; specialize (NEW ltac:(discriminate) NI); lia|].
        destruct SK as [SK|[SK|SK]]; [discriminate|contradiction|]. rewrite SK. exact SKIP.
      + inversion LF as [|? ? (L1 & L2) LF']; subst. cbn [fst snd] in *.
        assert (EX : existsb (fun x => if name_dec x (ip_file p) then true else false) seen = false).
        { destruct (existsb _ seen) eqn:EX; [apply seen_spec in EX; contradiction|reflexivity]. }
        specialize (NEW NE NI). cbn [flat_map] in *. rewrite app_assoc in *.
        assert (X := SZ). rewrite app_length in X. pose proof WW as WW1. apply Forall_app in WW1. destruct WW1 as (WW1 & _).
        pose proof WW1 as WW2. apply Forall_app in WW2. destruct WW2 as (WW2 & WW3).
        assert (ONE : forall k, (let x := ip_file p in match x with [] => Ok (TDICE_SUCCESS, seen, m) | _ :: _ => k end) = k).
        { intro k. cbv zeta. destruct (ip_file p); [congruence|reflexivity]. }
        cbv zeta in ONE. rewrite ONE, EX. unfold MAX_OUTPUT_FILES. destruct (Z.eqb_spec (Z.of_nat (length seen)) 1024) as [Y|Y]; [lia|].
        rewrite RD. rewrite !u32_id by lia. change (_ :: _ :: pack_bytes (ip_file p) ++ pack_bytes b) with (file_words (ip_file p, b)).
        destruct (insert_words_spec (file_words (ip_file p, b)) m ty ws0 C TY WW2 WW3) as (m1 & -> & C1).
        { rewrite app_length in X. lia. }
        cbn [bind]. destruct (IH (ip_file p :: seen) fs0 P' m1 ty (ws0 ++ file_words (ip_file p, b)) AL') as (m' & E & C'); auto.
        { intros x [<-|I]; [apply AL; [left; reflexivity|exact NE]|apply IN; exact I]. }
        { constructor; assumption. }
        exists m'. split; [|exact C']. rewrite E. cbn [map rev fst]. rewrite <- app_assoc. reflexivity.
  Qed.
End Files.

Lemma overwrite_first : forall m ty w ws x, carries m ty (w :: ws) -> is_word x ->
    exists mem, arr_set (m_mem m) 2 x = Ok mem /\ carries (mkMsg mem (m_max m)) ty (x :: ws).
Proof.
  intros m ty w ws x ((U1 & U2 & U3) & F) X. cbn [length Nat.add firstn] in F.
  destruct (m_mem m) as [|a0 [|a1 [|a2 mem]]] eqn:E; try discriminate.
  rewrite arr_set_ok by (cbn [length] in *; lia). change (Z.to_nat 2) with 2%nat. cbn [list_set].
  eexists. split; [reflexivity|]. split.
  - unfold usable. cbn [m_mem m_max length] in *. split; [exact U1|]. split; [exact U2|].
    inversion U3 as [|? ? A1 U4]; subst. inversion U4 as [|? ? A2 U5]; subst. inversion U5; subst. constructor; [assumption|]. constructor; [assumption|]. constructor; assumption.
  - cbn [m_mem length Nat.add firstn] in *. congruence.
Qed.

Section Serve.
  Variables (encF : Q -> word) (decF : word -> Q).
  Variables (openable : list Z -> bool) (readable : list Z -> bool) (render : list line -> list byte).
  Context {M PS : Type}.
  Variable solve : M -> list Q -> error_t * list Q.
  Variable plugin : PS -> list Q -> list Q -> bool * list Q * PS.
  Variables (stack : list stkel) (o : output) (d : dims).
  Notation srv := (server M PS).
  Notation serve := (serve encF decF openable readable render solve plugin stack o d).
  Notation handled := (handled encF decF openable readable render solve plugin stack o d).
  Notation talk := (talk encF decF openable readable render solve plugin stack o d).
  Notation server_loop := (server_loop encF decF openable readable render solve plugin stack o d).

  Definition answered (r : option content) (m : option message) : Prop :=
    match r, m with None, None => True | Some c, Some m => carries_c m c | _, _ => False end.

  Lemma one_word : forall ty w, is_word ty -> is_word w -> exists m, make_message message_init ty [w] = Ok m /\ carries m ty [w].
  Proof.
    intros ty w T W. apply make_message_spec; auto using usable_init. cbn. unfold two32. lia.
  Qed.
  Lemma good_words : forall ty ws, good_content (ty, ws) -> is_word ty /\ Forall is_word ws /\ 2 * Z.of_nat (2 + length ws) < two32.
  Proof. intros ty ws (A & B & C). cbn [fst snd] in *. unfold two32. repeat split; auto; try apply A; lia. Qed.

  Lemma serve_handled : forall (st : srv) c st' r x m, handled st c st' r x -> Forall good_content (opt r) -> carries_c m c ->
      exists reply, serve st m = Ok (st', reply, x) /\ answered r reply.
  Proof.
    intros st c st' r x m H GR C. unfold Server.serve. destruct (carries_observe m _ _ C) as (_ & TY & _). rewrite TY. cbn [bind].
    unfold carries_c in C. destruct H; cbn [fst snd] in *.
    - exists None. split; [reflexivity|exact I].
    - exists None. split; [reflexivity|exact I].
    - inversion GR as [|? ? GR1 _]; subst. destruct (good_words _ _ GR1) as (G1 & G2 & G3). inversion G2; subst.
      destruct (one_word TOTAL_NUMBER_OF_FLOORPLAN_ELEMENTS (total_number_of_floorplan_elements stack)) as (r & E & CR); auto.
      unfold TOTAL_NUMBER_OF_FLOORPLAN_ELEMENTS in *. rewrite E. cbn [bind]. exists (Some r). split; [reflexivity|exact CR].
    - inversion GR as [|? ? GR1 _]; subst. destruct (good_words _ _ GR1) as (G1 & G2 & G3). inversion G2; subst.
      rewrite (word_at_mid m _ [] _ _ C : word_at m 0 = _). cbn [bind]. rewrite Nat2Z.id.
      rewrite (put_powers_spec decF ws m _ [Z.of_nat (length ws)] rest _ C : put_powers decF m (length ws) 1 _ = _).
      unfold queue_of in H. rewrite map_length in H. rewrite H. cbn [bind]. rewrite H0. cbn [bind error_code].
      destruct (one_word INSERT_POWERS 0) as (r & E & CR); auto. unfold INSERT_POWERS in *. rewrite E. cbn [bind].
      exists (Some r). split; [reflexivity|exact CR].
    - rewrite (word_at_mid m _ [] _ _ C : word_at m 0 = _). cbn [bind]. rewrite Nat2Z.id.
      rewrite (put_powers_spec decF ws m _ [Z.of_nat (length ws)] rest _ C : put_powers decF m (length ws) 1 _ = _).
      unfold queue_of in H. rewrite map_length in H. rewrite H. cbn [bind]. rewrite H0. cbn [bind].
      exists None. split; [reflexivity|exact I].
    - inversion GR as [|? ? GR1 _]; subst. destruct (good_words _ _ GR1) as (G1 & G2 & G3).
      rewrite (word_at_mid m _ [] _ _ C : word_at m 0 = _). cbn [bind].
      rewrite (word_at_mid m _ [_] _ _ C : word_at m 1 = _). cbn [bind].
      rewrite (word_at_mid m _ [_; _] _ _ C : word_at m 2 = _). cbn [bind].
      rewrite code_instant, code_type, code_quantity.
      assert (NP : number_of_points o i (Some t) (Some q) = Z.of_nat (length ps)).
      { unfold number_of_points, points, declared_at in *.
        destruct i; cbv beta iota in H |- *; [inversion H; subst; reflexivity| | |]; rewrite (those_filter t q _ ps H), u32_id; auto; lia. }
      rewrite NP.
      assert (P1 : Forall is_word [encF (get_simulated_time (s_an (sv_sim st))); Z.of_nat (length ps)]).
      { inversion G2 as [|? ? A1 G4]; subst. inversion G4; subst. constructor; [assumption|]. constructor; [assumption|constructor]. }
      destruct (make_message_spec message_init SEND_OUTPUT _ usable_init G1 P1 ltac:(cbn; unfold two32; lia)) as (m0 & E0 & C0).
      unfold SEND_OUTPUT in *. rewrite E0. cbn [bind].
      destruct (Z.ltb_spec 0 (Z.of_nat (length ps))) as [LT|LE].
      + unfold fill_output_message.
        assert (PT : points o i = Some (declared_at o i)) by (destruct i; try reflexivity; cbn in H; inversion H; subst; cbn in LT; lia).
        rewrite PT.
        destruct (fill_points_spec encF d (s_temps (sv_sim st)) (pg_sources (s_pg (sv_sim st))) t q 2 (declared_at o i) ps H vss m0 _ H0 H2 H3 C0 G1 G2) as (m1 & E1 & C1).
        { exact G3. }
        rewrite E1. cbn [bind]. exists (Some m1). split; [reflexivity|exact C1].
      + destruct ps; [|cbn [length] in LE; lia]. inversion H0; subst. exists (Some m0). split; [reflexivity|exact C0].
    - rewrite (word_at_mid m _ [] _ _ C : word_at m 0 = _). cbn [bind]. rewrite H, code_instant, H0. cbn [bind snd]. exists None. split; [reflexivity|exact I].
    - rewrite (word_at_mid m _ [] _ _ C : word_at m 0 = _). cbn [bind]. rewrite H, H0. exists None. split; [reflexivity|exact I].
    - inversion GR as [|? ? GR1 _]; subst. destruct (good_words _ _ GR1) as (G1 & G2 & G3). inversion G2; subst.
      rewrite (slot_of_enough solve plugin k d _ _ H H0). cbn [bind].
      destruct (one_word SIMULATE_SLOT (result_code res)) as (r & E & CR); auto. unfold SIMULATE_SLOT in *. rewrite E. cbn [bind].
      exists (Some r). split; [reflexivity|exact CR].
    - inversion GR as [|? ? GR1 _]; subst. destruct (good_words _ _ GR1) as (G1 & G2 & G3). inversion G2; subst.
      rewrite H. cbn [bind].
      destruct (one_word SIMULATE_STEP (result_code res)) as (r & E & CR); auto. unfold SIMULATE_STEP in *. rewrite E. cbn [bind].
      exists (Some r). split; [reflexivity|exact CR].
    - inversion GR as [|? ? GR1 _]; subst. destruct (good_words _ _ GR1) as (G1 & G2 & G3).
      unfold build_output_files_message. destruct H1 as (all & LA & IN).
      destruct (one_word SEND_OUTPUT_FILES 0 G1 ltac:(unfold is_word, two32; lia)) as (m0 & E0 & C0).
      unfold make_message in E0. cbn [insert_words] in E0. apply bind_ok in E0. destruct E0 as (mh & -> & E0). cbn [bind].
      apply bind_ok in E0. destruct E0 as (mi & -> & E0). injection E0 as ->. cbn [bind].
      assert (G4 : Forall is_word ([0] ++ flat_map file_words fs)).
      { cbn [app]. inversion G2; subst. constructor; auto. unfold is_word, two32. lia. }
      destruct (append_files_spec (sv_read readable render st) all LA _ [] fs H m0 SEND_OUTPUT_FILES [0] IN) as (m1 & E1 & C1); auto.
      { intros y []. } { constructor. }
      rewrite E1. cbn [bind]. cbn [app] in C1. rewrite app_nil_r, rev_length, map_length.
      inversion G2 as [|? ? W1 _]; subst.
      destruct (overwrite_first m1 _ _ _ (Z.of_nat (length fs)) C1 W1) as (mem & E2 & C2). rewrite E2. cbn [bind].
      eexists. split; [reflexivity|exact C2].
    - exists None. split; [|exact I]. destruct ty as [|p|p]; try lia. do 4 (try (destruct p as [p|p|]; try lia)); reflexivity.
  Qed.

  Lemma loop_talk : forall (st : srv) cs st' rs x, talk st cs st' rs x -> forall fuel rd wr,
      Forall good_content cs -> Forall good_content rs ->
      healthy_reads rd (length (encodings cs)) -> healthy_writes wr (length (encodings rs)) -> (length cs < fuel)%nat ->
      server_loop fuel st rd wr (encodings cs) = Ok (st', encodings rs, Left x).
  Proof.
    intros st cs st' rs x H. induction H as [st|st c st1 r cs st2 rs x HD H IH|st c st1 r cs x HD NX];
      intros fuel rd wr GC GR (NF & RD) (NW & MW) FU; (destruct fuel as [|fuel]; [lia|]); cbn [Server.server_loop].
    - cbn [encodings flat_map length] in *. destruct (receive_closed rd NF RD) as (s' & E). rewrite E. cbn [bind].
      unfold Server.serve. change (message_type message_init) with (@Ok Z 0). cbn [bind]. reflexivity.
    - inversion GC as [|? ? G1 GC']; subst. cbn [encodings flat_map] in *. fold (encodings cs) in *. rewrite app_length in RD.
      destruct (receive_progress c (encodings cs) rd G1 NF ltac:(lia)) as (m & s' & E & CM & NF' & RD'). rewrite E. cbn [bind].
      apply Forall_app in GR. destruct GR as (GR1 & GR2).
      destruct (serve_handled st c st1 r Go_on m HD GR1 CM) as (reply & S & A). rewrite S. cbn [bind].
      assert (SPL : encodings (opt r ++ rs) = encodings (opt r) ++ encodings rs) by (unfold encodings; apply flat_map_app).
      rewrite SPL in *. rewrite app_length in MW.
      assert (SEND : exists wr', (match reply with None => Ok (Some TDICE_SUCCESS, [], wr) | Some m => send_message m wr end) =
                        Ok (Some TDICE_SUCCESS, encodings (opt r), wr') /\ healthy_writes wr' (length (encodings rs))).
      { destruct r as [cr|], reply as [mr|]; cbn [answered] in A; try contradiction.
        - cbn [opt encodings flat_map] in *. rewrite app_nil_r in *.
          destruct (send_progress mr cr wr A NW ltac:(lia)) as (wr' & SE & NW' & MW'). exists wr'. split; [exact SE|]. split; [exact NW'|lia].
        - exists wr. split; [reflexivity|]. split; [exact NW|cbn in MW; lia]. }
      destruct SEND as (wr' & -> & HW). cbn [bind].
      rewrite (IH fuel s' wr' GC' GR2); [reflexivity|split; [exact NF'|lia]|exact HW|cbn [length] in FU; lia].
    - inversion GC as [|? ? G1 GC']; subst. cbn [encodings flat_map] in *. fold (encodings cs) in *. rewrite app_length in RD.
      destruct (receive_progress c (encodings cs) rd G1 NF ltac:(lia)) as (m & s' & E & CM & NF' & RD'). rewrite E. cbn [bind].
      destruct (serve_handled st c st1 r x m HD GR CM) as (reply & S & A). rewrite S. cbn [bind].
      assert (SEND : exists wr', (match reply with None => Ok (Some TDICE_SUCCESS, [], wr) | Some m => send_message m wr end) =
                        Ok (Some TDICE_SUCCESS, encodings (opt r), wr')).
      { destruct r as [cr|], reply as [mr|]; cbn [answered] in A; try contradiction.
        - cbn [opt encodings flat_map] in *. rewrite app_nil_r in *.
          destruct (send_progress mr cr wr A NW ltac:(lia)) as (wr' & SE & NW' & MW'). exists wr'. exact SE.
        - exists wr. reflexivity. }
      destruct SEND as (wr' & ->). cbn [bind]. destruct x; [congruence|reflexivity|reflexivity].
  Qed.

  (** *** Any stream of bytes *)
  Lemma receive_failure : forall sched stream m' rest s', ~ In Failed sched ->
      receive_message message_init sched stream = Ok (Some TDICE_FAILURE, m', rest, s') -> m' = message_init \/ rest = [].
  Proof.
    intros sched stream m' rest s' NF E. unfold receive_message in E.
    destruct (recv_loop sched 4 stream) as [[[r1 g1] rest1] s1] eqn:E1.
    destruct (recv_loop_reads _ _ _ _ _ _ _ E1) as (u1 & SC & S1 & _).
    destruct r1 as [[|]|]; [|left; congruence|discriminate].
    destruct (words_of_bytes g1) as [|len [|]]; try discriminate. destruct (len =? 0); [left; congruence|]. right.
    apply bind_ok in E. destruct E as (m1 & _ & E). apply bind_ok in E. destruct E as (mem1 & _ & E). cbv zeta in E.
    destruct (recv_loop s1 _ rest1) as [[[r2 g2] rest2] s2] eqn:E2. apply bind_ok in E. destruct E as (mem2 & _ & E).
    destruct (recv_loop_reads _ _ _ _ _ _ _ E2) as (u2 & SC2 & S2 & _ & _ & _ & _ & _ & X).
    assert (r2 = Some TDICE_FAILURE) as -> by congruence. assert (rest2 = rest) as -> by congruence.
    destruct (X eq_refl) as [Y|Y]; [|exact Y]. exfalso. apply NF. rewrite SC, SC2. apply in_or_app. right. apply in_or_app. left. exact Y.
  Qed.
  Lemma serve_fresh : forall (st : srv), serve st message_init = Ok (st, None, Quit).
  Proof. reflexivity. Qed.

  Lemma loop_closed : forall fuel (st : srv) rd wr, ~ In Failed rd -> (0 < reads rd)%nat -> (0 < fuel)%nat ->
      server_loop fuel st rd wr [] = Ok (st, [], Left Quit).
  Proof.
    intros fuel st rd wr NF RD FU. destruct fuel as [|fuel]; [lia|]. cbn [Server.server_loop].
    destruct (receive_closed rd NF RD) as (s' & E). rewrite E. cbn [bind]. rewrite serve_fresh. reflexivity.
  Qed.

  Lemma loop_never_waits : forall fuel (st : srv) rd wr stream st' out stt, ~ In Failed rd -> (length stream + 2 <= reads rd)%nat ->
      server_loop fuel st rd wr stream = Ok (st', out, stt) -> stt <> Waiting_request.
  Proof.
    induction fuel as [|fuel IH]; intros st rd wr stream st' out stt NF RD H; [discriminate|]. cbn [Server.server_loop] in H.
    apply bind_ok in H. destruct H as ([[[code m] rest] rd'] & R & H).
    destruct (receive_reads _ _ _ _ _ _ _ R) as (used & got & SC & ST & RU & G4 & _).
    assert (NF' : ~ In Failed rd') by (intro X; apply NF; rewrite SC; apply in_or_app; auto).
    assert (LS : length stream = (length got + length rest)%nat) by (rewrite ST; apply app_length).
    assert (RS : reads rd = (reads used + reads rd')%nat) by (rewrite SC; apply reads_app).
    destruct code as [e|].
    2:{ exfalso. unfold receive_message in R. clear - R RD RS RU LS NF SC.
        assert (N : rd' = []).
        { destruct (recv_loop rd 4 stream) as [[[r1 g1] rest1] s1] eqn:E1.
          destruct (recv_loop_reads _ _ _ _ _ _ _ E1) as (u1 & SC1 & S1 & _ & _ & _ & N1 & _).
          destruct r1 as [[|]|]; [|discriminate|]; [|assert (X := N1 eq_refl); congruence].
          destruct (words_of_bytes g1) as [|len [|]]; try discriminate. destruct (len =? 0); [discriminate|].
          apply bind_ok in R. destruct R as (m1 & _ & E). apply bind_ok in E. destruct E as (mem1 & _ & E). cbv zeta in E.
          destruct (recv_loop s1 _ rest1) as [[[r2 g2] rest2] s2] eqn:E2. apply bind_ok in E. destruct E as (mem2 & _ & E).
          destruct (recv_loop_reads _ _ _ _ _ _ _ E2) as (u2 & SC2 & S2 & _ & _ & _ & N2 & _).
          assert (r2 = None) as -> by congruence. assert (X := N2 eq_refl). congruence. }
        subst rd'. cbn [reads] in RS. lia. }
    apply bind_ok in H. destruct H as ([[st1 reply] nx] & SV & H). apply bind_ok in H. destruct H as ([[sent out1] wr'] & _ & H).
    destruct sent; [|assert (stt = Waiting_reply) as -> by congruence; discriminate].
    destruct nx; [|assert (stt = Left Quit) as -> by congruence; discriminate|assert (stt = Left Sim_error) as -> by congruence; discriminate].
    apply bind_ok in H. destruct H as ([[st2 out2] stt2] & L & H). assert (stt2 = stt) as -> by congruence.
    destruct e.
    - apply (IH st1 rd' wr' rest st2 out2 stt NF'); [specialize (G4 eq_refl); lia|exact L].
    - destruct (receive_failure _ _ _ _ _ NF R) as [X|X]; [subst m; rewrite serve_fresh in SV; discriminate|]. subst rest.
      destruct fuel as [|fuel]; [discriminate|]. cbn [length] in LS.
      rewrite (loop_closed (S fuel) st1 rd' wr' NF') in L by lia. assert (stt = Left Quit) as -> by congruence. discriminate.
  Qed.

  Lemma loop_unfold : forall f (st : srv) rd wr stream, server_loop (S f) st rd wr stream =
      (do r <- receive_message message_init rd stream ;
      let '(code, request, rest, rs') := r in
      match code with
      | None => Ok (st, [], Waiting_request)
      | Some _ =>
        do x <- serve st request ;
        let '(st', reply, nx) := x in
        do y <- (match reply with None => Ok (Some TDICE_SUCCESS, [], wr) | Some m => send_message m wr end) ;
        let '(sent, out, ws') := y in
        match sent with
        | None => Ok (st', out, Waiting_reply)
        | Some _ =>
          match nx with
          | Go_on => do z <- server_loop f st' rs' ws' rest ; let '(st2, out2, stt) := z in Ok (st2, out ++ out2, stt)
          | _ => Ok (st', out, Left nx)
          end
        end
      end).
  Proof. reflexivity. Qed.

  (** At most one iteration per byte received, plus one. *)
  Lemma loop_bounded : forall n (st : srv) rd wr stream extra, (length stream <= n)%nat -> ~ In Failed rd ->
      server_loop (S n + extra) st rd wr stream = server_loop (S n) st rd wr stream.
  Proof.
    induction n as [|n IH]; intros st rd wr stream extra LS NF; cbn [Nat.add]; rewrite !loop_unfold.
    - destruct stream; [|cbn in LS; lia].
      destruct (receive_message message_init rd []) as [[[[code m] rest] rd']| |] eqn:R; cbn [bind]; try reflexivity.
      destruct code as [e|]; [|reflexivity].
      destruct (receive_reads _ _ _ _ _ _ _ R) as (used & got & _ & ST & _ & G4 & _). symmetry in ST. apply app_eq_nil in ST. destruct ST as (-> & ->).
      destruct e; [specialize (G4 eq_refl); cbn in G4; lia|]. unfold receive_message in R.
      destruct (recv_loop rd 4 []) as [[[r1 g1] rest1] s1] eqn:E1.
      destruct (recv_loop_reads _ _ _ _ _ _ _ E1) as (u1 & _ & S1 & _ & _ & F1 & _). symmetry in S1. apply app_eq_nil in S1. destruct S1 as (-> & ->).
      assert (m = message_init) as ->.
      { destruct r1 as [[|]|]; [specialize (F1 eq_refl); discriminate|congruence|discriminate]. }
      rewrite serve_fresh. reflexivity.
    - destruct (receive_message message_init rd stream) as [[[[code m] rest] rd']| |] eqn:R; cbn [bind]; try reflexivity.
      destruct (receive_reads _ _ _ _ _ _ _ R) as (used & got & SC & ST & _ & G4 & G1).
      assert (NF' : ~ In Failed rd') by (intro X; apply NF; rewrite SC; apply in_or_app; auto).
      destruct code as [e|]; [|reflexivity]. destruct (serve st m) as [[[st1 reply] nx]| |] eqn:SV; cbn [bind]; try reflexivity.
      destruct (match reply with Some m0 => send_message m0 wr | None => Ok (Some TDICE_SUCCESS, [], wr) end) as [[[sent out1] wr']| |]; cbn [bind]; try reflexivity.
      destruct sent; [|reflexivity]. destruct nx; try reflexivity.
      destruct stream as [|b t].
      { symmetry in ST. apply app_eq_nil in ST. destruct ST as (-> & ->). destruct e; [specialize (G4 eq_refl); cbn in G4; lia|].
        cbn [Nat.add] in IH. rewrite (IH st1 rd' wr' [] extra) by (auto; cbn; lia). reflexivity. }
      assert (1 <= length got)%nat by (apply G1; [exact NF|discriminate|discriminate]).
      assert (length rest <= n)%nat by (pose proof (f_equal (@length Z) ST) as X; rewrite app_length in X; cbn [length] in X, LS; lia).
      cbn [Nat.add] in IH. rewrite (IH st1 rd' wr' rest extra) by auto. reflexivity.
  Qed.
End Serve.
