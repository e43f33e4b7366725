(** * A ready server handles every well-formed request *)
From Coq Require Import ZArith List Bool QArith Lia.
From Verif Require Import Base QSum Dims DimsSpec Queue QueueProofs Floorplan FloorplanSpec FloorplanProofs TempProofs Stack StackSpec PowerGrid Emulate EmulateSpec
  SourceProofs SourceVectorProofs EmulateProofs Inspect Emulator EmulatorSpec EmulatorProofs Message MessageSpec MessageProofs Server ServerSpec ServerIoProofs ServerProofs ServerDecodeProofs.
Import ListNotations.
Local Open Scope Z_scope.

(** ** Queues *)
Lemma put_all_spec : forall vs q l, qrep q l -> 2 * Z.of_nat (length l + length vs) < two32 + 2 ->
    exists q', put_all q vs = Ok q' /\ qrep q' (l ++ vs).
Proof.
  induction vs as [|v vs IH]; intros q l R B; cbn [put_all].
  - exists q. rewrite app_nil_r. auto.
  - cbn [length] in B. destruct (queue_put_spec q l v R ltac:(lia)) as (q1 & E & R1). rewrite E. cbn [bind].
    destruct (IH q1 (l ++ [v]) R1) as (q2 & E2 & R2); [rewrite app_length; cbn [length]; lia|].
    exists q2. split; [exact E2|]. rewrite <- app_assoc in R2. exact R2.
Qed.
Lemma queue_of_spec : forall vs, vs <> [] -> 2 * Z.of_nat (length vs) < two32 + 2 -> exists q, queue_of vs = Ok q /\ qrep q vs.
Proof.
  intros vs NE B. unfold queue_of. apply (put_all_spec vs _ []); [|cbn [length Nat.add]; lia].
  apply build_rep. destruct vs; [congruence|]. cbn [length] in *. unfold two32 in *. lia.
Qed.
Lemma room_heads : forall n qs, room n qs -> room n (snd (fst (take_heads qs))).
Proof.
  unfold room. intros n qs F. induction F as [|l qs H F IH]; [constructor|]. destruct l as [|x l]; cbn [take_heads].
  - constructor; auto.
  - destruct (take_heads qs) as [[b r'] h]. cbn [fst snd] in *. constructor; [cbn [length] in H; lia|exact IH].
Qed.
Lemma room_give : forall n qs vs, room (S n) qs -> room n (give qs vs).
Proof.
  unfold room. intros n qs vs F. revert vs. induction F as [|l qs H F IH]; intros [|v vs]; cbn [give]; try constructor; auto.
  - lia.
  - eapply Forall_impl; [|exact F]. cbn beta. intros; lia.
  - rewrite app_length. cbn [length]. lia.
Qed.
Lemma room_less : forall n qs, room (S n) qs -> room n qs.
Proof. intros n qs F. eapply Forall_impl; [|exact F]. cbn beta. intros; lia. Qed.
Lemma room_small : forall n qs, room n qs -> Forall (fun l => 2 * Z.of_nat (length l) < two32) qs.
Proof. intros n qs F. eapply Forall_impl; [|exact F]. cbn beta. intros; lia. Qed.

Section Ready.
  Variables (encF : Q -> word) (decF : word -> Q).
  Variables (openable : list Z -> bool) (readable : list Z -> bool) (render : list line -> list byte).
  Context {M PS : Type}.
  Variable solve : M -> list Q -> error_t * list Q.
  Variable plugin : PS -> list Q -> list Q -> bool * list Q * PS.
  Hypothesis IP : in_place solve plugin.
  Variables (stack : list stkel) (o : output) (d : dims).
  Notation srv := (server M PS).
  Notation handled := (handled encF decF openable readable render solve plugin stack o d).
  Notation talk := (talk encF decF openable readable render solve plugin stack o d).

  Lemma step_ready : forall (s : sim M PS) n qs, good_sim d s -> queued (s_pg s) qs -> room n qs ->
      exists r s', emulate_step solve plugin d s = Ok (r, s') /\ good_sim d s' /\ exists qs', queued (s_pg s') qs' /\ room n qs'.
  Proof.
    intros s n qs G Q R. destruct (emulate_step_spec solve plugin IP d s qs G Q) as (r & s' & E & G' & _ & _ & Q' & _).
    exists r, s'. split; [exact E|]. split; [exact G'|]. eexists. split; [exact Q'|]. destruct (_ =? 0); auto using room_heads.
  Qed.
  Lemma slot_ready_k : forall k (s : sim M PS) n qs, good_sim d s -> queued (s_pg s) qs -> room n qs ->
      an_slot_length (s_an s) - an_time (s_an s) mod an_slot_length (s_an s) <= Z.of_nat k ->
      exists r s', emulate_slot solve plugin k d s = Ok (r, s') /\ good_sim d s' /\ exists qs', queued (s_pg s') qs' /\ room n qs'.
  Proof.
    induction k as [|k IH]; intros s n qs G Q R B.
    - pose proof G as (_ & _ & _ & SL & _). pose proof (Z.mod_pos_bound (an_time (s_an s)) (an_slot_length (s_an s)) ltac:(lia)). lia.
    - destruct (step_ready s n qs G Q R) as (r & s' & E & G' & qs' & Q' & R'). cbn [emulate_slot]. rewrite E. cbn [bind].
      destruct r; try (eexists; exists s'; split; [reflexivity|]; split; [exact G'|]; exists qs'; auto; fail).
      destruct (step_done_time solve plugin d s s' E) as (E1 & E2 & E3). pose proof G as (_ & _ & _ & SL & TM).
      assert (W : an_time (s_an s) + 1 < two32).
      { destruct (Z.eq_dec (an_time (s_an s) + 1) two32) as [X|X]; [|lia]. exfalso. apply E3. rewrite E2, X. reflexivity. }
      rewrite u32_id in E2 by lia. rewrite E2 in E3.
      assert (MD : (an_time (s_an s) + 1) mod an_slot_length (s_an s) = an_time (s_an s) mod an_slot_length (s_an s) + 1).
      { pose proof (Z.mod_pos_bound (an_time (s_an s)) (an_slot_length (s_an s)) ltac:(lia)) as MB.
        destruct (Z.eq_dec (an_time (s_an s) mod an_slot_length (s_an s) + 1) (an_slot_length (s_an s))) as [X|X].
        - exfalso. apply E3. rewrite (Z.div_mod (an_time (s_an s)) (an_slot_length (s_an s))) by lia.
          rewrite <- Z.add_assoc, X. replace (an_slot_length (s_an s) * (an_time (s_an s) / an_slot_length (s_an s)) + an_slot_length (s_an s))
            with ((an_time (s_an s) / an_slot_length (s_an s) + 1) * an_slot_length (s_an s)) by ring. apply Z.mod_mul. lia.
        - symmetry. apply (Z.mod_unique_pos _ _ (an_time (s_an s) / an_slot_length (s_an s))); [lia|].
          rewrite (Z.div_mod (an_time (s_an s)) (an_slot_length (s_an s))) at 1 by lia. ring. }
      apply (IH s' n qs' G' Q' R'). rewrite E1, E2, MD. lia.
  Qed.
  Lemma slot_ready : forall (s : sim M PS) n qs, good_sim d s -> queued (s_pg s) qs -> room n qs ->
      exists k r s', emulate_slot solve plugin k d s = Ok (r, s') /\ good_sim d s' /\ exists qs', queued (s_pg s') qs' /\ room n qs'.
  Proof.
    intros s n qs G Q R. exists (Z.to_nat (an_slot_length (s_an s))). apply (slot_ready_k _ s n qs G Q R).
    pose proof G as (_ & _ & _ & SL & _). pose proof (Z.mod_pos_bound (an_time (s_an s)) (an_slot_length (s_an s)) ltac:(lia)). lia.
  Qed.

  (** *** Values of the inspection points *)
  Lemma read_all_length : forall t is vs, read_all t is = Ok vs -> length vs = length is.
  Proof.
    intros t is. induction is as [|i is IH]; intros vs H; cbn [read_all] in H.
    - injection H as <-. reflexivity.
    - apply bind_ok in H. destruct H as (v & _ & H). apply bind_ok in H. destruct H as (t' & E & H). injection H as <-. cbn [length]. f_equal. auto.
  Qed.
  Lemma map_out_length : forall {A B} (f : A -> outcome B) l r, map_out f l = Ok r -> length r = length l.
  Proof.
    intros A B f l. induction l as [|x l IH]; intros r H; cbn [map_out] in H.
    - injection H as <-. reflexivity.
    - apply bind_ok in H. destruct H as (v & _ & H). apply bind_ok in H. destruct H as (t' & E & H). injection H as <-. cbn [length]. f_equal. auto.
  Qed.
  Lemma shows_length : forall temps sources p vs, good_grid d -> ip_values d temps sources p (ip_quantity p) = Ok (Some vs) ->
      match ip_type p with
      | OT_TFLP => length vs = length (die_elements p)
      | OT_TMAP | OT_PMAP => Z.of_nat (length vs) = d_nrows d * d_ncols d
      | OT_T3D | OT_NONE => False
      | _ => length vs = 1%nat
      end.
  Proof.
    intros temps sources p vs (HR & HC & _) H. unfold ip_values in H. unfold die_elements.
    assert (MAP : forall t ws, layer_map d (ip_stkel p) t = Ok ws -> Z.of_nat (length ws) = d_nrows d * d_ncols d).
    { intros t ws E. unfold layer_map in E. apply read_all_length in E. rewrite E, zrange_length. nia. }
    destruct (ip_type p); try discriminate.
    - apply bind_ok in H. destruct H as (v & _ & H). injection H as <-. reflexivity.
    - destruct (flpel_value (ip_quantity p)); [|discriminate]. destruct (se_kind (ip_stkel p)); try discriminate.
      apply bind_ok in H. destruct H as (v & E & H). assert (v = vs) as -> by congruence. apply map_out_length in E. exact E.
    - destruct (flpel_value (ip_quantity p)); [|discriminate]. destruct (ip_element p); try discriminate.
      apply bind_ok in H. destruct H as (v & _ & H). injection H as <-. reflexivity.
    - apply bind_ok in H. destruct H as (v & E & H). assert (v = vs) as -> by congruence. eauto.
    - apply bind_ok in H. destruct H as (v & E & H). assert (v = vs) as -> by congruence. eauto.
    - destruct (outlet_value (ip_quantity p)); [|discriminate]. destruct (se_kind (ip_stkel p)); try discriminate.
      apply bind_ok in H. destruct H as (v & _ & H). injection H as <-. reflexivity.
  Qed.
  Lemma result_words_length : forall temps sources p vs, good_grid d -> ip_values d temps sources p (ip_quantity p) = Ok (Some vs) ->
      Z.of_nat (length (result_words encF d (p, vs))) <= result_size d p.
  Proof.
    intros temps sources p vs G H. apply shows_length in H; [|exact G]. unfold ServerSpec.result_words, result_size.
    destruct (ip_type p); try contradiction; rewrite ?map_length; try (cbn [length]; rewrite ?app_length, ?map_length).
    - lia.
    - pose proof (pack_length (ip_file p)). pose proof (pack_length (header_of p)). lia.
    - lia.
    - lia.
    - lia.
    - lia.
  Qed.
  Lemma result_size_pos : forall p, good_grid d -> 0 < result_size d p.
  Proof. intros p (A & B & _). unfold result_size. destruct (ip_type p); try lia; nia. Qed.

  Definition total_size (ps : list ipoint) : Z := fold_right Z.add 0 (map (result_size d) ps).
  Lemma total_app : forall a b, total_size (a ++ b) = total_size a + total_size b.
  Proof. intros a b. unfold total_size. induction a as [|x a IH]; cbn [app map fold_right]; lia. Qed.
  Lemma total_nonneg : forall ps, good_grid d -> 0 <= total_size ps.
  Proof. intros ps G. unfold total_size. induction ps as [|p ps IH]; cbn [map fold_right]; [lia|]. pose proof (result_size_pos p G). lia. Qed.
  Lemma total_those : forall P l ps, good_grid d -> those P l ps -> total_size ps <= total_size l.
  Proof.
    intros P l ps G H. unfold total_size. induction H as [|x l ps HP H IH|x l ps HP H IH]; cbn [map fold_right]; [lia|lia|].
    pose proof (result_size_pos x G). lia.
  Qed.
  Lemma total_declared : forall i, good_grid d -> total_size (declared_at o i) <= total_size (all_points o).
  Proof.
    intros i G. unfold all_points. rewrite !total_app.
    pose proof (total_nonneg (o_final o) G). pose proof (total_nonneg (o_slot o) G). pose proof (total_nonneg (o_step o) G).
    destruct i; cbn [declared_at]; try lia. change (total_size []) with 0. lia.
  Qed.
  Lemma declared_in : forall i p, In p (declared_at o i) -> In p (all_points o).
  Proof. intros i p H. unfold all_points. rewrite !in_app_iff. destruct i; cbn [declared_at] in H; auto. contradiction. Qed.
  Lemma those_exists : forall t q l, exists ps, those (wanted t q) l ps.
  Proof.
    intros t q l. induction l as [|x l (ps & IH)]; [exists []; constructor|].
    destruct (is_point x (Some t) (Some q)) eqn:E.
    - exists (x :: ps). constructor; [apply is_point_wanted; exact E|exact IH].
    - exists ps. apply th_drop; [|exact IH]. intro W. apply is_point_wanted in W. congruence.
  Qed.
  Lemma those_in : forall {A} (P : A -> Prop) l ps x, those P l ps -> In x ps -> In x l.
  Proof. intros A P l ps x H. induction H; cbn [In]; intuition. Qed.
  Lemma total_bounds : forall p ps, good_grid d -> In p ps -> result_size d p <= total_size ps.
  Proof.
    intros p ps G H. unfold total_size. induction ps as [|x ps IH]; [contradiction|]. cbn [map fold_right].
    pose proof (total_nonneg ps G) as T. unfold total_size in T. pose proof (result_size_pos x G). destruct H as [->|H]; [lia|]. specialize (IH H). lia.
  Qed.
  Lemma length_total : forall ps, good_grid d -> Z.of_nat (length ps) <= total_size ps.
  Proof.
    intros ps G. unfold total_size. induction ps as [|x ps IH]; cbn [map fold_right length]; [lia|]. pose proof (result_size_pos x G). lia.
  Qed.
  Lemma results_length : forall temps sources ps vss, good_grid d ->
      Forall2 (fun p vs => ip_values d temps sources p (ip_quantity p) = Ok (Some vs)) ps vss ->
      Z.of_nat (length (flat_map (result_words encF d) (combine ps vss))) <= total_size ps.
  Proof.
    intros temps sources ps vss G H. unfold total_size. induction H as [|p vs ps vss E H IH]; cbn [combine flat_map map fold_right]; [cbn; lia|].
    rewrite app_length. pose proof (result_words_length temps sources p vs G E). lia.
  Qed.

  Hypothesis ENC : forall x, is_word (encF x).
  Lemma enc_words : forall vs, Forall is_word (map encF vs).
  Proof. intro vs. apply Forall_forall. intros w H. apply in_map_iff in H. destruct H as (x & <- & _). apply ENC. Qed.
  Lemma results_words : forall temps sources ps vss, good_grid d -> total_size ps < two32 ->
      Forall (fun p => is_text (ip_file p) /\ is_text (header_of p)) ps ->
      Forall2 (fun p vs => ip_values d temps sources p (ip_quantity p) = Ok (Some vs)) ps vss ->
      Forall is_word (flat_map (result_words encF d) (combine ps vss)).
  Proof.
    intros temps sources ps vss G B T H. revert B T. induction H as [|p vs ps vss E H IH]; intros B T; cbn [combine flat_map]; [constructor|].
    inversion T as [|? ? (T1 & T2) T']; subst. pose proof (total_bounds p (p :: ps) G (or_introl eq_refl)) as B1.
    pose proof (total_nonneg ps G). pose proof (result_size_pos p G). unfold total_size in *. cbn [map fold_right] in B, B1.
    apply Forall_app. split; [|apply IH; auto; lia].
    apply shows_length in E; [|exact G]. unfold ServerSpec.result_words, result_size in *.
    pose proof G as (G1 & G2 & _). unfold two32 in *.
    destruct (ip_type p); try contradiction; try apply enc_words.
    - constructor; [unfold is_word, two32; lia|]. constructor; [unfold is_word, two32; lia|]. constructor; [unfold is_word, two32; lia|].
      apply Forall_app. split; [apply pack_words; exact T1|]. apply Forall_app. split; [apply pack_words; exact T2|apply enc_words].
    - constructor; [unfold is_word, two32; lia|]. constructor; [unfold is_word, two32; lia|apply enc_words].
    - constructor; [unfold is_word, two32; lia|]. constructor; [unfold is_word, two32; lia|apply enc_words].
  Qed.

  Lemma values_exist : forall (s : sim M PS) ps, good_sim d s -> Forall (good_point d) ps -> exists vss, Forall2 (shows d s) ps vss.
  Proof.
    intros s ps G F. pose proof G as (GP & LT & _). destruct (pgrid_lengths d _ GP) as (GG & CB & CP & CS).
    induction F as [|p ps H F (vss & IH)]; [exists []; constructor|].
    destruct (point_values d (s_temps s) (pg_sources (s_pg s)) p GG H ltac:(lia) CS CB) as (v & E). exists (v :: vss). constructor; [exact E|exact IH].
  Qed.
  Lemma outputs_ok : forall (s : sim M PS) time ps f, good_sim d s -> Forall (good_point d) ps ->
      exists e f', outputs openable d (s_temps s) (pg_sources (s_pg s)) time ps f = Ok (e, f').
  Proof.
    intros s time ps f G F. pose proof G as (GP & LT & _). destruct (pgrid_lengths d _ GP) as (GG & CB & CP & CS). revert f.
    induction F as [|p ps H F IH]; intro f; cbn [outputs]; [eexists; eexists; reflexivity|].
    destruct (point_values d (s_temps s) (pg_sources (s_pg s)) p GG H ltac:(lia) CS CB) as (v & E).
    assert (X : exists e f1, point_output openable d (s_temps s) (pg_sources (s_pg s)) time p f = Ok (e, f1)).
    { unfold point_output. rewrite E. cbn [bind]. destruct (ip_type p), (openable (ip_file p)); eexists; eexists; reflexivity. }
    destruct X as (e & f1 & ->). cbn [bind]. destruct e; [apply IH|eexists; eexists; reflexivity].
  Qed.

  Lemma picked_exists : forall (read : list byte -> option (list byte)) ns seen, exists fs, picked read ns seen fs.
  Proof.
    intros read ns. induction ns as [|n ns IH]; intro seen; [exists []; constructor|].
    destruct (list_eq_dec Z.eq_dec n []) as [E|E]; [destruct (IH seen) as (fs & P); exists fs; apply p_skip; auto|].
    destruct (in_dec (list_eq_dec Z.eq_dec) n seen) as [I|I]; [destruct (IH seen) as (fs & P); exists fs; apply p_skip; auto|].
    destruct (read n) as [b|] eqn:R; [|destruct (IH seen) as (fs & P); exists fs; apply p_skip; auto].
    destruct (IH (n :: seen)) as (fs & P). exists ((n, b) :: fs). apply p_take; auto.
  Qed.
  Lemma picked_in : forall (read : list byte -> option (list byte)) ns seen fs, picked read ns seen fs ->
      forall n b, In (n, b) fs -> In n ns /\ read n = Some b.
  Proof.
    intros read ns seen fs H. induction H as [|n ns seen fs HN H IH|n b ns seen fs NE NI R H IH]; intros n0 b0 I; [contradiction| |].
    - destruct (IH _ _ I). split; [right; assumption|assumption].
    - destruct I as [I|I].
      + assert (n = n0) as -> by congruence. assert (b = b0) as -> by congruence. split; [left; reflexivity|exact R].
      + destruct (IH _ _ I). split; [right; assumption|assumption].
  Qed.

  Hypothesis TEXT : forall c, is_text (render c).
  Hypothesis COUNT : is_word (total_number_of_floorplan_elements stack).
  Hypothesis FIT : points_fit o d.

  Lemma small_content : forall ty w, is_word ty -> is_word w -> good_content (ty, [w]).
  Proof. intros ty w T W. unfold good_content. cbn [fst snd length]. split; [exact T|]. split; [constructor; [exact W|constructor]|lia]. Qed.
  Lemma file_words_length : forall fs : list (list byte * list byte), (length fs <= length (flat_map file_words fs))%nat.
  Proof. induction fs as [|f fs IH]; cbn [flat_map length]; [lia|]. rewrite app_length. unfold file_words at 1. cbn [length]. lia. Qed.

  Lemma request_handled : forall n (st : srv) c, ready d (S n) st -> files_fit readable render o st -> well_formed c -> good_content c ->
      exists st' r x, handled st c st' r x /\ Forall good_content (opt r) /\ ready d n st'.
  Proof.
    intros n st c (G & qs & Q & R) FF W GC. pose proof G as (GP & LT & AT & SL & TM). destruct (pgrid_lengths d _ GP) as (GG & CB & CP & CS).
    destruct FIT as (FP & FT & FS & FN). assert (KEEP : ready d n st) by (split; [exact G|]; exists qs; split; [exact Q|apply room_less; exact R]).
    assert (RES : forall x, is_word (result_code x)) by (intros []; unfold is_word, two32; cbn; lia).
    assert (TY : forall k, 0 <= k <= 8 -> is_word k) by (intros; unfold is_word, two32; lia).
    destruct W as [ty ws I|ws rest NE|i t q rest|i rest|ty ws L].
    - cbn [In] in I. destruct I as [<-|[<-|[<-|[<-|[<-|[<-|[]]]]]]].
      + exists st, None, Quit. split; [constructor|]. split; [constructor|exact KEEP].
      + eexists. exists None, Go_on. split; [constructor|]. split; [constructor|]. split.
        * unfold good_sim, with_sim, reset_thermal_state. cbn [sv_sim s_pg s_temps s_an]. rewrite map_length. auto.
        * exists qs. split; [exact Q|apply room_less; exact R].
      + eexists. eexists. eexists. split; [constructor|]. split; [|exact KEEP]. constructor; [|constructor]. apply small_content; [apply TY; cbv; split; discriminate|exact COUNT].
      + destruct (slot_ready (sv_sim st) n qs G Q (room_less _ _ R)) as (k & r & s' & E & G' & qs' & Q' & R').
        eexists. eexists. eexists. split; [eapply h_slot; [lia|exact E]|]. split; [|split; [exact G'|]; exists qs'; auto].
        constructor; [|constructor]. apply small_content; [apply TY; cbv; split; discriminate|apply RES].
      + destruct (step_ready (sv_sim st) n qs G Q (room_less _ _ R)) as (r & s' & E & G' & qs' & Q' & R').
        eexists. eexists. eexists. split; [eapply h_step; exact E|]. split; [|split; [exact G'|]; exists qs'; auto].
        constructor; [|constructor]. apply small_content; [apply TY; cbv; split; discriminate|apply RES].
      + destruct (picked_exists (sv_read readable render st) (map ip_file (all_points o)) []) as (fs & P).
        destruct (FF fs P) as (F1 & F2). exists st. eexists. exists Go_on. split; [eapply h_files; [exact P|exact F2|exact FN]|]. split; [|exact KEEP].
        constructor; [|constructor]. unfold good_content. cbn [fst snd].
        assert (LF := file_words_length fs). split; [apply TY; cbv; split; discriminate|]. split.
        * constructor; [unfold is_word, two32; lia|]. apply Forall_forall. intros w I. apply in_flat_map in I. destruct I as ([nm b] & I & J).
          destruct (picked_in _ _ _ _ P nm b I) as (I1 & RD). rewrite Forall_forall in F2. destruct (F2 _ I) as (A1 & A2). cbn [fst snd] in A1, A2.
          unfold file_words in J. cbn [fst snd] in J. destruct J as [<-|[<-|J]]; [unfold is_word; lia|unfold is_word; lia|].
          apply in_app_or in J. destruct J as [J|J].
          -- apply in_map_iff in I1. destruct I1 as (p & <- & I1). rewrite Forall_forall in FT. destruct (FT p I1) as (T1 & _).
             pose proof (pack_words _ T1) as PW. rewrite Forall_forall in PW. auto.
          -- assert (TB : is_text b).
             { unfold sv_read in RD. destruct (readable nm); [|discriminate]. destruct (sv_files st nm); [|discriminate]. assert (render l = b) as <- by congruence. apply TEXT. }
             pose proof (pack_words _ TB) as PW. rewrite Forall_forall in PW. auto.
        * cbn [length]. lia.
    - destruct GC as (_ & GW & GL). cbn [fst snd] in *.
      destruct (queue_of_spec (map decF ws)) as (q & QO & QR).
      { intro X. apply NE. destruct ws; [reflexivity|discriminate]. }
      { rewrite map_length. cbn [length] in GL. rewrite app_length in GL. unfold two32. lia. }
      destruct (insert_power_values_spec (s_pg (sv_sim st)) d qs (map decF ws) q GP Q QR (room_small _ _ R)) as (pg' & q' & E & GP' & SF & Q' & _ & _).
      assert (RD : ready d n (with_sim st (insert_into (sv_sim st) pg'))).
      { split; [|exists (give qs (map decF ws)); split; [exact Q'|apply room_give; exact R]].
        unfold good_sim, with_sim, insert_into. cbn [sv_sim s_pg s_temps s_an]. split; [exact GP'|]. split; [rewrite LT; symmetry; apply SF|]. auto. }
      match type of E with context [if ?b then _ else _] => destruct b end.
      + eexists. eexists. eexists. split; [eapply h_insert; [exact QO|exact E]|]. split; [|exact RD]. constructor; [|constructor]. apply small_content; apply TY; cbv; split; discriminate.
      + eexists. exists None. eexists. split; [eapply h_insert_failed; [exact QO|exact E]|]. split; [constructor|exact RD].
    - destruct (those_exists t q (declared_at o i)) as (ps & T).
      assert (IN : forall p, In p ps -> In p (all_points o)) by (intros p I; apply (declared_in i); apply (those_in _ _ _ _ T I)).
      assert (FP' : Forall (good_point d) ps) by (apply Forall_forall; intros p I; rewrite Forall_forall in FP; auto).
      assert (FT' : Forall (fun p => is_text (ip_file p) /\ is_text (header_of p)) ps) by (apply Forall_forall; intros p I; rewrite Forall_forall in FT; auto).
      assert (TS : total_size ps + 4 <= 1073741824).
      { pose proof (total_those _ _ _ GG T). pose proof (total_declared i GG). unfold total_size in *. lia. }
      destruct (values_exist (sv_sim st) ps G FP') as (vss & V).
      pose proof (length_total ps GG) as LP.
      eexists. eexists. eexists. split; [eapply h_send; [exact T|exact V|unfold two32; lia| |]|].
      + apply Forall_forall. intros p I TP. pose proof (total_bounds p ps GG I) as B. unfold result_size in B. rewrite TP in B. unfold two32. lia.
      + assert (BB : forall p, In p ps -> result_size d p <= total_size ps) by (intros; apply total_bounds; assumption).
        clear - V TS BB GG. induction V as [|p vs ps vss E V IH]; [constructor|]. 
        assert (X := BB p (or_introl eq_refl)).
        constructor.
        * apply shows_length in E; [|exact GG]. unfold result_size in X. unfold two32. destruct (ip_type p); try contradiction; lia.
        * apply IH.
          -- unfold total_size in *. cbn [map fold_right] in TS. pose proof (result_size_pos p GG). lia.
          -- intros; apply total_bounds; assumption.
      + split; [|exact KEEP]. constructor; [|constructor]. unfold good_content. cbn [fst snd]. split; [apply TY; cbv; split; discriminate|].
        pose proof (results_length _ _ _ _ GG V) as RL. split; [|cbn [length]; lia].
        constructor; [apply ENC|]. constructor; [unfold is_word, two32; lia|].
        assert (T32 : total_size ps < two32) by (unfold two32; lia). apply (results_words _ _ _ _ GG T32 FT' V).
    - assert (X : exists e f, generate_output openable o d (s_temps (sv_sim st)) (pg_sources (s_pg (sv_sim st))) (get_simulated_time (s_an (sv_sim st))) i
          (snd (if sv_headers st then (TDICE_SUCCESS, sv_files st) else generate_output_headers openable o (sv_files st))) = Ok (e, f)).
      { unfold generate_output. assert (FD : Forall (good_point d) (declared_at o i)).
        { apply Forall_forall. intros p I. rewrite Forall_forall in FP. apply FP. apply (declared_in i). exact I. }
        destruct i; cbn [points declared_at] in *; [eexists; eexists; reflexivity|apply outputs_ok; assumption|apply outputs_ok; assumption|apply outputs_ok; assumption]. }
      destruct X as (e & f & X).
      destruct (if sv_headers st then (TDICE_SUCCESS, sv_files st) else generate_output_headers openable o (sv_files st)) as [e0 f0] eqn:E0.
      cbn [snd] in X. destruct e0.
      + eexists. exists None. eexists. split; [eapply h_print; [exact E0|exact X]|]. split; [constructor|]. exact KEEP.
      + destruct (sv_headers st) eqn:HH; [discriminate|]. eexists. exists None. eexists. split; [eapply h_print_failed; [exact HH|exact E0]|].
        split; [constructor|]. exact KEEP.
    - exists st, None, Go_on. split; [constructor; exact L|]. split; [constructor|exact KEEP].
  Qed.

  (** Any sequence of well-formed requests is a conversation. *)
  Lemma talk_exists : forall cs (st : srv), ready d (length cs) st -> Forall well_formed cs -> Forall good_content cs ->
      (forall k st1 rs x, talk st (firstn k cs) st1 rs x -> files_fit readable render o st1) ->
      exists st' rs x, talk st cs st' rs x /\ Forall good_content rs /\ ready d 0 st'.
  Proof.
    induction cs as [|c cs IH]; intros st R W GC FF.
    - exists st, [], Quit. split; [constructor|]. split; [constructor|exact R].
    - inversion W as [|? ? W1 W2]; subst. inversion GC as [|? ? G1 G2]; subst.
      assert (F0 : files_fit readable render o st) by (apply (FF 0%nat st [] Quit); constructor).
      destruct (request_handled (length cs) st c R F0 W1 G1) as (st1 & r & x & H & GR & R1).
      assert (DONE : x <> Go_on -> exists st' rs x, talk st (c :: cs) st' rs x /\ Forall good_content rs /\ ready d 0 st').
      { intro NX. exists st1, (opt r), x. split; [apply t_stop; assumption|]. split; [exact GR|]. destruct R1 as (A & qs & B & C). split; [exact A|].
        exists qs. split; [exact B|]. eapply Forall_impl; [|exact C]. cbn beta. intros; lia. }
      destruct x; try (apply DONE; discriminate). clear DONE.
      destruct (IH st1 R1 W2 G2) as (st2 & rs & x & T & GRS & R2).
      { intros k st3 rs3 x3 T3. apply (FF (S k) st3 (opt r ++ rs3) x3). cbn [firstn]. eapply t_more; eassumption. }
      exists st2, (opt r ++ rs), x. split; [eapply t_more; eassumption|]. split; [apply Forall_app; auto|exact R2].
  Qed.
End Ready.
