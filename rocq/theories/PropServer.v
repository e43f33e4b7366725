(** * Properties C46 and C47: the server *)
From Coq Require Import ZArith List Bool QArith Lia.
From Verif Require Import Base QSum Dims DimsSpec Queue QueueProofs Floorplan FloorplanSpec FloorplanProofs Stack StackSpec PowerGrid Emulate EmulateSpec
  SourceProofs SourceVectorProofs EmulateProofs HistoryProofs SimWitness PropFloorplan Inspect Emulator EmulatorSpec Message MessageSpec MessageProofs
  Server ServerSpec ServerIoProofs ServerProofs ServerDecodeProofs ServerRunProofs.
Import ListNotations.
Local Open Scope Z_scope.

Section C46.
  Variables (encF : Q -> word) (decF : word -> Q).
  Variables (openable : list Z -> bool) (readable : list Z -> bool) (render : list line -> list byte).
  Context {M PS : Type}.
  Variable solve : M -> list Q -> error_t * list Q.
  Variable plugin : PS -> list Q -> list Q -> bool * list Q * PS.
  Variables (stack : list stkel) (o : output) (d : dims).
  Notation handled := (handled encF decF openable readable render solve plugin stack o d).
  Notation talk := (talk encF decF openable readable render solve plugin stack o d).
  Notation server_loop := (server_loop encF decF openable readable render solve plugin stack o d).

  (** C46: every conversation, as the specification describes it, is what the
      server does on the bytes of the requests, whatever the way the system
      calls cut them: the bytes it sends are those of the replies, in order, and
      it leaves the loop. *)
  Theorem C46_conversation : forall (st : server M PS) cs st' rs x, talk st cs st' rs x -> forall fuel rd wr,
      Forall good_content cs -> Forall good_content rs ->
      healthy_reads rd (length (encodings cs)) -> healthy_writes wr (length (encodings rs)) -> (length cs < fuel)%nat ->
      server_loop fuel st rd wr (encodings cs) = Ok (st', encodings rs, Left x).
  Proof. apply loop_talk. Qed.

  (** A server ready to simulate handles every sequence of well-formed requests:
      there is such a conversation. *)
  Theorem C46_progress : in_place solve plugin -> (forall x, is_word (encF x)) -> (forall c, is_text (render c)) ->
      is_word (total_number_of_floorplan_elements stack) -> points_fit o d ->
      forall cs (st : server M PS), ready d (length cs) st -> Forall well_formed cs -> Forall good_content cs ->
      (forall k st1 rs x, talk st (firstn k cs) st1 rs x -> files_fit readable render o st1) ->
      exists st' rs x, talk st cs st' rs x /\ ready d 0 st' /\
        forall fuel rd wr, healthy_reads rd (length (encodings cs)) -> healthy_writes wr (length (encodings rs)) -> (length cs < fuel)%nat ->
          server_loop fuel st rd wr (encodings cs) = Ok (st', encodings rs, Left x).
  Proof.
    intros IP ENC TEXT COUNT FIT cs st R W G FF.
    destruct (talk_exists encF decF openable readable render solve plugin IP stack o d ENC TEXT COUNT FIT cs st R W G FF) as (st' & rs & x & T & GR & R').
    exists st', rs, x. split; [exact T|]. split; [exact R'|]. intros. apply loop_talk; assumption.
  Qed.

  (** One reply for each request that has one, of the same type and in order, up
      to the request at which the server leaves; the only request left without
      its reply is an INSERT_POWERS whose values are too few. *)
  Theorem C46_one_reply_each_partial : forall (st : server M PS) cs st' rs x, talk st cs st' rs x ->
      x <> Go_on /\ exists k, (k <= length cs)%nat /\
      (map fst rs = filter has_reply (map fst (firstn k cs)) \/
       exists cs1 ws, firstn k cs = cs1 ++ [(INSERT_POWERS, ws)] /\ map fst rs = filter has_reply (map fst cs1) /\ x = Sim_error) /\
      ((k < length cs)%nat -> exists cs1 c, firstn k cs = cs1 ++ [c] /\ In (fst c) [EXIT_SIMULATION; INSERT_POWERS; PRINT_OUTPUT; SIMULATE_SLOT; SIMULATE_STEP]).
  Proof.
    intros st cs st' rs x H. induction H as [st|st c st1 r cs st2 rs x HD H (NX & k & LK & A & B)|st c st1 r cs x HD NX].
    - split; [discriminate|]. exists O. split; [cbn; lia|]. split; [left; reflexivity|]. cbn [length]. intro X. lia.
    - split; [exact NX|]. exists (S k). cbn [length firstn map].
      assert (ONE : map fst (opt r) = filter has_reply [fst c]).
      { inversion HD; subst; try reflexivity. cbn [fst filter]. unfold has_reply, SEND_OUTPUT, TOTAL_NUMBER_OF_FLOORPLAN_ELEMENTS, INSERT_POWERS, SIMULATE_SLOT, SIMULATE_STEP, SEND_OUTPUT_FILES.
        repeat match goal with |- context [?a =? ?b] => replace (a =? b) with false by (symmetry; apply Z.eqb_neq; lia) end. reflexivity. }
      change (fst c :: map fst (firstn k cs)) with ([fst c] ++ map fst (firstn k cs)). unfold content in *. rewrite (map_app fst (opt r) rs), filter_app. rewrite ONE. split; [lia|]. split.
      + destruct A as [A|(cs1 & ws & A1 & A2 & A3)]; [left; rewrite A; reflexivity|]. right. exists (c :: cs1), ws. rewrite A1. split; [reflexivity|].
        split; [|exact A3]. cbn [map]. change (fst c :: map fst cs1) with ([fst c] ++ map fst cs1). rewrite filter_app, A2. reflexivity.
      + intro X. destruct (B ltac:(lia)) as (cs1 & c1 & B1 & B2). exists (c :: cs1), c1. rewrite B1. split; [reflexivity|exact B2].
    - split; [exact NX|]. exists 1%nat. cbn [length firstn map]. split; [lia|]. split.
      + inversion HD; subst; try congruence; try (left; reflexivity).
        right. exists [], (Z.of_nat (length ws) :: ws ++ rest). auto.
      + intros _. exists [], c. split; [reflexivity|]. inversion HD; subst; try congruence; cbn [fst In]; auto 10.
  Qed.

  (** Whatever bytes arrive - messages cut in the middle, garbage - once the
      client has closed the connection the server does not wait for it, and it
      goes through the loop at most once per byte received, plus one. *)
  Theorem C46_lost_client : forall (st : server M PS) rd wr stream fuel st' out stt,
      ~ In Failed rd -> (length stream + 2 <= reads rd)%nat ->
      server_loop fuel st rd wr stream = Ok (st', out, stt) -> stt <> Waiting_request.
  Proof. intros. eapply loop_never_waits; eassumption. Qed.
  Theorem C46_bounded : forall (st : server M PS) rd wr stream extra, ~ In Failed rd ->
      server_loop (S (length stream) + extra) st rd wr stream = server_loop (S (length stream)) st rd wr stream.
  Proof. intros. apply loop_bounded; [lia|assumption]. Qed.
End C46.
Print Assumptions C46_conversation.
Print Assumptions C46_progress.
Print Assumptions C46_one_reply_each_partial.
Print Assumptions C46_lost_client.
Print Assumptions C46_bounded.

(** ** A concrete server *)
Definition sv_enc (x : Q) : word := Qnum x mod two32.
Definition sv_dec (w : word) : Q := inject_Z w.
Lemma sv_enc_word : forall x, is_word (sv_enc x).
Proof. intro x. unfold is_word, sv_enc, two32. apply Z.mod_pos_bound. lia. Qed.
Definition sv_any (_ : list Z) : bool := true.
Definition sv_render (c : list line) : list byte := firstn 40 (map (fun l => match l with Row _ _ _ => 82 | _ => 72 end) c).
Lemma sv_render_text : forall c, is_text (sv_render c).
Proof. intro c. apply Forall_forall. intros b H. unfold sv_render in H. assert (I : In b (map (fun l => match l with Row _ _ _ => 82 | _ => 72 end) c)) by (rewrite <- (firstn_skipn 40); apply in_or_app; left; exact H). apply in_map_iff in I. destruct I as (x & <- & _). unfold is_byte. destruct x; lia. Qed.
(** The source layer of the die of SimWitness.v is layer 1; its name is "die". *)
Definition sv_die : stkel := mkStkel [100; 105; 101] (SKDie (mkDie [layer0] 0 (wfloor q_empty q_empty))) 1 1.
Definition sv_point (i : output_instant) (t : output_type) (file : list Z) : ipoint :=
  mkIpoint t OQ_MAXIMUM i file sv_die 1 0 (Some (we1 q_empty)).
Definition sv_out : output :=
  fold_left add_inspection_point
    [sv_point OI_STEP OT_TCELL [97; 46; 116]; sv_point OI_SLOT OT_TFLP [98; 98; 46; 116; 120]; sv_point OI_SLOT OT_TFLP [99];
     sv_point OI_SLOT OT_TMAP [100; 100]; sv_point OI_FINAL OT_TFLPEL [101; 46; 102; 102]] output_init.
Lemma we_good : good_element wd (we1 q_empty) /\ good_element wd (we2 q_empty).
Proof.
  split.
  - eexists. exists [mkIcel 0 0 10 10 0 0 1 0], q_empty. split; [reflexivity|]. split; [discriminate|]. good_rects 10%nat.
  - eexists. exists [mkIcel 10 0 10 5 0 1 0 1], q_empty. split; [reflexivity|]. split; [discriminate|]. good_rects 10%nat.
Qed.
Lemma sv_point_good : forall i t f, In t [OT_TCELL; OT_TFLP; OT_TFLPEL; OT_TMAP; OT_PMAP] -> good_point wd (sv_point i t f).
Proof.
  intros i t f H. split; [cbn; lia|]. cbn [In] in H. destruct we_good as (W1 & W2).
  destruct H as [<-|[<-|[<-|[<-|[<-|[]]]]]]; cbn [sv_point ip_type].
  - cbn. lia.
  - split; [discriminate|]. exists (mkDie [layer0] 0 (wfloor q_empty q_empty)). split; [reflexivity|]. constructor; [exact W1|]. constructor; [exact W2|constructor].
  - split; [discriminate|]. exists (we1 q_empty). split; [reflexivity|exact W1].
  - exact I.
  - exact I.
Qed.
Lemma sv_text : forall bs, forallb (fun b => (0 <=? b) && (b <? 256)) bs = true -> is_text bs.
Proof.
  intros bs H. apply Forall_forall. intros b I. rewrite forallb_forall in H. specialize (H b I). apply andb_true_iff in H. destruct H as (A & B).
  apply Z.leb_le in A. apply Z.ltb_lt in B. split; lia.
Qed.
Lemma sv_points_fit : points_fit sv_out wd.
Proof.
  split; [|split; [|split]].
  - repeat (constructor; [apply sv_point_good; cbn; auto 10|]). constructor.
  - repeat (constructor; [split; apply sv_text; vm_compute; reflexivity|]). constructor.
  - vm_compute. discriminate.
  - exists (map ip_file (all_points sv_out)). split; [vm_compute; lia|]. intros n H _. exact H.
Qed.
Definition sv_sim0 (L time : Z) (q1 q2 : queue) : sim unit unit := wsim q1 q2 (repeat 0%Q 8) (repeat 300%Q 8) L time.
Definition sv_start : server unit unit := mkServer (sv_sim0 2 0 q_empty q_empty) (fun _ => None) false.
Lemma sv_ready : forall n, 2 * Z.of_nat n < two32 -> ready wd n sv_start.
Proof.
  intros n B. split; [apply wsim_good; try reflexivity; unfold two32; lia|]. exists [[]; []]. split.
  - apply wpg_queued; apply q_empty_rep.
  - constructor; [cbn [length]; lia|]. constructor; [cbn [length]; lia|constructor].
Qed.


Lemma picked_length : forall (read : list byte -> option (list byte)) ns seen fs, picked read ns seen fs -> (length fs <= length ns)%nat.
Proof. intros read ns seen fs H. induction H; cbn [length]; lia. Qed.
Lemma pack_bound : forall bs, (length (pack_bytes bs) <= length bs)%nat. Proof. exact pack_length. Qed.
Lemma words_bound : forall k (fs : list (list byte * list byte)), Forall (fun nb => (length (fst nb) <= k /\ length (snd nb) <= k)%nat) fs ->
    (length (flat_map file_words fs) <= length fs * (2 + 2 * k))%nat.
Proof.
  intros k fs F. induction F as [|[n b] fs (A & B) F IH]; cbn [flat_map length]; [lia|]. rewrite app_length. unfold file_words at 1. cbn [fst snd length] in *.
  rewrite app_length. pose proof (pack_length n). pose proof (pack_length b). lia.
Qed.
Lemma sv_files_fit : forall st : server unit unit, files_fit sv_any sv_render sv_out st.
Proof.
  intros st fs P. assert (B : Forall (fun nb => (length (fst nb) <= 40 /\ length (snd nb) <= 40)%nat) fs).
  { apply Forall_forall. intros [n b] I. destruct (picked_in _ _ _ _ P n b I) as (IN & RD). cbn [fst snd]. split.
    - cbn in IN. destruct IN as [<-|[<-|[<-|[<-|[<-|[]]]]]]; cbn; lia.
    - unfold sv_read in RD. cbn [sv_any] in RD. destruct (sv_files st n); [|discriminate]. assert (sv_render l = b) as <- by congruence.
      unfold sv_render. rewrite firstn_length. lia. }
  pose proof (words_bound 40 fs B). pose proof (picked_length _ _ _ _ P) as L. cbn in L. split; [nia|].
  eapply Forall_impl; [|exact B]. unfold two32. intros nb (X & Y). lia.
Qed.

(** C46_progress applies to: insert two powers, simulate a slot, write and ask
    for the results, an unknown request, the files, two more slots (there is no
    power for the last one) and a last request that is never read. *)
Definition sv_requests : list content :=
  [(INSERT_POWERS, [2; 7; 9]); (INSERT_POWERS, [2; 8; 1; 5]); (SIMULATE_SLOT, []); (PRINT_OUTPUT, [2]); (SEND_OUTPUT, [2; 2; 2]); (77, [1; 2]);
   (SEND_OUTPUT_FILES, []); (SIMULATE_STEP, []); (SIMULATE_STEP, []); (SIMULATE_SLOT, []); (RESET_THERMAL_STATE, [])].
Definition sv_run (cs : list content) : outcome (server unit unit * list byte * status) :=
  server_loop sv_enc sv_dec sv_any sv_any sv_render wsolve wplugin [sv_die] sv_out wd 20 sv_start (repeat (Moved 400) 40) (repeat (Moved 400) 40) (encodings cs).
Definition words_sent {A} (x : outcome (A * list byte * status)) : option (list word * status) :=
  match x with Ok (_, out, stt) => Some (words_of_bytes out, stt) | _ => None end.
Example C46_witness : in_place wsolve wplugin /\ (forall x, is_word (sv_enc x)) /\ (forall c, is_text (sv_render c)) /\
    is_word (total_number_of_floorplan_elements [sv_die]) /\ points_fit sv_out wd /\
    ready wd (length sv_requests) sv_start /\ Forall well_formed sv_requests /\ Forall good_content sv_requests /\
    (forall st1 : server unit unit, files_fit sv_any sv_render sv_out st1) /\
    (exists ws, words_sent (sv_run sv_requests) = Some (ws, Left Quit) /\
       firstn 13 ws = [3; INSERT_POWERS; 0; 3; INSERT_POWERS; 0; 3; SIMULATE_SLOT; 4; 59; SEND_OUTPUT; sv_enc 2; 2] /\
       skipn (length ws - 9) ws = [3; SIMULATE_STEP; 3; 3; SIMULATE_STEP; 4; 3; SIMULATE_SLOT; 0]).
Proof.
  split; [exact w_in_place|]. split; [exact sv_enc_word|]. split; [exact sv_render_text|]. split; [vm_compute; split; [discriminate|reflexivity]|].
  split; [exact sv_points_fit|]. split; [apply sv_ready; unfold two32; cbn; lia|]. split.
  { unfold sv_requests. constructor; [apply (w_insert [7; 9] []); discriminate|]. constructor; [apply (w_insert [8; 1] [5]); discriminate|].
    constructor; [apply w_bare; cbn; auto 10|]. constructor; [apply (w_print OI_SLOT [])|]. constructor; [apply (w_send OI_SLOT OT_TFLP OQ_MAXIMUM [])|].
    constructor; [apply w_unknown; lia|]. repeat (constructor; [apply w_bare; cbn; auto 10|]). constructor. }
  split.
  { unfold sv_requests. repeat (constructor; [unfold good_content; cbn [fst snd length]; split; [cbv; split; [discriminate|reflexivity]|split; [repeat (constructor; [unfold is_word, two32; lia|]); constructor|lia]]|]). constructor. }
  split; [exact sv_files_fit|].
  destruct (words_sent (sv_run sv_requests)) as [[ws stt]|] eqn:E; [|vm_compute in E; discriminate].
  assert (ws = fst (match words_sent (sv_run sv_requests) with Some p => p | None => ([], Waiting_reply) end)) as -> by (rewrite E; reflexivity).
  assert (stt = snd (match words_sent (sv_run sv_requests) with Some p => p | None => ([], Waiting_reply) end)) as -> by (rewrite E; reflexivity).
  eexists. split; [f_equal; apply surjective_pairing|]. split; vm_compute; reflexivity.
Qed.

(** C46 is false of an INSERT_POWERS with too few values: the request has a
    reply, the server sends none and leaves. *)
Theorem C46_failed_insert_refuted : exists cs : list content,
    Forall well_formed cs /\ Forall (fun c => has_reply (fst c) = true) cs /\ cs <> [] /\
    words_sent (sv_run cs) = Some ([], Left Sim_error).
Proof.
  exists [(INSERT_POWERS, [1; 7]); (SIMULATE_STEP, [])]. split; [|split; [repeat constructor|split; [discriminate|vm_compute; reflexivity]]].
  constructor; [apply (w_insert [7] []); discriminate|]. constructor; [apply w_bare; cbn; auto 10|constructor].
Qed.
Print Assumptions C46_failed_insert_refuted.

(** What a lost client leaves: a request cut in the middle of its values is
    carried out with zeros in the place of the missing ones, instead of being
    dropped. *)
Definition element_values (s : sim unit unit) : list (option (list Q)) := map (fun e => match q_mem (fe_powers e) with Some m => Some (contents m (q_cap (fe_powers e)) (q_start (fe_powers e)) (q_size (fe_powers e))) | None => None end) (elements (s_pg s)).
Theorem C46_truncated_refuted : exists stream rest st' out stt,
    encodings [(INSERT_POWERS, [2; 7; 9])] = stream ++ rest /\ rest <> [] /\
    server_loop sv_enc sv_dec sv_any sv_any sv_render wsolve wplugin [sv_die] sv_out wd 20 sv_start (repeat (Moved 400) 40) (repeat (Moved 400) 40) stream
      = Ok (st', out, stt) /\
    element_values (sv_sim sv_start) = [Some []; Some []] /\ element_values (sv_sim st') = [Some [sv_dec 7]; Some [sv_dec 0]] /\
    words_of_bytes out = [3; INSERT_POWERS; 0].
Proof.
  exists (firstn 16 (encodings [(INSERT_POWERS, [2; 7; 9])])), (skipn 16 (encodings [(INSERT_POWERS, [2; 7; 9])])).
  destruct (server_loop sv_enc sv_dec sv_any sv_any sv_render wsolve wplugin [sv_die] sv_out wd 20 sv_start (repeat (Moved 400) 40) (repeat (Moved 400) 40)
     (firstn 16 (encodings [(INSERT_POWERS, [2; 7; 9])]))) as [[[st' out] stt]| |] eqn:E; [|vm_compute in E; discriminate..].
  exists st', out, stt. split; [symmetry; apply firstn_skipn|]. split; [vm_compute; discriminate|]. split; [reflexivity|].
  split; [vm_compute; reflexivity|].
  set (X := server_loop sv_enc sv_dec sv_any sv_any sv_render wsolve wplugin [sv_die] sv_out wd 20 sv_start (repeat (Moved 400) 40) (repeat (Moved 400) 40)
     (firstn 16 (encodings [(INSERT_POWERS, [2; 7; 9])]))) in *.
  assert (st' = match X with Ok (s, _, _) => s | _ => sv_start end) as -> by (rewrite E; reflexivity).
  assert (out = match X with Ok (_, x, _) => x | _ => [] end) as -> by (rewrite E; reflexivity).
  split; vm_compute; reflexivity.
Qed.
Print Assumptions C46_truncated_refuted.

(** ** C47 *)
Section C47.
  Variables (encF : Q -> word) (decF : word -> Q).
  Variables (openable : list Z -> bool) (readable : list Z -> bool) (render : list line -> list byte).
  Context {M PS : Type}.
  Variable solve : M -> list Q -> error_t * list Q.
  Variable plugin : PS -> list Q -> list Q -> bool * list Q * PS.
  Variables (stack : list stkel) (o : output) (d : dims).
  Notation serve := (serve encF decF openable readable render solve plugin stack o d).
  Notation talk := (talk encF decF openable readable render solve plugin stack o d).

  (** The values of one INSERT_POWERS are those a local program would put in a
      queue, in order, and pass to insert_power_values: element number k gets
      value number k.  The reply is success exactly if there is a value for each
      element; the words after the announced number of values are ignored. *)
  Theorem C47_equals_local_partial : forall n (st : server M PS) ws rest qs m,
      good_sim d (sv_sim st) -> queued (s_pg (sv_sim st)) qs -> room (S n) qs -> ws <> [] ->
      good_content (INSERT_POWERS, Z.of_nat (length ws) :: ws ++ rest) -> carries m INSERT_POWERS (Z.of_nat (length ws) :: ws ++ rest) ->
      exists q e pg q' reply, queue_of (map decF ws) = Ok q /\ insert_power_values (s_pg (sv_sim st)) q = Ok (e, pg, q') /\
        serve st m = Ok (mkServer (with_pg (sv_sim st) pg) (sv_files st) (sv_headers st), reply, match e with TDICE_SUCCESS => Go_on | TDICE_FAILURE => Sim_error end) /\
        queued pg (give qs (map decF ws)) /\ same_fields (s_pg (sv_sim st)) pg /\ pg_sources pg = pg_sources (s_pg (sv_sim st)) /\
        (e = TDICE_SUCCESS <-> (length (elements (s_pg (sv_sim st))) <= length ws)%nat) /\
        match e with TDICE_SUCCESS => exists r, reply = Some r /\ carries r INSERT_POWERS [0] | TDICE_FAILURE => reply = None end.
  Proof.
    intros n st ws rest qs m G Q R NE (_ & GW & GL) C. cbn [fst snd] in *. pose proof G as (GP & LT & _).
    destruct (queue_of_spec (map decF ws)) as (q & QO & QR).
    { intro X. apply NE. destruct ws; [reflexivity|discriminate]. }
    { rewrite map_length. cbn [length] in GL. rewrite app_length in GL. unfold two32. lia. }
    destruct (insert_power_values_spec (s_pg (sv_sim st)) d qs (map decF ws) q GP Q QR (room_small _ _ R)) as (pg' & q' & E & GP' & SF & Q' & _ & SR).
    assert (LQ : length (elements (s_pg (sv_sim st))) = length qs) by (apply (Forall2_length Q) || (clear - Q; unfold queued in Q; induction Q; cbn; congruence)).
    match type of E with _ = Ok (?b, _, _) => remember b as e eqn:HE end.
    assert (EE : e = TDICE_SUCCESS <-> (length (elements (s_pg (sv_sim st))) <= length ws)%nat).
    { rewrite HE, LQ, map_length. destruct (Nat.leb_spec (length qs) (length ws)); split; intro; try congruence; lia. }
    assert (SV : exists reply, serve st m = Ok (with_sim st (insert_into (sv_sim st) pg'), reply, match e with TDICE_SUCCESS => Go_on | TDICE_FAILURE => Sim_error end) /\
       match e with TDICE_SUCCESS => exists r, reply = Some r /\ carries r INSERT_POWERS [0] | TDICE_FAILURE => reply = None end).
    { clear HE. destruct e.
      - destruct (serve_handled encF decF openable readable render solve plugin stack o d st _ _ _ _ m (h_insert encF decF openable readable render solve plugin stack o d st ws rest q pg' q' QO E)) as (reply & S & A).
        + constructor; [|constructor]. apply small_content; unfold is_word, two32, INSERT_POWERS; lia.
        + exact C.
        + exists reply. split; [exact S|]. destruct reply as [r|]; cbn [answered] in A; [exists r; auto|contradiction].
      - destruct (serve_handled encF decF openable readable render solve plugin stack o d st _ _ _ _ m (h_insert_failed encF decF openable readable render solve plugin stack o d st ws rest q pg' q' QO E)) as (reply & S & A).
        + constructor.
        + exact C.
        + exists reply. split; [exact S|]. destruct reply as [r|]; cbn [answered] in A; [contradiction|reflexivity]. }
    destruct SV as (reply & SV1 & SV2). exists q, e, pg', q', reply. split; [exact QO|]. split; [exact E|]. split; [exact SV1|]. auto 10.
  Qed.

  (** The number sent for TOTAL_NUMBER_OF_FLOORPLAN_ELEMENTS is that of the
      elements of the dies of the stack: the number of values INSERT_POWERS
      needs. *)
  Definition stack_elements (es : list stkel) : list flpel :=
    flat_map (fun e => match se_kind e with SKDie x => f_elements (die_floorplan x) | _ => [] end) es.
  Theorem C47_total : Forall (fun e => forall x, se_kind e = SKDie x -> f_nelements (die_floorplan x) = Z.of_nat (length (f_elements (die_floorplan x)))) stack ->
      Z.of_nat (length (stack_elements stack)) < two32 ->
      forall (st : server M PS) ws m, carries m TOTAL_NUMBER_OF_FLOORPLAN_ELEMENTS ws ->
      exists r, serve st m = Ok (st, Some r, Go_on) /\ carries r TOTAL_NUMBER_OF_FLOORPLAN_ELEMENTS [Z.of_nat (length (stack_elements stack))].
  Proof.
    intros F B st ws m C.
    assert (X : forall es k, Forall (fun e => forall x, se_kind e = SKDie x -> f_nelements (die_floorplan x) = Z.of_nat (length (f_elements (die_floorplan x)))) es ->
      0 <= k -> k + Z.of_nat (length (stack_elements es)) < two32 -> fold_left (fun n e => u32 (n + stkel_elements e)) es k = k + Z.of_nat (length (stack_elements es))).
    { clear. induction es as [|e es IH]; intros k F K B; [cbn; lia|]. inversion F as [|? ? F1 F2]; subst.
      cbn [stack_elements flat_map fold_left] in *. rewrite app_length in *. fold (stack_elements es) in *.
      assert (SE : stkel_elements e = Z.of_nat (length (match se_kind e with SKDie x => f_elements (die_floorplan x) | _ => [] end))).
      { unfold stkel_elements. destruct (se_kind e) eqn:E; [apply F1; reflexivity|reflexivity|reflexivity]. }
      rewrite SE, u32_id by lia. rewrite IH by (auto; lia). lia. }
    assert (TN : total_number_of_floorplan_elements stack = Z.of_nat (length (stack_elements stack))).
    { unfold total_number_of_floorplan_elements. rewrite X by (auto; lia). lia. }
    destruct (serve_handled encF decF openable readable render solve plugin stack o d st _ _ _ _ m (h_total encF decF openable readable render solve plugin stack o d st ws)) as (reply & S & A).
    - constructor; [|constructor]. apply small_content; [unfold is_word, two32, TOTAL_NUMBER_OF_FLOORPLAN_ELEMENTS; lia|]. rewrite TN. unfold is_word. lia.
    - exact C.
    - destruct reply as [r|]; cbn [answered] in A; [|contradiction]. exists r. split; [exact S|]. rewrite <- TN. exact A.
  Qed.

  (** A whole conversation of steps, slots and insertions is a local history of
      the same calls: what C16-C21 say of a local run holds of the remote one. *)
  Definition sent_powers (c : content) : list (list Q) :=
    match c with (5, n :: ws) => [map decF (firstn (Z.to_nat n) ws)] | _ => [] end.
  Definition inserted (t : list event) : list (list Q) := flat_map (fun e => match e with Inserted vs _ => [vs] | _ => [] end) t.
  (** Every call went well, but the last one perhaps. *)
  Definition all_but_last_well (t : list event) : Prop :=
    exists t1, Forall went_well t1 /\ (t = t1 \/ exists e, t = t1 ++ [e] /\ ~ went_well e).
  Theorem C47_remote_history : forall (st : server M PS) cs st' rs x, talk st cs st' rs x ->
      Forall well_formed cs -> Forall good_content cs -> Forall (fun c => fst c <> RESET_THERMAL_STATE) cs ->
      exists k t, (k <= length cs)%nat /\ history solve plugin d (sv_sim st) t (sv_sim st') /\ inserted t = flat_map sent_powers (firstn k cs) /\
        all_but_last_well t.
  Proof.
    assert (ONE : forall (st : server M PS) c st1 r x, handled encF decF openable readable render solve plugin stack o d st c st1 r x ->
      well_formed c -> good_content c -> fst c <> RESET_THERMAL_STATE ->
      exists t, history solve plugin d (sv_sim st) t (sv_sim st1) /\ inserted t = sent_powers c /\ all_but_last_well t /\ (x = Go_on -> Forall went_well t)).
    { intros st c st1 r x H W G NR.
      assert (STAY : sv_sim st1 = sv_sim st -> sent_powers c = [] -> exists t, history solve plugin d (sv_sim st) t (sv_sim st1) /\ inserted t = sent_powers c /\ all_but_last_well t /\ (x = Go_on -> Forall went_well t)).
      { intros E1 E2. exists []. rewrite E1, E2. split; [constructor|]. split; [reflexivity|]. split; [exists []; auto|constructor]. }
      assert (INS : forall ws rest q pg q' e, c = (INSERT_POWERS, Z.of_nat (length ws) :: ws ++ rest) -> st1 = with_sim st (insert_into (sv_sim st) pg) ->
         queue_of (map decF ws) = Ok q -> insert_power_values (s_pg (sv_sim st)) q = Ok (e, pg, q') -> (x = Go_on -> e = TDICE_SUCCESS) ->
         exists t, history solve plugin d (sv_sim st) t (sv_sim st1) /\ inserted t = sent_powers c /\ all_but_last_well t /\ (x = Go_on -> Forall went_well t)).
      { intros ws rest q pg q' e -> -> QO E EX. destruct (queue_of_spec (map decF ws)) as (q2 & QO2 & QR).
        - inversion W as [? ? I| ws2 rest2 NE E2| | | ]; subst.
          + cbn in I. unfold INSERT_POWERS, EXIT_SIMULATION, RESET_THERMAL_STATE, TOTAL_NUMBER_OF_FLOORPLAN_ELEMENTS, SIMULATE_SLOT, SIMULATE_STEP, SEND_OUTPUT_FILES in I. intuition lia.
          + intro X. destruct ws; [|discriminate]. destruct ws2; [congruence|]. cbn in E2. discriminate E2.
          + unfold INSERT_POWERS in *. lia.
        - destruct G as (_ & _ & GL). cbn [snd length] in GL. rewrite app_length in GL. rewrite map_length. unfold two32. lia.
        - assert (q2 = q) as -> by congruence. exists [Inserted (map decF ws) e]. split; [eapply H_insert; [exact QR|exact E|constructor]|]. split.
          + cbn [inserted flat_map app sent_powers INSERT_POWERS]. rewrite Nat2Z.id, firstn_app, Nat.sub_diag, firstn_all, firstn_O, app_nil_r. reflexivity.
          + split.
            * destruct e; [exists [Inserted (map decF ws) TDICE_SUCCESS]; split; [constructor; [reflexivity|constructor]|left; reflexivity]|].
              exists []. split; [constructor|]. right. eexists. split; [reflexivity|]. cbn. discriminate.
            * intro X. constructor; [cbn; auto|constructor]. }
      assert (step_or : forall t1 res, Forall went_well t1 -> (x = Go_on -> went_well (Stepped res)) ->
        all_but_last_well (t1 ++ [Stepped res]) /\ (x = Go_on -> Forall went_well (t1 ++ [Stepped res]))).
      { intros t1 res F1 F2. split; [|intro X; apply Forall_app; split; [exact F1|constructor; [auto|constructor]]].
        assert (DEC : went_well (Stepped res) \/ ~ went_well (Stepped res)).
        { cbn. destruct res; try (left; auto; fail); right; intros [Y|Y]; discriminate. }
        destruct DEC as [Y|Y]; [exists (t1 ++ [Stepped res]); split; [apply Forall_app; split; [exact F1|constructor; [exact Y|constructor]]|left; reflexivity]|].
        exists t1. split; [exact F1|]. right. eexists. split; [reflexivity|exact Y]. }
      destruct H; try (exfalso; apply NR; reflexivity); try (apply STAY; reflexivity).
      - exact (INS _ _ _ _ _ _ eq_refl eq_refl H H0 (fun _ => eq_refl)).
      - apply (INS _ _ _ _ _ _ eq_refl eq_refl H H0). discriminate.
      - destruct (slot_history solve plugin _ _ _ _ _ H0) as (k1 & HH & _). eexists. split; [exact HH|]. split.
        + unfold inserted. rewrite flat_map_app. cbn [flat_map app]. rewrite app_nil_r. clear. induction k1; [reflexivity|exact IHk1].
        + apply step_or.
          * apply Forall_forall. intros e I. apply repeat_spec in I. subst. cbn. auto.
          * intro X. destruct res; try discriminate; cbn; auto.
      - exists [Stepped res]. split; [eapply H_step; [exact H|constructor]|]. split; [reflexivity|].
        apply (step_or [] res); [constructor|]. intro X. destruct res; try discriminate; cbn; auto.
      - apply STAY; [reflexivity|]. unfold sent_powers. destruct ty as [|[[p|p|]|p|]|p]; try reflexivity; try lia. destruct p; try reflexivity; lia. }
    intros st cs st' rs x H. induction H as [st|st c st1 r cs st2 rs x HD H IH|st c st1 r cs x HD NX]; intros W G NR.
    - exists O, []. split; [cbn; lia|]. split; [constructor|]. split; [reflexivity|]. exists []. auto.
    - inversion W; subst. inversion G; subst. inversion NR; subst.
      destruct (ONE _ _ _ _ _ HD) as (t1 & HH1 & I1 & W1); auto. destruct IH as (k & t & LK & HH2 & I2 & W2); auto.
      exists (S k), (t1 ++ t). split; [cbn [length]; lia|]. split; [eapply history_app; eassumption|]. split.
      + unfold inserted in *. rewrite flat_map_app. cbn [firstn flat_map]. congruence.
      + destruct W1 as (_ & W1). specialize (W1 eq_refl). destruct W2 as (u & U1 & U2). exists (t1 ++ u). split; [apply Forall_app; auto|].
        destruct U2 as [->|(e & -> & U2)]; [left; reflexivity|]. right. exists e. split; [apply app_assoc|exact U2].
    - inversion W; subst. inversion G; subst. inversion NR; subst.
      destruct (ONE _ _ _ _ _ HD) as (t1 & H1' & I1 & W1); auto. exists 1%nat, t1. split; [cbn [length]; lia|]. split; [exact H1'|]. split.
      + cbn [firstn flat_map]. rewrite app_nil_r. exact I1.
      + apply W1.
  Qed.
End C47.
Print Assumptions C47_equals_local_partial.
Print Assumptions C47_total.
Print Assumptions C47_remote_history.

(** C47 is false of a message that claims more values than it carries: the
    words after its end are taken from the rest of the buffer, and the request is
    accepted. *)
Theorem C47_claims_more_refuted : exists c st' r,
    good_content c /\ c = (INSERT_POWERS, [2; 7]) /\ Z.of_nat (length (tl (snd c))) < hd 0 (snd c) /\
    (exists m, make_message message_init (fst c) (snd c) = Ok m /\
       serve sv_enc sv_dec sv_any sv_any sv_render wsolve wplugin [sv_die] sv_out wd sv_start m = Ok (st', Some r, Go_on)) /\
    carries r INSERT_POWERS [0] /\ element_values (sv_sim st') = [Some [sv_dec 7]; Some [sv_dec 0]].
Proof.
  destruct (make_message message_init INSERT_POWERS [2; 7]) as [m| |] eqn:EM; [|vm_compute in EM; discriminate..].
  destruct (serve sv_enc sv_dec sv_any sv_any sv_render wsolve wplugin [sv_die] sv_out wd sv_start m) as [[[st' rr] nx]| |] eqn:ES;
    [|exfalso; assert (m = match make_message message_init INSERT_POWERS [2; 7] with Ok m => m | _ => message_init end) as X by (rewrite EM; reflexivity); subst m; vm_compute in ES; discriminate..].
  pose (X := do m <- make_message message_init INSERT_POWERS [2; 7] ; serve sv_enc sv_dec sv_any sv_any sv_render wsolve wplugin [sv_die] sv_out wd sv_start m).
  assert (EX : X = Ok (st', rr, nx)) by (unfold X; rewrite EM; exact ES).
  assert (E1 : st' = match X with Ok (s, _, _) => s | _ => sv_start end) by (rewrite EX; reflexivity).
  assert (E2 : rr = match X with Ok (_, r, _) => r | _ => None end) by (rewrite EX; reflexivity).
  assert (E3 : nx = match X with Ok (_, _, n) => n | _ => Quit end) by (rewrite EX; reflexivity).
  assert (E4 : nx = Go_on) by (rewrite E3; vm_compute; reflexivity).
  destruct rr as [r|]; [|vm_compute in E2; discriminate].
  exists (INSERT_POWERS, [2; 7]), st', r. split; [unfold good_content; cbn [fst snd length]; split; [cbv; split; [discriminate|reflexivity]|split; [repeat (constructor; [unfold is_word, two32; lia|]); constructor|lia]]|].
  split; [reflexivity|]. split; [cbn; lia|]. split; [exists m; split; [exact EM|]; rewrite ES, E4; reflexivity|].
  destruct (make_message_spec message_init INSERT_POWERS [0] usable_init) as (r2 & ER & CR); [cbv; split; [discriminate|reflexivity]|constructor; [cbv; split; [discriminate|reflexivity]|constructor]|cbn; unfold two32; lia|].
  assert (make_message message_init INSERT_POWERS [0] = Ok r).
  { assert (E5 : Some r = Some (match make_message message_init INSERT_POWERS [0] with Ok m => m | _ => message_init end)) by (rewrite E2; vm_compute; reflexivity).
    rewrite ER in E5 |- *. congruence. }
  assert (r2 = r) as <- by congruence. split; [exact CR|]. rewrite E1. vm_compute. reflexivity.
Qed.
Print Assumptions C47_claims_more_refuted.

Example C47_witness : good_sim wd (sv_sim sv_start) /\ queued (s_pg (sv_sim sv_start)) [[]; []] /\ room 4 [[]; []] /\
    good_content (INSERT_POWERS, [2; 7; 9]) /\ (exists m, make_message message_init INSERT_POWERS [2; 7; 9] = Ok m /\ carries m INSERT_POWERS [2; 7; 9]) /\
    length (elements (s_pg (sv_sim sv_start))) = 2%nat /\
    Forall (fun e => forall x, se_kind e = SKDie x -> f_nelements (die_floorplan x) = Z.of_nat (length (f_elements (die_floorplan x)))) [sv_die] /\
    length (stack_elements [sv_die]) = 2%nat.
Proof.
  assert (G : good_content (INSERT_POWERS, [2; 7; 9])).
  { unfold good_content; cbn [fst snd length]; split; [cbv; split; [discriminate|reflexivity]|split; [repeat (constructor; [unfold is_word, two32; lia|]); constructor|lia]]. }
  split; [apply (sv_ready 1); unfold two32; lia|]. split; [apply wpg_queued; apply q_empty_rep|]. split; [repeat constructor|]. split; [exact G|].
  split; [apply make_message_spec; [exact usable_init|apply G|apply G|cbn; unfold two32; lia]|]. split; [reflexivity|]. split; [|reflexivity].
  constructor; [|constructor]. intros x E. cbn in E. assert (x = mkDie [layer0] 0 (wfloor q_empty q_empty)) as -> by congruence. reflexivity.
Qed.
