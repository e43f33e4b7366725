(** * Properties C07-C10: network messages and their transport *)
From Coq Require Import ZArith List Lia.
From Verif Require Import Base Message MessageSpec MessageProofs.
Import ListNotations.
Local Open Scope Z_scope.

(** C07: build a head and insert any number of words, starting from any usable
    buffer (fresh or reused). *)
Theorem C07_message_construction : forall m0 type ws,
    usable m0 -> is_word type -> Forall is_word ws ->
    2 * Z.of_nat (2 + length ws) < two32 ->
    exists m, make_message m0 type ws = Ok m /\
      message_length m = Ok (Z.of_nat (2 + length ws)) /\
      message_type m = Ok type /\
      (forall i d, (i < length ws)%nat ->
         extract_message_word m (Z.of_nat i) = Ok (Some (nth i ws d))) /\
      usable m.
Proof.
  intros m0 type ws U Ht Hw Hs.
  destruct (make_message_spec m0 type ws U Ht Hw Hs) as (m & E & C).
  destruct (carries_observe _ _ _ C) as (H1 & H2 & H3).
  exists m. repeat split; auto; apply C.
Qed.
Print Assumptions C07_message_construction.

Example C07_applies : usable message_init /\ is_word 5 /\ Forall is_word (repeat 7 (Z.to_nat 300)).
Proof.
  split; [exact usable_init|]. split; [unfold is_word, two32; lia|].
  apply Forall_forall. intros x H. apply repeat_spec in H. subst. unfold is_word, two32. lia.
Qed.

(** C08 is false: the check is against the capacity of the buffer, not against
    the length of the message. *)
Theorem C08_extract_past_end_refuted : exists m type ws i,
    make_message message_init type ws = Ok m /\
    Z.of_nat (length ws) <= i /\
    extract_message_word m i = Ok (Some 0).
Proof.
  destruct (make_message message_init 5 [11; 12]) as [m| |] eqn:E; [|vm_compute in E; discriminate..].
  exists m, 5, [11; 12], 2. split; [exact E|]. split; [cbn; lia|].
  vm_compute in E. injection E as <-. reflexivity.
Qed.
Print Assumptions C08_extract_past_end_refuted.

(** What holds instead: extraction fails exactly past the capacity of the
    buffer, and never reads outside it. *)
Theorem C08_extract_bounded_partial : forall m i,
    usable m -> 0 <= i ->
    (extract_message_word m i = Ok None <-> m_max m - 2 <= i) /\
    (i < m_max m - 2 -> exists w, extract_message_word m i = Ok (Some w)).
Proof. exact extract_spec. Qed.
Print Assumptions C08_extract_bounded_partial.

(** C09: sender and receiver with arbitrary system-call behaviour on both
    sides; [cs] are the contents of the messages in the order sent. *)
Theorem C09_fragmentation : forall ms cs wsched rsched out s,
    Forall2 carries_c ms cs -> Forall good_content cs ->
    send_all ms wsched = Ok (Some TDICE_SUCCESS, out, s) ->
    exists r' ms' rest s', receive_all (length cs) rsched out = Ok (r', ms', rest, s') /\
      (r' = Some TDICE_SUCCESS -> Forall2 carries_c ms' cs /\ rest = []) /\
      (~ In Failed rsched -> r' <> Some TDICE_FAILURE) /\
      (~ In Failed rsched -> (length out <= reads rsched)%nat -> r' = Some TDICE_SUCCESS).
Proof. intros ms cs wsched rsched out s H1 H2 H3. exact (exchange_spec ms cs wsched rsched _ out s H1 H2 H3 eq_refl). Qed.
Print Assumptions C09_fragmentation.

(** Sending succeeds once enough write calls have moved data, whatever the
    fragmentation and the number of interruptions. *)
Theorem C09_send_completes : forall ms cs sched,
    Forall2 carries_c ms cs -> ~ In Failed sched ->
    (length (encodings cs) <= moves sched)%nat ->
    exists s', send_all ms sched = Ok (Some TDICE_SUCCESS, encodings cs, s').
Proof. exact send_all_progress. Qed.
Print Assumptions C09_send_completes.

(** C10: the stream stops inside a message. *)
Theorem C10_truncated_stream : forall m type ws sched stream missing,
    usable m -> is_word type -> Forall is_word ws -> Z.of_nat (2 + length ws) <= 1073741824 ->
    encoding type ws = stream ++ missing -> missing <> [] ->
    exists r m' rest s', receive_message m sched stream = Ok (r, m', rest, s') /\
      r <> Some TDICE_SUCCESS /\
      ((length stream < reads sched)%nat -> r = Some TDICE_FAILURE).
Proof. exact receive_truncated. Qed.
Print Assumptions C10_truncated_stream.

(** C10: no failed system call (other than EINTR) is hidden by a success. *)
Theorem C10_errors_not_hidden : forall m sched stream m' rest s',
    receive_message m sched stream = Ok (Some TDICE_SUCCESS, m', rest, s') ->
    exists used, sched = used ++ s' /\ ~ In Failed used.
Proof. exact receive_success_clean. Qed.
Print Assumptions C10_errors_not_hidden.

(** The bound of 2^30 words is necessary: a length word of 2^30+1 is accepted
    as a complete message although the stream ends right after it. *)
Theorem C10_huge_length_refuted : exists m', 
    receive_message message_init [Moved 3] (bytes_of_word 1073741825)
    = Ok (Some TDICE_SUCCESS, m', [], []).
Proof. apply receive_huge; [exact usable_init|cbn; unfold MESSAGE_LENGTH; lia]. Qed.
Print Assumptions C10_huge_length_refuted.

(** Witnesses: two messages sent with awkward fragmentation. *)
Definition demo_contents : list content := [(5, [3; 1065353216; 4294967295]); (6, [])].
Example C09_hypotheses : exists ms, Forall2 carries_c ms demo_contents /\ Forall good_content demo_contents.
Proof.
  destruct (make_message_spec message_init 5 [3; 1065353216; 4294967295] usable_init) as (m1 & _ & C1);
    [unfold is_word, two32; lia|repeat constructor; unfold is_word, two32; lia|vm_compute; reflexivity|].
  destruct (make_message_spec message_init 6 [] usable_init) as (m2 & _ & C2);
    [unfold is_word, two32; lia|constructor|vm_compute; reflexivity|].
  exists [m1; m2]. split.
  - constructor; [exact C1|]. constructor; [exact C2|constructor].
  - repeat constructor; cbn; try (unfold is_word, two32; lia); repeat constructor; unfold is_word, two32; lia.
Qed.
Example C10_hypotheses : exists stream missing,
    encoding 5 [7; 8] = stream ++ missing /\ missing <> [] /\ length stream = 9%nat.
Proof. exists (firstn 9 (encoding 5 [7; 8])), (skipn 9 (encoding 5 [7; 8])).
  split; [symmetry; apply firstn_skipn|]. split; [discriminate|reflexivity]. Qed.
