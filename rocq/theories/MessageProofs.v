From Coq Require Import ZArith List Bool Lia.
From Verif Require Import Base Message MessageSpec.
Import ListNotations.
Local Open Scope Z_scope.

Lemma usable_init : usable message_init.
Proof.
  split; [reflexivity|]. split; [cbn; unfold MESSAGE_LENGTH, two32; lia|].
  cbn [m_mem message_init]. apply Forall_forall. intros x H. apply repeat_spec in H. subst.
  unfold is_word, two32. lia.
Qed.

Lemma carries_len_le : forall m ty ws, carries m ty ws ->
    (2 + length ws <= length (m_mem m))%nat.
Proof.
  intros m ty ws [_ E]. apply (f_equal (@length _)) in E. rewrite firstn_length in E.
  cbn [length] in E. lia.
Qed.

Lemma carries_split : forall m ty ws, carries m ty ws ->
    exists rest, m_mem m = Z.of_nat (2 + length ws) :: ty :: ws ++ rest.
Proof.
  intros m ty ws [_ E]. exists (skipn (2 + length ws) (m_mem m)).
  rewrite <- (firstn_skipn (2 + length ws) (m_mem m)) at 1. rewrite E. reflexivity.
Qed.

Lemma carries_observe : forall m ty ws, carries m ty ws ->
    message_length m = Ok (Z.of_nat (2 + length ws)) /\
    message_type m = Ok ty /\
    forall i d, (i < length ws)%nat ->
      extract_message_word m (Z.of_nat i) = Ok (Some (nth i ws d)).
Proof.
  intros m ty ws C. pose proof (carries_len_le _ _ _ C) as Hl.
  destruct (carries_split _ _ _ C) as (rest & E).
  destruct C as [[Hmax [Hr Hw]] _].
  unfold message_length, message_type.
  split; [|split].
  - rewrite (arr_get_ok _ _ 0) by lia. rewrite E. reflexivity.
  - rewrite (arr_get_ok _ _ 0) by lia. rewrite E. reflexivity.
  - intros i d Hi. unfold extract_message_word. rewrite u32_id by lia.
    destruct (Z.leb_spec (m_max m - 2) (Z.of_nat i)) as [H|H]; [lia|].
    rewrite (arr_get_ok _ _ d) by lia. rewrite E.
    replace (Z.to_nat (2 + Z.of_nat i)) with (S (S i)) by lia. cbn [nth bind].
    rewrite app_nth1 by exact Hi. reflexivity.
Qed.

Lemma Forall_list_set : forall (P : Z -> Prop) l n x, Forall P l -> P x -> Forall P (list_set l n x).
Proof.
  intros P. induction l as [|h t IH]; intros [|n] x H Hx; cbn; auto; inversion H; subst; constructor; auto.
Qed.

Lemma build_head_spec : forall m ty, usable m -> is_word ty ->
    exists m', build_message_head m ty = Ok m' /\ carries m' ty [].
Proof.
  intros m ty [Hmax [Hr Hw]] Hty. unfold build_message_head.
  rewrite arr_set_ok by lia. cbn [bind].
  rewrite arr_set_ok by (rewrite list_set_length; lia). cbn [bind].
  eexists; split; [reflexivity|].
  destruct (m_mem m) as [|a [|b t]] eqn:E; cbn [length] in *; try lia.
  split; [split; [|split]|]; cbn; auto.
  inversion Hw as [|? ? Ha Hw']; subst. inversion Hw'; subst.
  constructor; [unfold is_word, two32; lia|]. constructor; auto.
Qed.

Lemma list_set_app_at : forall {A} (l r : list A) x y,
    list_set (l ++ x :: r) (length l) y = l ++ y :: r.
Proof. induction l as [|h t IH]; intros; cbn; [reflexivity|]. f_equal. apply IH. Qed.

Lemma insert_word_spec : forall m ty ws w,
    carries m ty ws -> is_word ty -> Forall is_word ws -> is_word w ->
    2 * Z.of_nat (2 + length ws) < two32 ->
    exists m', insert_message_word m w = Ok m' /\ carries m' ty (ws ++ [w]).
Proof.
  intros m ty ws w C Hty Hws Hw Hsmall.
  pose proof (carries_len_le _ _ _ C) as Hl.
  destruct (carries_observe _ _ _ C) as (Hlen & _ & _).
  destruct (carries_split _ _ _ C) as (rest & E).
  destruct C as [[Hmax [Hr HwF]] _].
  unfold insert_message_word. unfold message_length in Hlen. rewrite Hlen. cbn [bind].
  set (L := Z.of_nat (2 + length ws)) in *.
  (* the possibly enlarged buffer *)
  assert (exists m1 x rest1,
             (if L =? m_max m then increase_message_memory m (u32 (2 * m_max m)) else Ok m) = Ok m1
             /\ m_mem m1 = L :: ty :: ws ++ x :: rest1 /\ Forall is_word (x :: rest1)
             /\ m_max m1 = Z.of_nat (length (m_mem m1)) /\ 2 <= m_max m1 < two32)
    as (m1 & x & rest1 & E1 & Em1 & HF1 & Hm1 & Hr1).
  { destruct (Z.eqb_spec L (m_max m)) as [Heq|Hne].
    - assert (rest = []) as ->.
      { apply (f_equal (@length _)) in E. cbn [length] in E. rewrite app_length in E.
        destruct rest; [reflexivity|]. cbn [length] in E. lia. }
      rewrite u32_id by lia. unfold increase_message_memory.
      destruct (Z.ltb_spec (2 * m_max m) (m_max m)); [lia|].
      assert (exists k, Z.to_nat (2 * m_max m - m_max m) = S k) as (k & Hk).
      { exists (Z.to_nat (2 * m_max m - m_max m) - 1)%nat. lia. }
      rewrite Hk, E. eexists _, 0, (repeat 0 k).
      split; [reflexivity|]. cbn [m_mem m_max]. rewrite app_nil_r.
      split; [reflexivity|]. split.
      { apply Forall_forall. intros y Hy. change (0 :: repeat 0 k) with (repeat 0 (S k)) in Hy.
        apply repeat_spec in Hy. subst. unfold is_word, two32. lia. }
      split; [|lia].
      rewrite app_length, repeat_length. rewrite E, app_nil_r in Hmax. cbn [length] in *. lia.
    - destruct rest as [|x rest1].
      { exfalso. apply (f_equal (@length _)) in E. cbn [length] in E. rewrite app_length in E.
        cbn [length] in E. lia. }
      exists m, x, rest1. split; [reflexivity|]. split; [exact E|]. split; [|split; [exact Hmax|lia]].
      rewrite E in HwF. inversion HwF as [|? ? _ H2]; subst. inversion H2 as [|? ? _ H3]; subst.
      apply Forall_app in H3. tauto. }
  rewrite E1. cbn [bind]. clear E1.
  rewrite arr_set_ok by (rewrite Em1; cbn [length]; rewrite app_length; cbn [length]; lia).
  cbn [bind]. rewrite Em1.
  replace (Z.to_nat L) with (length (L :: ty :: ws)) by (cbn [length]; lia).
  change (L :: ty :: ws ++ x :: rest1) with ((L :: ty :: ws) ++ x :: rest1).
  rewrite list_set_app_at. cbn [app].
  rewrite (arr_get_ok _ 0 0) by (cbn [length]; lia). cbn [Z.to_nat nth bind].
  rewrite arr_set_ok by (cbn [length]; lia). cbn [bind Z.to_nat list_set].
  eexists; split; [reflexivity|].
  rewrite Em1 in Hm1. cbn [length] in Hm1. rewrite app_length in Hm1. cbn [length] in Hm1.
  inversion HF1; subst.
  rewrite u32_id by lia.
  split; [split; [|split]|]; cbn [m_mem m_max].
  - cbn [length]. rewrite app_length. cbn [length]. lia.
  - lia.
  - constructor; [unfold is_word; lia|]. constructor; [assumption|].
    apply Forall_app. split; [assumption|]. constructor; assumption.
  - rewrite app_length. cbn [length].
    replace (2 + (length ws + 1))%nat with (S (S (length ws + 1))) by lia.
    cbn [firstn]. rewrite firstn_app_2. cbn [firstn].
    f_equal. lia.
Qed.

Lemma insert_words_spec : forall ws m ty ws0,
    carries m ty ws0 -> is_word ty -> Forall is_word ws0 -> Forall is_word ws ->
    2 * Z.of_nat (2 + length ws0 + length ws) < two32 ->
    exists m', insert_words m ws = Ok m' /\ carries m' ty (ws0 ++ ws).
Proof.
  induction ws as [|w t IH]; intros m ty ws0 C Hty H0 Hws Hs; cbn [insert_words].
  - exists m. rewrite app_nil_r. auto.
  - inversion Hws; subst. cbn [length] in Hs.
    destruct (insert_word_spec m ty ws0 w) as (m1 & E1 & C1); auto; [lia|].
    rewrite E1. cbn [bind].
    destruct (IH m1 ty (ws0 ++ [w])) as (m2 & E2 & C2); auto.
    + apply Forall_app. auto.
    + rewrite app_length. cbn [length]. lia.
    + exists m2. split; [exact E2|]. rewrite <- app_assoc in C2. exact C2.
Qed.

Lemma make_message_spec : forall m0 ty ws,
    usable m0 -> is_word ty -> Forall is_word ws ->
    2 * Z.of_nat (2 + length ws) < two32 ->
    exists m, make_message m0 ty ws = Ok m /\ carries m ty ws.
Proof.
  intros m0 ty ws U Hty Hws Hs. unfold make_message.
  destruct (build_head_spec m0 ty U Hty) as (m1 & E1 & C1). rewrite E1. cbn [bind].
  destruct (insert_words_spec ws m1 ty [] C1 Hty) as (m2 & E2 & C2); auto.
  exists m2. auto.
Qed.

(** extract: what it really checks *)
Lemma extract_spec : forall m i, usable m -> 0 <= i ->
    (extract_message_word m i = Ok None <-> m_max m - 2 <= i) /\
    (i < m_max m - 2 -> exists w, extract_message_word m i = Ok (Some w)).
Proof.
  intros m i [Hmax [Hr Hw]] Hi. unfold extract_message_word. rewrite u32_id by lia.
  destruct (Z.leb_spec (m_max m - 2) i) as [H|H].
  - split; [tauto|lia].
  - rewrite (arr_get_ok _ _ 0) by lia. cbn [bind]. split.
    + split; [discriminate|lia].
    + eauto.
Qed.

(** ** bytes *)
Lemma word_bytes_id : forall w, is_word w ->
    forall t, words_of_bytes (bytes_of_word w ++ t) = w :: words_of_bytes t.
Proof.
  intros w [H0 H1] t. cbn [bytes_of_word app words_of_bytes]. f_equal.
  unfold word_of_bytes, two32 in *.
  assert (w / 65536 = w / 256 / 256) as E2 by (rewrite Z.div_div by lia; reflexivity).
  assert (w / 16777216 = w / 256 / 256 / 256) as E3 by (rewrite !Z.div_div by lia; reflexivity).
  assert (w / 256 / 256 / 256 < 256).
  { rewrite !Z.div_div by lia. apply Z.div_lt_upper_bound; lia. }
  assert (0 <= w / 256 / 256 / 256).
  { rewrite !Z.div_div by lia. apply Z.div_pos; lia. }
  rewrite E2, E3.
  rewrite (Z.mod_small (w / 256 / 256 / 256)) by lia.
  pose proof (Z.div_mod w 256 ltac:(lia)).
  pose proof (Z.div_mod (w/256) 256 ltac:(lia)).
  pose proof (Z.div_mod (w/256/256) 256 ltac:(lia)). lia.
Qed.

Lemma words_bytes_id : forall ws, Forall is_word ws -> words_of_bytes (bytes_of_words ws) = ws.
Proof.
  induction ws as [|w t IH]; intros H; [reflexivity|].
  inversion H; subst. unfold bytes_of_words. cbn [flat_map].
  rewrite word_bytes_id by assumption. f_equal. apply IH. assumption.
Qed.

Lemma bytes_of_words_length : forall ws, length (bytes_of_words ws) = (4 * length ws)%nat.
Proof.
  induction ws as [|w t IH]; [reflexivity|]. unfold bytes_of_words in *. cbn [flat_map].
  rewrite app_length, IH. cbn [length bytes_of_word]. lia.
Qed.

Lemma bytes_of_words_app : forall a b, bytes_of_words (a ++ b) = bytes_of_words a ++ bytes_of_words b.
Proof. intros. unfold bytes_of_words. apply flat_map_app. Qed.

(** ** the loops *)
Lemma send_loop_spec : forall sched buf r out s',
    send_loop sched buf = (r, out, s') ->
    exists used rest, sched = used ++ s' /\ buf = out ++ rest /\
      (r = Some TDICE_SUCCESS -> rest = [] /\ ~ In Failed used) /\
      (r = Some TDICE_FAILURE -> In Failed used) /\
      (r = None -> s' = [] /\ (moves used < length buf)%nat /\ ~ In Failed used).
Proof.
  induction sched as [|e s IH]; intros buf r out s' H.
  - destruct buf as [|b t]; cbn in H; injection H as <- <- <-.
    + exists [], []. repeat split; auto; discriminate.
    + exists [], (b :: t). repeat split; auto; try discriminate. cbn. lia.
  - destruct buf as [|b t].
    + cbn in H; injection H as <- <- <-. exists [], []. repeat split; auto; discriminate.
    + cbn [send_loop] in H. destruct e as [| |k].
      * destruct (IH _ _ _ _ H) as (used & rest & -> & E & H1 & H2 & H3).
        exists (Interrupted :: used), rest. split; [reflexivity|]. split; [exact E|].
        split; [|split].
        -- intros Hr. destruct (H1 Hr). split; auto. intros [?|?]; [discriminate|auto].
        -- intros Hr. right. auto.
        -- intros Hr. destruct (H3 Hr) as (? & ? & ?). split; [assumption|]. split; [cbn; assumption|].
           intros [?|?]; [discriminate|auto].
      * injection H as <- <- <-. exists [Failed], (b :: t). repeat split; try discriminate.
        intros _. left; reflexivity.
      * destruct (send_loop s (skipn k (b :: t))) as [[r0 out0] s0] eqn:E0.
        injection H as <- <- <-.
        destruct (IH _ _ _ _ E0) as (used & rest & -> & E & H1 & H2 & H3).
        exists (Moved k :: used), rest. split; [reflexivity|].
        split; [rewrite <- app_assoc, <- E; symmetry; apply firstn_skipn|].
        split; [|split].
        -- intros Hr. destruct (H1 Hr). split; auto. intros [?|?]; [discriminate|auto].
        -- intros Hr. right. auto.
        -- intros Hr. destruct (H3 Hr) as (? & Hm & ?). split; [assumption|]. split.
           { rewrite skipn_length in Hm. cbn [moves]. destruct k; cbn [length] in *; lia. }
           intros [?|?]; [discriminate|auto].
Qed.

Lemma recv_loop_spec : forall sched n stream r got rest s',
    recv_loop sched n stream = (r, got, rest, s') ->
    exists used, sched = used ++ s' /\ stream = got ++ rest /\ (length got <= n)%nat /\
      (r = Some TDICE_SUCCESS -> length got = n /\ ~ In Failed used) /\
      (r = Some TDICE_FAILURE -> In Failed used \/ (rest = [] /\ (length got < n)%nat)) /\
      (r = None -> s' = [] /\ (length got < n)%nat /\ (reads used <= length got)%nat).
Proof.
  induction sched as [|e s IH]; intros n stream r got rest s' H.
  - destruct n as [|n]; cbn in H; injection H as <- <- <- <-.
    + exists []. repeat split; auto; discriminate.
    + exists []. repeat split; auto; try discriminate; cbn; lia.
  - destruct n as [|n].
    + cbn in H; injection H as <- <- <- <-. exists []. repeat split; auto; discriminate.
    + cbn [recv_loop] in H. destruct e as [| |k].
      * destruct (IH _ _ _ _ _ _ H) as (used & -> & E & Hl & H1 & H2 & H3).
        exists (Interrupted :: used). split; [reflexivity|]. split; [exact E|]. split; [exact Hl|].
        split; [|split].
        -- intros Hr. destruct (H1 Hr). split; auto. intros [?|?]; [discriminate|auto].
        -- intros Hr. destruct (H2 Hr); [left; right; assumption|right; assumption].
        -- intros Hr. destruct (H3 Hr) as (? & ? & ?). auto.
      * injection H as <- <- <- <-. exists [Failed]. repeat split; try discriminate; cbn; auto; lia.
      * destruct stream as [|b t].
        { injection H as <- <- <- <-. exists [Moved k]. repeat split; try discriminate; cbn; auto; try lia.
          intros _. right. split; [reflexivity|lia]. }
        assert (1 <= length (b :: t))%nat as Hst by (cbn [length]; lia).
        cbv zeta in H.
        remember (b :: t) as strm eqn:Estrm.
        remember (Nat.min (Nat.min (S k) (S n)) (length strm)) as c eqn:Ec.
        destruct (recv_loop s (S n - c) (skipn c strm)) as [[[r0 got0] rest0] s0] eqn:E0.
        injection H as <- <- <- <-.
        assert (1 <= c <= S n)%nat as Hc by lia.
        assert (c <= length strm)%nat as Hc2 by lia.
        destruct (IH _ _ _ _ _ _ E0) as (used & -> & E & Hl & H1 & H2 & H3).
        assert (length (firstn c strm ++ got0) = (c + length got0)%nat) as Hlen.
        { rewrite app_length, firstn_length. lia. }
        exists (Moved k :: used). split; [reflexivity|].
        split; [rewrite <- app_assoc, <- E; symmetry; apply firstn_skipn|].
        split; [lia|]. split; [|split].
        -- intros Hr. destruct (H1 Hr). split; [lia|]. intros [?|?]; [discriminate|auto].
        -- intros Hr. destruct (H2 Hr) as [?|[? ?]]; [left; right; assumption|right; split; [assumption|lia]].
        -- intros Hr. destruct (H3 Hr) as (? & ? & ?). split; [assumption|]. split; [lia|].
           cbn [reads]. lia.
Qed.

(** Reading from a stream that holds enough bytes *)
Lemma recv_loop_enough : forall sched n a b r got rest s',
    length a = n ->
    recv_loop sched n (a ++ b) = (r, got, rest, s') ->
    exists used, sched = used ++ s' /\
      ((r = Some TDICE_SUCCESS /\ got = a /\ rest = b /\ ~ In Failed used) \/
       (r = Some TDICE_FAILURE /\ In Failed used) \/
       (r = None /\ s' = [] /\ (reads used < n)%nat)).
Proof.
  intros sched n a b r got rest s' Hn H.
  destruct (recv_loop_spec _ _ _ _ _ _ _ H) as (used & Hs & E & Hl & H1 & H2 & H3).
  exists used. split; [exact Hs|].
  destruct r as [[|]|].
  - left. destruct (H1 eq_refl) as [Hg HF].
    assert (got = a /\ rest = b) as [-> ->].
    {
      assert (firstn n (a ++ b) = a) as Ea by (rewrite <- Hn, firstn_app, Nat.sub_diag, firstn_all; cbn; apply app_nil_r).
      assert (skipn n (a ++ b) = b) as Eb by (rewrite <- Hn, skipn_app, Nat.sub_diag, skipn_all; reflexivity).
      rewrite E in Ea, Eb.
      rewrite <- Hg, firstn_app, Nat.sub_diag, firstn_all in Ea. cbn in Ea. rewrite app_nil_r in Ea.
      rewrite <- Hg, skipn_app, Nat.sub_diag, skipn_all in Eb. cbn in Eb. auto. }
    auto.
  - right. left. split; [reflexivity|]. destruct (H2 eq_refl) as [HF|[-> Hlt]]; [exact HF|].
    exfalso. rewrite app_nil_r in E. apply (f_equal (@length _)) in E. rewrite app_length in E. lia.
  - right. right. destruct (H3 eq_refl) as (? & ? & ?). repeat split; auto. lia.
Qed.

Lemma reads_app : forall a b, reads (a ++ b) = (reads a + reads b)%nat.
Proof. induction a as [|[| |k] t IH]; intros b; cbn; auto; rewrite IH; lia. Qed.

Lemma recv_reads_le : forall u n st r got rest s,
    recv_loop (u ++ s) n st = (r, got, rest, s) -> r = Some TDICE_SUCCESS -> (reads u <= n)%nat.
Proof.
  induction u as [|e u IHu]; intros n st r got rest s H Hr; [cbn; lia|].
  destruct n as [|n].
  - cbn in H. injection H as _ _ _ H. exfalso.
    apply (f_equal (@length _)) in H. cbn in H. rewrite app_length in H. lia.
  - cbn [app recv_loop] in H. destruct e as [| |k].
    + cbn [reads]. eapply IHu; eauto.
    + injection H as <- _ _ _. discriminate.
    + destruct st as [|b tt]; [injection H as <- _ _ _; discriminate|].
      assert (1 <= length (b :: tt))%nat as Hst by (cbn [length]; lia).
      cbv zeta in H.
      remember (b :: tt) as strm eqn:Estrm.
      remember (Nat.min (Nat.min (S k) (S n)) (length strm)) as cc eqn:Ec.
      destruct (recv_loop (u ++ s) (S n - cc) (skipn cc strm)) as [[[r0 got0] rest0] s0] eqn:E0.
      injection H as <- <- <- <-. specialize (IHu _ _ _ _ _ _ E0 Hr).
      cbn [reads]. lia.
Qed.

Lemma store_body_spec : forall a mem tl ws,
    Forall is_word (a :: ws) -> Forall is_word tl ->
    length mem = (length ws + length tl)%nat ->
    skipn (length ws) mem = tl -> is_word a -> 
    store_body (a :: mem) (bytes_of_words ws) = Ok (a :: ws ++ tl).
Proof.
  intros a mem tl ws HF Htl Hl Hs Ha. unfold store_body.
  rewrite !bytes_of_words_length. cbn [length].
  destruct (Nat.leb_spec (4 + 4 * length ws) (4 * S (length mem))) as [H|H]; [|lia].
  f_equal.
  change (bytes_of_words (a :: mem)) with (bytes_of_word a ++ bytes_of_words mem).
  assert (skipn (4 + 4 * length ws) (bytes_of_word a ++ bytes_of_words mem) = bytes_of_words tl) as ->.
  { rewrite <- (firstn_skipn (length ws) mem), Hs.
    rewrite bytes_of_words_app. cbn [bytes_of_word app skipn Nat.add].
    rewrite skipn_app.
    assert (length (bytes_of_words (firstn (length ws) mem)) = (4 * length ws)%nat) as HL.
    { rewrite bytes_of_words_length, firstn_length. lia. }
    rewrite HL, Nat.sub_diag. rewrite <- HL, skipn_all. reflexivity. }
  cbn [bytes_of_word app firstn].
  change (a mod 256 :: (a / 256) mod 256 :: (a / 65536) mod 256 :: (a / 16777216) mod 256 ::
            bytes_of_words ws ++ bytes_of_words tl)
    with (bytes_of_word a ++ (bytes_of_words ws ++ bytes_of_words tl)).
  rewrite word_bytes_id by exact Ha. rewrite <- bytes_of_words_app. rewrite words_bytes_id; [reflexivity|].
  inversion HF; subst. apply Forall_app. auto.
Qed.

Lemma increase_spec : forall m n, usable m -> m_max m < n -> n < two32 ->
    exists m', increase_message_memory m n = Ok m' /\ usable m' /\ m_max m' = n.
Proof.
  intros m n [Hmax [Hr Hw]] H H2. unfold increase_message_memory.
  destruct (Z.ltb_spec n (m_max m)); [lia|]. eexists; split; [reflexivity|].
  split; [|reflexivity]. split; [|split]; cbn [m_mem m_max].
  - rewrite app_length, repeat_length. lia.
  - lia.
  - apply Forall_app. split; [assumption|]. apply Forall_forall. intros x Hx.
    apply repeat_spec in Hx. subst. unfold is_word, two32. lia.
Qed.

(** Receiving a complete message *)
Lemma receive_spec : forall m ty ws tail sched,
    usable m -> is_word ty -> Forall is_word ws -> Z.of_nat (2 + length ws) <= 1073741824 ->
    exists r m' rest used s',
      receive_message m sched (encoding ty ws ++ tail) = Ok (r, m', rest, s') /\
      sched = used ++ s' /\
      ((r = Some TDICE_SUCCESS /\ carries m' ty ws /\ rest = tail /\ ~ In Failed used) \/
       (r = Some TDICE_FAILURE /\ In Failed used) \/
       (r = None /\ s' = [] /\ (reads used < length (encoding ty ws))%nat)).
Proof.
  intros m ty ws tail sched U Hty Hws Hsz.
  set (L := Z.of_nat (2 + length ws)).
  assert (is_word L) as HL by (unfold is_word, two32; lia).
  unfold receive_message, encoding. fold L.
  change (bytes_of_words (L :: ty :: ws)) with (bytes_of_word L ++ bytes_of_words (ty :: ws)).
  rewrite <- app_assoc.
  assert (length (bytes_of_word L ++ bytes_of_words (ty :: ws)) = (4 + 4 * (S (length ws)))%nat) as Henc.
  { rewrite app_length, bytes_of_words_length. reflexivity. }
  rewrite Henc.
  destruct (recv_loop sched 4 (bytes_of_word L ++ bytes_of_words (ty :: ws) ++ tail))
    as [[[r1 got1] rest1] s1] eqn:E1.
  destruct (recv_loop_enough _ 4 (bytes_of_word L) _ _ _ _ _ eq_refl E1) as (u1 & -> & [(-> & -> & -> & HF1)|[(-> & HF1)|(-> & -> & Hr1)]]).
  2:{ eexists _, _, _, _, _. split; [reflexivity|]. split; [reflexivity|]. right; left; auto. }
  2:{ eexists _, _, _, _, _. split; [reflexivity|]. split; [reflexivity|].
      right; right. repeat split; auto. lia. }
  rewrite <- (app_nil_r (bytes_of_word L)), word_bytes_id by exact HL. cbn [words_of_bytes].
  destruct (Z.eqb_spec L 0) as [H0|_]; [lia|].
  assert (exists m1, (if m_max m <? L then increase_message_memory m L else Ok m) = Ok m1
                     /\ usable m1 /\ L <= m_max m1) as (m1 & Em1 & U1 & HLm).
  { destruct (Z.ltb_spec (m_max m) L) as [H|H].
    - destruct (increase_spec m L U H) as (m1 & ? & ? & ?); [destruct HL; assumption|].
      exists m1. repeat split; try apply H1; auto; lia.
    - exists m. repeat split; try apply U; auto. }
  rewrite Em1. cbn [bind]. destruct U1 as [Hmax1 [Hr1 Hw1]].
  rewrite arr_set_ok by lia. cbn [bind]. cbv zeta.
  destruct (m_mem m1) as [|a0 mem1] eqn:Emem; [cbn [length] in *; lia|].
  cbn [Z.to_nat list_set]. cbn [length] in Hmax1.
  rewrite u32_id by (unfold two32; lia).
  replace (Z.to_nat ((L - 1) * 4)) with (length (bytes_of_words (ty :: ws)))
    by (rewrite bytes_of_words_length; cbn [length]; lia).
  destruct (recv_loop s1 _ (bytes_of_words (ty :: ws) ++ tail)) as [[[r2 got2] rest2] s2] eqn:E2.
  pose proof (recv_loop_spec _ _ _ _ _ _ _ E2) as (u2' & _ & _ & Hgl & _).
  destruct (recv_loop_enough _ _ _ _ _ _ _ _ eq_refl E2) as (u2 & -> & Hcase).
  assert (exists mem2, store_body (L :: mem1) got2 = Ok mem2) as (mem2 & Emem2).
  { unfold store_body. rewrite bytes_of_words_length in *. cbn [length] in *.
    destruct (Nat.leb_spec (4 + length got2) (4 * S (length mem1))); [eauto|lia]. }
  rewrite Emem2. cbn [bind].
  exists r2, (mkMsg mem2 (m_max m1)), rest2, (u1 ++ u2), s2.
  split; [reflexivity|]. split; [rewrite app_assoc; reflexivity|].
  destruct Hcase as [(-> & -> & -> & HF2)|[(-> & HF2)|(-> & -> & Hr2)]].
  - left. split; [reflexivity|].
    assert (Forall is_word (ty :: ws)) as Hall by (constructor; assumption).
    inversion Hw1 as [|? ? _ Hw1']; subst.
    rewrite (store_body_spec L mem1 (skipn (length (ty :: ws)) mem1) (ty :: ws)) in Emem2; auto.
    + assert (mem2 = L :: (ty :: ws) ++ skipn (length (ty :: ws)) mem1) as -> by congruence. split.
      * split; [split; [|split]|]; cbn [m_mem m_max].
        -- cbn [length]. rewrite app_length, skipn_length. cbn [length]. lia.
        -- lia.
        -- constructor; [assumption|]. apply Forall_app. split; [assumption|].
           apply Forall_forall. intros x Hx. rewrite Forall_forall in Hw1'. apply Hw1'.
           rewrite <- (firstn_skipn (length (ty :: ws)) mem1). apply in_or_app. right; exact Hx.
        -- replace (2 + length ws)%nat with (length (L :: ty :: ws)) by reflexivity.
           change (L :: (ty :: ws) ++ skipn (length (ty :: ws)) mem1)
             with ((L :: ty :: ws) ++ skipn (length (ty :: ws)) mem1).
           rewrite firstn_app, Nat.sub_diag, firstn_all. cbn [firstn]. rewrite app_nil_r. reflexivity.
      * split; [reflexivity|]. rewrite in_app_iff. tauto.
    + apply Forall_forall. intros x Hx. rewrite Forall_forall in Hw1'. apply Hw1'.
      rewrite <- (firstn_skipn (length (ty :: ws)) mem1). apply in_or_app. right; exact Hx.
    + cbn [length]. rewrite skipn_length. lia.
  - right; left. split; [reflexivity|]. apply in_or_app. auto.
  - right; right. repeat split; auto. rewrite reads_app.
    pose proof (recv_loop_spec _ _ _ _ _ _ _ E1) as (u1' & Hu1 & _ & Hgl1 & _).
    apply app_inv_tail in Hu1. subst u1'.
    rewrite bytes_of_words_length in Hr2. cbn [length] in Hr2.
    (* reads used by a completed loop never exceed the bytes it got *)
    enough (reads u1 <= 4)%nat by lia.
    clear - E1. exact (recv_reads_le _ _ _ _ _ _ _ E1 eq_refl).
Qed.

(** ** C09 *)
Lemma send_message_spec : forall m ty ws sched,
    carries m ty ws ->
    exists r out used s', send_message m sched = Ok (r, out, s') /\ sched = used ++ s' /\
      ((r = Some TDICE_SUCCESS /\ out = encoding ty ws /\ ~ In Failed used) \/
       (r = Some TDICE_FAILURE /\ In Failed used) \/
       (r = None /\ s' = [] /\ (moves used < length (encoding ty ws))%nat /\ ~ In Failed used)).
Proof.
  intros m ty ws sched C. pose proof (carries_len_le _ _ _ C) as Hl.
  destruct (carries_observe _ _ _ C) as (Hlen & _ & _).
  destruct C as [[Hmax [Hr HwF]] E].
  unfold send_message. rewrite Hlen. cbn [bind].
  destruct (Z.ltb_spec (m_max m) (Z.of_nat (2 + length ws))); [lia|].
  replace (Z.to_nat (Z.of_nat (2 + length ws))) with (2 + length ws)%nat by lia.
  rewrite E. fold (encoding ty ws).
  destruct (send_loop sched (encoding ty ws)) as [[r out] s'] eqn:Es.
  destruct (send_loop_spec _ _ _ _ _ Es) as (used & rest & Hs & Hb & H1 & H2 & H3).
  exists r, out, used, s'. split; [reflexivity|]. split; [exact Hs|].
  destruct r as [[|]|].
  - left. destruct (H1 eq_refl) as [-> HF]. rewrite app_nil_r in Hb. auto.
  - right; left. auto.
  - right; right. destruct (H3 eq_refl) as (? & ? & ?). auto.
Qed.

Lemma moves_app : forall a b, moves (a ++ b) = (moves a + moves b)%nat.
Proof. induction a as [|[| |[|k]] t IH]; intros b; cbn; auto. Qed.

Lemma send_all_spec : forall ms cs sched,
    Forall2 carries_c ms cs ->
    exists r out s', send_all ms sched = Ok (r, out, s') /\
      (r = Some TDICE_SUCCESS -> out = encodings cs) /\
      (~ In Failed sched -> r <> Some TDICE_FAILURE).
Proof.
  induction ms as [|m t IH]; intros cs sched H; inversion H; subst; cbn [send_all].
  - eexists _, _, _. split; [reflexivity|]. split; [reflexivity|discriminate].
  - destruct (send_message_spec m (fst y) (snd y) sched) as (r & out & used & s1 & E1 & Hs & Hc); [assumption|].
    rewrite E1. cbn [bind].
    destruct Hc as [(-> & -> & HF)|[(-> & HF)|(-> & -> & _ & HF)]].
    + destruct (IH l' s1) as (r2 & out2 & s2 & E2 & K1 & K2); [assumption|].
      rewrite E2. cbn [bind]. eexists _, _, _. split; [reflexivity|]. split.
      * intros Hr. rewrite (K1 Hr). reflexivity.
      * intros Hn. apply K2. intros Hin. apply Hn. rewrite Hs. apply in_or_app. auto.
    + eexists _, _, _. split; [reflexivity|]. split; [discriminate|].
      intros Hn. exfalso. apply Hn. rewrite Hs. apply in_or_app. auto.
    + eexists _, _, _. split; [reflexivity|]. split; [discriminate|]. discriminate.
Qed.

(** bound on the number of data-moving system calls a completed send uses *)
Lemma send_loop_progress : forall sched buf,
    ~ In Failed sched -> (length buf <= moves sched)%nat ->
    exists s', send_loop sched buf = (Some TDICE_SUCCESS, buf, s') /\
      (moves sched <= moves s' + length buf)%nat /\ ~ In Failed s'.
Proof.
  induction sched as [|e s IH]; intros buf HF Hm.
  - destruct buf; cbn in *; [|lia]. exists []. auto.
  - destruct buf as [|b t].
    + exists (e :: s). cbn [send_loop length]. split; [reflexivity|]. split; [lia|exact HF].
    + assert (~ In Failed s) as HF' by (intros H; apply HF; right; exact H).
      destruct e as [| |k].
      * destruct (IH (b :: t) HF' Hm) as (s' & E & H1 & H2).
        exists s'. cbn [send_loop]. auto.
      * exfalso. apply HF. left. reflexivity.
      * cbn [send_loop]. destruct k as [|k].
        -- cbn [skipn moves] in *. destruct (IH (b :: t) HF' Hm) as (s' & E & H1 & H2).
           rewrite E. exists s'. split; [reflexivity|]. auto.
        -- cbn [skipn moves length] in *.
           destruct (IH (skipn k t) HF') as (s' & E & H1 & H2).
           { rewrite skipn_length. lia. }
           rewrite E. exists s'. split.
           { cbn [firstn app]. rewrite firstn_skipn. reflexivity. }
           rewrite skipn_length in H1. split; [lia|exact H2].
Qed.

Lemma send_all_progress : forall ms cs sched,
    Forall2 carries_c ms cs -> ~ In Failed sched ->
    (length (encodings cs) <= moves sched)%nat ->
    exists s', send_all ms sched = Ok (Some TDICE_SUCCESS, encodings cs, s').
Proof.
  induction ms as [|m t IH]; intros cs sched H HF Hm; inversion H; subst; cbn [send_all].
  - eexists. reflexivity.
  - cbn [encodings flat_map] in Hm. fold (encodings l') in Hm. rewrite app_length in Hm.
    assert (carries m (fst y) (snd y)) as C by assumption.
    pose proof (carries_len_le _ _ _ C) as Hl.
    destruct (carries_observe _ _ _ C) as (Hlen & _ & _).
    destruct C as [[Hmax [Hr HwF]] E].
    destruct (send_loop_progress sched (encoding (fst y) (snd y)) HF) as (s1 & E1 & H1 & HF1); [lia|].
    assert (send_message m sched = Ok (Some TDICE_SUCCESS, encoding (fst y) (snd y), s1)) as ->.
    { unfold send_message. rewrite Hlen. cbn [bind].
      destruct (Z.ltb_spec (m_max m) (Z.of_nat (2 + length (snd y)))); [lia|].
      replace (Z.to_nat (Z.of_nat (2 + length (snd y)))) with (2 + length (snd y))%nat by lia.
      rewrite E. fold (encoding (fst y) (snd y)). rewrite E1. reflexivity. }
    cbn [bind]. destruct (IH l' s1) as (s2 & E2); auto; [lia|].
    rewrite E2. cbn [bind]. exists s2. reflexivity.
Qed.

Lemma receive_all_spec : forall cs tail sched,
    Forall good_content cs ->
    exists r ms rest used s',
      receive_all (length cs) sched (encodings cs ++ tail) = Ok (r, ms, rest, s') /\
      sched = used ++ s' /\
      ((r = Some TDICE_SUCCESS /\ Forall2 carries_c ms cs /\ rest = tail) \/
       (r = Some TDICE_FAILURE /\ In Failed used) \/
       (r = None /\ s' = [] /\ (reads used < length (encodings cs))%nat)).
Proof.
  induction cs as [|c t IH]; intros tail sched HG; cbn [receive_all length].
  - eexists _, _, _, [], _. split; [reflexivity|]. split; [reflexivity|]. left. auto.
  - inversion HG as [|? ? (Hty & Hws & Hsz) HG']; subst.
    cbn [encodings flat_map]. fold (encodings t). rewrite <- app_assoc.
    destruct (receive_spec message_init (fst c) (snd c) (encodings t ++ tail) sched usable_init Hty Hws Hsz)
      as (r1 & m1 & rest1 & u1 & s1 & E1 & -> & Hc).
    rewrite E1. cbn [bind].
    destruct Hc as [(-> & C1 & -> & HF1)|[(-> & HF1)|(-> & -> & Hr1)]].
    + destruct (IH tail s1 HG') as (r2 & ms2 & rest2 & u2 & s2 & E2 & -> & Hc2).
      rewrite E2. cbn [bind]. exists r2, (m1 :: ms2), rest2, (u1 ++ u2), s2.
      split; [reflexivity|]. split; [rewrite app_assoc; reflexivity|].
      destruct Hc2 as [(-> & F2 & ->)|[(-> & HF2)|(-> & -> & Hr2)]].
      * left. repeat split; auto.
      * right; left. split; [reflexivity|]. apply in_or_app; auto.
      * right; right. repeat split; auto. rewrite reads_app, app_length.
        (* a completed receive uses at most as many reads as bytes *)
        enough (reads u1 <= length (encoding (fst c) (snd c)))%nat by lia.
        rewrite app_nil_r in E1. clear - E1 Hty Hws Hsz. revert E1.
        generalize (encodings t ++ tail) as tl. intros tl E1.
        pose proof recv_reads_le as G.
        unfold receive_message in E1.
        destruct (recv_loop (u1 ++ u2) 4 (encoding (fst c) (snd c) ++ tl)) as [[[ra ga] resta] sa] eqn:Ea.
        pose proof (recv_loop_spec _ _ _ _ _ _ _ Ea) as (ua & Hua & _ & _).
        destruct ra as [[|]|]; try discriminate.
        rewrite Hua in Ea. pose proof (G _ _ _ _ _ _ _ Ea eq_refl) as Ga. rewrite <- Hua in Ea.
        unfold encoding in Ea.
        change (bytes_of_words (Z.of_nat (2 + length (snd c)) :: fst c :: snd c))
          with (bytes_of_word (Z.of_nat (2 + length (snd c))) ++ bytes_of_words (fst c :: snd c)) in Ea.
        rewrite <- app_assoc in Ea.
        destruct (recv_loop_enough _ 4 (bytes_of_word (Z.of_nat (2 + length (snd c)))) _ _ _ _ _ eq_refl Ea) as (ua' & _ & [(_ & -> & -> & _)|[(Hx & _)|(Hx & _)]]);
          try discriminate.
        rewrite <- (app_nil_r (bytes_of_word (Z.of_nat (2 + length (snd c))))) in E1.
        rewrite word_bytes_id in E1 by (unfold is_word, two32; lia).
        cbn [words_of_bytes] in E1.
        destruct (Z.eqb_spec (Z.of_nat (2 + length (snd c))) 0); [lia|].
        destruct (if m_max message_init <? Z.of_nat (2 + length (snd c)) then _ else _) as [mm| |];
          cbn [bind] in E1; try discriminate.
        destruct (arr_set (m_mem mm) 0 _) as [mem1| |]; cbn [bind] in E1; try discriminate.
        cbv zeta in E1. rewrite u32_id in E1 by (unfold two32; lia).
        destruct (recv_loop sa _ _) as [[[rb gb] restb] sb] eqn:Eb.
        destruct (store_body mem1 gb); cbn [bind] in E1; try discriminate.
        injection E1 as -> _ _ ->.
        pose proof (recv_loop_spec _ _ _ _ _ _ _ Eb) as (ub & Hub & _ & _).
        rewrite Hub in Eb. pose proof (G _ _ _ _ _ _ _ Eb eq_refl) as Gb.
        rewrite Hub in Hua. rewrite app_assoc in Hua. apply app_inv_tail in Hua. subst u1.
        rewrite reads_app. unfold encoding. rewrite bytes_of_words_length. cbn [length]. lia.
    + eexists _, _, _, u1, _. split; [reflexivity|]. split; [reflexivity|]. right; left; auto.
    + eexists _, _, _, u1, _. split; [reflexivity|]. split; [reflexivity|].
      right; right. repeat split; auto. rewrite app_length. lia.
Qed.

(** The whole exchange: whatever the kernel does with the writes and reads. *)
Lemma exchange_spec : forall ms cs wsched rsched r out s,
    Forall2 carries_c ms cs -> Forall good_content cs ->
    send_all ms wsched = Ok (r, out, s) -> r = Some TDICE_SUCCESS ->
    exists r' ms' rest s', receive_all (length cs) rsched out = Ok (r', ms', rest, s') /\
      (r' = Some TDICE_SUCCESS -> Forall2 carries_c ms' cs /\ rest = []) /\
      (~ In Failed rsched -> r' <> Some TDICE_FAILURE) /\
      (~ In Failed rsched -> (length out <= reads rsched)%nat -> r' = Some TDICE_SUCCESS).
Proof.
  intros ms cs wsched rsched r out s HC HG HS ->.
  destruct (send_all_spec ms cs wsched HC) as (r0 & out0 & s0 & E0 & H1 & H2).
  rewrite HS in E0. injection E0 as <- <- <-. specialize (H1 eq_refl). subst out.
  destruct (receive_all_spec cs [] rsched HG) as (r' & ms' & rest & used & s' & E & Hs & Hc).
  rewrite app_nil_r in E. exists r', ms', rest, s'. split; [exact E|].
  destruct Hc as [(-> & F & ->)|[(-> & HF)|(-> & -> & Hr)]].
  - repeat split; auto; discriminate.
  - split; [discriminate|]. assert (In Failed rsched) by (rewrite Hs; apply in_or_app; auto). tauto.
  - split; [discriminate|]. split; [discriminate|]. intros _ Hle. rewrite Hs, app_nil_r in Hle. lia.
Qed.

(** ** C10 *)
Lemma receive_success_clean : forall m sched stream m' rest s',
    receive_message m sched stream = Ok (Some TDICE_SUCCESS, m', rest, s') ->
    exists used, sched = used ++ s' /\ ~ In Failed used.
Proof.
  intros m sched stream m' rest s' H. unfold receive_message in H.
  destruct (recv_loop sched 4 stream) as [[[ra ga] resta] sa] eqn:Ea.
  destruct (recv_loop_spec _ _ _ _ _ _ _ Ea) as (ua & Hua & _ & _ & H1 & _).
  destruct ra as [[|]|]; try (injection H; discriminate).
  destruct (H1 eq_refl) as [_ HF1].
  destruct (words_of_bytes ga) as [|len [|? ?]]; try discriminate.
  destruct (len =? 0); [discriminate|].
  destruct (if m_max m <? len then _ else _) as [mm| |]; cbn [bind] in H; try discriminate.
  destruct (arr_set (m_mem mm) 0 _) as [mem1| |]; cbn [bind] in H; try discriminate.
  cbv zeta in H. destruct (recv_loop sa _ _) as [[[rb gb] restb] sb] eqn:Eb.
  destruct (recv_loop_spec _ _ _ _ _ _ _ Eb) as (ub & Hub & _ & _ & H2 & _).
  destruct (store_body mem1 gb); cbn [bind] in H; try discriminate.
  injection H as -> _ _ ->. destruct (H2 eq_refl) as [_ HF2].
  exists (ua ++ ub). subst sa. rewrite Hua, app_assoc. split; [reflexivity|].
  rewrite in_app_iff. tauto.
Qed.

Lemma prefix_cut : forall {A} (a b x y : list A),
    a ++ b = x ++ y -> (length a <= length x)%nat -> exists z, x = a ++ z /\ b = z ++ y.
Proof.
  induction a as [|h t IH]; intros b x y E H; cbn in *.
  - exists x. auto.
  - destruct x as [|h' x']; cbn in *; [lia|]. injection E as -> E.
    destruct (IH b x' y E) as (z & -> & ->); [lia|]. exists z. auto.
Qed.

Lemma receive_truncated : forall m ty ws sched stream missing,
    usable m -> is_word ty -> Forall is_word ws -> Z.of_nat (2 + length ws) <= 1073741824 ->
    encoding ty ws = stream ++ missing -> missing <> [] ->
    exists r m' rest s', receive_message m sched stream = Ok (r, m', rest, s') /\
      r <> Some TDICE_SUCCESS /\
      ((length stream < reads sched)%nat -> r = Some TDICE_FAILURE).
Proof.
  intros m ty ws sched stream missing U Hty Hws Hsz Henc Hmiss.
  set (L := Z.of_nat (2 + length ws)) in *.
  assert (is_word L) as HL by (unfold is_word, two32; lia).
  unfold receive_message.
  destruct (recv_loop sched 4 stream) as [[[r1 got1] rest1] s1] eqn:E1.
  destruct (recv_loop_spec _ _ _ _ _ _ _ E1) as (u1 & Hs1 & Hst & Hl1 & HA & HB & HC).
  destruct r1 as [[|]|].
  2:{ eexists _, _, _, _. split; [reflexivity|]. split; [discriminate|]. reflexivity. }
  2:{ eexists _, _, _, _. split; [reflexivity|]. split; [discriminate|].
      destruct (HC eq_refl) as (-> & ? & ?). rewrite app_nil_r in Hs1. subst u1 stream.
      rewrite app_length. intros. lia. }
  destruct (HA eq_refl) as [Hg HF1].
  unfold encoding in Henc. fold L in Henc.
  change (bytes_of_words (L :: ty :: ws)) with (bytes_of_word L ++ bytes_of_words (ty :: ws)) in Henc.
  destruct (prefix_cut _ _ _ _ Henc) as (st2 & Est & Hbody).
  { subst stream. rewrite app_length, Hg. cbn. lia. }
  assert (got1 = bytes_of_word L /\ rest1 = st2) as [-> ->].
  { rewrite Est in E1. 
    destruct (recv_loop_enough _ 4 (bytes_of_word L) _ _ _ _ _ eq_refl E1) as (? & _ & [(_ & -> & -> & _)|[(Hx & _)|(Hx & _)]]);
      try discriminate. auto. }
  rewrite <- (app_nil_r (bytes_of_word L)), word_bytes_id by exact HL. cbn [words_of_bytes].
  destruct (Z.eqb_spec L 0) as [H0|_]; [lia|].
  assert (exists m1, (if m_max m <? L then increase_message_memory m L else Ok m) = Ok m1
                     /\ usable m1 /\ L <= m_max m1) as (m1 & Em1 & U1 & HLm).
  { destruct (Z.ltb_spec (m_max m) L) as [H|H].
    - destruct (increase_spec m L U H) as (m1 & ? & ? & ?); [destruct HL; assumption|].
      exists m1. repeat split; try apply H1; auto; lia.
    - exists m. repeat split; try apply U; auto. }
  rewrite Em1. cbn [bind]. destruct U1 as [Hmax1 [Hr1 Hw1]].
  rewrite arr_set_ok by lia. cbn [bind]. cbv zeta.
  destruct (m_mem m1) as [|a0 mem1] eqn:Emem; [cbn [length] in *; lia|].
  cbn [Z.to_nat list_set]. cbn [length] in Hmax1.
  rewrite u32_id by (unfold two32; lia).
  assert (length (bytes_of_words (ty :: ws)) = Z.to_nat ((L - 1) * 4)) as Hblen
    by (rewrite bytes_of_words_length; cbn [length]; lia).
  destruct (recv_loop s1 _ st2) as [[[r2 got2] rest2] s2] eqn:E2.
  destruct (recv_loop_spec _ _ _ _ _ _ _ E2) as (u2 & Hs2 & Hst2 & Hl2 & HA2 & HB2 & HC2).
  assert (exists mem2, store_body (L :: mem1) got2 = Ok mem2) as (mem2 & Emem2).
  { unfold store_body. rewrite bytes_of_words_length in *. cbn [length] in *.
    destruct (Nat.leb_spec (4 + length got2) (4 * S (length mem1))); [eauto|lia]. }
  rewrite Emem2. cbn [bind]. eexists _, _, _, _. split; [reflexivity|].
  assert (length missing <> 0)%nat by (destruct missing; [congruence|cbn; lia]).
  split.
  - intros ->. destruct (HA2 eq_refl) as [Hlen2 _].
    rewrite Hbody, app_length in Hblen. rewrite Hst2, app_length in Hblen. lia.
  - intros Hreads. destruct r2 as [[|]|]; [|reflexivity|].
    + exfalso. destruct (HA2 eq_refl) as [Hlen2 _].
      rewrite Hbody, app_length in Hblen. rewrite Hst2, app_length in Hblen. lia.
    + exfalso. destruct (HC2 eq_refl) as (-> & ? & Hrd). rewrite app_nil_r in Hs2. subst s1.
      rewrite Hs1, reads_app in Hreads. subst stream.
      rewrite app_length in Hreads.
      assert (length st2 = length got2 + length rest2)%nat by (rewrite Hst2, app_length; reflexivity).
      assert (reads u1 <= 4)%nat; [|cbn [length bytes_of_word] in Hreads; lia].
      rewrite Hs1 in E1. exact (recv_reads_le _ _ _ _ _ _ _ E1 eq_refl).
Qed.

(** ** Messages announcing more than 2^30 words: the byte count wraps *)
Lemma receive_huge : forall m, usable m -> m_max m <= 1073741825 ->
    exists m', receive_message m [Moved 3] (bytes_of_word 1073741825)
               = Ok (Some TDICE_SUCCESS, m', [], []).
Proof.
  intros m U Hm. unfold receive_message. cbn [bytes_of_word recv_loop Nat.min length Nat.sub].
  replace (words_of_bytes _) with [1073741825] by reflexivity.
  replace (1073741825 =? 0) with false by reflexivity.
  assert (exists m1, (if m_max m <? 1073741825 then increase_message_memory m 1073741825 else Ok m) = Ok m1
                     /\ usable m1) as (m1 & -> & U1).
  { destruct (Z.ltb_spec (m_max m) 1073741825) as [H|H].
    - destruct (increase_spec m 1073741825 U H) as (m1 & ? & ? & ?); [unfold two32; lia|]. eauto.
    - eauto. }
  cbn [bind]. destruct U1 as [Hmax1 [Hr1 Hw1]].
  rewrite arr_set_ok by lia. cbn [bind]. cbv zeta.
  replace (Z.to_nat (u32 ((1073741825 - 1) * 4))) with 0%nat by reflexivity.
  cbn [recv_loop]. unfold store_body. cbn [length].
  rewrite bytes_of_words_length, list_set_length.
  destruct (Nat.leb_spec (4 + 0) (4 * length (m_mem m1))) as [_|H]; [|lia].
  cbn [bind]. eauto.
Qed.
