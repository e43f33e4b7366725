(** * Receiving and sending in the server loop *)
From Coq Require Import ZArith List Bool QArith Lia.
From Verif Require Import Base Message MessageSpec MessageProofs.
Import ListNotations.
Local Open Scope Z_scope.

Lemma bind_ok : forall {A B} (m : outcome A) (f : A -> outcome B) y, bind m f = Ok y -> exists x, m = Ok x /\ f x = Ok y.
Proof. intros A B m f y H. destruct m; cbn in H; try discriminate. eauto. Qed.

(** A read loop uses at most one read per byte, plus the one that fails. *)
Lemma recv_loop_reads : forall sched n stream r got rest s',
    recv_loop sched n stream = (r, got, rest, s') ->
    exists used, sched = used ++ s' /\ stream = got ++ rest /\ (length got <= n)%nat /\
      (reads used <= length got + match r with Some TDICE_FAILURE => 1 | _ => 0 end)%nat /\
      (r = Some TDICE_SUCCESS -> length got = n) /\ (r = None -> s' = []) /\ (incl used sched) /\
      (r = Some TDICE_FAILURE -> In Failed used \/ rest = []).
Proof.
  induction sched as [|e s IH]; intros n stream r got rest s' E; destruct n as [|n]; cbn [recv_loop] in E.
  - injection E as <- <- <- <-. exists []. cbn. repeat split; auto; try lia; try discriminate. intros x [].
  - injection E as <- <- <- <-. exists []. cbn. repeat split; auto; try lia; try discriminate. intros x [].
  - injection E as <- <- <- <-. exists []. cbn. repeat split; auto; try lia; try discriminate. intros x [].
  - destruct e as [| |k].
    + destruct (IH _ _ _ _ _ _ E) as (u & -> & S1 & L1 & R1 & F1 & N1 & I1 & X1). exists (Interrupted :: u). cbn [app reads].
      repeat split; auto. { intros x [Y|Y]; [left; auto|right; auto]. } { intro Y. destruct (X1 Y); [left; right; auto|right; auto]. }
    + injection E as <- <- <- <-. exists [Failed]. cbn. repeat split; auto; try lia; try discriminate.
      intros x [Y|[]]; left; auto.
    + destruct stream as [|b t].
      { injection E as <- <- <- <-. exists [Moved k]. cbn. repeat split; auto; try lia; try discriminate.
        intros x [Y|[]]; left; auto. }
      remember (b :: t) as stream eqn:HS. assert (PS : (1 <= length stream)%nat) by (subst stream; cbn; lia). clear HS.
      remember (Nat.min (Nat.min (S k) (S n)) (length stream)) as c eqn:HC.
      destruct (recv_loop s (S n - c) (skipn c stream)) as [[[r1 g1] t1] s1] eqn:E1.
      assert (r = r1) as -> by congruence. assert (got = firstn c stream ++ g1) as -> by congruence.
      assert (rest = t1) as -> by congruence. assert (s' = s1) as -> by congruence. clear E.
      destruct (IH _ _ _ _ _ _ E1) as (u & -> & S1 & L1 & R1 & F1 & N1 & I1 & X1).
      assert (C1 : (1 <= c <= S n)%nat /\ (c <= length stream)%nat) by lia.
      exists (Moved k :: u). cbn [app reads]. rewrite app_length, firstn_length.
      split; [reflexivity|]. split; [rewrite <- app_assoc, <- S1; symmetry; apply firstn_skipn|].
      split; [lia|]. split; [lia|]. split; [intro Y; apply F1 in Y; lia|]. split; [exact N1|].
      split; [intros x [Y|Y]; [left; auto|right; auto]|]. intro Y. destruct (X1 Y); [left; right; auto|right; auto].
Qed.

(** The same for a whole message. *)
Lemma receive_reads : forall m sched stream r m' rest s',
    receive_message m sched stream = Ok (r, m', rest, s') ->
    exists used got, sched = used ++ s' /\ stream = got ++ rest /\
      (reads used <= length got + match r with Some TDICE_FAILURE => 1 | _ => 0 end)%nat /\
      (r = Some TDICE_SUCCESS -> (4 <= length got)%nat) /\
      (~ In Failed sched -> stream <> [] -> r <> None -> (1 <= length got)%nat).
Proof.
  intros m sched stream r m' rest s' E. unfold receive_message in E.
  destruct (recv_loop sched 4 stream) as [[[r1 g1] rest1] s1] eqn:E1.
  destruct (recv_loop_reads _ _ _ _ _ _ _ E1) as (u1 & SC & S1 & L1 & R1 & F1 & N1 & _ & X1).
  assert (GOT : ~ In Failed sched -> stream <> [] -> r1 <> None -> (1 <= length g1)%nat).
  { intros NF NE NN. destruct r1 as [[|]|]; [rewrite (F1 eq_refl); lia| |congruence].
    destruct (X1 eq_refl) as [Y|Y]; [exfalso; apply NF; rewrite SC; apply in_or_app; auto|].
    rewrite Y, app_nil_r in S1. subst stream. destruct g1; [congruence|cbn; lia]. }
  destruct r1 as [[|]|].
  - destruct (words_of_bytes g1) as [|len [|]] eqn:W; try discriminate.
    destruct (len =? 0).
    { assert (X := f_equal (fun o => match o with Ok (a, b, c, e) => (a, c, e) | _ => (r, rest, s') end) E). cbn in X. injection X as <- <- <-.
      exists u1, g1. split; [exact SC|]. split; [exact S1|]. split; [lia|]. split; [discriminate|]. intros. apply GOT; auto; discriminate. }
    apply bind_ok in E. destruct E as (m1 & _ & E). apply bind_ok in E. destruct E as (mem1 & _ & E). cbv zeta in E.
    destruct (recv_loop s1 _ rest1) as [[[r2 g2] rest2] s2] eqn:E2.
    apply bind_ok in E. destruct E as (mem2 & _ & E).
    assert (X := f_equal (fun o => match o with Ok (a, b, c, e) => (a, c, e) | _ => (r, rest, s') end) E). cbn in X. injection X as <- <- <-.
    destruct (recv_loop_reads _ _ _ _ _ _ _ E2) as (u2 & -> & S2 & L2 & R2 & F2 & N2 & _ & X2).
    exists (u1 ++ u2), (g1 ++ g2). rewrite reads_app, app_length. rewrite SC, S1, S2, !app_assoc.
    split; [reflexivity|]. split; [reflexivity|]. split; [lia|]. rewrite (F1 eq_refl). split; [lia|]. intros; lia.
  - assert (X := f_equal (fun o => match o with Ok (a, b, c, e) => (a, c, e) | _ => (r, rest, s') end) E). cbn in X. injection X as <- <- <-.
    exists u1, g1. split; [exact SC|]. split; [exact S1|]. split; [lia|]. split; [discriminate|]. intros. apply GOT; auto; discriminate.
  - assert (X := f_equal (fun o => match o with Ok (a, b, c, e) => (a, c, e) | _ => (r, rest, s') end) E). cbn in X. injection X as <- <- <-.
    exists u1, g1. split; [exact SC|]. split; [exact S1|]. split; [lia|]. split; [discriminate|]. intros; congruence.
Qed.

(** A complete message at the head of the stream is received. *)
Lemma receive_progress : forall c tail sched, good_content c -> ~ In Failed sched ->
    (length (encoding (fst c) (snd c)) <= reads sched)%nat ->
    exists m' s', receive_message message_init sched (encoding (fst c) (snd c) ++ tail) = Ok (Some TDICE_SUCCESS, m', tail, s') /\
      carries_c m' c /\ ~ In Failed s' /\ (reads sched <= reads s' + length (encoding (fst c) (snd c)))%nat.
Proof.
  intros c tail sched (W1 & W2 & W3) NF RD.
  destruct (receive_spec message_init (fst c) (snd c) tail sched usable_init W1 W2 W3) as (r & m' & rest & used & s' & E & SC & H).
  destruct H as [(-> & C & -> & _)|[(-> & F)|(-> & -> & R)]].
  - destruct (receive_reads _ _ _ _ _ _ _ E) as (u2 & got & SC2 & ST & R & _ & _).
    exists m', s'. split; [exact E|]. split; [exact C|]. split; [intro Y; apply NF; rewrite SC; apply in_or_app; auto|].
    apply app_inv_tail in ST. subst got. rewrite SC2, reads_app. lia.
  - exfalso. apply NF. rewrite SC. apply in_or_app. auto.
  - exfalso. rewrite app_nil_r in SC. subst used. lia.
Qed.

(** A closed connection: the fresh message stays as it is. *)
Lemma receive_closed : forall sched, ~ In Failed sched -> (0 < reads sched)%nat ->
    exists s', receive_message message_init sched [] = Ok (Some TDICE_FAILURE, message_init, [], s').
Proof.
  intros sched NF RD. unfold receive_message.
  assert (X : exists s', recv_loop sched 4 [] = (Some TDICE_FAILURE, [], [], s')).
  { induction sched as [|e s IH]; [cbn in RD; lia|]. cbn [recv_loop]. destruct e.
    - apply IH; [intro Y; apply NF; right; exact Y|exact RD].
    - exfalso. apply NF. left. reflexivity.
    - eexists. reflexivity. }
  destruct X as (s' & ->). exists s'. reflexivity.
Qed.

(** A reply is sent completely. *)
Lemma send_progress : forall m c sched, carries_c m c -> ~ In Failed sched ->
    (length (encoding (fst c) (snd c)) <= moves sched)%nat ->
    exists s', send_message m sched = Ok (Some TDICE_SUCCESS, encoding (fst c) (snd c), s') /\
      ~ In Failed s' /\ (moves sched <= moves s' + length (encoding (fst c) (snd c)))%nat.
Proof.
  intros m c sched C NF MV. destruct (carries_observe m _ _ C) as (HL & _).
  destruct C as ((U1 & U2 & U3) & F). unfold send_message. rewrite HL. cbn [bind].
  assert (LE : (2 + length (snd c) <= length (m_mem m))%nat).
  { pose proof (f_equal (@length Z) F) as X. rewrite firstn_length in X. cbn [length] in X. lia. }
  destruct (Z.ltb_spec (m_max m) (Z.of_nat (2 + length (snd c)))); [lia|].
  rewrite Nat2Z.id, F. destruct (send_loop_progress sched (encoding (fst c) (snd c)) NF MV) as (s' & E & M & N).
  unfold encoding in E at 1. rewrite E. exists s'. auto.
Qed.
