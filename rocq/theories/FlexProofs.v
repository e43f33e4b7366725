From Coq Require Import Arith List Bool Ascii Lia.
From Verif Require Import Flex.
Import ListNotations.

(** ** The language of a pattern *)
Inductive matches : re -> chars -> Prop :=
| m_eps : matches REps []
| m_cls f c : f c = true -> matches (RCls f) [c]
| m_seq a b s t : matches a s -> matches b t -> matches (RSeq a b) (s ++ t)
| m_altl a b s : matches a s -> matches (RAlt a b) s
| m_altr a b s : matches b s -> matches (RAlt a b) s
| m_star0 a : matches (RStar a) []
| m_star a s t : matches a s -> matches (RStar a) t -> matches (RStar a) (s ++ t).

Lemma seq_inv : forall a b w, matches (RSeq a b) w -> exists s t, w = s ++ t /\ matches a s /\ matches b t.
Proof. intros a b w H. inversion H; subst. eauto 6. Qed.
Lemma seq_ok : forall a b s, matches (seq_ a b) s <-> matches (RSeq a b) s.
Proof.
  intros a b s. destruct a; cbn [seq_]; try tauto.
  - split; intros H; [inversion H|]. apply seq_inv in H. destruct H as (u & v & _ & H & _). inversion H.
  - split; intros H.
    + change s with ([] ++ s). constructor; [constructor|assumption].
    + apply seq_inv in H. destruct H as (u & v & -> & H & K). inversion H; subst. assumption.
Qed.
Lemma alt_ok : forall a b s, matches (alt_ a b) s <-> matches (RAlt a b) s.
Proof.
  intros a b s.
  assert (N : forall s, ~ matches RNone s) by (intros x H; inversion H).
  destruct a; cbn [alt_]; destruct b; try tauto; split; intros H;
    try (inversion H; subst; first [assumption | exfalso; eapply N; eassumption]);
    try (constructor; assumption); try (apply m_altr; assumption).
Qed.

Lemma nullable_ok : forall r, nullable r = true <-> matches r [].
Proof.
  induction r; cbn [nullable].
  - split; intros H; [discriminate | inversion H].
  - split; constructor.
  - split; intros H; [discriminate | inversion H].
  - rewrite andb_true_iff, IHr1, IHr2. split; intros H.
    + change (@nil ascii) with ([] ++ @nil ascii). constructor; tauto.
    + apply seq_inv in H. destruct H as (s & t & E & H1 & H2). symmetry in E. apply app_eq_nil in E. destruct E; subst. tauto.
  - rewrite orb_true_iff, IHr1, IHr2. split; intros H.
    + destruct H; [apply m_altl | apply m_altr]; assumption.
    + inversion H; subst; tauto.
  - split; intros H; [constructor | reflexivity].
Qed.

Lemma star_cons : forall a w, matches (RStar a) w -> forall c s, w = c :: s ->
  exists u t, s = u ++ t /\ matches a (c :: u) /\ matches (RStar a) t.
Proof.
  intros a w H. remember (RStar a) as r eqn:R. induction H; intros c0 s0 E; try discriminate.
  injection R as ->. destruct s as [|x s].
  - cbn in E. apply IHmatches2; auto.
  - cbn in E. injection E as -> <-. exists s, t. auto.
Qed.

Lemma deriv_ok : forall r c s, matches (deriv c r) s <-> matches r (c :: s).
Proof.
  induction r; intros c s; cbn [deriv].
  - split; intros H; inversion H.
  - split; intros H; inversion H.
  - destruct (f c) eqn:E.
    + split; intros H; inversion H; subst; constructor; assumption.
    + split; intros H; inversion H; subst; congruence.
  - assert (A : matches (seq_ (deriv c r1) r2) s <-> exists u t, s = u ++ t /\ matches r1 (c :: u) /\ matches r2 t).
    { rewrite seq_ok. split.
      - intros H. inversion H; subst. exists s0, t. rewrite <- IHr1. auto.
      - intros (u & t & -> & H1 & H2). constructor; [apply IHr1|]; assumption. }
    assert (B : matches (RSeq r1 r2) (c :: s) <->
                (exists u t, s = u ++ t /\ matches r1 (c :: u) /\ matches r2 t) \/ (matches r1 [] /\ matches r2 (c :: s))).
    { split.
      - intros H. apply seq_inv in H. destruct H as (s0 & t & E & H1 & H2). destruct s0 as [|x s0].
        + cbn in E. subst. right. auto.
        + cbn in E. injection E as <- ->. left. exists s0, t. auto.
      - intros [(u & t & -> & H1 & H2) | [H1 H2]].
        + change (c :: u ++ t) with ((c :: u) ++ t). constructor; assumption.
        + change (c :: s) with ([] ++ c :: s). constructor; assumption. }
    rewrite B. destruct (nullable r1) eqn:E.
    + rewrite alt_ok. apply nullable_ok in E. split.
      * intros H. inversion H; subst; [left; apply A; assumption | right; split; [assumption | apply IHr2; assumption]].
      * intros [H|[_ H]]; [apply m_altl, A, H | apply m_altr, IHr2, H].
    + rewrite A. split; [auto|]. intros [H|[H _]]; [assumption|]. apply nullable_ok in H. congruence.
  - rewrite alt_ok. split; intros H; inversion H; subst.
    + apply m_altl, IHr1; assumption.
    + apply m_altr, IHr2; assumption.
    + apply m_altl, IHr1; assumption.
    + apply m_altr, IHr2; assumption.
  - rewrite seq_ok. split; intros H.
    + inversion H; subst. change (c :: s0 ++ t) with ((c :: s0) ++ t). constructor; [apply IHr|]; assumption.
    + destruct (star_cons _ _ H _ _ eq_refl) as (u & t & -> & H1 & H2). constructor; [apply IHr|]; assumption.
Qed.

(** ** The longest match *)
Lemma first_nullable_is : forall rs i r, nth_error rs i = Some r -> nullable r = true ->
  (forall j x, j < i -> nth_error rs j = Some x -> nullable x = false) -> first_nullable rs = Some i.
Proof.
  induction rs as [|x rs IH]; intros i r H N E.
  - destruct i; discriminate.
  - cbn [first_nullable]. destruct i as [|i].
    + cbn in H. injection H as ->. rewrite N. reflexivity.
    + rewrite (E 0 x); [|lia|reflexivity]. rewrite (IH i r); auto. intros j y L J. apply (E (S j) y); [lia|assumption].
Qed.
Lemma first_nullable_none : forall rs, (forall x, In x rs -> nullable x = false) -> first_nullable rs = None.
Proof.
  induction rs as [|x rs IH]; intros H; [reflexivity|]. cbn [first_nullable].
  rewrite (H x (or_introl eq_refl)), IH; [reflexivity|]. intros y Y. apply H. right. assumption.
Qed.

Lemma nullable_false : forall r, ~ matches r [] -> nullable r = false.
Proof. intros r H. destruct (nullable r) eqn:E; [|reflexivity]. apply nullable_ok in E. contradiction. Qed.

Lemma nth_map_inv : forall A B (f : A -> B) l i y, nth_error (map f l) i = Some y -> exists x, nth_error l i = Some x /\ y = f x.
Proof.
  intros A B f. induction l as [|x l IH]; intros [|i] y H; cbn in *; try discriminate.
  - injection H as <-. eauto.
  - eauto.
Qed.

Lemma longest_none : forall s rs n, (forall u t r, s = u ++ t -> In r rs -> ~ matches r u) -> longest rs n s = None.
Proof.
  induction s as [|c s IH]; intros rs n H; cbn [longest].
  - rewrite first_nullable_none; [reflexivity|]. intros x I. apply nullable_false. apply (H [] []); auto.
  - rewrite first_nullable_none by (intros x I; apply nullable_false; apply (H [] (c :: s)); auto).
    cbn [option_map]. destruct (forallb is_none rs); [reflexivity|].
    rewrite IH; [reflexivity|]. intros u t r E I. apply in_map_iff in I. destruct I as (x & <- & I).
    rewrite deriv_ok. apply (H (c :: u) t); [cbn; congruence | assumption].
Qed.

Lemma forallb_none : forall rs i r w, forallb is_none rs = true -> nth_error rs i = Some r -> ~ matches r w.
Proof.
  intros rs i r w F N M. apply nth_error_In in N. rewrite forallb_forall in F. specialize (F _ N).
  destruct r; try discriminate. inversion M.
Qed.

Lemma longest_is : forall w t rs n i r, nth_error rs i = Some r -> matches r w ->
  (forall u v x, t = u ++ v -> u <> [] -> In x rs -> ~ matches x (w ++ u)) ->
  (forall j x, j < i -> nth_error rs j = Some x -> ~ matches x w) ->
  longest rs n (w ++ t) = Some (n + length w, i).
Proof.
  induction w as [|c w IH]; intros t rs n i r N M L E.
  - assert (F : first_nullable rs = Some i).
    { apply (first_nullable_is rs i r); [assumption | apply nullable_ok; assumption|].
      intros j x J X. apply nullable_false. eapply E; eauto. }
    cbn [app length]. rewrite Nat.add_0_r. destruct t as [|c t]; cbn [longest]; rewrite F; cbn [option_map].
    + reflexivity.
    + destruct (forallb is_none rs); [reflexivity|]. rewrite longest_none; [reflexivity|].
      intros u v x U I. apply in_map_iff in I. destruct I as (y & <- & I). rewrite deriv_ok.
      apply (L (c :: u) v y); [cbn; congruence | discriminate | assumption].
  - cbn [app longest]. destruct (forallb is_none rs) eqn:F.
    { exfalso. eapply forallb_none; eauto. }
    rewrite (IH t (map (deriv c) rs) (S n) i (deriv c r)).
    + f_equal. f_equal. cbn [length]. lia.
    + rewrite nth_error_map, N. reflexivity.
    + apply deriv_ok. assumption.
    + intros u v x U V I. apply in_map_iff in I. destruct I as (y & <- & I). rewrite deriv_ok. apply (L u v y); auto.
    + intros j x J X. apply nth_map_inv in X. destruct X as (y & X & ->). rewrite deriv_ok. apply (E j y); auto.
Qed.

(** ** One step of the scanner *)
Section Lex.
  Context {C T : Type}.
  Variable rules : C -> list (re * act C T).

  Lemma lex_skip : forall w c t, lex rules (length w) c (w ++ t) = lex rules O c t.
  Proof. induction w as [|x w IH]; intros c t; [reflexivity|]. cbn [length app lex]. apply IH. Qed.

  (** [w] is the longest match, by the rule number [i]. *)
  Definition wins (c : C) (i : nat) (w t : chars) : Prop :=
    (exists r a, nth_error (rules c) i = Some (r, a) /\ matches r w) /\
    (forall u v x, t = u ++ v -> u <> [] -> In x (map fst (rules c)) -> ~ matches x (w ++ u)) /\
    (forall j x, j < i -> nth_error (map fst (rules c)) j = Some x -> ~ matches x w).

  Lemma wins_longest : forall c i w t, wins c i w t -> longest (map fst (rules c)) 0 (w ++ t) = Some (length w, i).
  Proof.
    intros c i w t ((r & a & N & M) & L & E). apply (longest_is w t _ 0 i r); auto.
    rewrite nth_error_map, N. reflexivity.
  Qed.
  Lemma lex_rule : forall c i w t r a, wins c i w t -> w <> [] -> nth_error (rules c) i = Some (r, a) ->
    lex rules O c (w ++ t) =
      match a with Skip => lex rules O c t | Begin c' => lex rules O c' t | Emit f => f w :: lex rules O c t end.
  Proof.
    intros c i w t r a W NE N. pose proof (wins_longest c i w t W) as E. destruct w as [|x w]; [congruence|].
    cbn [app lex] in *. rewrite E. cbn [length]. rewrite N.
    destruct a; rewrite ?lex_skip; try reflexivity.
    f_equal. f_equal. change (x :: w ++ t) with ((x :: w) ++ t).
    rewrite firstn_app. cbn [length]. rewrite Nat.sub_diag. cbn [firstn]. rewrite app_nil_r. f_equal.
    apply (firstn_all w).
  Qed.
  Lemma lex_default : forall c x t,
    (forall u v r, t = u ++ v -> In r (map fst (rules c)) -> ~ matches r (x :: u)) ->
    lex rules O c (x :: t) = lex rules O c t.
  Proof.
    intros c x t H. cbn [lex].
    destruct (longest (map fst (rules c)) 0 (x :: t)) as [[[|n] i]|] eqn:E; try reflexivity.
    exfalso. cbn [longest] in E. destruct (forallb is_none (map fst (rules c))).
    - destruct (first_nullable (map fst (rules c))); discriminate.
    - rewrite longest_none in E.
      + destruct (first_nullable (map fst (rules c))); discriminate.
      + intros u v r U I. apply in_map_iff in I. destruct I as (y & <- & I). rewrite deriv_ok. eapply H; eauto.
  Qed.
End Lex.

(** ** Shapes of patterns *)
Lemma cls_inv : forall f w, matches (RCls f) w -> exists c, w = [c] /\ f c = true.
Proof. intros f w H. inversion H; subst. eauto. Qed.
Lemma lit_inv : forall s w, matches (lit s) w -> w = s.
Proof.
  induction s as [|c s IH]; intros w H; cbn [lit] in H; [inversion H; reflexivity|].
  apply seq_inv in H. destruct H as (u & v & -> & H & K). apply cls_inv in H. destruct H as (x & -> & E). apply Ascii.eqb_eq in E. subst x. cbn. f_equal. apply IH. assumption.
Qed.
Lemma lit_ok : forall s, matches (lit s) s.
Proof.
  induction s as [|c s IH]; cbn [lit]; [constructor|]. change (c :: s) with ([c] ++ s). constructor; [|assumption].
  constructor. apply Ascii.eqb_refl.
Qed.
Lemma star_cls : forall f w, matches (RStar (RCls f)) w <-> forallb f w = true.
Proof.
  intros f w. split.
  - intros H. remember (RStar (RCls f)) as r eqn:R. induction H; try discriminate; [reflexivity|].
    injection R as ->. apply cls_inv in H. destruct H as (c & -> & E). cbn. rewrite E. auto.
  - induction w as [|c w IH]; intros H; [constructor|]. cbn in H. apply andb_true_iff in H. destruct H as [H1 H2].
    change (c :: w) with ([c] ++ w). constructor; [constructor; assumption | auto].
Qed.
Lemma plus_cls : forall f w, matches (plus (RCls f)) w <-> w <> [] /\ forallb f w = true.
Proof.
  intros f w. unfold plus. split.
  - intros H. apply seq_inv in H. destruct H as (u & v & -> & H & K). apply cls_inv in H. destruct H as (c & -> & E).
    apply star_cls in K. split; [discriminate|]. cbn. rewrite E. assumption.
  - intros [N H]. destruct w as [|c w]; [congruence|]. cbn in H. apply andb_true_iff in H. destruct H as [H1 H2].
    change (c :: w) with ([c] ++ w). constructor; [constructor; assumption | apply star_cls; assumption].
Qed.
Lemma opt_inv : forall r w, matches (opt r) w -> w = [] \/ matches r w.
Proof. intros r w H. inversion H as [| | |? ? ? K|? ? ? K| |]; subst; [auto|]. inversion K; auto. Qed.
Lemma opt_nil : forall r, matches (opt r) [].
Proof. intros r. apply m_altr. constructor. Qed.
Lemma opt_some : forall r w, matches r w -> matches (opt r) w.
Proof. intros r w H. apply m_altl. assumption. Qed.
