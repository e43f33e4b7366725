From Coq Require Import ZArith List Bool QArith Qpower String Ascii Lia.
From Verif Require Import Base Flex FlexProofs Vtk FlpText FlpTextSpec.
Import ListNotations.
Local Open Scope string_scope.
Local Open Scope list_scope.

(** ** Shapes of the matches *)
Definition idch (c : ascii) : bool := Ascii.eqb c "_" || is_alnum c.
Definition numch (c : ascii) : bool :=
  is_digit c || is_sign c || Ascii.eqb c "." || (Ascii.eqb c "e" || Ascii.eqb c "E").
Definition marks : list ascii := ["("; ")"; ":"; ","; ";"]%char.

Definition wordlike (w : chars) : Prop := exists c r, w = c :: r /\ is_alpha c = true /\ forallb idch r = true.
Definition numlike (w : chars) : Prop :=
  exists c r, w = c :: r /\ is_sign c || is_digit c = true /\ forallb numch r = true.
Definition shaped (w : chars) : Prop :=
  forallb is_space w = true \/ w = str "//" \/ w = str "/*" \/ (exists c, In c marks /\ w = [c]) \/ wordlike w \/ numlike w.

Lemma forallb_imp : forall A (f g : A -> bool) l, (forall x, f x = true -> g x = true) -> forallb f l = true -> forallb g l = true.
Proof.
  intros A f g l H. induction l as [|x l IH]; [auto|]. cbn. rewrite !andb_true_iff. intros [H1 H2]. auto.
Qed.
Lemma digit_numch : forall c, is_digit c = true -> numch c = true.
Proof. intros c H. unfold numch. rewrite H. reflexivity. Qed.
Lemma sign_numch : forall c, is_sign c = true -> numch c = true.
Proof. intros c H. unfold numch. rewrite H. rewrite orb_true_r. reflexivity. Qed.

(** [+-]?[0-9]+ *)
Lemma s_integer_inv : forall w, matches s_integer w ->
  exists sg ds, w = sg ++ ds /\ (sg = [] \/ exists c, sg = [c] /\ is_sign c = true) /\ ds <> [] /\ forallb is_digit ds = true.
Proof.
  intros w H. apply seq_inv in H. destruct H as (s & t & -> & H & K). apply plus_cls in K.
  exists s, t. split; [reflexivity|]. split; [|assumption].
  apply opt_inv in H. destruct H as [->|H]; [auto|]. apply cls_inv in H. destruct H as (c & -> & E). eauto.
Qed.
Lemma s_integer_ok : forall sg ds, (sg = [] \/ exists c, sg = [c] /\ is_sign c = true) -> ds <> [] -> forallb is_digit ds = true ->
  matches s_integer (sg ++ ds).
Proof.
  intros sg ds S N D. constructor; [|apply plus_cls; auto].
  destruct S as [->|(c & -> & E)]; [apply opt_nil | apply opt_some; constructor; assumption].
Qed.
Lemma s_integer_shape : forall w, matches s_integer w -> numlike w /\ forallb numch w = true.
Proof.
  intros w H. apply s_integer_inv in H. destruct H as (sg & ds & -> & S & N & D).
  pose proof (forallb_imp _ _ _ _ digit_numch D) as D'.
  destruct S as [->|(c & -> & E)]; cbn [app].
  - split; [|assumption]. destruct ds as [|c ds]; [congruence|]. cbn in D, D'. apply andb_true_iff in D, D'.
    exists c, ds. rewrite (proj1 D), orb_true_r. tauto.
  - split.
    + exists c, ds. rewrite E. auto.
    + cbn. rewrite (sign_numch _ E). assumption.
Qed.
Lemma numlike_app : forall u v, numlike u -> forallb numch v = true -> numlike (u ++ v).
Proof.
  intros u v (c & r & -> & H & K) V. exists c, (r ++ v). split; [reflexivity|]. split; [assumption|].
  rewrite forallb_app, K. assumption.
Qed.
Lemma exponent_inv : forall w, matches exponent w -> exists c v, w = c :: v /\ (c = "e"%char \/ c = "E"%char) /\ matches s_integer v.
Proof.
  intros w H. apply seq_inv in H. destruct H as (s & t & -> & H & K). apply cls_inv in H. destruct H as (c & -> & E).
  exists c, t. split; [reflexivity|]. split; [|assumption]. apply orb_true_iff in E. rewrite !Ascii.eqb_eq in E. assumption.
Qed.
Lemma exponent_ok : forall c v, (c = "e"%char \/ c = "E"%char) -> matches s_integer v -> matches exponent (c :: v).
Proof.
  intros c v E H. change (c :: v) with ([c] ++ v). constructor; [|assumption]. constructor.
  destruct E; subst; reflexivity.
Qed.
Lemma double_shape : forall w, matches double w -> numlike w.
Proof.
  intros w H. apply seq_inv in H. destruct H as (s & t & -> & H & K). apply s_integer_shape in H.
  apply numlike_app; [tauto|]. apply opt_inv in K. destruct K as [->|K]; [reflexivity|].
  apply seq_inv in K. destruct K as (u & v & -> & K1 & K2). rewrite forallb_app. apply andb_true_iff. split.
  - apply opt_inv in K1. destruct K1 as [->|K1]; [reflexivity|].
    apply seq_inv in K1. destruct K1 as (p & q & -> & P & K1). apply cls_inv in P. destruct P as (c & -> & P).
    apply Ascii.eqb_eq in P. subst c. apply plus_cls in K1. cbn. eapply forallb_imp; [apply digit_numch | tauto].
  - apply opt_inv in K2. destruct K2 as [->|K2]; [reflexivity|].
    apply exponent_inv in K2. destruct K2 as (c & x & -> & P & K2). apply s_integer_shape in K2. cbn. rewrite (proj2 K2), andb_true_r.
    destruct P; subst; reflexivity.
Qed.
Lemma identifier_inv : forall w, matches identifier w <-> wordlike w.
Proof.
  intros w. split.
  - intros H. apply seq_inv in H. destruct H as (s & t & -> & H & K). apply cls_inv in H. destruct H as (c & -> & E).
    apply star_cls in K. exists c, t. auto.
  - intros (c & r & -> & E & K). change (c :: r) with ([c] ++ r). constructor; [constructor; assumption | apply star_cls; assumption].
Qed.

Lemma init_shape : forall x w, In x (map fst (flp_rules INITIAL)) -> matches x w -> shaped w.
Proof.
  intros x w I M. unfold shaped. cbn [flp_rules map fst] in I.
  destruct I as [<-|I]. { left. apply star_cls in M. assumption. }
  destruct I as [<-|I]. { apply lit_inv in M. auto. }
  destruct I as [<-|I]. { apply lit_inv in M. auto. }
  do 5 (destruct I as [<-|I]; [apply lit_inv in M; right; right; right; left; subst; eexists; split; [|reflexivity]; cbn; tauto|]).
  do 7 (destruct I as [<-|I]; [apply lit_inv in M; right; right; right; right; left; subst;
     eexists; eexists; split; [reflexivity|]; split; reflexivity|]).
  destruct I as [<-|I]. { apply identifier_inv in M. tauto. }
  destruct I as [<-|I]. { apply s_integer_shape in M. tauto. }
  destruct I as [<-|[]]. apply double_shape in M. tauto.
Qed.

(** ** What ends a word or a numeral *)
Definition sticks (c : ascii) : bool := idch c || numch c.
Definition stops (t : chars) : Prop := match t with [] => True | c :: _ => sticks c = false end.

Lemma alpha_facts : forall c, is_alpha c = true -> is_space c = false /\ is_sign c || is_digit c = false /\ Ascii.eqb c "/" = false
  /\ ~ In c marks.
Proof.
  intros [[] [] [] [] [] [] [] []]; vm_compute; intros H; try discriminate H; (split; [reflexivity|]); (split; [reflexivity|]);
    (split; [reflexivity|]); intros K; repeat destruct K as [K|K]; discriminate || contradiction.
Qed.
Lemma num_facts : forall c, is_sign c || is_digit c = true -> is_space c = false /\ is_alpha c = false /\ Ascii.eqb c "/" = false
  /\ ~ In c marks.
Proof.
  intros [[] [] [] [] [] [] [] []]; vm_compute; intros H; try discriminate H; (split; [reflexivity|]); (split; [reflexivity|]);
    (split; [reflexivity|]); intros K; repeat destruct K as [K|K]; discriminate || contradiction.
Qed.

Lemma not_stuck : forall (f : ascii -> bool) r c u, forallb f (r ++ c :: u) = true -> f c = true.
Proof. intros f r c u H. rewrite forallb_app in H. cbn in H. rewrite !andb_true_iff in H. tauto. Qed.

Lemma shaped_word : forall w, shaped w -> forall c r, w = c :: r -> is_alpha c = true -> wordlike w.
Proof.
  intros w S c r E A. destruct (alpha_facts c A) as (H1 & H2 & H3 & H4). subst w.
  destruct S as [S|[S|[S|[(x & I & S)|[S|S]]]]].
  - cbn in S. rewrite H1 in S. discriminate.
  - injection S as -> _. discriminate.
  - injection S as -> _. discriminate.
  - injection S as -> _. contradiction.
  - assumption.
  - destruct S as (x & s & E & K & _). injection E as -> ->. congruence.
Qed.
Lemma shaped_num : forall w, shaped w -> forall c r, w = c :: r -> is_sign c || is_digit c = true -> numlike w.
Proof.
  intros w S c r E A. destruct (num_facts c A) as (H1 & H2 & H3 & H4). subst w.
  destruct S as [S|[S|[S|[(x & I & S)|[S|S]]]]].
  - cbn in S. rewrite H1 in S. discriminate.
  - injection S as -> _. discriminate.
  - injection S as -> _. discriminate.
  - injection S as -> _. contradiction.
  - destruct S as (x & s & E & K & _). injection E as -> ->. congruence.
  - assumption.
Qed.

Lemma word_alone : forall w u v x, wordlike w -> stops (u ++ v) -> u <> [] -> In x (map fst (flp_rules INITIAL)) -> ~ matches x (w ++ u).
Proof.
  intros w u v x (c & r & -> & A & R) S N I M. apply init_shape in M; [|assumption].
  destruct u as [|y u]; [congruence|]. cbn in S.
  destruct (shaped_word _ M _ _ eq_refl A) as (c' & r' & E & _ & K). cbn in E. injection E as <- <-.
  apply not_stuck in K. unfold sticks in S. rewrite K in S. discriminate.
Qed.
Lemma num_alone : forall w u v x, numlike w -> stops (u ++ v) -> u <> [] -> In x (map fst (flp_rules INITIAL)) -> ~ matches x (w ++ u).
Proof.
  intros w u v x (c & r & -> & A & R) S N I M. apply init_shape in M; [|assumption].
  destruct u as [|y u]; [congruence|]. cbn in S.
  destruct (shaped_num _ M _ _ eq_refl A) as (c' & r' & E & _ & K). cbn in E. injection E as <- <-.
  apply not_stuck in K. unfold sticks in S. rewrite K, orb_true_r in S. discriminate.
Qed.

Ltac this_rule X :=
  cbn [flp_rules map fst nth_error] in X;
  match type of X with Some ?a = Some ?b => let E := fresh in assert (E : b = a) by congruence; clear X; subst b end.

(** ** Words *)
Lemma lex_keyword : forall i w f t, nth_error (flp_rules INITIAL) i = Some (lit w, Emit f) -> (8 <= i < 15)%nat -> stops t ->
  lex flp_rules O INITIAL (w ++ t) = f w :: lex flp_rules O INITIAL t.
Proof.
  intros i w f t N R S.
  assert (W : wordlike w /\ forall j x, (j < i)%nat -> nth_error (map fst (flp_rules INITIAL)) j = Some x -> ~ matches x w).
  { assert (C : (i = 8 \/ i = 9 \/ i = 10 \/ i = 11 \/ i = 12 \/ i = 13 \/ i = 14)%nat) by lia.
    assert (L : forall s, nth_error (map fst (flp_rules INITIAL)) i = Some (lit s) -> matches (lit s) w -> w = s) by (intros; apply lit_inv; assumption).
    assert (M : forall r a, nth_error (flp_rules INITIAL) i = Some (r, a) -> r = lit w) by (intros r a H; congruence).
    assert (K : In w keywords /\ exists j, i = (8 + j)%nat /\ nth_error keywords j = Some w).
    { repeat destruct C as [C|C]; subst i; cbn [flp_rules nth_error] in N;
        match type of N with Some (?a, _) = _ => assert (H : a = lit w) by congruence end;
        match type of H with lit ?s = _ => pose proof (lit_ok s) as O; rewrite H in O; apply lit_inv in O; subst w end;
        (split; [cbn; tauto|]); [exists 0%nat|exists 1%nat|exists 2%nat|exists 3%nat|exists 4%nat|exists 5%nat|exists 6%nat]; split; reflexivity. }
    destruct K as [K (k & -> & J)]. split.
    - cbn in K. repeat destruct K as [<-|K]; try contradiction; eexists; eexists; (split; [reflexivity|]); split; reflexivity.
    - intros j x Hj X M1.
      destruct k as [|[|[|[|[|[|[|k]]]]]]]; cbn in J; try (destruct k; discriminate J); injection J as <-;
        repeat (destruct j as [|j]; [this_rule X;
           first [ apply lit_inv in M1; discriminate M1 | apply star_cls in M1; discriminate M1 ] |]); lia. }
  destruct W as [W1 W2].
  rewrite (lex_rule flp_rules INITIAL i w t (lit w) (Emit f)); [reflexivity| | |assumption].
  - split; [exists (lit w), (Emit f); split; [assumption | apply lit_ok]|]. split; [|assumption].
    intros u v x -> NE I. eapply word_alone; eauto.
  - destruct W1 as (c & r & -> & _). discriminate.
Qed.
Lemma lex_name : forall w t, wordlike w -> ~ In w keywords -> stops t ->
  lex flp_rules O INITIAL (w ++ t) = IDENTIFIER (codes w) :: lex flp_rules O INITIAL t.
Proof.
  intros w t W K S.
  rewrite (lex_rule flp_rules INITIAL 15 w t identifier (Emit (fun s => IDENTIFIER (codes s)))); [reflexivity| | |reflexivity].
  - split; [eexists; eexists; split; [reflexivity | apply identifier_inv; assumption]|]. split.
    + intros u v x -> NE I. eapply word_alone; eauto.
    + intros j x J X M. destruct W as (c & r & -> & A & R). destruct (alpha_facts c A) as (H1 & H2 & H3 & H4).
      destruct j as [|j].
      { this_rule X. apply star_cls in M. cbn in M. rewrite H1 in M. discriminate. }
      do 14 (destruct j as [|j]; [this_rule X; apply lit_inv in M; injection M as -> ->;
         first [discriminate A | apply K; cbn; tauto]|]). lia.
  - destruct W as (c & r & -> & _). discriminate.
Qed.

(** ** Numerals, marks, blanks *)
Lemma matches_dec : forall w r, matches r w \/ ~ matches r w.
Proof.
  induction w as [|c w IH]; intros r.
  - rewrite <- nullable_ok. destruct (nullable r); auto.
  - destruct (IH (deriv c r)) as [H|H]; rewrite deriv_ok in H; auto.
Qed.
Lemma num_late : forall w j x, numlike w -> (j < 16)%nat -> nth_error (map fst (flp_rules INITIAL)) j = Some x -> ~ matches x w.
Proof.
  intros w j x (c & r & -> & A & R) J X M. destruct (num_facts c A) as (H1 & H2 & H3 & H4).
  destruct j as [|j]. { this_rule X. apply star_cls in M. cbn in M. rewrite H1 in M. discriminate. }
  do 14 (destruct j as [|j]; [this_rule X; apply lit_inv in M; injection M as -> ->; discriminate A|]).
  destruct j as [|j]; [|lia]. this_rule X. apply identifier_inv in M. destruct M as (c' & r' & E & K & _).
  injection E as -> ->. congruence.
Qed.
Lemma lex_num : forall w t, matches double w -> stops t ->
  lex flp_rules O INITIAL (w ++ t) = DVALUE (atof w) :: lex flp_rules O INITIAL t.
Proof.
  intros w t M S. pose proof (double_shape _ M) as N.
  assert (NE : w <> []) by (destruct N as (c & r & -> & _); discriminate).
  destruct (matches_dec w s_integer) as [I|I].
  - rewrite (lex_rule flp_rules INITIAL 16 w t s_integer (Emit (fun s => DVALUE (atof s)))); [reflexivity| |assumption|reflexivity].
    split; [eexists; eexists; split; [reflexivity | assumption]|]. split.
    + intros u v x -> NU IX. eapply num_alone; eauto.
    + intros j x J X. eapply num_late; eauto.
  - rewrite (lex_rule flp_rules INITIAL 17 w t double (Emit (fun s => DVALUE (atof s)))); [reflexivity| |assumption|reflexivity].
    split; [eexists; eexists; split; [reflexivity | assumption]|]. split.
    + intros u v x -> NU IX. eapply num_alone; eauto.
    + intros j x J X. destruct (Nat.eq_dec j 16) as [->|]; [|apply (num_late w j x); [assumption | lia | assumption]].
      this_rule X. assumption.
Qed.

Lemma mark_facts : forall c, In c marks -> is_space c = false /\ is_alpha c = false /\ is_sign c || is_digit c = false /\ Ascii.eqb c "/" = false.
Proof. intros c I. cbn in I. repeat destruct I as [<-|I]; try contradiction; vm_compute; auto. Qed.
Lemma shaped_mark : forall w, shaped w -> forall c r, w = c :: r -> In c marks -> r = [].
Proof.
  intros w S c r -> I. destruct (mark_facts c I) as (H1 & H2 & H3 & H4).
  destruct S as [S|[S|[S|[(x & _ & S)|[S|S]]]]].
  - cbn in S. rewrite H1 in S. discriminate.
  - injection S as -> _. discriminate.
  - injection S as -> _. discriminate.
  - congruence.
  - destruct S as (x & s & E & K & _). injection E as -> ->. congruence.
  - destruct S as (x & s & E & K & _). injection E as -> ->. congruence.
Qed.
Definition mark_tok (c : ascii) : tok :=
  if Ascii.eqb c "(" then LPAR else if Ascii.eqb c ")" then RPAR else if Ascii.eqb c ":" then COLON
  else if Ascii.eqb c "," then COMMA else SEMI.
Lemma lex_mark : forall c t, In c marks -> lex flp_rules O INITIAL (c :: t) = mark_tok c :: lex flp_rules O INITIAL t.
Proof.
  intros c t I.
  assert (A : forall u v x, t = u ++ v -> u <> [] -> In x (map fst (flp_rules INITIAL)) -> ~ matches x ([c] ++ u)).
  { intros u v x _ N IX M. apply init_shape in M; [|assumption]. apply N. eapply shaped_mark; [eassumption | reflexivity | assumption]. }
  change (c :: t) with ([c] ++ t).
  cbn in I. destruct I as [<-|[<-|[<-|[<-|[<-|[]]]]]].
  1: rewrite (lex_rule flp_rules INITIAL 3 _ t (lit (str "(")) (Emit (fun _ => LPAR))); [reflexivity| |discriminate|reflexivity].
  2: rewrite (lex_rule flp_rules INITIAL 4 _ t (lit (str ")")) (Emit (fun _ => RPAR))); [reflexivity| |discriminate|reflexivity].
  3: rewrite (lex_rule flp_rules INITIAL 5 _ t (lit (str ":")) (Emit (fun _ => COLON))); [reflexivity| |discriminate|reflexivity].
  4: rewrite (lex_rule flp_rules INITIAL 6 _ t (lit (str ",")) (Emit (fun _ => COMMA))); [reflexivity| |discriminate|reflexivity].
  5: rewrite (lex_rule flp_rules INITIAL 7 _ t (lit (str ";")) (Emit (fun _ => SEMI))); [reflexivity| |discriminate|reflexivity].
  all: split; [eexists; eexists; split; [reflexivity | apply lit_ok]|]; split; [assumption|]; intros j x J X M;
    (destruct j as [|j]; [this_rule X; apply star_cls in M; discriminate M|]);
    repeat (destruct j as [|j]; [this_rule X; apply lit_inv in M; discriminate M|]); lia.
Qed.

Lemma space_facts : forall c, is_space c = true -> is_alpha c = false /\ is_sign c || is_digit c = false /\ Ascii.eqb c "/" = false /\ ~ In c marks.
Proof.
  intros [[] [] [] [] [] [] [] []]; vm_compute; intros H; try discriminate H; (split; [reflexivity|]); (split; [reflexivity|]);
    (split; [reflexivity|]); intros K; repeat destruct K as [K|K]; discriminate || contradiction.
Qed.
Lemma shaped_space : forall w, shaped w -> forall c r, w = c :: r -> is_space c = true -> forallb is_space r = true.
Proof.
  intros w S c r -> I. destruct (space_facts c I) as (H1 & H2 & H3 & H4).
  destruct S as [S|[S|[S|[(x & J & S)|[S|S]]]]].
  - cbn in S. apply andb_true_iff in S. tauto.
  - injection S as -> _. discriminate.
  - injection S as -> _. discriminate.
  - injection S as -> ->. contradiction.
  - destruct S as (x & s & E & K & _). injection E as -> ->. congruence.
  - destruct S as (x & s & E & K & _). injection E as -> ->. congruence.
Qed.
Lemma lex_spaces : forall w t, forallb is_space w = true -> match t with c :: _ => is_space c = false | [] => True end ->
  lex flp_rules O INITIAL (w ++ t) = lex flp_rules O INITIAL t.
Proof.
  intros w t W T. destruct w as [|c w]; [reflexivity|].
  rewrite (lex_rule flp_rules INITIAL 0 (c :: w) t (RStar (cls is_space)) Skip); [reflexivity| |discriminate|reflexivity].
  split; [eexists; eexists; split; [reflexivity | apply star_cls; assumption]|]. split; [|intros j x J; lia].
  intros u v x -> N I M. apply init_shape in M; [|assumption]. destruct u as [|y u]; [congruence|]. cbn in T.
  cbn in W. apply andb_true_iff in W. pose proof (shaped_space _ M _ _ eq_refl (proj1 W)) as K.
  apply not_stuck in K. congruence.
Qed.
Lemma split_spaces : forall s, exists w t, s = w ++ t /\ forallb is_space w = true /\ match t with c :: _ => is_space c = false | [] => True end.
Proof.
  induction s as [|c s (w & t & -> & H & K)]; [exists [], []; auto|].
  destruct (is_space c) eqn:E.
  - exists (c :: w), t. cbn. rewrite E. auto.
  - exists [], (c :: w ++ t). auto.
Qed.
Lemma lex_space : forall c t, is_space c = true -> lex flp_rules O INITIAL (c :: t) = lex flp_rules O INITIAL t.
Proof.
  intros c t H. destruct (split_spaces t) as (w & t' & -> & W & T).
  rewrite (lex_spaces w t' W T). apply (lex_spaces (c :: w) t'); [|assumption]. cbn. rewrite H. assumption.
Qed.

(** ** Comments *)
Lemma shaped_slash : forall w, shaped w -> forall r, w = "/"%char :: r -> r = ["/"%char] \/ r = ["*"%char].
Proof.
  intros w S r ->.
  destruct S as [S|[S|[S|[(x & J & S)|[S|S]]]]].
  - discriminate.
  - injection S as ->. auto.
  - injection S as ->. auto.
  - exfalso. injection S as <- ->. cbn in J. repeat destruct J as [J|J]; discriminate || contradiction.
  - destruct S as (x & s & E & K & _). injection E as <- <-. discriminate.
  - destruct S as (x & s & E & K & _). injection E as <- <-. discriminate.
Qed.
Lemma lex_slashes : forall t, lex flp_rules O INITIAL (str "//" ++ t) = lex flp_rules O ONE_LINE_COMMENT t.
Proof.
  intros t. rewrite (lex_rule flp_rules INITIAL 1 _ t (lit (str "//")) (Begin ONE_LINE_COMMENT)); [reflexivity| |discriminate|reflexivity].
  split; [eexists; eexists; split; [reflexivity | apply lit_ok]|]. split.
  - intros u v x _ N I M. apply init_shape in M; [|assumption]. destruct u as [|y u]; [congruence|].
    destruct (shaped_slash _ M _ eq_refl); discriminate.
  - intros j x J X M. destruct j as [|j]; [|lia]. this_rule X. apply star_cls in M. discriminate.
Qed.
Lemma lex_slash_star : forall t, lex flp_rules O INITIAL (str "/*" ++ t) = lex flp_rules O MULTIPLE_LINE_COMMENT t.
Proof.
  intros t. rewrite (lex_rule flp_rules INITIAL 2 _ t (lit (str "/*")) (Begin MULTIPLE_LINE_COMMENT)); [reflexivity| |discriminate|reflexivity].
  split; [eexists; eexists; split; [reflexivity | apply lit_ok]|]. split.
  - intros u v x _ N I M. apply init_shape in M; [|assumption]. destruct u as [|y u]; [congruence|].
    destruct (shaped_slash _ M _ eq_refl); discriminate.
  - intros j x J X M. destruct j as [|[|j]]; [| |lia]; this_rule X; [apply star_cls in M | apply lit_inv in M]; discriminate.
Qed.
Lemma one_line_shape : forall x w, In x (map fst (flp_rules ONE_LINE_COMMENT)) -> matches x w -> exists c, w = [c].
Proof.
  intros x w I M. cbn [flp_rules map fst] in I. destruct I as [<-|[<-|[]]]; apply cls_inv in M; destruct M as (c & -> & _); eauto.
Qed.
Lemma lex_line : forall b t, ~ In newline b -> lex flp_rules O ONE_LINE_COMMENT (b ++ t) = lex flp_rules O ONE_LINE_COMMENT t.
Proof.
  induction b as [|c b IH]; intros t N; [reflexivity|].
  assert (E : Ascii.eqb c newline = false) by (apply Ascii.eqb_neq; intros ->; apply N; left; reflexivity).
  cbn [app]. change (c :: b ++ t) with ([c] ++ (b ++ t)).
  rewrite (lex_rule flp_rules ONE_LINE_COMMENT 1 [c] (b ++ t) (cls (fun c => negb (Ascii.eqb c newline))) Skip);
    [apply IH; intros I; apply N; right; assumption | | discriminate | reflexivity].
  split; [eexists; eexists; split; [reflexivity | constructor; rewrite E; reflexivity]|]. split.
  - intros u v x _ NU I M. apply one_line_shape in M; [|assumption]. destruct M as (y & M). destruct u; [congruence|discriminate].
  - intros j x J X M. destruct j as [|j]; [|lia]. this_rule X. apply cls_inv in M. destruct M as (y & M & Y).
    injection M as <-. rewrite Ascii.eqb_sym in Y. congruence.
Qed.
Lemma lex_line_end : forall t, lex flp_rules O ONE_LINE_COMMENT (newline :: t) = lex flp_rules O INITIAL t.
Proof.
  intros t. change (newline :: t) with ([newline] ++ t).
  rewrite (lex_rule flp_rules ONE_LINE_COMMENT 0 _ t (chr newline) (Begin INITIAL)); [reflexivity| |discriminate|reflexivity].
  split; [eexists; eexists; split; [reflexivity | constructor; reflexivity]|]. split; [|intros j x J; lia].
  intros u v x _ NU I M. apply one_line_shape in M; [|assumption]. destruct M as (y & M). destruct u; [congruence|discriminate].
Qed.

(** In a block comment. *)
Definition plain (c : ascii) : bool := negb (Ascii.eqb c "*" || Ascii.eqb c newline).
Lemma block_shape : forall x w, In x (map fst (flp_rules MULTIPLE_LINE_COMMENT)) -> matches x w ->
  w = str "*/" \/ (w <> [] /\ forallb plain w = true) \/ (exists c, w = ["*"%char; c] /\ Ascii.eqb c "/" = false) \/ w = [newline].
Proof.
  intros x w I M. cbn [flp_rules map fst] in I. destruct I as [<-|[<-|[<-|[<-|[]]]]].
  - apply lit_inv in M. auto.
  - apply plus_cls in M. auto.
  - apply seq_inv in M. destruct M as (s & t & -> & M & K). apply cls_inv in M, K. destruct M as (a & -> & A), K as (b & -> & B).
    apply Ascii.eqb_eq in A. subst a. right. right. left. exists b. split; [reflexivity|]. destruct (Ascii.eqb b "/"); [discriminate|reflexivity].
  - apply cls_inv in M. destruct M as (a & -> & A). apply Ascii.eqb_eq in A. subst a. auto.
Qed.
Lemma lex_block_end : forall t, lex flp_rules O MULTIPLE_LINE_COMMENT (str "*/" ++ t) = lex flp_rules O INITIAL t.
Proof.
  intros t. rewrite (lex_rule flp_rules MULTIPLE_LINE_COMMENT 0 _ t (lit (str "*/")) (Begin INITIAL)); [reflexivity| |discriminate|reflexivity].
  split; [eexists; eexists; split; [reflexivity | apply lit_ok]|]. split; [|intros j x J; lia].
  intros u v x _ NU I M. apply block_shape in M; [|assumption]. destruct u as [|y u]; [congruence|].
  destruct M as [M|[[_ M]|[(c & M & _)|M]]]; discriminate.
Qed.
Lemma lex_block_star : forall c t, c <> "/"%char ->
  lex flp_rules O MULTIPLE_LINE_COMMENT ("*"%char :: c :: t) = lex flp_rules O MULTIPLE_LINE_COMMENT t.
Proof.
  intros c t C. change ("*"%char :: c :: t) with (["*"%char; c] ++ t).
  rewrite (lex_rule flp_rules MULTIPLE_LINE_COMMENT 2 _ t (RSeq (chr "*") (cls (fun c => negb (Ascii.eqb c "/")))) Skip);
    [reflexivity| |discriminate|reflexivity].
  apply Ascii.eqb_neq in C.
  split; [eexists; eexists; split; [reflexivity|]; change ["*"%char; c] with (["*"%char] ++ [c]); constructor; constructor;
    [reflexivity | rewrite C; reflexivity]|]. split.
  - intros u v x _ NU I M. apply block_shape in M; [|assumption]. destruct u as [|y u]; [congruence|].
    destruct M as [M|[[_ M]|[(c' & M & _)|M]]]; discriminate.
  - intros j x J X M. destruct j as [|[|j]]; [| |lia]; this_rule X.
    + apply lit_inv in M. injection M as ->. discriminate.
    + apply plus_cls in M. destruct M as [_ M]. discriminate.
Qed.
Lemma lex_block_newline : forall t, lex flp_rules O MULTIPLE_LINE_COMMENT (newline :: t) = lex flp_rules O MULTIPLE_LINE_COMMENT t.
Proof.
  intros t. change (newline :: t) with ([newline] ++ t).
  rewrite (lex_rule flp_rules MULTIPLE_LINE_COMMENT 3 _ t (chr newline) Skip); [reflexivity| |discriminate|reflexivity].
  split; [eexists; eexists; split; [reflexivity | constructor; reflexivity]|]. split.
  - intros u v x _ NU I M. apply block_shape in M; [|assumption]. destruct u as [|y u]; [congruence|].
    destruct M as [M|[[_ M]|[(c' & M & _)|M]]]; discriminate.
  - intros j x J X M. destruct j as [|[|[|j]]]; [| | |lia]; this_rule X.
    + apply lit_inv in M. discriminate.
    + apply plus_cls in M. destruct M as [_ M]. discriminate.
    + apply seq_inv in M. destruct M as (s & t' & E & M & K). apply cls_inv in M. destruct M as (a & -> & A).
      apply cls_inv in K. destruct K as (b & -> & _). discriminate.
Qed.
Lemma lex_block_plains : forall w t, forallb plain w = true -> match t with c :: _ => plain c = false | [] => True end ->
  lex flp_rules O MULTIPLE_LINE_COMMENT (w ++ t) = lex flp_rules O MULTIPLE_LINE_COMMENT t.
Proof.
  intros w t W T. destruct w as [|c w]; [reflexivity|].
  rewrite (lex_rule flp_rules MULTIPLE_LINE_COMMENT 1 (c :: w) t (plus (cls (fun c => negb (Ascii.eqb c "*" || Ascii.eqb c newline)))) Skip);
    [reflexivity| |discriminate|reflexivity].
  assert (C : plain c = true) by (cbn in W; apply andb_true_iff in W; tauto).
  assert (C1 : Ascii.eqb c "*" = false /\ Ascii.eqb c newline = false).
  { unfold plain in C. destruct (Ascii.eqb c "*"), (Ascii.eqb c newline); auto; discriminate. }
  destruct C1 as [C1 C2].
  split; [eexists; eexists; split; [reflexivity | apply plus_cls; split; [discriminate | assumption]]|]. split.
  - intros u v x -> N I M. apply block_shape in M; [|assumption]. destruct u as [|y u]; [congruence|].
    destruct M as [M|[[_ M]|[(c' & M & _)|M]]].
    + injection M as -> _. discriminate.
    + apply not_stuck in M. cbn in T. congruence.
    + injection M as -> _. discriminate.
    + injection M as -> _. discriminate.
  - intros j x J X M. destruct j as [|j]; [|lia]. this_rule X. apply lit_inv in M. injection M as -> _. discriminate.
Qed.
Lemma lex_block_plain : forall c t, plain c = true -> lex flp_rules O MULTIPLE_LINE_COMMENT (c :: t) = lex flp_rules O MULTIPLE_LINE_COMMENT t.
Proof.
  intros c t H.
  assert (S : exists w t', t = w ++ t' /\ forallb plain w = true /\ match t' with c :: _ => plain c = false | [] => True end).
  { clear c H. induction t as [|c s (w & t & -> & H & K)]; [exists [], []; auto|].
    destruct (plain c) eqn:E; [exists (c :: w), t; cbn; rewrite E; auto | exists [], (c :: w ++ t); auto]. }
  destruct S as (w & t' & -> & W & T).
  rewrite (lex_block_plains w t' W T). apply (lex_block_plains (c :: w) t'); [|assumption]. cbn. rewrite H. assumption.
Qed.

Definition star (c : ascii) : bool := Ascii.eqb c "*".
Lemma leading_snoc : forall l x, leading_stars (l ++ [x]) =
  if forallb star l then (if star x then S (List.length l) else List.length l) else leading_stars l.
Proof.
  induction l as [|y l IH]; intros x; cbn [app leading_stars forallb List.length].
  - unfold star. destruct (Ascii.eqb x "*"); reflexivity.
  - fold (star y). destruct (star y); cbn [andb]; [|reflexivity]. rewrite IH.
    destruct (forallb star l); [destruct (star x)|]; reflexivity.
Qed.
Lemma forallb_rev : forall A (f : A -> bool) l, forallb f (rev l) = forallb f l.
Proof.
  intros A f. induction l as [|x l IH]; [reflexivity|]. cbn. rewrite forallb_app, IH. cbn. rewrite andb_true_r. apply andb_comm.
Qed.
Lemma trailing_cons : forall x b, trailing_stars (x :: b) =
  if forallb star b then (if star x then S (List.length b) else List.length b) else trailing_stars b.
Proof. intros x b. unfold trailing_stars. cbn [rev]. rewrite leading_snoc, forallb_rev, rev_length. reflexivity. Qed.
Lemma trailing_all : forall b, forallb star b = true -> trailing_stars b = List.length b.
Proof.
  intros b. destruct b as [|x b]; [reflexivity|]. cbn [forallb]. intros H. apply andb_true_iff in H. destruct H as [H1 H2].
  rewrite trailing_cons, H1, H2. reflexivity.
Qed.
Lemma trailing_other : forall x b, star x = false -> trailing_stars (x :: b) = trailing_stars b.
Proof.
  intros x b H. rewrite trailing_cons, H. destruct (forallb star b) eqn:E; [rewrite (trailing_all b E)|]; reflexivity.
Qed.
Lemma trailing_two : forall b, Nat.even (trailing_stars ("*"%char :: "*"%char :: b)) = Nat.even (trailing_stars b).
Proof.
  intros b. rewrite !trailing_cons. cbn [forallb star Ascii.eqb Bool.eqb]. change (star "*"%char) with true. cbn [andb List.length].
  destruct (forallb star b) eqn:E; [rewrite (trailing_all b E)|]; reflexivity.
Qed.
Lemma contains_cons : forall c b s, ~ contains (c :: b) s -> ~ contains b s.
Proof. intros c b s H (u & v & ->). apply H. exists (c :: u), v. reflexivity. Qed.

(** A block comment goes on after its end when an odd number of stars is before it. *)
Lemma lex_block : forall n b t, (List.length b <= n)%nat -> ~ contains b (str "*/") ->
  lex flp_rules O MULTIPLE_LINE_COMMENT (b ++ str "*/" ++ t) =
  lex flp_rules O (if Nat.even (trailing_stars b) then INITIAL else MULTIPLE_LINE_COMMENT) t.
Proof.
  induction n as [|n IH]; intros b t L N.
  - destruct b; [|cbn in L; lia]. apply lex_block_end.
  - destruct b as [|c b]; [apply lex_block_end|]. cbn [List.length] in L.
    destruct (star c) eqn:E.
    + apply Ascii.eqb_eq in E. subst c. destruct b as [|c b].
      * cbn [app]. change (str "*/" ++ t) with ("*"%char :: "/"%char :: t). rewrite lex_block_star by discriminate.
        rewrite lex_block_plain by reflexivity. reflexivity.
      * assert (C : c <> "/"%char) by (intros ->; apply N; exists [], b; reflexivity).
        cbn [app List.length] in *. rewrite lex_block_star by assumption. rewrite IH; [|lia|do 2 eapply contains_cons; eassumption].
        destruct (star c) eqn:E.
        -- apply Ascii.eqb_eq in E. subst c. rewrite trailing_two. reflexivity.
        -- rewrite (trailing_cons "*" (c :: b)). cbn [forallb]. rewrite E. cbn [andb]. rewrite trailing_other by assumption. reflexivity.
    + cbn [app]. rewrite trailing_other by assumption. rewrite <- (IH b t); [|lia|eapply contains_cons; eassumption].
      destruct (Ascii.eqb c newline) eqn:F.
      * apply Ascii.eqb_eq in F. subst c. apply lex_block_newline.
      * apply lex_block_plain. unfold plain. unfold star in E. rewrite E, F. reflexivity.
Qed.

(** ** Gaps *)
Lemma lex_gap_item : forall g t, gap_item_ok g -> lex flp_rules O INITIAL (gap_item_text g ++ t) = lex flp_rules O INITIAL t.
Proof.
  intros [c|b|b] t H; cbn [gap_item_ok gap_item_text] in *.
  - cbn [app]. apply lex_space. cbn in H. repeat destruct H as [<-|H]; try reflexivity. contradiction.
  - rewrite <- app_assoc, lex_slashes, <- app_assoc, lex_line by assumption. apply lex_line_end.
  - rewrite <- app_assoc, lex_slash_star, <- app_assoc. destruct H as [H1 H2].
    rewrite (lex_block (List.length b)) by auto. rewrite H2. reflexivity.
Qed.
Lemma lex_gap : forall g t, gap_ok g -> lex flp_rules O INITIAL (gap_text g ++ t) = lex flp_rules O INITIAL t.
Proof.
  induction g as [|x g IH]; intros t H; [reflexivity|]. inversion H; subst. cbn [gap_text flat_map].
  rewrite <- app_assoc, lex_gap_item by assumption. apply IH. assumption.
Qed.
Lemma lex_ending : forall e, ending_ok e -> lex flp_rules O INITIAL (ending_text e) = [].
Proof.
  intros [g o] [H1 H2]. unfold ending_text. cbn [fst snd] in *. rewrite lex_gap by assumption.
  destruct o as [b|]; [|reflexivity]. rewrite lex_slashes. rewrite <- (app_nil_r b), lex_line by assumption. reflexivity.
Qed.

(** ** Numerals *)
Lemma digit_text_ok : forall n, (n < 10)%nat -> is_digit (digit_text n) = true /\ digit_of (digit_text n) = Z.of_nat n.
Proof. intros n H. do 10 (destruct n as [|n]; [split; reflexivity|]). lia. Qed.
Lemma digits_text_ok : forall l, Forall (fun n => (n < 10)%nat) l -> forallb is_digit (digits_text l) = true.
Proof. induction 1 as [|n l H _ IH]; [reflexivity|]. cbn [digits_text map forallb]. rewrite (proj1 (digit_text_ok n H)). assumption. Qed.
Lemma some_digits_text : forall l, some_digits l -> digits_text l <> [] /\ forallb is_digit (digits_text l) = true.
Proof. intros l [N H]. split; [destruct l; [congruence|discriminate] | apply digits_text_ok; assumption]. Qed.
Lemma sign_text_ok : forall s, sign_text s = [] \/ exists c, sign_text s = [c] /\ is_sign c = true.
Proof. intros [[]|]; [right|right|left]; try reflexivity; eexists; split; reflexivity. Qed.
Lemma numeral_matches : forall n, numeral_ok n -> matches double (numeral_text n).
Proof.
  intros n (H1 & H2 & H3). unfold numeral_text. rewrite app_assoc. apply m_seq.
  - apply s_integer_ok; [apply sign_text_ok | apply some_digits_text; assumption | apply some_digits_text; assumption].
  - apply opt_some. apply m_seq.
    + destruct (n_frac n) as [f|]; [apply opt_some | apply opt_nil]. apply m_seq.
      * constructor. reflexivity.
      * apply plus_cls. apply some_digits_text. assumption.
    + destruct (n_exp n) as [[[c s] ds]|]; [apply opt_some | apply opt_nil]. apply exponent_ok; [tauto|].
      apply s_integer_ok; [apply sign_text_ok | apply some_digits_text; tauto | apply some_digits_text; tauto].
Qed.

Local Open Scope Z_scope.
Definition nodigit (t : chars) : Prop := match t with c :: _ => is_digit c = false | [] => True end.
Lemma atof_digits_ok : forall l m k t, Forall (fun n => (n < 10)%nat) l -> nodigit t ->
  atof_digits m k (digits_text l ++ t) = (digits_number m l, k + Z.of_nat (List.length l), t).
Proof.
  induction l as [|n l IH]; intros m k t H T.
  - cbn [digits_text map app digits_number List.length]. rewrite Z.add_0_r.
    destruct t as [|c t]; [reflexivity|]. cbn [atof_digits]. cbn in T. rewrite T. reflexivity.
  - inversion H; subst. destruct (digit_text_ok n H2) as [D1 D2]. cbn [digits_text map app atof_digits]. rewrite D1, D2.
    change (map digit_text l) with (digits_text l). rewrite IH by assumption. cbn [digits_number List.length]. do 2 f_equal. lia.
Qed.
Lemma digits_nosign : forall l t, some_digits l -> atof_sign (digits_text l ++ t) = (1, digits_text l ++ t).
Proof.
  intros [|n l] t [N H]; [congruence|]. inversion H as [|? ? H1]; subst. clear -H1. cbn [digits_text map app atof_sign].
  do 10 (destruct n as [|n]; [reflexivity|]). lia.
Qed.
Lemma atof_sign_ok : forall s l t, some_digits l -> atof_sign (sign_text s ++ digits_text l ++ t) = (signed s 1, digits_text l ++ t).
Proof. intros [[]|] l t H; [reflexivity|reflexivity|]. cbn [sign_text app signed]. apply digits_nosign. assumption. Qed.
Lemma digits_number_acc : forall l a, digits_number a l = a * 10 ^ Z.of_nat (List.length l) + digits_number 0 l.
Proof.
  induction l as [|n l IH]; intros a; cbn [digits_number List.length].
  - rewrite Z.pow_0_r. lia.
  - rewrite IH, (IH (0 * 10 + Z.of_nat n)). rewrite Nat2Z.inj_succ, Z.pow_succ_r by lia. ring.
Qed.
Lemma signed_mul : forall s z, signed s z = signed s 1 * z.
Proof. intros [[]|] z; cbn [signed]; lia. Qed.

Lemma atof_ok : forall n, numeral_ok n -> atof (numeral_text n) = numeral_value n.
Proof.
  intros n (H1 & H2 & H3). unfold atof, numeral_text.
  set (tail_e := match n_exp n with Some (c, s, d) => c :: sign_text s ++ digits_text d | None => [] end).
  assert (TE : nodigit tail_e).
  { unfold tail_e. destruct (n_exp n) as [[[c s] ds]|]; [|exact I]. destruct H3 as [[->| ->] _]; reflexivity. }
  assert (EE : match tail_e with
               | c :: r => if Ascii.eqb c "e" || Ascii.eqb c "E"
                           then let '(es, r) := atof_sign r in let '(e, _, _) := atof_digits 0 0 r in es * e else 0
               | [] => 0 end = match n_exp n with Some (_, s, d) => signed s (digits_number 0 d) | None => 0 end).
  { unfold tail_e. destruct (n_exp n) as [[[c s] ds]|]; [|reflexivity]. destruct H3 as [C D].
    replace (Ascii.eqb c "e" || Ascii.eqb c "E") with true by (destruct C; subst; reflexivity).
    rewrite <- (app_nil_r (digits_text ds)), atof_sign_ok by assumption.
    rewrite atof_digits_ok; [|apply D|exact I]. symmetry. apply signed_mul. }
  rewrite atof_sign_ok by assumption.
  assert (TF : nodigit (match n_frac n with Some f => str "." ++ digits_text f | None => [] end ++ tail_e)).
  { destruct (n_frac n); [reflexivity | assumption]. }
  rewrite atof_digits_ok; [|apply H1|assumption].
  destruct (n_frac n) as [f|] eqn:F.
  - rewrite <- app_assoc. change (str ".") with ["."%char]. cbn [app]. change (Ascii.eqb "." ".") with true. cbv iota.
    rewrite atof_digits_ok; [|apply H2|assumption]. rewrite EE. unfold numeral_value. rewrite F.
    apply Qred_complete. rewrite digits_number_acc.
    set (e := match n_exp n with Some (_, s, d) => signed s (digits_number 0 d) | None => 0 end).
    set (L := Z.of_nat (List.length f)). set (i := digits_number 0 (n_int n)). set (fr := digits_number 0 f).
    rewrite Z.add_0_l. unfold Z.sub. rewrite Qpower_plus by (intros A; discriminate A). rewrite Qpower_opp.
    assert (P : (inject_Z (10 ^ L) == (10 # 1) ^ L)%Q) by (change (10 # 1)%Q with (inject_Z 10); symmetry; rewrite Zpower_Qpower by (unfold L; lia); reflexivity).
    rewrite !inject_Z_mult, inject_Z_plus, inject_Z_mult. rewrite P.
    field. intros A. apply (Qpower_not_0 (10 # 1) L) in A; [contradiction|intros B; discriminate B].
  - cbn [app]. destruct tail_e as [|c t] eqn:T.
    + unfold numeral_value. rewrite F, <- EE. apply Qred_complete. change (0 - 0) with 0. rewrite inject_Z_mult. ring.
    + assert (C : Ascii.eqb c "." = false).
      { unfold tail_e in T. destruct (n_exp n) as [[[c' s] ds]|]; [|discriminate]. injection T as -> _. destruct H3 as [[->| ->] _]; reflexivity. }
      rewrite C. cbv iota. unfold numeral_value. rewrite F, <- EE. apply Qred_complete. rewrite Z.sub_0_r, inject_Z_mult. ring.
Qed.
