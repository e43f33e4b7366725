(** Proofs about the scanners of stack description and layout files. *)
From Coq Require Import ZArith List Bool QArith String Ascii Lia.
From Verif Require Import Base Flex FlexProofs Vtk FlpText FlpTextSpec FlpTextProofs FlpLexProofs StkScan StkTextSpec.
Import ListNotations.
Local Open Scope string_scope.
Local Open Scope list_scope.

(** A rule of a list that matches [w], when no rule matches more. *)
Lemma lex_first : forall (rules : cond -> list (re * act cond stok)) c w t,
  w <> [] -> (exists x, In x (map fst (rules c)) /\ matches x w) ->
  (forall u v x, t = u ++ v -> u <> [] -> In x (map fst (rules c)) -> ~ matches x (w ++ u)) ->
  exists i r a, nth_error (rules c) i = Some (r, a) /\ matches r w /\
    (forall j x, (j < i)%nat -> nth_error (map fst (rules c)) j = Some x -> ~ matches x w) /\
    lex rules O c (w ++ t) = match a with Skip => lex rules O c t | Begin c' => lex rules O c' t | Emit f => f w :: lex rules O c t end.
Proof.
  intros rules c w t N (x & I & M) A.
  assert (F : exists i y, nth_error (map fst (rules c)) i = Some y /\ matches y w /\
                forall j z, (j < i)%nat -> nth_error (map fst (rules c)) j = Some z -> ~ matches z w).
  { clear A N. revert I. induction (map fst (rules c)) as [|y l IH]; intros I; [destruct I|].
    destruct (matches_dec w y) as [Y|Y].
    - exists O, y. split; [reflexivity|]. split; [assumption|]. intros j z J; lia.
    - destruct I as [->|I]; [contradiction|]. destruct (IH I) as (i & z & E1 & E2 & E3). exists (S i), z. split; [assumption|]. split; [assumption|].
      intros [|j] q J Q; cbn in Q; [congruence|]. apply (E3 j); [lia|assumption]. }
  destruct F as (i & y & E & Y & L). rewrite nth_error_map in E. destruct (nth_error (rules c) i) as [[r a]|] eqn:R; [|discriminate].
  cbn in E. injection E as ->. exists i, y, a. split; [assumption|]. split; [assumption|]. split; [assumption|].
  apply (lex_rule rules c i w t y a); [|assumption|assumption]. split; [eauto|]. split; assumption.
Qed.

Ltac the_rule X :=
  cbn [scan_rules map fst nth_error] in X;
  match type of X with Some ?a = Some ?b => let E := fresh in assert (E : b = a) by congruence; clear X; subst b end.

Ltac rule_eq E :=
  match type of E with (?r, ?a) = ?x =>
    let H1 := fresh in let H2 := fresh in
    assert (H1 : r = fst x) by (rewrite <- E; reflexivity); assert (H2 : a = snd x) by (rewrite <- E; reflexivity);
    cbn [fst snd mark_rule keyword_rule double_rule integer_rule identifier_rule path_rule] in H1, H2; clear E; subst r;
    first [subst a | match type of H2 with Emit _ = Emit _ => injection H2 as -> end]
  end.

(** ** The two scanners *)
Definition kwch (c : ascii) : bool := idch c || Ascii.eqb c "-".
Definition kw_ok (k : chars) : Prop :=
  exists c r, k = c :: r /\ forallb kwch r = true /\ (is_alpha c = true \/ (is_digit c = true /\ forallb numch k = false)).
Definition front_kind (marks : list ascii) (x : re * act cond stok) : Prop :=
  x = (RStar (cls is_space), Skip) \/ x = (lit (str "//"), Begin ONE_LINE_COMMENT) \/ x = (lit (str "/*"), Begin MULTIPLE_LINE_COMMENT)
  \/ exists c, In c marks /\ x = mark_rule c.
Definition tail_kind (x : re * act cond stok) : Prop :=
  x = double_rule \/ x = integer_rule \/ x = identifier_rule \/ x = path_rule.
Record scanner (init : list (re * act cond stok)) (ms : list ascii) (kws : list string) (paths : bool) : Prop := {
  sc_front : exists front tail, init = front ++ map keyword_rule kws ++ tail /\
     (forall x, In x front -> front_kind ms x) /\ (forall x, In x tail -> tail_kind x) /\
     (forall c, In c ms -> In (mark_rule c) front) /\ In (RStar (cls is_space), Skip) front /\
     In (lit (str "//"), Begin ONE_LINE_COMMENT) front /\ In (lit (str "/*"), Begin MULTIPLE_LINE_COMMENT) front /\
     In double_rule tail /\ In identifier_rule tail /\ (In path_rule tail <-> paths = true);
  sc_marks : forall c, In c ms -> In c ["("; ")"; ":"; ","; ";"; "."]%char;
  sc_keywords : forall k, In k kws -> kw_ok (str k)
}.

(** Marks of these files and the point. *)
Definition amarks : list ascii := ["("; ")"; ":"; ","; ";"; "."]%char.
Definition pathlike (w : chars) : Prop := exists b, w = quote :: b ++ [quote] /\ ~ In quote b.

Lemma path_inv : forall w, matches path_re w <-> pathlike w.
Proof.
  intros w. split.
  - intros H. apply seq_inv in H. destruct H as (s & t & -> & H & K). apply cls_inv in H. destruct H as (c & -> & E).
    apply Ascii.eqb_eq in E. subst c. apply seq_inv in K. destruct K as (u & v & -> & K & L). apply cls_inv in L. destruct L as (c & -> & E).
    apply Ascii.eqb_eq in E. subst c. apply star_cls in K. exists u. split; [reflexivity|]. intros I.
    rewrite forallb_forall in K. specialize (K _ I). rewrite Ascii.eqb_refl in K. discriminate.
  - intros (b & -> & N). change (quote :: b ++ [quote]) with ([quote] ++ b ++ [quote]). constructor; [constructor; reflexivity|].
    constructor; [|constructor; reflexivity]. apply star_cls. apply forallb_forall. intros x I.
    destruct (Ascii.eqb x quote) eqn:E; [|reflexivity]. apply Ascii.eqb_eq in E. subst x. contradiction.
Qed.

Section Scan.
  Variables (init : list (re * act cond stok)) (ms : list ascii) (kws : list string) (paths : bool).
  Hypothesis SC : scanner init ms kws paths.
  Notation rules := (scan_rules init).

  Definition shape (w : chars) : Prop :=
    forallb is_space w = true \/ w = str "//" \/ w = str "/*" \/ (exists c, In c amarks /\ w = [c])
    \/ (exists k, In k kws /\ w = str k) \/ wordlike w \/ numlike w \/ pathlike w.

  Lemma rules_kind : forall x, In x (scan_rules init INITIAL) -> front_kind ms x \/ (exists k, In k kws /\ x = keyword_rule k) \/ tail_kind x.
  Proof.
    intros x I. cbn [scan_rules] in I. destruct (sc_front _ _ _ _ SC) as (fr & tl & E & F & T & _). rewrite E in I.
    apply in_app_or in I. destruct I as [I|I]; [left; auto|]. apply in_app_or in I. destruct I as [I|I]; [|right; right; auto].
    apply in_map_iff in I. destruct I as (k & <- & I). right. left. eauto.
  Qed.
  Lemma rule_shape : forall x w, In x (map fst (scan_rules init INITIAL)) -> matches x w -> shape w.
  Proof.
    intros x w I M. apply in_map_iff in I. destruct I as ([r a] & <- & I). cbn [fst] in M. unfold shape.
    destruct (rules_kind _ I) as [[E|[E|[E|(c & C & E)]]]|[(k & K & E)|[E|[E|[E|E]]]]]; rule_eq E.
    - left. apply star_cls in M. assumption.
    - apply lit_inv in M. auto.
    - apply lit_inv in M. auto.
    - apply lit_inv in M. right. right. right. left. exists c. split; [apply (sc_marks _ _ _ _ SC); assumption|assumption].
    - apply lit_inv in M. right. right. right. right. left. eauto.
    - apply double_shape in M. tauto.
    - apply s_integer_shape in M. tauto.
    - apply identifier_inv in M. tauto.
    - apply path_inv in M. tauto.
  Qed.

  Lemma tail_late : forall i r a w, nth_error (rules INITIAL) i = Some (r, a) ->
    (forall j x, (j < i)%nat -> nth_error (map fst (rules INITIAL)) j = Some x -> ~ matches x w) ->
    tail_kind (r, a) -> ~ In w (map str kws).
  Proof.
    intros i r a w N E. intros TK K. destruct (sc_front _ _ _ _ SC) as (fr & tl & EI & F & TT & _).
    apply in_map_iff in K. destruct K as (k & <- & K). apply In_nth_error in K. destruct K as (j & J).
    assert (JL : (j < List.length kws)%nat) by (apply nth_error_Some; congruence).
    destruct (Nat.lt_ge_cases i (List.length fr + List.length kws)) as [C|C].
    - cbn [scan_rules] in N. rewrite EI in N. destruct (Nat.lt_ge_cases i (List.length fr)) as [D|D].
      + rewrite nth_error_app1 in N by assumption. apply nth_error_In in N. specialize (F _ N).
        destruct F as [F|[F|[F|(c & _ & F)]]]; rewrite F in TK; destruct TK as [Q|[Q|[Q|Q]]]; discriminate Q.
      + rewrite nth_error_app2 in N by assumption. rewrite nth_error_app1 in N by (rewrite map_length; lia). apply nth_error_In in N.
        apply in_map_iff in N. destruct N as (k' & N & K'). rewrite <- N in TK. unfold keyword_rule in TK.
        destruct (sc_keywords _ _ _ _ SC k' K') as (c' & r' & KE & _). rewrite KE in TK. cbn [lit] in TK.
        destruct TK as [Q|[Q|[Q|Q]]]; injection Q; intros; try discriminate;
          destruct r'; cbn [lit] in *; discriminate.
    - apply (E (List.length fr + j)%nat (lit (str k))); [lia| |apply lit_ok].
      cbn [scan_rules]. rewrite EI, map_app, nth_error_app2 by (rewrite map_length; lia). rewrite map_length, map_app.
      replace (List.length fr + j - List.length fr)%nat with j by lia.
      rewrite nth_error_app1 by (rewrite !map_length; assumption). rewrite map_map, nth_error_map, J. reflexivity.
  Qed.
  (** The rule that is taken. *)
  Lemma taken : forall w t, w <> [] -> (exists x, In x (map fst (rules INITIAL)) /\ matches x w) ->
    (forall u v, t = u ++ v -> u <> [] -> ~ shape (w ++ u)) ->
    exists r a, In (r, a) (rules INITIAL) /\ matches r w /\ (tail_kind (r, a) -> ~ In w (map str kws)) /\
      lex rules O INITIAL (w ++ t) =
        match a with Skip => lex rules O INITIAL t | Begin c' => lex rules O c' t | Emit f => f w :: lex rules O INITIAL t end.
  Proof.
    intros w t N X A.
    destruct (lex_first rules INITIAL w t N X) as (i & r & a & E & M & L & H).
    { intros u v x T U I M. apply (A u v T U). apply (rule_shape x); assumption. }
    exists r, a. split; [eapply nth_error_In; eassumption|]. split; [assumption|]. split; [|assumption].
    exact (tail_late i r a w E L).
  Qed.

  (** ** What ends a word or a numeral *)
  Definition wstops (t : chars) : Prop := match t with [] => True | c :: _ => kwch c = false end.

  Lemma amark_facts : forall c, In c amarks -> is_space c = false /\ is_alpha c = false /\ is_digit c = false /\ is_sign c = false /\ c <> "/"%char /\ c <> quote.
  Proof.
    intros c I. cbn in I. repeat destruct I as [<-|I]; try contradiction; (split; [reflexivity|]); (split; [reflexivity|]); (split; [reflexivity|]);
      (split; [reflexivity|]); split; discriminate.
  Qed.
  Lemma alnum_facts : forall c, is_alpha c = true \/ is_digit c = true \/ is_sign c = true ->
    is_space c = false /\ c <> "/"%char /\ ~ In c amarks /\ c <> quote.
  Proof.
    intros [[] [] [] [] [] [] [] []]; vm_compute; intros H; try (destruct H as [H|[H|H]]; discriminate H); (split; [reflexivity|]);
    (split; [discriminate|]); (split; [|discriminate]); intros K; repeat destruct K as [K|K]; discriminate || contradiction.
  Qed.
  Lemma shape_alnum : forall c r, shape (c :: r) -> is_alpha c = true \/ is_digit c = true \/ is_sign c = true ->
    (exists k, In k kws /\ c :: r = str k) \/ wordlike (c :: r) \/ numlike (c :: r).
  Proof.
    intros c r S A. destruct (alnum_facts c A) as (H1 & H2 & H3 & H4).
    destruct S as [S|[S|[S|[(x & I & S)|[S|[S|[S|(b & S & _)]]]]]]]; auto.
    - cbn in S. rewrite H1 in S. discriminate.
    - injection S as -> _. congruence.
    - injection S as -> _. congruence.
    - injection S as -> _. contradiction.
    - injection S as -> _. congruence.
  Qed.
  Lemma kw_chars : forall k, In k kws -> forallb kwch (str k) = true.
  Proof.
    intros k K. destruct (sc_keywords _ _ _ _ SC k K) as (c & r & E & F & [A|[A _]]); rewrite E; cbn [forallb]; rewrite F, andb_true_r;
      unfold kwch, idch, is_alnum; rewrite A; rewrite ?orb_true_r; reflexivity.
  Qed.
  Lemma idch_kwch : forall c, idch c = true -> kwch c = true.
  Proof. intros c H. unfold kwch. rewrite H. reflexivity. Qed.
  Lemma kwch_sticks : forall c, kwch c = true -> sticks c = true.
  Proof. intros [[] [] [] [] [] [] [] []]; vm_compute; auto. Qed.

  (** ** Words *)
  Definition a_word (w : chars) : Prop := In w (map str kws) \/ wordlike w.
  Lemma a_word_first : forall w, a_word w -> exists c r, w = c :: r /\
    (is_alpha c = true \/ (is_digit c = true /\ forallb numch w = false /\ In w (map str kws))).
  Proof.
    intros w [H|(c & r & -> & A & _)]; [|eauto].
    pose proof H as H'. apply in_map_iff in H. destruct H as (k & <- & K). destruct (sc_keywords _ _ _ _ SC k K) as (c & r & E & F & [A|[A B]]); exists c, r; auto.
  Qed.
  Lemma word_sticks : forall w u, a_word w -> shape (w ++ u) -> forallb kwch u = true.
  Proof.
    intros w u W S. destruct (a_word_first w W) as (c & r & -> & A). cbn [app] in S.
    destruct (shape_alnum _ _ S) as [(k & K & E)|[N|N]]; [tauto| | |].
    - pose proof (kw_chars k K) as H. rewrite <- E in H. change (c :: r ++ u) with ((c :: r) ++ u) in H. rewrite forallb_app in H.
      apply andb_true_iff in H. tauto.
    - destruct N as (c' & r' & E & _ & F). injection E as <- <-. rewrite forallb_app in F. apply andb_true_iff in F. destruct F as [_ F].
      eapply forallb_imp; [apply idch_kwch|assumption].
    - exfalso. destruct N as (c' & r' & E & X & F). injection E as <- <-. destruct A as [A|(A & B & _)].
      + destruct (alpha_facts c A) as (_ & Y & _). congruence.
      + rewrite forallb_app in F. apply andb_true_iff in F. destruct F as [F _]. cbn [forallb] in B. rewrite F, andb_true_r in B.
        rewrite (digit_numch c A) in B. discriminate.
  Qed.
  Definition word_sym (w : chars) : stok :=
    match find (fun k => if list_eq_dec ascii_dec w (str k) then true else false) kws with Some k => SK k | None => SI (codes w) end.
  Lemma str_inj : forall a b, str a = str b -> a = b.
  Proof. intros a b H. rewrite <- (string_of_list_ascii_of_string a), <- (string_of_list_ascii_of_string b). unfold str in H. rewrite H. reflexivity. Qed.
  Lemma word_sym_kw : forall k, In k kws -> word_sym (str k) = SK k.
  Proof.
    intros k K. unfold word_sym. destruct (find _ kws) as [k'|] eqn:F.
    - apply find_some in F. destruct F as [_ F]. destruct (list_eq_dec ascii_dec (str k) (str k')) as [E|]; [|discriminate].
      apply str_inj in E. congruence.
    - exfalso. eapply find_none in F; [|eassumption]. cbn in F. destruct (list_eq_dec ascii_dec (str k) (str k)); congruence.
  Qed.
  Lemma word_sym_name : forall w, ~ In w (map str kws) -> word_sym w = SI (codes w).
  Proof.
    intros w N. unfold word_sym. destruct (find _ kws) as [k'|] eqn:F; [|reflexivity].
    apply find_some in F. destruct F as [I F]. destruct (list_eq_dec ascii_dec w (str k')) as [->|]; [|discriminate].
    exfalso. apply N. apply in_map. assumption.
  Qed.
  Lemma emit_kind : forall r a w, In (r, a) (rules INITIAL) -> matches r w -> (tail_kind (r, a) -> ~ In w (map str kws)) -> forall f, a = Emit f ->
    (exists c, In c ms /\ w = [c] /\ f w = SM c) \/ (exists k, In k kws /\ w = str k /\ f w = SK k) \/
    (wordlike w /\ ~ In w (map str kws) /\ f w = SI (codes w)) \/ (matches double w /\ f w = SN (atof w)) \/
    (exists b, w = quote :: b ++ [quote] /\ ~ In quote b /\ f w = SP (codes b)).
  Proof.
    intros r a w I M T f ->.
    destruct (rules_kind _ I) as [[E|[E|[E|(c & C & E)]]]|[(k & K & E)|TK]]; try discriminate E.
    - rule_eq E. apply lit_inv in M. left. eauto.
    - rule_eq E. apply lit_inv in M. right. left. eauto.
    - specialize (T TK). destruct TK as [E|[E|[E|E]]]; rule_eq E.
      + right. right. right. left. auto.
      + right. right. right. left. split; [|reflexivity]. rewrite <- (app_nil_r w). apply m_seq; [assumption|apply opt_nil].
      + apply identifier_inv in M. right. right. left. auto.
      + apply path_inv in M. destruct M as (b & -> & N). right. right. right. right. exists b. split; [reflexivity|]. split; [assumption|].
        cbn [tl]. rewrite removelast_last. reflexivity.
  Qed.
  Lemma skip_kind : forall r a w, In (r, a) (rules INITIAL) -> matches r w -> (forall f, a <> Emit f) ->
    (forallb is_space w = true /\ a = Skip) \/ (w = str "//" /\ a = Begin ONE_LINE_COMMENT) \/ (w = str "/*" /\ a = Begin MULTIPLE_LINE_COMMENT).
  Proof.
    intros r a w I M T.
    destruct (rules_kind _ I) as [[E|[E|[E|(c & C & E)]]]|[(k & K & E)|[E|[E|[E|E]]]]]; rule_eq E;
      try (exfalso; eapply T; reflexivity).
    - apply star_cls in M. auto.
    - apply lit_inv in M. auto.
    - apply lit_inv in M. auto.
  Qed.
  Lemma in_rules : forall x, (exists fr tl, init = fr ++ map keyword_rule kws ++ tl /\ (In x fr \/ In x (map keyword_rule kws) \/ In x tl)) ->
    In (fst x) (map fst (rules INITIAL)).
  Proof.
    intros x (fr & tl & E & H). apply in_map. cbn [scan_rules]. rewrite E. rewrite !in_app_iff. tauto.
  Qed.

  Lemma scan_word : forall w t, a_word w -> wstops t -> lex rules O INITIAL (w ++ t) = word_sym w :: lex rules O INITIAL t.
  Proof.
    intros w t W S. destruct (a_word_first w W) as (c & s & EW & A).
    destruct (sc_front _ _ _ _ SC) as (fr & tl & EI & _ & _ & _ & _ & _ & _ & _ & TI & _).
    destruct (taken w t) as (r & a & I & M & T & H).
    - rewrite EW. discriminate.
    - destruct W as [W|W].
      + apply in_map_iff in W. destruct W as (k & <- & K). exists (lit (str k)). split; [|apply lit_ok].
        apply (in_rules (keyword_rule k)). exists fr, tl. split; [assumption|]. right. left. apply in_map. assumption.
      + exists identifier. split; [|apply identifier_inv; assumption]. apply (in_rules identifier_rule). exists fr, tl. auto.
    - intros u v -> U SH. pose proof (word_sticks w u W SH) as K. destruct u as [|y u]; [congruence|]. cbn in S, K. rewrite S in K. discriminate.
    - rewrite H. assert (A' : is_alpha c = true \/ is_digit c = true \/ is_sign c = true) by tauto.
      destruct (alnum_facts c A') as (H1 & H2 & _). destruct a as [|c'|f].
      1, 2: exfalso; destruct (skip_kind _ _ _ I M) as [[Z _]|[[Z _]|[Z _]]]; [intros; discriminate| | |]; rewrite EW in Z;
            [cbn in Z; rewrite H1 in Z; discriminate|injection Z as Z _; congruence|injection Z as Z _; congruence].
      f_equal. destruct (emit_kind _ _ _ I M T f eq_refl) as [(x & X & Z & _)|[(k & K & -> & Z)|[(_ & N & Z)|[(D & _)|(b & Z & _)]]]].
      + exfalso. destruct (alnum_facts c) as (_ & _ & H3 & _); [tauto|]. rewrite EW in Z. injection Z as -> _. apply H3. apply (sc_marks _ _ _ _ SC). assumption.
      + rewrite Z. symmetry. apply word_sym_kw. assumption.
      + rewrite Z. symmetry. apply word_sym_name. assumption.
      + exfalso. apply double_shape in D. destruct D as (c' & s' & E & X & F). rewrite EW in E. injection E as <- <-. destruct A as [A|(A & B & _)].
        * destruct (alpha_facts c A) as (_ & Y & _). congruence.
        * rewrite EW in B. cbn [forallb] in B. rewrite F, andb_true_r, (digit_numch c A) in B. discriminate.
      + exfalso. destruct (alnum_facts c) as (_ & _ & _ & H4); [tauto|]. rewrite EW in Z. injection Z as Z _. congruence.
  Qed.

  (** ** Numerals, marks, paths, blanks *)
  Lemma num_not_kw : forall w, numlike w -> ~ In w (map str kws).
  Proof.
    intros w (c & r & E & X & F) K. destruct (a_word_first w (or_introl K)) as (c' & r' & E' & [A|(A & B & _)]).
    - rewrite E in E'. injection E' as <- <-. destruct (alpha_facts c A) as (_ & Y & _). congruence.
    - rewrite E in B, E'. injection E' as <- <-. cbn [forallb] in B. rewrite F, andb_true_r, (digit_numch c A) in B. discriminate.
  Qed.
  Lemma scan_num : forall w t, matches double w -> stops t -> lex rules O INITIAL (w ++ t) = SN (atof w) :: lex rules O INITIAL t.
  Proof.
    intros w t D S. pose proof (double_shape _ D) as NL. pose proof NL as (c & s & EW & X & F).
    assert (A : is_alpha c = true \/ is_digit c = true \/ is_sign c = true) by (apply orb_true_iff in X; tauto).
    assert (NA : is_alpha c = false) by (apply (num_facts c X)).
    destruct (sc_front _ _ _ _ SC) as (fr & tl & EI & _ & _ & _ & _ & _ & _ & TD & _).
    destruct (taken w t) as (r & a & I & M & T & H).
    - rewrite EW. discriminate.
    - exists double. split; [|assumption]. apply (in_rules double_rule). exists fr, tl. auto.
    - intros u v -> U SH. destruct u as [|y u]; [congruence|]. cbn in S. rewrite EW in SH. cbn [app] in SH.
      assert (K : sticks y = true); [|congruence].
      destruct (shape_alnum _ _ SH A) as [(k & K & E)|[N|N]].
      + pose proof (kw_chars k K) as G. rewrite <- E in G. cbn [forallb] in G. apply andb_true_iff in G. destruct G as [_ G].
        apply not_stuck in G. apply kwch_sticks. assumption.
      + destruct N as (c' & r' & E & Y & _). injection E as <- <-. congruence.
      + destruct N as (c' & r' & E & _ & G). injection E as <- <-. apply not_stuck in G. unfold sticks. rewrite G. apply orb_true_r.
    - rewrite H. destruct (alnum_facts c A) as (H1 & H2 & H3 & H4). destruct a as [|c'|f].
      1, 2: exfalso; destruct (skip_kind _ _ _ I M) as [[Z _]|[[Z _]|[Z _]]]; [intros; discriminate| | |]; rewrite EW in Z;
            [cbn in Z; rewrite H1 in Z; discriminate|injection Z as Z _; congruence|injection Z as Z _; congruence].
      f_equal. destruct (emit_kind _ _ _ I M T f eq_refl) as [(x & XX & Z & _)|[(k & K & Z & _)|[(N & _ & Z)|[(_ & Z)|(b & Z & _)]]]].
      + exfalso. rewrite EW in Z. injection Z as -> _. apply H3. apply (sc_marks _ _ _ _ SC). assumption.
      + exfalso. apply (num_not_kw w NL). rewrite Z. apply in_map. assumption.
      + exfalso. destruct N as (c' & r' & E & Y & _). rewrite EW in E. injection E as <- <-. congruence.
      + assumption.
      + exfalso. rewrite EW in Z. injection Z as Z _. congruence.
  Qed.
  Lemma shape_amark : forall c r, shape (c :: r) -> In c amarks -> r = [].
  Proof.
    intros c r S I. destruct (amark_facts c I) as (H1 & H2 & H3 & H4 & H5 & H6).
    destruct S as [S|[S|[S|[(x & _ & S)|[(k & K & S)|[S|[S|(b & S & _)]]]]]]].
    - cbn in S. rewrite H1 in S. discriminate.
    - injection S as -> _. congruence.
    - injection S as -> _. congruence.
    - congruence.
    - destruct (sc_keywords _ _ _ _ SC k K) as (c' & r' & E & _ & [A|[A _]]); rewrite E in S; injection S as -> ->; congruence.
    - destruct S as (x & s & E & K & _). injection E as -> ->. congruence.
    - destruct S as (x & s & E & K & _). injection E as -> ->. rewrite H3, H4 in K. discriminate.
    - injection S as S _. congruence.
  Qed.
  Lemma scan_mark : forall c t, In c ms -> lex rules O INITIAL (c :: t) = SM c :: lex rules O INITIAL t.
  Proof.
    intros c t C. pose proof (sc_marks _ _ _ _ SC c C) as CA. destruct (amark_facts c CA) as (H1 & H2 & H3 & H4 & H5 & H6).
    destruct (sc_front _ _ _ _ SC) as (fr & tl & EI & _ & _ & FM & _).
    change (c :: t) with ([c] ++ t). destruct (taken [c] t) as (r & a & I & M & T & H).
    - discriminate.
    - exists (lit [c]). split; [|apply lit_ok]. apply (in_rules (mark_rule c)). exists fr, tl. auto.
    - intros u v -> U SH. apply U. apply (shape_amark c u); assumption.
    - rewrite H. destruct a as [|c'|f].
      1, 2: exfalso; destruct (skip_kind _ _ _ I M) as [[Z _]|[[Z _]|[Z _]]]; [intros; discriminate| | |];
            [cbn in Z; rewrite H1 in Z; discriminate|discriminate Z|discriminate Z].
      f_equal. destruct (emit_kind _ _ _ I M T f eq_refl) as [(x & XX & Z & F)|[(k & K & Z & _)|[(N & _ & Z)|[(D & _)|(b & Z & _)]]]].
      + injection Z as <-. assumption.
      + exfalso. destruct (sc_keywords _ _ _ _ SC k K) as (c' & r' & E & _ & [A|[A _]]); rewrite E in Z; injection Z as -> _; congruence.
      + exfalso. destruct N as (c' & r' & E & Y & _). injection E as <- <-. congruence.
      + exfalso. apply double_shape in D. destruct D as (c' & r' & E & Y & _). injection E as <- <-. rewrite H3, H4 in Y. discriminate.
      + exfalso. injection Z as Z _. congruence.
  Qed.
  Lemma shape_quote : forall r, shape (quote :: r) -> pathlike (quote :: r).
  Proof.
    intros r S. destruct S as [S|[S|[S|[(x & XI & S)|[(k & K & S)|[S|[S|S]]]]]]]; try assumption; try discriminate S.
    - exfalso. injection S as <- _. cbn in XI. repeat destruct XI as [XI|XI]; discriminate || contradiction.
    - destruct (sc_keywords _ _ _ _ SC k K) as (c' & r' & E & _ & [A|[A _]]); rewrite E in S; injection S as <- ->; discriminate.
    - destruct S as (x & s & E & K & _). injection E as <- <-. discriminate.
    - destruct S as (x & s & E & K & _). injection E as <- <-. discriminate.
  Qed.
  Lemma scan_path : forall b t, paths = true -> ~ In quote b -> lex rules O INITIAL (quote :: b ++ [quote] ++ t) = SP (codes b) :: lex rules O INITIAL t.
  Proof.
    intros b t PT N. destruct (sc_front _ _ _ _ SC) as (fr & tl & EI & _ & _ & _ & _ & _ & _ & _ & _ & TP).
    replace (quote :: b ++ [quote] ++ t) with ((quote :: b ++ [quote]) ++ t) by (change ((quote :: b ++ [quote]) ++ t) with (quote :: (b ++ [quote]) ++ t); rewrite <- app_assoc; reflexivity).
    destruct (taken (quote :: b ++ [quote]) t) as (r & a & I & M & T & H).
    - discriminate.
    - exists path_re. split; [|apply path_inv; exists b; auto]. apply (in_rules path_rule). exists fr, tl. split; [assumption|]. right. right. apply TP. assumption.
    - intros u v -> U SH. apply shape_quote in SH. destruct SH as (b' & E & N'). cbn [app] in E.
      assert (E' : (b ++ [quote]) ++ u = b' ++ [quote]) by (injection E as E; exact E). clear E.
      destruct (exists_last U) as (u' & y & ->). rewrite app_assoc in E'. apply app_inj_tail in E'. destruct E' as [E' _].
      apply N'. rewrite <- E'. rewrite !in_app_iff. left. right. left. reflexivity.
    - rewrite H. destruct a as [|c'|f].
      1, 2: exfalso; destruct (skip_kind _ _ _ I M) as [[Z _]|[[Z _]|[Z _]]]; [intros; discriminate| | |]; discriminate Z.
      f_equal. destruct (emit_kind _ _ _ I M T f eq_refl) as [(x & XX & Z & F)|[(k & K & Z & _)|[(W & _ & Z)|[(D & _)|(b' & Z & _ & F)]]]].
      + exfalso. injection Z as _ Z. destruct b; discriminate.
      + exfalso. destruct (sc_keywords _ _ _ _ SC k K) as (c' & r' & E & _ & [A|[A _]]); rewrite E in Z; injection Z as <- _; discriminate.
      + exfalso. destruct W as (c' & r' & E & Y & _). injection E as <- <-. discriminate.
      + exfalso. apply double_shape in D. destruct D as (c' & r' & E & Y & _). injection E as <- <-. discriminate.
      + assert (E' : b ++ [quote] = b' ++ [quote]) by (injection Z as Z; exact Z). apply app_inj_tail in E'. destruct E' as [-> _]. assumption.
  Qed.

  Lemma space_amark : forall c, is_space c = true -> is_alpha c = false /\ is_digit c = false /\ is_sign c = false /\ c <> "/"%char /\ ~ In c amarks /\ c <> quote.
  Proof.
    intros [[] [] [] [] [] [] [] []]; vm_compute; intros H; try discriminate H; (split; [reflexivity|]); (split; [reflexivity|]); (split; [reflexivity|]);
      (split; [discriminate|]); (split; [|discriminate]); intros K; repeat destruct K as [K|K]; discriminate || contradiction.
  Qed.
  Lemma shape_space : forall c r, shape (c :: r) -> is_space c = true -> forallb is_space r = true.
  Proof.
    intros c r S I. destruct (space_amark c I) as (H1 & H2 & H3 & H4 & H5 & H6).
    destruct S as [S|[S|[S|[(x & J & S)|[(k & K & S)|[S|[S|(b & S & _)]]]]]]].
    - cbn in S. apply andb_true_iff in S. tauto.
    - injection S as -> _. congruence.
    - injection S as -> _. congruence.
    - injection S as -> ->. contradiction.
    - destruct (sc_keywords _ _ _ _ SC k K) as (c' & r' & E & _ & [A|[A _]]); rewrite E in S; injection S as -> ->; congruence.
    - destruct S as (x & s & E & K & _). injection E as -> ->. congruence.
    - destruct S as (x & s & E & K & _). injection E as -> ->. rewrite H2, H3 in K. discriminate.
    - injection S as S _. congruence.
  Qed.
  Lemma scan_spaces : forall w t, forallb is_space w = true -> match t with c :: _ => is_space c = false | [] => True end ->
    lex rules O INITIAL (w ++ t) = lex rules O INITIAL t.
  Proof.
    intros w t W TS. destruct w as [|c w]; [reflexivity|].
    assert (C : is_space c = true) by (cbn in W; apply andb_true_iff in W; tauto).
    destruct (space_amark c C) as (H1 & H2 & H3 & H4 & H5 & H6).
    destruct (sc_front _ _ _ _ SC) as (fr & tl & EI & _ & _ & _ & FS & _).
    destruct (taken (c :: w) t) as (r & a & I & M & T & H).
    - discriminate.
    - exists (RStar (cls is_space)). split; [|apply star_cls; assumption]. apply (in_rules (RStar (cls is_space), Skip)). exists fr, tl. auto.
    - intros u v -> U SH. destruct u as [|y u]; [congruence|]. cbn in TS. cbn [app] in SH. pose proof (shape_space _ _ SH C) as K.
      apply not_stuck in K. congruence.
    - rewrite H. destruct a as [|c'|f].
      + reflexivity.
      + exfalso. destruct (skip_kind _ _ _ I M) as [[_ Z]|[[Z _]|[Z _]]]; [intros; discriminate|discriminate|injection Z as -> _; congruence|injection Z as -> _; congruence].
      + exfalso. destruct (emit_kind _ _ _ I M T f eq_refl) as [(x & XX & Z & F)|[(k & K & Z & _)|[(N & _ & Z)|[(D & _)|(b & Z & _)]]]].
        * injection Z as -> _. apply H5. apply (sc_marks _ _ _ _ SC). assumption.
        * destruct (sc_keywords _ _ _ _ SC k K) as (c' & r' & E & _ & [A|[A _]]); rewrite E in Z; injection Z as -> _; congruence.
        * destruct N as (c' & r' & E & Y & _). injection E as <- <-. congruence.
        * apply double_shape in D. destruct D as (c' & r' & E & Y & _). injection E as <- <-. rewrite H2, H3 in Y. discriminate.
        * injection Z as Z _. congruence.
  Qed.
  Lemma lex_space : forall c t, is_space c = true -> lex rules O INITIAL (c :: t) = lex rules O INITIAL t.
  Proof.
    intros c t H. destruct (split_spaces t) as (w & t' & -> & W & T).
    rewrite (scan_spaces w t' W T). apply (scan_spaces (c :: w) t'); [|assumption]. cbn. rewrite H. assumption.
  Qed.

  (** ** Comments *)
  Lemma shape_slash : forall r, shape ("/"%char :: r) -> r = ["/"%char] \/ r = ["*"%char].
  Proof.
    intros r S. destruct S as [S|[S|[S|[(x & J & S)|[(k & K & S)|[S|[S|(b & S & _)]]]]]]].
    - discriminate.
    - injection S as ->. auto.
    - injection S as ->. auto.
    - exfalso. injection S as <- ->. cbn in J. repeat destruct J as [J|J]; discriminate || contradiction.
    - exfalso. destruct (sc_keywords _ _ _ _ SC k K) as (c' & r' & E & _ & [A|[A _]]); rewrite E in S; injection S as <- _; discriminate.
    - destruct S as (x & s & E & K & _). injection E as <- <-. discriminate.
    - destruct S as (x & s & E & K & _). injection E as <- <-. discriminate.
    - discriminate.
  Qed.
  Lemma scan_slash : forall y c t, (y = "/"%char /\ c = ONE_LINE_COMMENT) \/ (y = "*"%char /\ c = MULTIPLE_LINE_COMMENT) ->
    lex rules O INITIAL (["/"%char; y] ++ t) = lex rules O c t.
  Proof.
    intros y c t C. destruct (sc_front _ _ _ _ SC) as (fr & tl & EI & _ & _ & _ & _ & F1 & F2 & _).
    destruct (taken ["/"%char; y] t) as (r & a & I & M & T & H).
    - discriminate.
    - exists (lit ["/"%char; y]). split; [|apply lit_ok]. destruct C as [[-> ->]|[-> ->]].
      + apply (in_rules (lit (str "//"), Begin ONE_LINE_COMMENT)). exists fr, tl. auto.
      + apply (in_rules (lit (str "/*"), Begin MULTIPLE_LINE_COMMENT)). exists fr, tl. auto.
    - intros u v -> U SH. destruct u as [|z u]; [congruence|]. cbn [app] in SH. destruct (shape_slash _ SH); discriminate.
    - rewrite H. destruct a as [|c'|f].
      + exfalso. destruct (skip_kind _ _ _ I M) as [[Z _]|[[_ Z]|[_ Z]]]; [intros; discriminate|discriminate Z|discriminate Z|discriminate Z].
      + destruct (skip_kind _ _ _ I M) as [[Z _]|[[Z E]|[Z E]]]; [intros; discriminate|discriminate Z| |];
          injection Z as ->; injection E as ->; destruct C as [[C ->]|[C ->]]; congruence.
      + exfalso. destruct (emit_kind _ _ _ I M T f eq_refl) as [(x & XX & Z & F)|[(k & K & Z & _)|[(N & _ & Z)|[(D & _)|(b & Z & _)]]]].
        * discriminate.
        * destruct (sc_keywords _ _ _ _ SC k K) as (c' & r' & E & _ & [A|[A _]]); rewrite E in Z; injection Z as <- _; discriminate.
        * destruct N as (c' & r' & E & Y & _). injection E as <- <-. discriminate.
        * apply double_shape in D. destruct D as (c' & r' & E & Y & _). injection E as <- <-. discriminate.
        * discriminate.
  Qed.
  Lemma lex_slashes : forall t, lex rules O INITIAL (str "//" ++ t) = lex rules O ONE_LINE_COMMENT t.
  Proof. intros t. apply scan_slash. auto. Qed.
  Lemma lex_slash_star : forall t, lex rules O INITIAL (str "/*" ++ t) = lex rules O MULTIPLE_LINE_COMMENT t.
  Proof. intros t. apply scan_slash. auto. Qed.

  Lemma one_line_shape : forall x w, In x (map fst ((scan_rules init) ONE_LINE_COMMENT)) -> matches x w -> exists c, w = [c].
  Proof.
    intros x w I M. cbn [scan_rules map fst] in I. destruct I as [<-|[<-|[]]]; apply cls_inv in M; destruct M as (c & -> & _); eauto.
  Qed.
  Lemma lex_line : forall b t, ~ In newline b -> lex (scan_rules init) O ONE_LINE_COMMENT (b ++ t) = lex (scan_rules init) O ONE_LINE_COMMENT t.
  Proof.
    induction b as [|c b IH]; intros t N; [reflexivity|].
    assert (E : Ascii.eqb c newline = false) by (apply Ascii.eqb_neq; intros ->; apply N; left; reflexivity).
    cbn [app]. change (c :: b ++ t) with ([c] ++ (b ++ t)).
    rewrite (lex_rule (scan_rules init) ONE_LINE_COMMENT 1 [c] (b ++ t) (cls (fun c => negb (Ascii.eqb c newline))) Skip);
      [apply IH; intros I; apply N; right; assumption | | discriminate | reflexivity].
    split; [eexists; eexists; split; [reflexivity | constructor; rewrite E; reflexivity]|]. split.
    - intros u v x _ NU I M. apply one_line_shape in M; [|assumption]. destruct M as (y & M). destruct u; [congruence|discriminate].
    - intros j x J X M. destruct j as [|j]; [|lia]. the_rule X. apply cls_inv in M. destruct M as (y & M & Y).
      injection M as <-. rewrite Ascii.eqb_sym in Y. congruence.
  Qed.
  Lemma lex_line_end : forall t, lex (scan_rules init) O ONE_LINE_COMMENT (newline :: t) = lex (scan_rules init) O INITIAL t.
  Proof.
    intros t. change (newline :: t) with ([newline] ++ t).
    rewrite (lex_rule (scan_rules init) ONE_LINE_COMMENT 0 _ t (chr newline) (Begin INITIAL)); [reflexivity| |discriminate|reflexivity].
    split; [eexists; eexists; split; [reflexivity | constructor; reflexivity]|]. split; [|intros j x J; lia].
    intros u v x _ NU I M. apply one_line_shape in M; [|assumption]. destruct M as (y & M). destruct u; [congruence|discriminate].
  Qed.
  
  (** In a block comment. *)
  Lemma block_shape : forall x w, In x (map fst ((scan_rules init) MULTIPLE_LINE_COMMENT)) -> matches x w ->
    w = str "*/" \/ (w <> [] /\ forallb plain w = true) \/ (exists c, w = ["*"%char; c] /\ Ascii.eqb c "/" = false) \/ w = [newline].
  Proof.
    intros x w I M. cbn [scan_rules map fst] in I. destruct I as [<-|[<-|[<-|[<-|[]]]]].
    - apply lit_inv in M. auto.
    - apply plus_cls in M. auto.
    - apply seq_inv in M. destruct M as (s & t & -> & M & K). apply cls_inv in M, K. destruct M as (a & -> & A), K as (b & -> & B).
      apply Ascii.eqb_eq in A. subst a. right. right. left. exists b. split; [reflexivity|]. destruct (Ascii.eqb b "/"); [discriminate|reflexivity].
    - apply cls_inv in M. destruct M as (a & -> & A). apply Ascii.eqb_eq in A. subst a. auto.
  Qed.
  Lemma lex_block_end : forall t, lex (scan_rules init) O MULTIPLE_LINE_COMMENT (str "*/" ++ t) = lex (scan_rules init) O INITIAL t.
  Proof.
    intros t. rewrite (lex_rule (scan_rules init) MULTIPLE_LINE_COMMENT 0 _ t (lit (str "*/")) (Begin INITIAL)); [reflexivity| |discriminate|reflexivity].
    split; [eexists; eexists; split; [reflexivity | apply lit_ok]|]. split; [|intros j x J; lia].
    intros u v x _ NU I M. apply block_shape in M; [|assumption]. destruct u as [|y u]; [congruence|].
    destruct M as [M|[[_ M]|[(c & M & _)|M]]]; discriminate.
  Qed.
  Lemma lex_block_star : forall c t, c <> "/"%char ->
    lex (scan_rules init) O MULTIPLE_LINE_COMMENT ("*"%char :: c :: t) = lex (scan_rules init) O MULTIPLE_LINE_COMMENT t.
  Proof.
    intros c t C. change ("*"%char :: c :: t) with (["*"%char; c] ++ t).
    rewrite (lex_rule (scan_rules init) MULTIPLE_LINE_COMMENT 2 _ t (RSeq (chr "*") (cls (fun c => negb (Ascii.eqb c "/")))) Skip);
      [reflexivity| |discriminate|reflexivity].
    apply Ascii.eqb_neq in C.
    split; [eexists; eexists; split; [reflexivity|]; change ["*"%char; c] with (["*"%char] ++ [c]); constructor; constructor;
      [reflexivity | rewrite C; reflexivity]|]. split.
    - intros u v x _ NU I M. apply block_shape in M; [|assumption]. destruct u as [|y u]; [congruence|].
      destruct M as [M|[[_ M]|[(c' & M & _)|M]]]; discriminate.
    - intros j x J X M. destruct j as [|[|j]]; [| |lia]; the_rule X.
      + apply lit_inv in M. injection M as ->. discriminate.
      + apply plus_cls in M. destruct M as [_ M]. discriminate.
  Qed.
  Lemma lex_block_newline : forall t, lex (scan_rules init) O MULTIPLE_LINE_COMMENT (newline :: t) = lex (scan_rules init) O MULTIPLE_LINE_COMMENT t.
  Proof.
    intros t. change (newline :: t) with ([newline] ++ t).
    rewrite (lex_rule (scan_rules init) MULTIPLE_LINE_COMMENT 3 _ t (chr newline) Skip); [reflexivity| |discriminate|reflexivity].
    split; [eexists; eexists; split; [reflexivity | constructor; reflexivity]|]. split.
    - intros u v x _ NU I M. apply block_shape in M; [|assumption]. destruct u as [|y u]; [congruence|].
      destruct M as [M|[[_ M]|[(c' & M & _)|M]]]; discriminate.
    - intros j x J X M. destruct j as [|[|[|j]]]; [| | |lia]; the_rule X.
      + apply lit_inv in M. discriminate.
      + apply plus_cls in M. destruct M as [_ M]. discriminate.
      + apply seq_inv in M. destruct M as (s & t' & E & M & K). apply cls_inv in M. destruct M as (a & -> & A).
        apply cls_inv in K. destruct K as (b & -> & _). discriminate.
  Qed.
  Lemma lex_block_plains : forall w t, forallb plain w = true -> match t with c :: _ => plain c = false | [] => True end ->
    lex (scan_rules init) O MULTIPLE_LINE_COMMENT (w ++ t) = lex (scan_rules init) O MULTIPLE_LINE_COMMENT t.
  Proof.
    intros w t W T. destruct w as [|c w]; [reflexivity|].
    rewrite (lex_rule (scan_rules init) MULTIPLE_LINE_COMMENT 1 (c :: w) t (plus (cls (fun c => negb (Ascii.eqb c "*" || Ascii.eqb c newline)))) Skip);
      [reflexivity| |discriminate|reflexivity].
    assert (C : plain c = true) by (cbn in W; apply andb_true_iff in W; tauto).
    assert (C1 : Ascii.eqb c "*" = false /\ Ascii.eqb c newline = false).
    { unfold plain in C. destruct (Ascii.eqb c "*"), (Ascii.eqb c newline); auto; discriminate. }
    destruct C1 as [C1 C2].
    split; [eexists; eexists; split; [reflexivity | apply plus_cls; split; [discriminate | assumption]]|]. split.
    - intros u v x -> N I M. apply block_shape in M; [|assumption]. destruct u as [|y u]; [congruence|].
      destruct M as [M|[[_ M]|[(c' & M & _)|M]]].
      + injection M as -> _. discriminate.
      + apply not_stuck in M. cbn in T. congruence.
      + injection M as -> _. discriminate.
      + injection M as -> _. discriminate.
    - intros j x J X M. destruct j as [|j]; [|lia]. the_rule X. apply lit_inv in M. injection M as -> _. discriminate.
  Qed.
  Lemma lex_block_plain : forall c t, plain c = true -> lex (scan_rules init) O MULTIPLE_LINE_COMMENT (c :: t) = lex (scan_rules init) O MULTIPLE_LINE_COMMENT t.
  Proof.
    intros c t H.
    assert (S : exists w t', t = w ++ t' /\ forallb plain w = true /\ match t' with c :: _ => plain c = false | [] => True end).
    { clear c H. induction t as [|c s (w & t & -> & H & K)]; [exists [], []; auto|].
      destruct (plain c) eqn:E; [exists (c :: w), t; cbn; rewrite E; auto | exists [], (c :: w ++ t); auto]. }
    destruct S as (w & t' & -> & W & T).
    rewrite (lex_block_plains w t' W T). apply (lex_block_plains (c :: w) t'); [|assumption]. cbn. rewrite H. assumption.
  Qed.
  
  (** A block comment goes on after its end when an odd number of stars is before it. *)
  Lemma lex_block : forall n b t, (List.length b <= n)%nat -> ~ contains b (str "*/") ->
    lex (scan_rules init) O MULTIPLE_LINE_COMMENT (b ++ str "*/" ++ t) =
    lex (scan_rules init) O (if Nat.even (trailing_stars b) then INITIAL else MULTIPLE_LINE_COMMENT) t.
  Proof.
    induction n as [|n IH]; intros b t L N.
    - destruct b; [|cbn in L; lia]. apply lex_block_end.
    - destruct b as [|c b]; [apply lex_block_end|]. cbn [List.length] in L.
      destruct (star c) eqn:E.
      + apply Ascii.eqb_eq in E. subst c. destruct b as [|c b].
        * cbn [app]. change (str "*/" ++ t) with ("*"%char :: "/"%char :: t). rewrite lex_block_star by discriminate.
          rewrite lex_block_plain by reflexivity. reflexivity.
        * assert (C : c <> "/"%char) by (intros ->; apply N; exists [], b; reflexivity).
          cbn [app List.length] in *. rewrite lex_block_star by assumption. rewrite IH; [|lia|do 2 eapply contains_cons; eassumption].
          destruct (star c) eqn:E.
          -- apply Ascii.eqb_eq in E. subst c. rewrite trailing_two. reflexivity.
          -- rewrite (trailing_cons "*" (c :: b)). cbn [forallb]. rewrite E. cbn [andb]. rewrite trailing_other by assumption. reflexivity.
      + cbn [app]. rewrite trailing_other by assumption. rewrite <- (IH b t); [|lia|eapply contains_cons; eassumption].
        destruct (Ascii.eqb c newline) eqn:F.
        * apply Ascii.eqb_eq in F. subst c. apply lex_block_newline.
        * apply lex_block_plain. unfold plain. unfold star in E. rewrite E, F. reflexivity.
  Qed.
  
  (** ** Gaps *)
  Lemma lex_gap_item : forall g t, gap_item_ok g -> lex (scan_rules init) O INITIAL (gap_item_text g ++ t) = lex (scan_rules init) O INITIAL t.
  Proof.
    intros [c|b|b] t H; cbn [gap_item_ok gap_item_text] in *.
    - cbn [app]. apply lex_space. cbn in H. repeat destruct H as [<-|H]; try reflexivity. contradiction.
    - rewrite <- app_assoc, lex_slashes, <- app_assoc, lex_line by assumption. apply lex_line_end.
    - rewrite <- app_assoc, lex_slash_star, <- app_assoc. destruct H as [H1 H2].
      rewrite (lex_block (List.length b)) by auto. rewrite H2. reflexivity.
  Qed.
  Lemma lex_gap : forall g t, gap_ok g -> lex (scan_rules init) O INITIAL (gap_text g ++ t) = lex (scan_rules init) O INITIAL t.
  Proof.
    induction g as [|x g IH]; intros t H; [reflexivity|]. inversion H; subst. cbn [gap_text flat_map].
    rewrite <- app_assoc, lex_gap_item by assumption. apply IH. assumption.
  Qed.
  Lemma lex_ending : forall e, ending_ok e -> lex (scan_rules init) O INITIAL (ending_text e) = [].
  Proof.
    intros [g o] [H1 H2]. unfold ending_text. cbn [fst snd] in *. rewrite lex_gap by assumption.
    destruct o as [b|]; [|reflexivity]. rewrite lex_slashes. rewrite <- (app_nil_r b), lex_line by assumption. reflexivity.
  Qed.
  

  (** ** Lexemes *)
  Definition lexable (x : lexm) : Prop :=
    match x with SK k => In k kws | SM c => In c ms | SP _ => paths = true | _ => True end /\ lexm_ok kws x.
  Definition fits (x : lexm) (t : chars) : Prop :=
    match x with SM _ | SP _ => True | SN _ => stops t | SK _ | SI _ => wstops t end.
  Lemma scan_lexm : forall x t, lexable x -> fits x t -> lex rules O INITIAL (lexm_text x ++ t) = lexm_value x :: lex rules O INITIAL t.
  Proof.
    intros [k|c|n|w|p] t [H K] F; cbn [lexm_text lexm_value map_sym lexm_ok fits] in *.
    - rewrite scan_word; [rewrite word_sym_kw by assumption; reflexivity| |assumption]. left. apply in_map. assumption.
    - apply scan_mark. assumption.
    - rewrite scan_num, atof_ok; [reflexivity|assumption|apply numeral_matches; assumption|assumption].
    - destruct K as [K1 K2]. rewrite scan_word; [rewrite word_sym_name by assumption; reflexivity| |assumption]. right. apply name_wordlike. assumption.
    - rewrite <- !app_assoc. cbn [app]. apply scan_path; assumption.
  Qed.
  Lemma wstops_of : forall t, stops t -> wstops t.
  Proof. intros [|c t] H; [exact I|]. cbn in *. destruct (kwch c) eqn:E; [|reflexivity]. apply kwch_sticks in E. congruence. Qed.
  Lemma fits_stops : forall x t, stops t -> fits x t.
  Proof. intros [k|c|n|w|p] t H; cbn [fits]; try exact I; try assumption; apply wstops_of; assumption. Qed.
  Lemma fits_touching : forall x y t, touching x y -> lexable y -> fits x (lexm_text y ++ t).
  Proof.
    intros x y t T [Y _]. destruct x as [k|c|n|w|p]; cbn [touching fits] in *; try exact I; destruct y as [k'|c'|n'|w'|p']; try contradiction; cbn [lexm_text app];
      try reflexivity; pose proof (sc_marks _ _ _ _ SC c' Y) as M; cbn in M; repeat destruct M as [<-|M]; try reflexivity; try contradiction; try congruence.
  Qed.
  Lemma scan_spelling : forall l t, Forall gap_ok (map fst l) -> Forall lexable (map snd l) -> apart l -> stops t ->
    lex rules O INITIAL (spelling l ++ t) = map lexm_value (map snd l) ++ lex rules O INITIAL t.
  Proof.
    induction l as [|[g x] l IH]; intros t G X S T; [reflexivity|].
    cbn [map fst snd] in *. inversion G as [|? ? G1 G2]; subst. inversion X as [|? ? X1 X2]; subst.
    cbn [spelling]. rewrite <- !app_assoc. rewrite lex_gap by assumption. rewrite scan_lexm; [|assumption|].
    - cbn [app]. f_equal. apply IH; try assumption. destruct l as [|[g' y] l]; [exact I|]. apply S.
    - destruct l as [|[g' y] l]; [apply fits_stops; assumption|]. cbn [spelling]. rewrite <- !app_assoc.
      cbn [map fst snd] in *. inversion G2; subst. inversion X2; subst. destruct S as [[S|S] _].
      + destruct g' as [|z g']; [|apply fits_stops, stops_gap; [assumption|discriminate]]. cbn [gap_text flat_map app]. apply fits_touching; assumption.
      + apply fits_stops, stops_gap; assumption.
  Qed.
  Theorem scan_written : forall xs text, Forall lexable xs -> written xs text -> lex rules O INITIAL text = map lexm_value xs.
  Proof.
    intros xs text X (l & e & -> & <- & G & A & E). rewrite scan_spelling; try assumption; [|apply stops_ending; assumption].
    rewrite lex_ending by assumption. apply app_nil_r.
  Qed.

  (** ** Every token comes from a lexeme of the text *)
  Lemma emit_lexm : forall c i r f w, nth_error (rules c) i = Some (r, Emit f) -> matches r w ->
    (forall j x, (j < i)%nat -> nth_error (map fst (rules c)) j = Some x -> ~ matches x w) ->
    exists x, w = lexm_text x /\ lexm_ok kws x /\ f w = lexm_value x.
  Proof.
    intros c i r f w N M E. destruct c.
    2: { do 2 (destruct i as [|i]; [discriminate N|]). destruct i; discriminate N. }
    2: { do 4 (destruct i as [|i]; [discriminate N|]). destruct i; discriminate N. }
    pose proof (tail_late i r (Emit f) w N E) as T.
    destruct (emit_kind r (Emit f) w (nth_error_In _ _ N) M T f eq_refl) as [(x & XX & -> & F)|[(k & K & -> & F)|[(W & NK & F)|[(D & F)|(b & -> & NQ & F)]]]].
    - exists (SM x). split; [reflexivity|]. split; [exact I|assumption].
    - exists (SK k). split; [reflexivity|]. split; [exact I|assumption].
    - exists (SI w). split; [reflexivity|]. split; [|assumption]. split; [apply name_wordlike; assumption|assumption].
    - destruct (double_numeral w D) as (n & -> & O). exists (SN n). split; [reflexivity|]. split; [assumption|]. rewrite F, atof_ok by assumption. reflexivity.
    - exists (SP b). split; [reflexivity|]. split; assumption.
  Qed.
  Lemma scan_inv : forall s k c, exists l j, lex rules k c s = map lexm_value (map snd l) /\ skipn k s = junked l ++ j /\ Forall (lexm_ok kws) (map snd l).
  Proof.
    assert (J : forall l j w, exists l' j', map snd l' = map snd l /\ w ++ junked l ++ j = junked l' ++ j').
    { intros [|[g x] l] j w.
      - exists [], (w ++ j). auto.
      - exists ((w ++ g, x) :: l), j. cbn [junked map snd]. rewrite <- !app_assoc. auto. }
    induction s as [|a s IH]; intros k c.
    - exists [], []. destruct k; cbn; auto.
    - destruct k as [|k]; [|apply (IH k c)]. cbn [lex skipn].
      destruct (longest (map fst (rules c)) 0 (a :: s)) as [[[|n] i]|] eqn:L.
      1, 3: destruct (IH O c) as (l & j & E1 & E2 & E3); destruct (J l j [a]) as (l' & j' & J1 & J2); exists l', j';
            rewrite J1; (split; [assumption|]); (split; [|assumption]); rewrite <- J2, <- E2; reflexivity.
      apply longest_some in L. destruct L as (r & _ & N & M & F). rewrite Nat.sub_0_r in *.
      rewrite nth_error_map in N. destruct (nth_error (rules c) i) as [[r' act]|] eqn:R; [|discriminate]. cbn in N. injection N as ->.
      assert (SP : a :: s = firstn (S n) (a :: s) ++ skipn n s) by (cbn [firstn app]; rewrite firstn_skipn; reflexivity).
      destruct act as [|c'|f].
      1: destruct (IH n c) as (l & j & E1 & E2 & E3). 2: destruct (IH n c') as (l & j & E1 & E2 & E3).
      1, 2: destruct (J l j (firstn (S n) (a :: s))) as (l' & j' & J1 & J2); exists l', j'; rewrite J1; (split; [assumption|]); (split; [|assumption]);
            rewrite <- J2, <- E2; assumption.
      destruct (IH n c) as (l & j & E1 & E2 & E3).
      destruct (emit_lexm c i r f (firstn (S n) (a :: s)) R M F) as (x & X1 & X2 & X3).
      exists (([], x) :: l), j. cbn [map snd junked]. rewrite E1, X3. split; [reflexivity|]. split; [|constructor; assumption].
      rewrite SP, X1, E2. cbn [app]. rewrite <- app_assoc. reflexivity.
  Qed.
End Scan.
