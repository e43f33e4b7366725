From Coq Require Import ZArith List Bool QArith String Ascii Lia.
From Verif Require Import Base Flex FlexProofs Vtk FlpText FlpTextSpec FlpTextProofs.
Import ListNotations.
Local Open Scope string_scope.
Local Open Scope list_scope.

(** ** Lexemes *)
Definition lexeme_ok (x : lexeme) : Prop :=
  match x with LWord w => In w keywords \/ name_ok w | LNum n => numeral_ok n | LMark c => In c marks end.
Definition is_word (w : chars) (s : string) : bool := if list_eq_dec ascii_dec w (str s) then true else false.
Definition word_tok (w : chars) : tok :=
  if is_word w "dimension" then DIMENSION else if is_word w "position" then POSITION
  else if is_word w "power" then POWER else if is_word w "rectangle" then RECTANGLE
  else if is_word w "values" then VALUES else if is_word w "discretization" then DISCRETIZATION
  else if is_word w "material" then MATERIAL else IDENTIFIER (codes w).
Definition lexeme_tok (x : lexeme) : tok :=
  match x with LWord w => word_tok w | LNum n => DVALUE (numeral_value n) | LMark c => mark_tok c end.

Lemma in_chars : forall (c : ascii) l, existsb (Ascii.eqb c) l = true -> In c l.
Proof. intros c l H. apply existsb_exists in H. destruct H as (x & I & E). apply Ascii.eqb_eq in E. subst x. assumption. Qed.
Lemma letter_alpha : forall c, letter c <-> is_alpha c = true.
Proof.
  intros c. split.
  - intros H. cbn in H. repeat destruct H as [<-|H]; try reflexivity. contradiction.
  - destruct c as [[] [] [] [] [] [] [] []]; intros H; try discriminate H; apply in_chars; reflexivity.
Qed.
Lemma letter_digit_idch : forall c, letter_digit c <-> idch c = true.
Proof.
  intros c. unfold letter_digit, idch, is_alnum. rewrite letter_alpha. split.
  - intros [H|H]; [rewrite H, orb_true_r; reflexivity|].
    cbn in H. repeat destruct H as [<-|H]; try reflexivity. contradiction.
  - intros H. destruct (is_alpha c) eqn:E; [auto|right]. cbn [orb] in H.
    destruct c as [[] [] [] [] [] [] [] []]; try discriminate H; apply in_chars; reflexivity.
Qed.
Lemma name_wordlike : forall w, (exists c r, w = c :: r /\ letter c /\ Forall letter_digit r) <-> wordlike w.
Proof.
  intros w. unfold wordlike. split; intros (c & r & -> & H & K); exists c, r; (split; [reflexivity|]).
  - apply letter_alpha in H. split; [assumption|]. apply forallb_forall. intros x I. rewrite Forall_forall in K. apply letter_digit_idch. auto.
  - apply letter_alpha in H. split; [assumption|]. rewrite Forall_forall. intros x I. rewrite forallb_forall in K. apply letter_digit_idch. auto.
Qed.
Lemma word_tok_name : forall w, ~ In w keywords -> word_tok w = IDENTIFIER (codes w).
Proof.
  intros w H. unfold word_tok, is_word.
  repeat match goal with |- context [list_eq_dec ascii_dec w (str ?s)] =>
    destruct (list_eq_dec ascii_dec w (str s)) as [->|_]; [exfalso; apply H; cbn; tauto|] end.
  reflexivity.
Qed.

Lemma lex_word : forall w t, In w keywords \/ name_ok w -> stops t ->
  lex flp_rules O INITIAL (w ++ t) = word_tok w :: lex flp_rules O INITIAL t.
Proof.
  intros w t [H|[H K]] S.
  - unfold keywords in H. cbn [map In] in H.
    destruct H as [<-|[<-|[<-|[<-|[<-|[<-|[<-|[]]]]]]]].
    + apply (lex_keyword 8 (str "dimension") (fun _ => DIMENSION)); [reflexivity|lia|assumption].
    + apply (lex_keyword 9 (str "position") (fun _ => POSITION)); [reflexivity|lia|assumption].
    + apply (lex_keyword 10 (str "power") (fun _ => POWER)); [reflexivity|lia|assumption].
    + apply (lex_keyword 11 (str "rectangle") (fun _ => RECTANGLE)); [reflexivity|lia|assumption].
    + apply (lex_keyword 12 (str "values") (fun _ => VALUES)); [reflexivity|lia|assumption].
    + apply (lex_keyword 13 (str "discretization") (fun _ => DISCRETIZATION)); [reflexivity|lia|assumption].
    + apply (lex_keyword 14 (str "material") (fun _ => MATERIAL)); [reflexivity|lia|assumption].
  - rewrite word_tok_name by assumption. apply lex_name; [apply name_wordlike | |]; assumption.
Qed.
Lemma lex_lexeme : forall x t, lexeme_ok x -> is_mark x = true \/ stops t ->
  lex flp_rules O INITIAL (lexeme_text x ++ t) = lexeme_tok x :: lex flp_rules O INITIAL t.
Proof.
  intros [w|n|c] t H S; cbn [lexeme_ok lexeme_text lexeme_tok is_mark] in *.
  - apply lex_word; [assumption|]. destruct S; [discriminate|assumption].
  - rewrite lex_num, atof_ok; [reflexivity|assumption|apply numeral_matches; assumption|]. destruct S; [discriminate|assumption].
  - apply lex_mark. assumption.
Qed.

Lemma stops_gap : forall g t, gap_ok g -> g <> [] -> stops (gap_text g ++ t).
Proof.
  intros [|x g] t H N; [congruence|]. inversion H as [|? ? H1]; subst. clear -H1. cbn [gap_text flat_map]. rewrite <- app_assoc.
  destruct x as [c|b|b]; cbn [gap_item_ok gap_item_text] in *.
  - cbn in H1. repeat destruct H1 as [<-|H1]; try reflexivity. contradiction.
  - reflexivity.
  - reflexivity.
Qed.
Lemma stops_mark : forall c t, In c marks -> stops (c :: t).
Proof. intros c t H. cbn in H. repeat destruct H as [<-|H]; try reflexivity. contradiction. Qed.
Lemma stops_ending : forall e, ending_ok e -> stops (ending_text e).
Proof.
  intros [[|x g] o] [H1 H2]; unfold ending_text; cbn [fst snd] in *.
  - destruct o; exact I || reflexivity.
  - apply stops_gap; [assumption|discriminate].
Qed.

Lemma lex_spell : forall l t, Forall gap_ok (map fst l) -> Forall lexeme_ok (map snd l) -> separated l -> stops t ->
  lex flp_rules O INITIAL (spell l ++ t) = map lexeme_tok (map snd l) ++ lex flp_rules O INITIAL t.
Proof.
  induction l as [|[g x] l IH]; intros t G X S T; [reflexivity|].
  cbn [map fst snd] in *. inversion G as [|? ? G1 G2]; subst. inversion X as [|? ? X1 X2]; subst.
  cbn [spell]. rewrite <- !app_assoc. rewrite lex_gap by assumption. rewrite lex_lexeme; [|assumption|].
  - cbn [app]. f_equal. apply IH; try assumption. destruct l as [|[g' y] l]; [exact I|]. apply S.
  - destruct l as [|[g' y] l]; [right; assumption|]. destruct S as [[S|[S|S]] _]; [left; assumption| |].
    + right. cbn [spell]. rewrite <- !app_assoc. cbn [map fst snd] in *. inversion G2; subst. inversion X2; subst.
      destruct g' as [|z g']; [|apply stops_gap; [assumption|discriminate]].
      destruct y; try discriminate. cbn [gap_text flat_map app lexeme_text]. apply stops_mark. assumption.
    + right. cbn [spell]. rewrite <- !app_assoc. cbn [map fst snd] in *. inversion G2; subst. apply stops_gap; assumption.
Qed.

(** ** Every token comes from a lexeme of the text *)

Lemma longest_some : forall s rs n m i, longest rs n s = Some (m, i) -> exists r, (n <= m)%nat /\ nth_error rs i = Some r /\ matches r (firstn (m - n) s) /\
  forall j x, (j < i)%nat -> nth_error rs j = Some x -> ~ matches x (firstn (m - n) s).
Proof.
  assert (F : forall rs i, first_nullable rs = Some i -> exists r, nth_error rs i = Some r /\ nullable r = true /\
     forall j x, (j < i)%nat -> nth_error rs j = Some x -> nullable x = false).
  { induction rs as [|r rs IH]; intros i H; [discriminate|]. cbn [first_nullable] in H. destruct (nullable r) eqn:E.
    - injection H as <-. exists r. split; [reflexivity|]. split; [assumption|]. intros j x J; lia.
    - destruct (first_nullable rs) as [k|] eqn:K; [|discriminate]. injection H as <-. destruct (IH k eq_refl) as (r' & A & B & C).
      exists r'. split; [assumption|]. split; [assumption|]. intros [|j] x J X; cbn in X; [congruence|]. apply (C j x); [lia|assumption]. }
  assert (H0 : forall rs n m i s, option_map (fun i => (n, i)) (first_nullable rs) = Some (m, i) -> exists r, (n <= m)%nat /\ nth_error rs i = Some r /\
     matches r (firstn (m - n) s) /\ forall j x, (j < i)%nat -> nth_error rs j = Some x -> ~ matches x (firstn (m - n) s)).
  { intros rs n m i s H. destruct (first_nullable rs) as [k|] eqn:K; [|discriminate]. cbn in H. injection H as <- <-.
    destruct (F rs k K) as (r & A & B & C). exists r. rewrite Nat.sub_diag. cbn [firstn]. split; [lia|]. split; [assumption|].
    split; [apply nullable_ok; assumption|]. intros j x J X. rewrite <- nullable_ok, (C j x J X). discriminate. }
  induction s as [|c s IH]; intros rs n m i H; cbn [longest] in H; [apply H0; assumption|].
  destruct (forallb is_none rs); [apply H0; assumption|].
  destruct (longest (map (deriv c) rs) (S n) s) as [[m' i']|] eqn:E; [|apply H0; assumption].
  injection H as -> ->. destruct (IH _ _ _ _ E) as (r & A & B & C & D).
  destruct (nth_map_inv _ _ _ _ _ _ B) as (y & Y & ->). exists y. split; [lia|]. split; [assumption|].
  replace (m - n)%nat with (S (m - S n)) by lia. cbn [firstn]. split; [apply deriv_ok; assumption|].
  intros j x J X. rewrite <- deriv_ok. apply (D j); [assumption|]. rewrite nth_error_map, X. reflexivity.
Qed.

Lemma digits_numeral : forall w, w <> [] -> forallb is_digit w = true -> exists l, digits_text l = w /\ some_digits l.
Proof.
  assert (D : forall c, is_digit c = true -> exists n, (n < 10)%nat /\ digit_text n = c).
  { intros c H. exists (nat_of_ascii c - 48)%nat.
    destruct c as [[] [] [] [] [] [] [] []]; try discriminate H; (split; [vm_compute; lia | reflexivity]). }
  induction w as [|c w IH]; intros N H; [congruence|]. cbn [forallb] in H. apply andb_true_iff in H. destruct H as [H1 H2].
  destruct (D c H1) as (n & L & <-). destruct w as [|c' w].
  - exists [n]. split; [reflexivity|]. split; [discriminate|]. constructor; [assumption|constructor].
  - destruct IH as (l & E & K); [discriminate|assumption|]. exists (n :: l). cbn [digits_text map]. unfold digits_text in E. rewrite E.
    split; [reflexivity|]. split; [discriminate|]. constructor; [assumption|apply K].
Qed.
Lemma s_integer_numeral : forall w, matches s_integer w -> exists s l, w = sign_text s ++ digits_text l /\ some_digits l.
Proof.
  intros w H. apply s_integer_inv in H. destruct H as (sg & ds & -> & S & N & D). destruct (digits_numeral ds N D) as (l & <- & L).
  destruct S as [->|(c & -> & E)].
  - exists None, l. auto.
  - assert (C : c = "+"%char \/ c = "-"%char).
    { unfold is_sign in E. apply orb_true_iff in E. rewrite !Ascii.eqb_eq in E. assumption. }
    destruct C as [->| ->]; [exists (Some false), l | exists (Some true), l]; auto.
Qed.
Lemma double_numeral : forall w, matches double w -> exists n, w = numeral_text n /\ numeral_ok n.
Proof.
  intros w H. apply seq_inv in H. destruct H as (u & v & -> & H & K). destruct (s_integer_numeral u H) as (s & l & -> & L).
  apply opt_inv in K. destruct K as [->|K].
  - exists (mkNumeral s l None None). unfold numeral_text. cbn [n_sign n_int n_frac n_exp]. rewrite !app_nil_r.
    split; [reflexivity|]. split; [assumption|]. split; exact I.
  - apply seq_inv in K. destruct K as (p & q & -> & P & K).
    assert (F : exists f, p = match f with Some f => str "." ++ digits_text f | None => [] end /\ match f with Some f => some_digits f | None => True end).
    { apply opt_inv in P. destruct P as [->|P]; [exists None; auto|].
      apply seq_inv in P. destruct P as (a & b & -> & P1 & P2). apply cls_inv in P1. destruct P1 as (c & -> & E). apply Ascii.eqb_eq in E. subst c.
      apply plus_cls in P2. destruct (digits_numeral b (proj1 P2) (proj2 P2)) as (f & <- & F). exists (Some f). auto. }
    assert (G : exists e, q = match e with Some (c, s, d) => c :: sign_text s ++ digits_text d | None => [] end /\
                 match e with Some (c, _, d) => (c = "e"%char \/ c = "E"%char) /\ some_digits d | None => True end).
    { apply opt_inv in K. destruct K as [->|K]; [exists None; auto|].
      apply exponent_inv in K. destruct K as (c & x & -> & C & X). destruct (s_integer_numeral x X) as (s' & d & -> & D).
      exists (Some (c, s', d)). auto. }
    destruct F as (f & -> & F), G as (e & -> & G). exists (mkNumeral s l f e).
    unfold numeral_text. cbn [n_sign n_int n_frac n_exp]. rewrite <- app_assoc. split; [reflexivity|]. split; [assumption|]. split; assumption.
Qed.

Lemma emit_lexeme : forall c i r f w, nth_error (flp_rules c) i = Some (r, Emit f) -> matches r w ->
  (forall j x, (j < i)%nat -> nth_error (map fst (flp_rules c)) j = Some x -> ~ matches x w) ->
  exists x, w = lexeme_text x /\ lexeme_ok x /\ f w = lexeme_tok x.
Proof.
  intros c i r f w N M E. destruct c.
  2: { do 2 (destruct i as [|i]; [discriminate N|]). destruct i; discriminate N. }
  2: { do 4 (destruct i as [|i]; [discriminate N|]). destruct i; discriminate N. }
  do 3 (destruct i as [|i]; [discriminate N|]).
  assert (K : forall k g, nth_error (flp_rules INITIAL) (S (S (S i))) = Some (lit k, Emit g) -> w = k /\ f = g).
  { intros k g H. rewrite H in N. assert (A : lit k = r) by congruence. assert (B : g = f) by congruence. rewrite <- A in M. apply lit_inv in M. auto. }
  do 5 (destruct i as [|i]; [ destruct (K _ _ eq_refl) as [-> ->];
     match goal with |- exists x, str ?s = _ /\ _ => let c := eval cbv in (str s) in match c with [?a] => exists (LMark a) end end;
     split; [reflexivity|]; split; [cbn; tauto|reflexivity] |]).
  do 7 (destruct i as [|i]; [ destruct (K _ _ eq_refl) as [-> ->];
     match goal with |- exists x, str ?s = _ /\ _ => exists (LWord (str s)) end;
     split; [reflexivity|]; split; [left; cbn; tauto|reflexivity] |]).
  clear K. destruct i as [|[|[|i]]]; cbn [flp_rules nth_error] in N.
  - assert (R : r = identifier) by congruence. assert (F : f = fun s => IDENTIFIER (codes s)) by congruence. subst r f.
    assert (A : ~ In w keywords).
    { intros I. unfold keywords in I. cbn [map In] in I.
      repeat destruct I as [<-|I]; try contradiction.
      - apply (E 8%nat _ ltac:(lia) eq_refl). apply lit_ok.
      - apply (E 9%nat _ ltac:(lia) eq_refl). apply lit_ok.
      - apply (E 10%nat _ ltac:(lia) eq_refl). apply lit_ok.
      - apply (E 11%nat _ ltac:(lia) eq_refl). apply lit_ok.
      - apply (E 12%nat _ ltac:(lia) eq_refl). apply lit_ok.
      - apply (E 13%nat _ ltac:(lia) eq_refl). apply lit_ok.
      - apply (E 14%nat _ ltac:(lia) eq_refl). apply lit_ok. }
    exists (LWord w). split; [reflexivity|]. split.
    + right. split; [apply name_wordlike, identifier_inv|]; assumption.
    + cbn [lexeme_tok]. rewrite word_tok_name by assumption. reflexivity.
  - assert (R : r = s_integer) by congruence. assert (F : f = fun s => DVALUE (atof s)) by congruence. subst r f.
    assert (D : matches double w) by (rewrite <- (app_nil_r w); apply m_seq; [assumption | apply opt_nil]).
    destruct (double_numeral w D) as (n & -> & O). exists (LNum n). split; [reflexivity|]. split; [assumption|].
    cbn [lexeme_tok]. rewrite atof_ok by assumption. reflexivity.
  - assert (R : r = double) by congruence. assert (F : f = fun s => DVALUE (atof s)) by congruence. subst r f.
    destruct (double_numeral w M) as (n & -> & O). exists (LNum n). split; [reflexivity|]. split; [assumption|].
    cbn [lexeme_tok]. rewrite atof_ok by assumption. reflexivity.
  - destruct i; discriminate N.
Qed.

Lemma lex_inv : forall s k c, exists l j, lex flp_rules k c s = map lexeme_tok (map snd l) /\ skipn k s = with_junk l ++ j /\ Forall lexeme_ok (map snd l).
Proof.
  assert (J : forall l j w, exists l' j', map snd l' = map snd l /\ w ++ with_junk l ++ j = with_junk l' ++ j').
  { intros [|[g x] l] j w.
    - exists [], (w ++ j). auto.
    - exists ((w ++ g, x) :: l), j. cbn [with_junk map snd]. rewrite <- !app_assoc. auto. }
  induction s as [|a s IH]; intros k c.
  - exists [], []. destruct k; cbn; auto.
  - destruct k as [|k]; [|apply (IH k c)]. cbn [lex skipn].
    destruct (longest (map fst (flp_rules c)) 0 (a :: s)) as [[[|n] i]|] eqn:L.
    1, 3: destruct (IH O c) as (l & j & E1 & E2 & E3); destruct (J l j [a]) as (l' & j' & J1 & J2); exists l', j';
          rewrite J1; (split; [assumption|]); (split; [|assumption]); rewrite <- J2, <- E2; reflexivity.
    apply longest_some in L. destruct L as (r & _ & N & M & F). rewrite Nat.sub_0_r in *.
    rewrite nth_error_map in N. destruct (nth_error (flp_rules c) i) as [[r' act]|] eqn:R; [|discriminate]. cbn in N. injection N as ->.
    assert (SP : a :: s = firstn (S n) (a :: s) ++ skipn n s) by (cbn [firstn app]; rewrite firstn_skipn; reflexivity).
    destruct act as [|c'|f].
    1: destruct (IH n c) as (l & j & E1 & E2 & E3). 2: destruct (IH n c') as (l & j & E1 & E2 & E3).
    1, 2: destruct (J l j (firstn (S n) (a :: s))) as (l' & j' & J1 & J2); exists l', j'; rewrite J1; (split; [assumption|]); (split; [|assumption]);
          rewrite <- J2, <- E2; assumption.
    destruct (IH n c) as (l & j & E1 & E2 & E3).
    destruct (emit_lexeme c i r f (firstn (S n) (a :: s)) R M F) as (x & X1 & X2 & X3).
    exists (([], x) :: l), j. cbn [map snd with_junk]. rewrite E1, X3. split; [reflexivity|]. split; [|constructor; assumption].
    rewrite SP, X1, E2. cbn [app]. rewrite <- app_assoc. reflexivity.
Qed.
