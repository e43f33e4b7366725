(** * C71. Stack description files, from their characters.

    [describes f text]: the text spells the declarations [f] (StkTextSpec.v).
    [read_stack text]: what the scanner and the grammar make of a text; [None] is
    a syntax error, on which the program reports an error and stops. *)
From Coq Require Import ZArith List Bool QArith String Ascii Lia.
From Verif Require Import Base Flex FlexProofs Vtk FlpText FlpTextSpec FlpTextProofs FlpLexProofs Inspect StkScan StkText StkTextSpec ScanProofs
  StkGramProofs StkInstProofs PropFlpText.
Import ListNotations.
Local Open Scope string_scope.
Local Open Scope list_scope.

(** ** The grammar is that of the user guide *)
Theorem C71_grammar : forall ts f, parse_tokens ts = Some f <-> ts = file_syntax f /\ file_ok f.
Proof. intros ts f. split; [apply parse_sound|]. intros [-> O]. apply file_complete. assumption. Qed.
Print Assumptions C71_grammar.

(** Two different files never have the same lexemes. *)
Theorem C71_unambiguous : forall f g : qfile, file_ok f -> file_ok g -> file_syntax f = file_syntax g -> f = g.
Proof. intros f g F G E. apply file_complete in F. apply file_complete in G. rewrite E in F. congruence. Qed.
Print Assumptions C71_unambiguous.

(** ** Every text that spells a file is read as that file *)
Lemma lexable_all : forall f : stkfile numeral chars chars, Forall (lexm_ok reserved) (file_syntax f) ->
  Forall (lexable stk_marks stk_keywords true) (file_syntax f).
Proof.
  intros f H. apply Forall_forall. intros x I. rewrite Forall_forall in H. specialize (H x I).
  assert (D := file_drawn f). rewrite Forall_forall in D. specialize (D x I). split.
  - destruct x as [k|c|n|w|p]; try exact Logic.I; [apply reserved_keywords; exact D|exact D|reflexivity].
  - apply (lexm_ok_same reserved); [apply reserved_keywords|assumption].
Qed.
Lemma read_values : forall (f : stkfile numeral chars chars) text, file_ok f -> stk_tokens text = map lexm_value (file_syntax f) ->
  read_stack text = Some (file_value f).
Proof.
  intros f text O E. unfold read_stack. rewrite E.
  assert (V : map lexm_value (file_syntax f) = file_syntax (file_value f)) by apply (nat_file numeral_value name_codes name_codes f). rewrite V. apply file_complete. apply nat_ok. assumption.
Qed.
Theorem C71_reads : forall f text, describes f text -> read_stack text = Some (file_value f).
Proof.
  intros f text [O K T]. apply read_values; [assumption|]. unfold stk_tokens.
  apply (scan_written _ _ _ _ stk_scanner); [apply lexable_all; assumption|assumption].
Qed.
Print Assumptions C71_reads.

(** ** Every text that is read has the lexemes of what is read, in order; its
       names are not reserved words *)
Theorem C71_accepted : forall text q, read_stack text = Some q ->
  exists l j, text = junked l ++ j /\ map lexm_value (map snd l) = file_syntax q /\ Forall (lexm_ok reserved) (map snd l) /\ file_ok q.
Proof.
  intros text q H. unfold read_stack in H. apply C71_grammar in H. destruct H as [E O].
  destruct (scan_inv _ _ _ _ stk_scanner text 0%nat INITIAL) as (l & j & L & S & K). exists l, j.
  split; [exact S|]. split; [unfold stk_tokens in E; congruence|]. split; [|assumption].
  eapply Forall_impl; [|exact K]. intros x. apply lexm_ok_same. intros k. symmetry. apply reserved_keywords.
Qed.
Print Assumptions C71_accepted.

(** ** Defects *)
(** A character of no rule is dropped, and so is a sign with a blank after it: "- 7" is 7. *)
Definition no_rule (c : ascii) : Prop :=
  ~ In c (str " /().,:;abcdefghijklmnopqrstuvwxyzABCDEFGHIJKLMNOPQRSTUVWXYZ0123456789") /\ c <> "034"%char
  /\ ~ In c ["009"; "010"; "011"; "012"; "013"]%char.
Lemma no_rule_facts : forall c, no_rule c -> is_space c = false /\ is_alpha c = false /\ is_digit c = false /\ ~ In c amarks /\ c <> "/"%char /\ c <> quote.
Proof.
  intros c (H1 & H2 & H3).
  assert (D : forall d, In d (str " /().,:;abcdefghijklmnopqrstuvwxyzABCDEFGHIJKLMNOPQRSTUVWXYZ0123456789" ++ ["009"; "010"; "011"; "012"; "013"]%char) -> c <> d).
  { intros d I ->. apply in_app_or in I. tauto. }
  assert (Q : existsb (Ascii.eqb c) (str " /().,:;abcdefghijklmnopqrstuvwxyzABCDEFGHIJKLMNOPQRSTUVWXYZ0123456789" ++ ["009"; "010"; "011"; "012"; "013"]%char) = false).
  { apply not_true_iff_false. intros X. apply existsb_exists in X. destruct X as (d & I & E). apply Ascii.eqb_eq in E. apply (D d I E). }
  assert (A : is_space c = false /\ is_alpha c = false /\ is_digit c = false /\ existsb (Ascii.eqb c) amarks = false /\ Ascii.eqb c "/" = false).
  { revert Q. clear. destruct c as [[] [] [] [] [] [] [] []]; intros Q; try discriminate Q; repeat split. }
  destruct A as (A1 & A2 & A3 & A4 & A5). split; [assumption|]. split; [assumption|]. split; [assumption|]. split.
  { intros I. assert (X : existsb (Ascii.eqb c) amarks = true) by (apply existsb_exists; exists c; split; [assumption|apply Ascii.eqb_refl]). congruence. }
  split; [apply Ascii.eqb_neq; assumption|assumption].
Qed.
Lemma lex_dropped : forall c t, no_rule c -> stk_tokens (c :: " "%char :: t) = stk_tokens t.
Proof.
  intros c t H. destruct (no_rule_facts c H) as (S & A & D & M & Sl & Qu). unfold stk_tokens.
  rewrite lex_default.
  - apply (lex_space _ _ _ _ stk_scanner). reflexivity.
  - intros u v r E I MA0. assert (MA := MA0). apply (rule_shape _ _ _ _ stk_scanner) in MA; [|exact I]. unfold shape in MA.
    destruct MA as [MA|[MA|[MA|[(m & I1 & MA)|[(k & I1 & MA)|[MA|[MA|MA]]]]]]].
    + cbn [forallb] in MA. rewrite S in MA. discriminate.
    + apply Sl. change (str "//") with ["/"%char; "/"%char] in MA. congruence.
    + apply Sl. change (str "/*") with ["/"%char; "*"%char] in MA. congruence.
    + assert (c = m) by congruence. subst. contradiction.
    + apply (sc_keywords _ _ _ _ stk_scanner) in I1. destruct I1 as (x & y & E1 & _ & E2). rewrite <- MA in E1. assert (x = c) by congruence. subst.
      destruct E2 as [E2|[E2 _]]; congruence.
    + destruct MA as (x & y & E1 & E2 & _). assert (x = c) by congruence. subst. congruence.
    + destruct MA as (x & y & E1 & E2 & E3). assert (x = c) by congruence. assert (y = u) by congruence. subst x y. clear E1.
      rewrite D, orb_false_r in E2. destruct u as [|z u]; [|assert (z = " "%char) by (cbn in E; congruence); subst z; discriminate E3].
      assert (NO : forall d, (d = "+" \/ d = "-")%char -> existsb (fun r => nullable (deriv d r)) (map fst stk_init) = false)
        by (intros d [-> | ->]; vm_compute; reflexivity).
      assert (Y : existsb (fun r => nullable (deriv c r)) (map fst stk_init) = false).
      { apply NO. clear - E2. unfold is_sign in E2. apply orb_prop in E2. destruct E2 as [E2|E2]; apply Ascii.eqb_eq in E2; auto. }
      assert (NN := MA0). clear - Y I NN. apply (proj2 (deriv_ok _ _ _)) in NN. apply nullable_ok in NN.
      assert (existsb (fun r => nullable (deriv c r)) (map fst stk_init) = true); [|congruence]. apply existsb_exists. eauto.
    + destruct MA as (b & E1 & _). congruence.
Qed.
(** The same file is read when such a character is written anywhere. *)
Theorem C71_stray_dropped : forall f l1 l2 c e, file_ok f -> Forall (lexm_ok reserved) (file_syntax f) ->
  map snd l1 ++ map snd l2 = file_syntax f -> Forall gap_ok (map fst l1) -> Forall gap_ok (map fst l2) -> apart l1 -> apart l2 -> ending_ok e ->
  no_rule c ->
  read_stack (spelling l1 ++ " "%char :: c :: " "%char :: spelling l2 ++ ending_text e) = Some (file_value f).
Proof.
  intros f l1 l2 c e O K L G1 G2 A1 A2 E N. apply read_values; [assumption|]. apply lexable_all in K. rewrite <- L in K |- *. apply Forall_app in K.
  destruct K as [K1 K2]. unfold stk_tokens.
  rewrite (scan_spelling _ _ _ _ stk_scanner l1); try assumption; [|reflexivity].
  rewrite (lex_space _ _ _ _ stk_scanner) by reflexivity. fold (stk_tokens (c :: " "%char :: spelling l2 ++ ending_text e)). rewrite lex_dropped by assumption.
  unfold stk_tokens. rewrite (scan_spelling _ _ _ _ stk_scanner l2); try assumption; [|apply stops_ending; assumption].
  rewrite (lex_ending _ _ _ _ stk_scanner) by assumption. rewrite app_nil_r, map_app. reflexivity.
Qed.
Print Assumptions C71_stray_dropped.

(** A comment whose text ends with an odd number of stars ("/** text **/") is not
    closed: when it is before the output section, the program reports nothing and
    does not make the outputs the file asks for. *)
Lemma lex_unclosed : forall n t, (List.length t <= n)%nat -> ~ contains t (str "*/") ->
  lex (scan_rules stk_init) O MULTIPLE_LINE_COMMENT t = [].
Proof.
  induction n as [|n IH]; intros t L N.
  - destruct t; [reflexivity|cbn in L; lia].
  - assert (SUB : forall a b, t = a ++ b -> ~ contains b (str "*/")).
    { intros a b E (u & v & Q). apply N. exists (a ++ u), v. rewrite E, Q, <- !app_assoc. reflexivity. }
    destruct t as [|c t]; [reflexivity|]. destruct (Ascii.eqb_spec c "*") as [->|C].
    + destruct t as [|c2 t]; [reflexivity|]. assert (c2 <> "/"%char).
      { intros ->. apply N. exists [], t. reflexivity. }
      rewrite lex_block_star by assumption. apply IH; [cbn in L; lia|]. apply (SUB ["*"%char; c2]). reflexivity.
    + assert (NT : ~ contains t (str "*/")) by (apply (SUB [c]); reflexivity).
      destruct (Ascii.eqb_spec c newline) as [->|K].
      * rewrite lex_block_newline. apply IH; [cbn in L; lia|exact NT].
      * rewrite lex_block_plain; [apply IH; [cbn in L; lia|exact NT]|].
        unfold plain. apply Ascii.eqb_neq in C. apply Ascii.eqb_neq in K. rewrite C, K. reflexivity.
Qed.
Definition without_outputs (f : stkfile numeral chars chars) : stkfile numeral chars chars :=
  mkStkfile (s_materials f) (s_top f) (s_bottom f) (s_channel f) (s_dims f) (s_layers f) (s_dies f) (s_stack f) (s_solver f) None.
Definition output_syntax (f : stkfile numeral chars chars) : list lexm :=
  optional (fun l => words ["output"] ++ mark ":" ++ several point_syntax l) (s_output f).
Theorem C71_star_comment : forall f l g b t, Forall (lexm_ok reserved) (file_syntax f) ->
  map snd l ++ output_syntax f = file_syntax f -> Forall gap_ok (map fst l) -> apart l -> gap_ok g ->
  ~ contains b (str "*/") -> Nat.odd (trailing_stars b) = true -> ~ contains t (str "*/") ->
  read_stack (spelling l ++ gap_text g ++ str "/*" ++ b ++ str "*/" ++ t) = Some (file_value (without_outputs f)).
Proof.
  intros f l g b t K L G A GO B O T.
  assert (S : file_syntax (without_outputs f) = map snd l).
  { assert (E : file_syntax f = file_syntax (without_outputs f) ++ output_syntax f).
    { unfold file_syntax, without_outputs, output_syntax. cbn [s_materials s_top s_bottom s_channel s_dims s_layers s_dies s_stack s_solver s_output].
      change (optional (fun l0 => words ["output"] ++ mark ":" ++ several point_syntax l0) None) with (@nil lexm). rewrite app_nil_r, <- !app_assoc. reflexivity. }
    rewrite E in L. apply app_inv_tail in L. symmetry. assumption. }
  apply read_values; [exact I|]. rewrite S. unfold stk_tokens.
  assert (K2 : Forall (lexable stk_marks stk_keywords true) (map snd l)).
  { rewrite <- S. apply lexable_all. rewrite S. rewrite <- L in K. apply Forall_app in K. apply K. }
  rewrite (scan_spelling _ _ _ _ stk_scanner l); try assumption.
  - rewrite (lex_gap _ _ _ _ stk_scanner) by assumption. rewrite (lex_slash_star _ _ _ _ stk_scanner). rewrite (lex_block _ (List.length b) b t (le_n _) B).
    rewrite <- Nat.negb_odd, O. cbn [negb]. rewrite (lex_unclosed (List.length t) t (le_n _) T). apply app_nil_r.
  - destruct g as [|x g]; [reflexivity|]. apply stops_gap; [assumption|discriminate].
Qed.
Print Assumptions C71_star_comment.

(** ** The hypotheses are met: /repo/bin/example_transient_test_server.stk *)
Definition int_ (l : list nat) : numeral := mkNumeral None l None None.
Definition sci (i : nat) (f : list nat) (e : list nat) : numeral := mkNumeral None [i] (Some f) (Some ("e"%char, Some true, e)).
Definition an_example : stkfile numeral chars chars := {|
  s_materials := (mkMat (str "SILICON") (Isotropic (sci 1 [3; 0] [4])) (sci 1 [6; 2; 8] [1; 2]),
                  [mkMat (str "BEOL") (Isotropic (sci 2 [2; 5] [6])) (sci 2 [1; 7; 5] [1; 2])])%nat;
  s_top := Some (Convective (sci 1 [0] [7]) (int_ [3; 0; 0]))%nat; s_bottom := None; s_channel := None;
  s_dims := mkDimd (int_ [1; 0; 0; 0; 0]) (int_ [1; 0; 0; 0; 0]) (int_ [1; 0; 0; 0]) (int_ [1; 0; 0; 0]) (Some true);
  s_layers := [mkLayd (str "PCB") (int_ [1; 0]) (str "BEOL") None];
  s_dies := (mkDied (str "IC") [Fresh (int_ [1; 0]) (str "BEOL")] (Fresh (int_ [2]) (str "SILICON")) [Fresh (int_ [5; 0]) (str "SILICON")], []);
  s_stack := (EDie (str "TOP_DIE") (str "IC") (str "./mem_nopower.flp") (Some (int_ [4], int_ [5])),
              [EDie (str "BOTTOM_DIE") (str "IC") (str "./nonuniform_nopower.flp") None;
               ELayer (str "CONN_TO_PCB") (str "PCB") (Some (int_ [2], int_ [2]))]);
  s_solver := mkSolverd (Transient (mkNumeral None [0] (Some [0; 2]) None) (mkNumeral None [0] (Some [2]) None))
                        (mkNumeral None [3; 0; 0] (Some [0]) None) (Some (int_ [1; 0]));
  s_output := Some (PTflp (str "TOP_DIE") (str "output_top_die_flp_avg.txt") OQ_AVERAGE (Some OI_SLOT),
                    [PTflp (str "BOTTOM_DIE") (str "output_bottom_die_flp_avg.txt") OQ_AVERAGE (Some OI_SLOT)])
|}%nat.
Definition one_gap : gap := [GBlank " "%char].
Definition gapped (xs : list lexm) : list (gap * lexm) := map (fun x => (one_gap, x)) xs.
Definition example_text : chars := spelling (gapped (file_syntax an_example)) ++ ending_text ([GBlank "010"%char], Some (str " end")).
Lemma gapped_fits : forall xs, map snd (gapped xs) = xs /\ Forall gap_ok (map fst (gapped xs)) /\ apart (gapped xs).
Proof.
  intros xs. unfold gapped. rewrite !map_map. split; [apply map_id|]. split.
  - apply Forall_map, Forall_forall. intros. constructor; [cbn; tauto|constructor].
  - induction xs as [|x [|y xs] IH]; [exact I|exact I|]. split; [right; discriminate|exact IH].
Qed.
Definition digitsb (l : list nat) : bool := match l with [] => false | _ => forallb (fun n => Nat.ltb n 10) l end.
Lemma digitsb_ok : forall l, digitsb l = true -> some_digits l.
Proof.
  intros [|x l] H; [discriminate|]. split; [discriminate|]. apply Forall_forall. intros n I. unfold digitsb in H. rewrite forallb_forall in H.
  apply Nat.ltb_lt, H, I.
Qed.
Definition lexm_okb (x : lexm) : bool :=
  match x with
  | SK _ | SM _ => true
  | SN n => digitsb (n_int n) && match n_frac n with Some f => digitsb f | None => true end
            && match n_exp n with Some (c, _, d) => Ascii.eqb c "e" && digitsb d | None => true end
  | SI w => match w with c :: r => existsb (Ascii.eqb c) (str "abcdefghijklmnopqrstuvwxyzABCDEFGHIJKLMNOPQRSTUVWXYZ")
                                   && forallb (fun c => existsb (Ascii.eqb c) (str "abcdefghijklmnopqrstuvwxyzABCDEFGHIJKLMNOPQRSTUVWXYZ0123456789_")) r
                       | [] => false end
            && negb (existsb (fun k => if list_eq_dec Ascii.ascii_dec w (str k) then true else false) reserved)
  | SP p => negb (existsb (Ascii.eqb "034") p)
  end.
Lemma lexm_okb_ok : forall x, lexm_okb x = true -> lexm_ok reserved x.
Proof.
  intros [k|c|n|w|p] H; try exact I; cbn [lexm_okb lexm_ok] in *.
  - rewrite !andb_true_iff in H. destruct H as ((H1 & H2) & H3). split; [apply digitsb_ok; assumption|]. split.
    + destruct (n_frac n); [apply digitsb_ok; assumption|exact I].
    + destruct (n_exp n) as [[[c s] d]|]; [|exact I]. apply andb_prop in H3. destruct H3 as [H3 H4]. apply Ascii.eqb_eq in H3.
      split; [auto|apply digitsb_ok; assumption].
  - apply andb_prop in H. destruct H as [H1 H2]. split.
    + destruct w as [|c r]; [discriminate|]. apply andb_prop in H1. destruct H1 as [H1 H3]. exists c, r. split; [reflexivity|].
      split; [apply letter_in; assumption|]. apply Forall_forall. intros x J. rewrite forallb_forall in H3. apply letter_digit_in, H3, J.
    + intros J. apply negb_true_iff in H2. apply in_map_iff in J. destruct J as (k & <- & J).
      assert (E : existsb (fun k0 => if list_eq_dec ascii_dec (str k) (str k0) then true else false) reserved = true); [|congruence].
      apply existsb_exists. exists k. split; [assumption|]. destruct (list_eq_dec ascii_dec (str k) (str k)); congruence.
  - intros J. apply negb_true_iff in H. assert (E : existsb (Ascii.eqb "034") p = true); [|congruence]. apply existsb_exists. exists "034"%char.
    split; [assumption|reflexivity].
Qed.
Lemma an_example_lexemes : Forall (lexm_ok reserved) (file_syntax an_example).
Proof.
  apply Forall_forall. intros x J. apply lexm_okb_ok.
  assert (E : forallb lexm_okb (file_syntax an_example) = true) by (vm_compute; reflexivity). rewrite forallb_forall in E. apply E, J.
Qed.
Lemma an_example_ok : file_ok an_example.
Proof. constructor; [|constructor; [|constructor]]; (split; [intros X; discriminate X|discriminate]). Qed.
Example C71_witness : describes an_example example_text /\ read_stack example_text = Some (file_value an_example).
Proof.
  assert (D : describes an_example example_text).
  { split; [exact an_example_ok|exact an_example_lexemes|]. destruct (gapped_fits (file_syntax an_example)) as (A & B & C).
    exists (gapped (file_syntax an_example)), ([GBlank "010"%char], Some (str " end")). split; [reflexivity|]. split; [exact A|]. split; [exact B|].
    split; [exact C|]. split; [constructor; [cbn; tauto|constructor]|]. cbn. intros X. repeat destruct X as [X|X]; try discriminate X; contradiction. }
  split; [exact D|]. apply C71_reads. exact D.
Qed.
Lemma no_star_slash2 : forall s, existsb (fun c => Ascii.eqb c "*") s = false -> ~ contains s (str "*/").
Proof.
  intros s H (u & v & ->). rewrite existsb_app in H. apply orb_false_iff in H. destruct H as [_ H]. cbn in H. discriminate.
Qed.
(** The outputs are lost. *)
Theorem C71_star_comment_refuted : exists f l t, file_ok f /\ Forall (lexm_ok reserved) (file_syntax f) /\
  file_syntax f = map snd l ++ output_syntax f /\ s_output f <> None /\
  read_stack (spelling l ++ str " /** temperatures **/" ++ t) = Some (file_value (without_outputs f)) /\
  written (output_syntax f) t.
Proof.
  exists an_example, (gapped (file_syntax (without_outputs an_example))), (spelling (gapped (output_syntax an_example))).
  destruct (gapped_fits (file_syntax (without_outputs an_example))) as (A & B & C).
  assert (E : file_syntax an_example = map snd (gapped (file_syntax (without_outputs an_example))) ++ output_syntax an_example) by (rewrite A; reflexivity).
  split; [exact an_example_ok|]. split; [exact an_example_lexemes|]. split; [exact E|]. split; [discriminate|]. split.
  - change (str " /** temperatures **/") with (gap_text one_gap ++ str "/*" ++ str "* temperatures *" ++ str "*/"). rewrite <- !app_assoc.
    apply C71_star_comment; try assumption; try reflexivity.
    + exact an_example_lexemes.
    + constructor; [cbn; tauto|constructor].
    + apply no_star_slash. reflexivity.
    + apply no_star_slash2. vm_compute. reflexivity.
  - destruct (gapped_fits (output_syntax an_example)) as (A' & B' & C'). exists (gapped (output_syntax an_example)), ([], None).
    split; [symmetry; apply app_nil_r|]. split; [exact A'|]. split; [exact B'|]. split; [exact C'|]. split; [constructor|exact I].
Qed.
Print Assumptions C71_star_comment_refuted.
(** "- 7 ;" is read as "7 ;", and so is "@ 7 ;". *)
Example C71_stray_witness : no_rule "-" /\ no_rule "@" /\ no_rule "_" /\ stk_tokens (str "height - 7 @ ;") = stk_tokens (str "height 7 ;").
Proof.
  assert (N : forall c, (c = "-" \/ c = "@" \/ c = "_")%char -> no_rule c).
  { intros c H. split; [|split]; [intros X; cbn in X|intros ->|intros X; cbn in X];
      repeat destruct H as [-> |H]; try subst c; try (repeat destruct X as [X|X]; discriminate X || contradiction); repeat destruct H as [H|H]; try discriminate H. }
  split; [apply N; auto|]. split; [apply N; auto|]. split; [apply N; auto|]. vm_compute. reflexivity.
Qed.
