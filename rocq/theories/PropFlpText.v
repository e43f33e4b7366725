(** * C70: the floorplan file, from its characters to the elements of the
      floorplan and back. *)
From Coq Require Import ZArith List Bool QArith String Ascii Lia Lqa.
From Verif Require Import Base Dims DimsSpec Queue QueueProofs Floorplan FloorplanSpec FloorplanProofs TempProofs
     PropFloorplan Flex FlexProofs VtkSpec Vtk FlpText FlpTextSpec FlpTextProofs FlpLexProofs FlpGramProofs FlpPrintProofs.
Import ListNotations.
Local Open Scope string_scope.
Local Open Scope list_scope.
Local Open Scope Z_scope.

(** ** A file that follows the user guide is read as what it says *)
Local Ltac kw := left; cbn; tauto.
Lemma pair_lexemes_ok : forall x y, numeral_ok x -> numeral_ok y -> Forall lexeme_ok (pair_lexemes x y).
Proof. intros x y X Y. repeat (constructor; [assumption || (cbn; tauto)|]). constructor. Qed.
Lemma rectangle_lexemes_ok : forall r, rectangle_ok r -> Forall lexeme_ok (rectangle_lexemes r).
Proof.
  intros r (A & B & C & D). unfold rectangle_lexemes. constructor; [kw|].
  repeat (constructor; [assumption || (cbn; tauto)|]). constructor.
Qed.
Lemma element_lexemes_ok : forall e, element_ok e -> Forall lexeme_ok (element_lexemes e).
Proof.
  intros [w s p] (W & S & P). cbn [el_name el_shape el_powers] in *. unfold element_lexemes. cbn [el_name el_shape el_powers].
  apply Forall_app. split; [constructor; [right; exact W|]; constructor; [cbn; tauto|constructor]|].
  apply Forall_app. split.
  - destruct s as [r m xy|r rs]; cbn [shape_ok shape_lexemes] in *.
    + destruct S as ((R1 & R2 & R3 & R4) & M & X). constructor; [kw|]. apply Forall_app. split; [apply pair_lexemes_ok; assumption|].
      constructor; [kw|]. apply Forall_app. split; [apply pair_lexemes_ok; assumption|].
      apply Forall_app. split.
      * destruct m; [|constructor]. constructor; [kw|]. constructor; [right; exact M|]. constructor; [cbn; tauto|constructor].
      * destruct xy as [[x y]|]; [|constructor]. constructor; [kw|]. apply pair_lexemes_ok; tauto.
    + apply Forall_flat_map. eapply Forall_impl; [|exact S]. apply rectangle_lexemes_ok.
  - destruct p as [[v vs]|]; [|constructor]. inversion P as [|? ? P1 P2]; subst.
    constructor; [kw|]. constructor; [kw|]. constructor; [exact P1|]. apply Forall_app.
    split; [|constructor; [cbn; tauto|constructor]]. apply Forall_flat_map. eapply Forall_impl; [|exact P2].
    intros n N. constructor; [cbn; tauto|]. constructor; [exact N|constructor].
Qed.

Theorem C70_reads : forall es text, spells es text -> read_decls text = Some (map element_value es).
Proof.
  intros es text [N K (l & e & -> & L & G & S & E)]. unfold read_decls, tokens. cbv zeta.
  assert (LK : Forall lexeme_ok (map snd l)).
  { rewrite L. apply Forall_flat_map. eapply Forall_impl; [|exact K]. apply element_lexemes_ok. }
  rewrite lex_spell by (try assumption; apply stops_ending; assumption).
  rewrite lex_ending by assumption. rewrite app_nil_r, L. apply p_elements_ok; [assumption|assumption|]. lia.
Qed.
Print Assumptions C70_reads.

(** ** Whatever is accepted says it somewhere: the lexemes of the declarations
    are in the text, in order *)
Theorem C70_accepted : forall text ds, read_decls text = Some ds ->
  exists es l rest, es <> [] /\ Forall element_ok es /\ map element_value es = ds /\
    map snd l = flat_map element_lexemes es /\ text = with_junk l ++ rest.
Proof.
  intros text ds H. unfold read_decls in H. cbv zeta in H. unfold tokens in H.
  destruct (lex_inv text O INITIAL) as (l & j & T & X & K). rewrite T in H. cbn [skipn] in X.
  apply p_elements_lexemes in H; [|assumption]. destruct H as (es & N & E & O & V). exists es, l, j. auto.
Qed.
Print Assumptions C70_accepted.

(** ** The elements *)
Lemma put_all_rep : forall l q l0, qrep q l0 -> 2 * Z.of_nat (List.length l0 + List.length l) < two32 ->
  exists q', put_all q l = Ok q' /\ qrep q' (l0 ++ l).
Proof.
  induction l as [|p l IH]; intros q l0 R B.
  - exists q. rewrite app_nil_r. auto.
  - cbn [put_all]. destruct (queue_put_spec q l0 p R) as (q1 & E & R1); [cbn [List.length] in B; lia|]. rewrite E. cbn [bind].
    destruct (IH q1 (l0 ++ [p]) R1) as (q' & E' & R'); [rewrite app_length; cbn [List.length] in *; unfold power in *; lia|].
    exists q'. rewrite <- app_assoc in R'. auto.
Qed.
Lemma rects_made : forall d fuel, good_grid d -> d_nrows d + d_ncols d <= Z.of_nat fuel -> forall rs, Forall (on_chip d) rs ->
  exists ics, parse_rectangles fuel d rs = Ok (Some ics) /\ map rect_of ics = rs /\ Forall (fun a => placed d a /\ recorded d a) ics.
Proof.
  intros d fuel G F. induction rs as [|[[[x y] l] w] rs IH]; intros H.
  - exists []. split; [reflexivity|]. split; [reflexivity|constructor].
  - pose proof (Forall_inv H) as H1. pose proof (Forall_inv_tail H) as H2. unfold on_chip in H1. destruct H1 as ((A & B & C & D) & P). destruct (IH H2) as (ics & E & R & K).
    destruct (align_spec d _ fuel G P F) as (b & AE & X1 & X2 & X3 & X4 & _). cbn [ic_x ic_y ic_len ic_wid] in *.
    assert (CL : check_location b d = false).
    { destruct (check_location b d) eqn:Q; [|reflexivity]. apply check_location_iff in Q. rewrite X1, X2, X3, X4 in Q.
      unfold EPSILON in Q. exfalso. destruct Q as [Q|[Q|[Q|Q]]]; lra. }
    assert (PR : parse_rectangle fuel d x y l w = Ok (Some b)) by (unfold parse_rectangle; rewrite AE; cbn [bind]; rewrite CL; reflexivity).
    exists (b :: ics). cbn [parse_rectangles]. rewrite PR. cbn [bind]. rewrite E. cbn [bind]. split; [reflexivity|].
    split; [cbn [map]; rewrite R; unfold rect_of; rewrite X1, X2, X3, X4; reflexivity|].
    constructor; [|assumption]. split.
    + unfold placed in *. cbn [ic_x ic_y ic_len ic_wid] in P. rewrite X1, X2, X3, X4. exact P.
    + exists fuel. rewrite X1, X2, X3, X4. exact PR.
Qed.
Lemma decls_made : forall d fuel, good_grid d -> d_nrows d + d_ncols d <= Z.of_nat fuel -> forall ds,
  Forall (fun x => fd_rects x <> [] /\ Forall (on_chip d) (fd_rects x) /\ 2 * Z.of_nat (List.length (powers_of x)) < two32) ds ->
  exists els, decl_elements fuel d ds = Ok (Some els) /\ Forall2 (made d) ds els.
Proof.
  intros d fuel G F. induction ds as [|x ds IH]; intros H.
  - exists []. split; [reflexivity|constructor].
  - inversion H as [|? ? (A & B & C) H2]; subst. destruct (IH H2) as (els & E & M).
    destruct (put_all_rep (powers_of x) (queue_build queue_init 10) []) as (q & Q1 & Q2); [apply build_rep; unfold two32; lia|cbn [List.length]; lia|].
    destruct (rects_made d fuel G F (fd_rects x) B) as (ics & P & R & K).
    exists (make_element (fd_id x) ics q :: els). cbn [decl_elements]. unfold decl_element, decl_queue. fold (powers_of x). rewrite Q1. cbn [bind].
    unfold parse_element. rewrite P. cbn [bind]. rewrite E. cbn [bind]. split; [reflexivity|]. constructor; [|assumption].
    split; [reflexivity|exact R|exact Q2|]. exists (fd_id x), ics, q. split; [reflexivity|]. split; [|assumption].
    intros ->. apply A. rewrite <- R. reflexivity.
Qed.

(** The elements of the file, in order, and the floorplan with its matrix
    (C13-C15). *)
Theorem C70_elements : forall d fuel es text,
  good_grid d -> d_nrows d + d_ncols d <= Z.of_nat fuel -> spells es text ->
  Forall (fun x => Forall (on_chip d) (fd_rects (element_value x)) /\
                   2 * Z.of_nat (List.length (powers_of (element_value x))) < two32) es ->
  exists els, parse_floorplan_file fuel d text = Ok (Some els) /\ Forall2 (made d) (map element_value es) els /\
    (coefficients els < two32 -> exists f, fill_floorplan_file fuel d text = Ok (Some f) /\ fill_floorplan els d = Ok f).
Proof.
  intros d fuel es text G F S H.
  destruct (decls_made d fuel G F (map element_value es)) as (els & E & M).
  { apply Forall_map. eapply Forall_impl; [|exact H]. intros x [A B]. split; [|auto].
    unfold element_value. cbn [fd_rects]. destruct (el_shape x); discriminate. }
  assert (P : parse_floorplan_file fuel d text = Ok (Some els)).
  { unfold parse_floorplan_file. rewrite (C70_reads es text S), E. reflexivity. }
  exists els. split; [exact P|]. split; [exact M|]. intros C.
  destruct (C15_matrix_fits_partial d els G) as (f & FE & _); [|exact C|].
  - clear -M. induction M; constructor; [|assumption]. eapply md_good; eauto.
  - exists f. split; [|exact FE]. unfold fill_floorplan_file. rewrite P. cbn [bind]. rewrite FE. reflexivity.
Qed.
Print Assumptions C70_elements.

(** ** A file is refused for its syntax only, and never accepted when a rectangle
    leaves the chip *)
Lemma rects_off : forall d fuel rs ics q, parse_rectangles fuel d rs = Ok (Some ics) -> In q rs -> ~ off_chip d q.
Proof.
  intros d fuel. induction rs as [|[[[x y] l] w] rs IH]; intros ics q H I O; [contradiction|].
  cbn [parse_rectangles] in H. destruct (parse_rectangle fuel d x y l w) as [a| |] eqn:A; try discriminate. cbn [bind] in H.
  destruct (parse_rectangles fuel d rs) as [t| |] eqn:T; try discriminate. cbn [bind] in H.
  destruct a as [a|]; [|discriminate]. destruct t as [t|]; [|discriminate].
  destruct I as [<-|I]; [|exact (IH t q eq_refl I O)].
  unfold parse_rectangle in A. destruct (align_to_grid fuel (mkIcel x y l w 0 0 0 0) d) as [b| |] eqn:B; try discriminate. cbn [bind] in A.
  destruct (check_location b d) eqn:C; [discriminate|].
  assert (X : ic_x b = x /\ ic_y b = y /\ ic_len b = l /\ ic_wid b = w).
  { unfold align_to_grid in B.
    repeat match type of B with bind ?m _ = _ => destruct m; try discriminate; cbn [bind] in B end.
    cbn [ic_x ic_y ic_len ic_wid] in B. inversion B. auto. }
  destruct X as (X1 & X2 & X3 & X4).
  assert (C' : check_location b d = true) by (apply check_location_iff; rewrite X1, X2, X3, X4; exact O). congruence.
Qed.
Theorem C70_never_outside : forall d fuel text els, parse_floorplan_file fuel d text = Ok (Some els) ->
  exists ds, read_decls text = Some ds /\ List.length ds = List.length els /\
    forall x q, In x ds -> In q (fd_rects x) -> ~ off_chip d q.
Proof.
  intros d fuel text els H. unfold parse_floorplan_file in H. destruct (read_decls text) as [ds|]; [|discriminate].
  exists ds. split; [reflexivity|].
  destruct (decl_elements fuel d ds) as [[es|]| |] eqn:E; try discriminate. cbn [bind] in H. assert (es = els) by congruence. subst es. clear H.
  revert els E. induction ds as [|x ds IH]; intros els E.
  - cbn in E. assert (els = []) by congruence. subst. split; [reflexivity|]. intros ? ? [].
  - cbn [decl_elements] in E. destruct (decl_element fuel d x) as [a| |] eqn:A; try discriminate. cbn [bind] in E.
    destruct (decl_elements fuel d ds) as [r| |]; try discriminate. cbn [bind] in E.
    destruct a as [a|]; [|discriminate]. destruct r as [r|]; [|discriminate]. destruct (IH r eq_refl) as [L K].
    split; [assert (els = a :: r) by congruence; subst; cbn; congruence|].
    intros y q [<-|I]; [|apply K; assumption]. unfold decl_element in A.
    destruct (decl_queue (fd_powers x)); try discriminate. cbn [bind] in A. unfold parse_element in A.
    destruct (parse_rectangles fuel d (fd_rects x)) as [[t|]| |] eqn:T; try discriminate. intros I. eapply rects_off; eassumption.
Qed.
Print Assumptions C70_never_outside.

Theorem C70_refused : forall d fuel text, parse_floorplan_file fuel d text = Ok None <-> read_decls text = None.
Proof.
  intros d fuel text. unfold parse_floorplan_file. destruct (read_decls text) as [ds|].
  - split; [|discriminate]. destruct (decl_elements fuel d ds) as [[e|]| |]; cbn [bind]; discriminate.
  - split; reflexivity.
Qed.
Print Assumptions C70_refused.

(** ** Comments *)
Lemma lex_unclosed : forall n t, (List.length t <= n)%nat -> ~ contains t (str "*/") ->
  lex flp_rules O MULTIPLE_LINE_COMMENT t = [].
Proof.
  induction n as [|n IH]; intros t L N.
  - destruct t; [reflexivity|cbn in L; lia].
  - assert (SUB : forall a b, t = a ++ b -> ~ contains b (str "*/")).
    { intros a b E (u & v & Q). apply N. exists (a ++ u), v. rewrite E, Q, <- !app_assoc. reflexivity. }
    destruct t as [|c t]; [reflexivity|]. destruct (Ascii.eqb_spec c "*") as [->|C].
    + destruct t as [|c2 t]; [reflexivity|]. assert (c2 <> "/"%char).
      { intros ->. apply N. exists [], t. reflexivity. }
      rewrite lex_block_star by assumption. apply IH; [cbn in L; lia|]. apply (SUB ["*"%char; c2]). reflexivity.
    + assert (NT : ~ contains t (str "*/")) by (apply (SUB [c]); reflexivity).
      destruct (Ascii.eqb_spec c newline) as [->|K].
      * rewrite lex_block_newline. apply IH; [cbn in L; lia|exact NT].
      * rewrite lex_block_plain; [apply IH; [cbn in L; lia|exact NT]|].
        unfold plain. apply Ascii.eqb_neq in C. apply Ascii.eqb_neq in K. rewrite C, K. reflexivity.
Qed.
(** A comment whose text ends with an odd number of stars ("/*** text ***/")
    is not closed: when no other comment is closed after it, the rest of the
    file is silently ignored. *)
Theorem C70_star_comment : forall es l g b t, es <> [] -> Forall element_ok es ->
  map snd l = flat_map element_lexemes es -> Forall gap_ok (map fst l) -> separated l -> gap_ok g ->
  ~ contains b (str "*/") -> Nat.odd (trailing_stars b) = true -> ~ contains t (str "*/") ->
  read_decls (spell l ++ gap_text g ++ str "/*" ++ b ++ str "*/" ++ t) = Some (map element_value es).
Proof.
  intros es l g b t N K L G S GO B O T. unfold read_decls, tokens. cbv zeta.
  assert (LK : Forall lexeme_ok (map snd l)).
  { rewrite L. apply Forall_flat_map. eapply Forall_impl; [|exact K]. apply element_lexemes_ok. }
  assert (ST : stops (gap_text g ++ str "/*" ++ b ++ str "*/" ++ t)).
  { destruct g as [|x g]; [reflexivity|]. apply stops_gap; [assumption|discriminate]. }
  rewrite lex_spell by assumption. rewrite lex_gap by assumption. rewrite lex_slash_star.
  rewrite (lex_block (List.length b) b t (le_n _) B). rewrite <- Nat.negb_odd, O. cbn [negb].
  rewrite (lex_unclosed (List.length t) t (le_n _) T), app_nil_r, L. apply p_elements_ok; [assumption|assumption|]. lia.
Qed.
Print Assumptions C70_star_comment.

(** ** Printing and reading again *)
Theorem C70_round_trip_partial : forall ls es, es <> [] -> Forall2 printable ls es -> Forall (fun l => l <> []) ls ->
  exists text ds, generate_floorplan_file es = Ok text /\ read_decls text = Some ds /\ List.length ds = List.length es /\
    forall i l e x, nth_error ls i = Some l -> nth_error es i = Some e -> nth_error ds i = Some x -> repeats l e x.
Proof.
  intros ls es N P NE. destruct (lex_generate ls es NE P) as (text & xs & G & A & B & C & D).
  exists text, (map element_value xs). split; [exact G|].
  assert (NX : xs <> []) by (intros ->; destruct es; [congruence|discriminate B]).
  split; [unfold read_decls, tokens; cbv zeta; change (lex flp_rules O INITIAL text) with (L text); rewrite D; apply p_elements_ok; [assumption|assumption|lia]|].
  split; [rewrite map_length; exact B|]. intros i l e x H1 H2 H3. rewrite nth_error_map in H3.
  destruct (nth_error xs i) as [y|] eqn:Y; [|discriminate]. cbn in H3. assert (element_value y = x) by congruence. subst x. eapply C; eauto.
Qed.
Print Assumptions C70_round_trip_partial.

(** ** Defects: texts that are accepted with another meaning *)
(** "/* x **/" does not end: the element b is lost, and the elements are read
    again after the next comment. *)
Theorem C70_star_comment_refuted : exists text,
  text = str "a: position 0, 0 ; dimension 5, 5 ; /** core **/ b: position 5, 0 ; dimension 5, 5 ; /* cache */ c: position 0, 5 ; dimension 5, 5 ;" /\
  option_map (map fd_id) (read_decls text) = Some [name_codes (str "a"); name_codes (str "c")].
Proof. eexists. split; [reflexivity|]. vm_compute. reflexivity. Qed.
Print Assumptions C70_star_comment_refuted.
(** ".5" is read as 5, "1." as 1, "- 7" as 7; "@" is ignored. *)
Theorem C70_numbers_refuted : exists text x,
  text = str "a: position .5, - 7 ; dimension 1., 2 ; power values @3 ;" /\
  read_decls text = Some [x] /\ fd_rects x = [(5, 7, 1, 2)]%Q /\ fd_powers x = Some [3%Q].
Proof. eexists. eexists. split; [reflexivity|]. split; [vm_compute; reflexivity|]. split; reflexivity. Qed.
Print Assumptions C70_numbers_refuted.

(** A chip of 20 by 10 micrometres, cells of 5 by 5. *)
Definition grid20 : dims := mkDims 5 5 5 5 5 [1%Q] 1 2 4 8 20 10.
Example grid20_parsed : parse_dims 20 10 5 5 (Uniform 5) [1%Q] 0 = Ok (Some grid20).
Proof. vm_compute. reflexivity. Qed.
Lemma grid20_good : good_grid grid20.
Proof.
  unfold good_grid, grid20. cbn [d_nrows d_ncols d_first d_last d_wall d_chan d_width]. unfold two32.
  split; [lia|]. split; [lia|]. split; [lia|]. split; [|left; split; [reflexivity|split; reflexivity]].
  do 4 (split; [reflexivity|]). reflexivity.
Qed.

(** Two elements with the same name are accepted. *)
Theorem C70_same_name_refuted : exists text els,
  text = str "a: position 0, 0 ; dimension 5, 5 ; a: position 5, 0 ; dimension 5, 5 ;" /\
  parse_floorplan_file 10 grid20 text = Ok (Some els) /\ map fe_id els = [name_codes (str "a"); name_codes (str "a")].
Proof. eexists. eexists. split; [reflexivity|]. split; vm_compute; reflexivity. Qed.
Print Assumptions C70_same_name_refuted.
(** An element outside of the chip: the error is reported, and then memory that
    malloc has not returned is freed (undefined behaviour). *)
Theorem C70_outside_refuted : exists text x,
  text = str "a: position 15, 0 ; dimension 10, 5 ;" /\ read_decls text = Some [x] /\
  Exists (off_chip grid20) (fd_rects x) /\ parse_floorplan_file 10 grid20 text = UB.
Proof.
  eexists. eexists. split; [reflexivity|]. split; [vm_compute; reflexivity|]. cbn [fd_rects]. split; [|vm_compute; reflexivity].
  constructor. right. left. vm_compute. reflexivity.
Qed.
Print Assumptions C70_outside_refuted.
(** An element without power values (it had none, or all were used) is printed
    as "power values   ;", which is not accepted. *)
Theorem C70_round_trip_refuted : exists text els text2,
  text = str "a: position 0, 0 ; dimension 5, 5 ;" /\
  parse_floorplan_file 10 grid20 text = Ok (Some els) /\ generate_floorplan_file els = Ok text2 /\
  read_decls text2 = None.
Proof. eexists. eexists. eexists. split; [reflexivity|]. split; [vm_compute; reflexivity|]. split; vm_compute; reflexivity. Qed.
Print Assumptions C70_round_trip_refuted.
(** The material and the discretization of an element are not printed. *)
Theorem C70_material_refuted : exists text x els text2 x2,
  text = str "a: position 0, 0 ; dimension 5, 5 ; material COPPER ; discretization 2, 2 ; power values 1 ;" /\
  read_decls text = Some [x] /\ fd_material x = Some (name_codes (str "COPPER")) /\
  parse_floorplan_file 10 grid20 text = Ok (Some els) /\ generate_floorplan_file els = Ok text2 /\
  read_decls text2 = Some [x2] /\ fd_material x2 = None /\ fd_discr x2 = None.
Proof.
  eexists. eexists. eexists. eexists. eexists. split; [reflexivity|]. split; [vm_compute; reflexivity|]. split; [reflexivity|].
  split; [vm_compute; reflexivity|]. split; [vm_compute; reflexivity|]. split; [vm_compute; reflexivity|]. split; reflexivity.
Qed.
Print Assumptions C70_material_refuted.

(** ** The hypotheses are met *)
Definition int1 (n : nat) : numeral := mkNumeral None [n] None None.
Definition el_a : element :=
  mkElement (str "Core_1") (Single (mkRectangle (int1 0) (int1 0) (mkNumeral None [1; 2]%nat (Some [5]%nat) None) (int1 5))
                                 (Some (str "COPPER")) (Some (int1 2, int1 3)))
            (Some (mkNumeral (Some true) [1]%nat (Some [5; 0]%nat) (Some ("e"%char, Some false, [2]%nat)), [int1 2])).
Definition el_b : element :=
  mkElement (str "b") (Several (mkRectangle (int1 0) (int1 5) (int1 5) (int1 5)) [mkRectangle (int1 5) (int1 5) (int1 5) (int1 5)]) None.
Definition a_gap : gap := [GBlank " "; GBlock (str " the ** core "); GBlank "010"; GLine (str " line")]%char.
Definition a_text : chars := spell (map (fun x => (a_gap, x)) (flat_map element_lexemes [el_a; el_b])) ++ ending_text ([GBlank " "%char], Some (str " end")).
Ltac digit_list := split; [discriminate|]; repeat (constructor; [lia|]); constructor.
Ltac num_ok := split; [digit_list|]; split; [first [exact I | digit_list] | first [exact I | split; [left; reflexivity|digit_list]]].
Lemma letter_in : forall c, existsb (Ascii.eqb c) (str "abcdefghijklmnopqrstuvwxyzABCDEFGHIJKLMNOPQRSTUVWXYZ") = true -> letter c.
Proof. intros c H. apply existsb_exists in H. destruct H as (x & I & E). apply Ascii.eqb_eq in E. subst. exact I. Qed.
Lemma letter_digit_in : forall c, existsb (Ascii.eqb c) (str "abcdefghijklmnopqrstuvwxyzABCDEFGHIJKLMNOPQRSTUVWXYZ0123456789_") = true -> letter_digit c.
Proof.
  intros c H. apply existsb_exists in H. destruct H as (x & I & E). apply Ascii.eqb_eq in E. subst.
  change (str "abcdefghijklmnopqrstuvwxyzABCDEFGHIJKLMNOPQRSTUVWXYZ0123456789_")
    with (str "abcdefghijklmnopqrstuvwxyzABCDEFGHIJKLMNOPQRSTUVWXYZ" ++ str "0123456789_") in I.
  apply in_app_or in I. exact I.
Qed.
Ltac nm_ok := split; [eexists; eexists; split; [reflexivity|]; split; [apply letter_in; reflexivity|];
                      repeat (constructor; [apply letter_digit_in; reflexivity|]); constructor
                     | intros NI; cbn in NI; repeat destruct NI as [NI|NI]; try discriminate NI; contradiction].
Lemma no_star_slash : forall s, existsb (fun c => Ascii.eqb c "/") s = false -> ~ contains s (str "*/").
Proof.
  intros s H (u & v & ->). rewrite existsb_app in H. apply orb_false_iff in H. destruct H as [_ H]. cbn in H. discriminate.
Qed.
Lemma a_spelled : spells [el_a; el_b] a_text.
Proof.
  split; [discriminate| |].
  - constructor; [|constructor; [|constructor]].
    + split; [nm_ok|]. split; [|constructor; [num_ok|]; constructor; [num_ok|constructor]].
      split; [split; [num_ok|]; split; [num_ok|]; split; num_ok|]. split; [nm_ok|split; num_ok].
    + split; [nm_ok|]. split; [|exact I]. constructor; [|constructor; [|constructor]]; (split; [num_ok|]; split; [num_ok|]; split; num_ok).
  - eexists. eexists. split; [reflexivity|]. split; [rewrite map_map; apply map_id|].
    assert (G : gap_ok a_gap).
    { constructor; [cbn; tauto|]. constructor; [split; [apply no_star_slash; reflexivity|reflexivity]|].
      constructor; [cbn; tauto|]. constructor; [|constructor]. intros NI. cbn in NI. repeat destruct NI as [NI|NI]; try discriminate NI; contradiction. }
    split; [rewrite map_map; apply Forall_map; apply Forall_forall; intros; exact G|].
    split; [|split; [constructor; [cbn; tauto|constructor]|intros NI; cbn in NI; repeat destruct NI as [NI|NI]; try discriminate NI; contradiction]].
    generalize (flat_map element_lexemes [el_a; el_b]). intros l. induction l as [|x [|y l] IH]; [exact I|exact I|].
    split; [right; right; discriminate|exact IH].
Qed.
Lemma a_placed : Forall (fun x => Forall (on_chip grid20) (fd_rects (element_value x)) /\
                   2 * Z.of_nat (List.length (powers_of (element_value x))) < two32) [el_a; el_b].
Proof.
  assert (Q4 : forall a b : Q, Qle_bool a b = true -> (a <= b)%Q) by (intros; apply Qle_bool_iff; assumption).
  assert (Q5 : forall a b : Q, Qlt_bool a b = true -> (a < b)%Q) by (intros; apply Qlt_bool_iff; assumption).
  assert (ON : forall x y l w, Qle_bool 0 x && Qle_bool (x + l) 20 && Qle_bool 0 y && Qle_bool (y + w) 10 && Qlt_bool 0 l && Qlt_bool 0 w = true -> on_chip grid20 (x, y, l, w)).
  { intros x y l w H. rewrite !andb_true_iff in H. destruct H as (((((A & B) & C) & D) & E) & F).
    apply Q4 in A, B, C, D. apply Q5 in E, F. unfold on_chip, placed. cbn [ic_x ic_y ic_len ic_wid d_chip_length d_chip_width grid20 d_wall].
    split; [split; [exact A|split; [exact B|split; [exact C|exact D]]]|].
    change (west grid20 (d_ncols grid20 - 1)) with 15%Q. change (get_cell_length grid20 (d_ncols grid20 - 1)) with 5%Q. change (north grid20 (d_nrows grid20 - 1)) with 10%Q.
    split; [exact A|]. split; [exact E|]. split; [lra|]. split; [lra|]. split; [exact C|]. split; [exact F|exact D]. }
  constructor; [|constructor; [|constructor]]; (split; [|vm_compute; reflexivity]).
  - constructor; [apply ON; vm_compute; reflexivity|constructor].
  - constructor; [apply ON; vm_compute; reflexivity|]. constructor; [apply ON; vm_compute; reflexivity|constructor].
Qed.
Example C70_witness : exists els text2 ds2, parse_floorplan_file 10 grid20 a_text = Ok (Some els) /\
  Forall2 (made grid20) (map element_value [el_a; el_b]) els /\ coefficients els < two32 /\
  (exists l e, els = e :: l /\ printable [-150; 2]%Q e /\ generate_floorplan_file [e] = Ok text2 /\ read_decls text2 = Some ds2).
Proof.
  destruct (C70_elements grid20 10 [el_a; el_b] a_text grid20_good ltac:(vm_compute; discriminate) a_spelled a_placed) as (els & P & M & _).
  exists els. inversion M as [|x e xs es M1 M2 X1 X2]; subst.
  assert (PR : printable [-150; 2]%Q e).
  { destruct M1 as [A B C D]. split; [exists (str "Core_1"); split; [nm_ok|exact A]|]. split; [|exact C].
    destruct D as (? & ics & ? & -> & N & _). exact N. }
  destruct (C70_round_trip_partial [[-150; 2]%Q] [e]) as (t2 & ds2 & G & R & _); [discriminate|constructor; [exact PR|constructor]|constructor; [discriminate|constructor]|].
  exists t2, ds2. split; [exact P|]. split; [exact M|].
  assert (E : parse_floorplan_file 10 grid20 a_text = Ok (Some (e :: es))) by exact P.
  split; [|exists es, e; auto].
  unfold parse_floorplan_file in E. rewrite (C70_reads _ _ a_spelled) in E.
  assert (K : match decl_elements 10 grid20 (map element_value [el_a; el_b]) with Ok (Some l) => coefficients l <? two32 | _ => false end = true) by (vm_compute; reflexivity).
  destruct (decl_elements 10 grid20 (map element_value [el_a; el_b])) as [[l|]| |]; try discriminate. cbn [bind] in E.
  assert (l = e :: es) by congruence. subst l. apply Z.ltb_lt. exact K.
Qed.
