From Coq Require Import ZArith List Bool QArith Qabs String Ascii Lia Lqa.
From Verif Require Import Base Dims DimsSpec Queue QueueProofs Floorplan FloorplanSpec Flex FlexProofs Vtk VtkSpec VtkProofs FlpText FlpTextSpec FlpTextProofs FlpLexProofs FlpGramProofs.
Import ListNotations.
Local Open Scope string_scope.
Local Open Scope list_scope.
Local Open Scope Z_scope.

(** ** printf and atof *)
Lemma str_app : forall a b, str (a ++ b)%string = str a ++ str b.
Proof. intros a b. induction a as [|c a IH]; [reflexivity|]. unfold str in *. cbn. rewrite IH. reflexivity. Qed.
Lemma digits_list : forall s, all_digits s = true -> exists l, str s = digits_text l /\ Forall (fun n => (n < 10)%nat) l /\
  List.length l = String.length s /\ forall acc, digits_value acc s = Some (digits_number acc l).
Proof.
  induction s as [|c s IH]; intros H.
  - exists []. split; [reflexivity|]. split; [constructor|]. split; reflexivity.
  - cbn [all_digits] in H. destruct (digit_value c) as [v|] eqn:V; [|discriminate]. cbn [andb] in H.
    destruct (IH H) as (l & A & B & C & D).
    assert (X : exists n, (n < 10)%nat /\ digit_text n = c /\ v = Z.of_nat n).
    { clear -V. exists (Z.to_nat v). destruct c as [[] [] [] [] [] [] [] []]; vm_compute in V; try discriminate V;
        injection V as <-; (split; [vm_compute; lia|]); split; reflexivity. }
    destruct X as (n & N & <- & ->). exists (n :: l). unfold str in *. cbn [list_ascii_of_string digits_text map].
    rewrite A. split; [reflexivity|]. split; [constructor; assumption|]. split; [cbn; congruence|].
    intros acc. cbn [digits_value]. rewrite V. cbn [digits_number]. apply D.
Qed.

Lemma fixed_numeral : forall p x, (0 < p)%nat -> exists n, numeral_ok n /\ str (fixed p x) = numeral_text n /\
  (Qabs (numeral_value n - x) * (2 * inject_Z (10 ^ Z.of_nat p)) <= 1)%Q.
Proof.
  intros p x P. destruct (read_fixed p x) as (q & R & E).
  assert (T : exists n, numeral_ok n /\ str (fixed p x) = numeral_text n /\ (numeral_value n == q)%Q).
  { revert R. unfold fixed. set (r := round_even (Qabs x * inject_Z (10 ^ Z.of_nat p))). intros R.
    assert (R0 : 0 <= r).
    { apply round_even_pos. apply Qmult_le_0_compat; [apply Qabs_nonneg|]. pose proof (pow10_pos p). lra. }
    assert (D0 : 0 <= r / 10 ^ Z.of_nat p) by (apply Z.div_pos; [assumption|]; apply Z.pow_pos_nonneg; lia).
    pose proof (dec_digit _ D0) as A. pose proof (dec_nonempty _ D0) as NA.
    destruct (pad_digits_spec p r "" R0) as (_ & B & L). cbn [all_digits String.length] in B, L. rewrite Nat.add_0_r in L.
    set (a := dec (r / 10 ^ Z.of_nat p)) in *. set (b := pad_digits p r "") in *.
    destruct (digits_list a A) as (la & A1 & A2 & A3 & A4). destruct (digits_list b B) as (lb & B1 & B2 & B3 & B4).
    exists (mkNumeral (if Qle_bool 0 x then None else Some true) la (Some lb) None).
    assert (O : numeral_ok (mkNumeral (if Qle_bool 0 x then None else Some true) la (Some lb) None)).
    { split; [|split; [|exact I]]; cbn [n_int n_frac]; (split; [|assumption]); intros ->.
      - apply NA. destruct a; [reflexivity|discriminate].
      - cbn in B3. lia. }
    split; [exact O|]. split.
    - rewrite !str_app, A1, B1. unfold numeral_text. cbn [n_sign n_int n_frac n_exp]. rewrite app_nil_r.
      destruct (Qle_bool 0 x); reflexivity.
    - assert (U : forall q', read_unsigned (a ++ "." ++ b)%string = Some q' ->
        (q' == inject_Z (digits_number 0 la) + inject_Z (digits_number 0 lb) / inject_Z (10 ^ Z.of_nat (List.length lb)))%Q).
      { intros q' H. unfold read_unsigned in H. change ("." ++ b)%string with (String "."%char b) in H. rewrite cut_point_digits in H by assumption.
        rewrite A4, B4 in H. injection H as <-. rewrite B3. reflexivity. }
      unfold numeral_value. cbn [n_sign n_int n_frac n_exp]. rewrite Qred_correct.
      destruct (Qle_bool 0 x); cbn [signed].
      + change ("" ++ a ++ "." ++ b)%string with (a ++ "." ++ b)%string in R.
        destruct (first_digit a ("." ++ b)%string A NA) as (c & s & CS & C). unfold read_number in R. rewrite CS, C, <- CS in R.
        rewrite (U q R). change (inject_Z 1) with 1%Q. change (Qpower (10 # 1) 0) with 1%Q. ring.
      + cbn [append read_number] in R. change (Ascii.eqb "-" "-") with true in R. cbv iota in R.
        destruct (read_unsigned (a ++ String "."%char b)) as [q'|] eqn:RU; [|discriminate R]. cbn [option_map] in R. injection R as <-.
        rewrite (U q' RU). change (inject_Z (-(1))) with (-(1))%Q. change (Qpower (10 # 1) 0) with 1%Q. ring. }
  destruct T as (n & O & TX & V). exists n. split; [assumption|]. split; [assumption|].
  assert (W : (Qabs (numeral_value n - x) == Qabs (q - x))%Q) by (rewrite V; reflexivity). rewrite W. assumption.
Qed.
Lemma fixed_near : forall p x e, (0 < p)%nat -> (e * (2 * inject_Z (10 ^ Z.of_nat p)) == 1)%Q ->
  exists n, numeral_ok n /\ str (fixed p x) = numeral_text n /\ near e (numeral_value n) x.
Proof.
  intros p x e P E. destruct (fixed_numeral p x P) as (n & O & T & N). exists n. split; [assumption|]. split; [assumption|].
  unfold near. pose proof (pow10_pos p) as PP. set (t := inject_Z (10 ^ Z.of_nat p)) in *.
  apply Qmult_le_r with (z := (2 * t)%Q); [lra|]. lra.
Qed.

(** ** The text of an element *)
Notation L := (lex flp_rules O INITIAL).
Lemma lex_number : forall n t, numeral_ok n -> stops t -> L (numeral_text n ++ t) = DVALUE (numeral_value n) :: L t.
Proof. intros n t O S. rewrite lex_num, atof_ok; auto. apply numeral_matches. assumption. Qed.
Ltac blanks := repeat (rewrite lex_space by reflexivity).

Lemma lex_icel : forall a, exists r, rectangle_ok r /\ near_rect (rectangle_value r) (rect_of a) /\
  forall t, L (print_icel a ++ t) = map lexeme_tok (rectangle_lexemes r) ++ L t.
Proof.
  intros a.
  destruct (fixed_near 1 (ic_x a) (1 # 20) ltac:(lia) eq_refl) as (n1 & O1 & T1 & N1).
  destruct (fixed_near 1 (ic_y a) (1 # 20) ltac:(lia) eq_refl) as (n2 & O2 & T2 & N2).
  destruct (fixed_near 1 (ic_len a) (1 # 20) ltac:(lia) eq_refl) as (n3 & O3 & T3 & N3).
  destruct (fixed_near 1 (ic_wid a) (1 # 20) ltac:(lia) eq_refl) as (n4 & O4 & T4 & N4).
  exists (mkRectangle n1 n2 n3 n4). split; [split; [assumption|]; split; [assumption|]; split; assumption|].
  split; [split; [assumption|]; split; [assumption|]; split; assumption|].
  intros t. unfold print_icel. rewrite T1, T2, T3, T4. rewrite <- !app_assoc.
  change (str "   rectangle (") with ([" "; " "; " "]%char ++ str "rectangle" ++ [" "; "("]%char).
  rewrite <- !app_assoc. cbn [app]. blanks.
  rewrite lex_word by ((left; cbn; tauto) || reflexivity). blanks. rewrite lex_mark by (cbn; tauto).
  rewrite lex_number by (assumption || reflexivity). change (str ", ") with [","; " "]%char. cbn [app]. rewrite lex_mark by (cbn; tauto). blanks.
  rewrite lex_number by (assumption || reflexivity). rewrite lex_mark by (cbn; tauto). blanks.
  rewrite lex_number by (assumption || reflexivity). rewrite lex_mark by (cbn; tauto). blanks.
  rewrite lex_number by (assumption || reflexivity). change (str " ) ;") with [" "; ")"; " "; ";"]%char. cbn [app]. blanks.
  rewrite lex_mark by (cbn; tauto). blanks. rewrite lex_mark by (cbn; tauto). blanks. reflexivity.
Qed.
Lemma lex_icels : forall l, exists rs, Forall rectangle_ok rs /\ Forall2 near_rect (map rectangle_value rs) (map rect_of l) /\
  forall t, L (flat_map print_icel l ++ t) = map lexeme_tok (flat_map rectangle_lexemes rs) ++ L t.
Proof.
  induction l as [|a l (rs & A & B & C)].
  - exists []. split; [constructor|]. split; [constructor|]. reflexivity.
  - destruct (lex_icel a) as (r & R1 & R2 & R3). exists (r :: rs). split; [constructor; assumption|].
    split; [constructor; assumption|]. intros t. cbn [flat_map]. rewrite <- app_assoc, R3, C, map_app, <- app_assoc. reflexivity.
Qed.

Lemma contents_shift : forall m cap start v l, 0 < cap -> contents m cap start (Z.of_nat (S (List.length l))) = v :: l ->
  0 <= start < cap -> Z.of_nat (List.length m) = cap ->
  arr_get m start = Ok v /\ contents m cap ((start + 1) mod cap) (Z.of_nat (List.length l)) = l.
Proof.
  intros m cap start v l P C S M. unfold contents in *. rewrite !Nat2Z.id in *. cbn [seq map] in C.
  assert (C1 : at_ m cap start 0 = v) by congruence. assert (C2 : map (at_ m cap start) (seq 1 (List.length l)) = l) by congruence.
  split.
  - unfold at_ in C1. rewrite Z.add_0_r, Z.mod_small in C1 by lia. subst v. rewrite (arr_get_ok m start power0) by lia. reflexivity.
  - rewrite <- C2 at 2. rewrite <- seq_shift, map_map. apply map_ext. intros i. unfold at_. f_equal. f_equal.
    rewrite Zplus_mod_idemp_l. f_equal. lia.
Qed.
Lemma lex_values : forall l v q m start, q_cap q < two32 -> 0 <= start < q_cap q -> Z.of_nat (List.length m) = q_cap q ->
  contents m (q_cap q) start (Z.of_nat (S (List.length l))) = v :: l ->
  exists text n ns, print_values (List.length l) q m start = Ok text /\ Forall numeral_ok (n :: ns) /\
    Forall2 (near (1 # 2000)) (map numeral_value (n :: ns)) (v :: l) /\
    forall t, L (text ++ t) = DVALUE (numeral_value n) :: value_toks (map numeral_value ns) ++ L t.
Proof.
  induction l as [|w l IH]; intros v q m start C S M H.
  - destruct (contents_shift m (q_cap q) start v [] ltac:(lia) H S M) as [A _].
    destruct (fixed_near 3 v (1 # 2000) ltac:(lia) eq_refl) as (n & O & T & N).
    cbn [List.length print_values]. rewrite A. cbn [bind]. eexists. exists n, []. split; [reflexivity|].
    split; [constructor; [assumption|constructor]|]. split; [constructor; [assumption|constructor]|].
    intros t. rewrite <- app_assoc, T, lex_number by (assumption || reflexivity). change (str " ") with [" "%char]. cbn [app]. blanks. reflexivity.
  - destruct (contents_shift m (q_cap q) start v (w :: l) ltac:(lia) H S M) as [A B].
    destruct (fixed_near 3 v (1 # 2000) ltac:(lia) eq_refl) as (n & O & T & N).
    assert (S' : 0 <= (start + 1) mod q_cap q < q_cap q) by (apply Z.mod_pos_bound; lia).
    destruct (IH w q m ((start + 1) mod q_cap q) C S' M B) as (text & n1 & ns & P & F & F2 & E).
    cbn [List.length print_values]. rewrite A. cbn [bind]. unfold umod. replace (q_cap q =? 0) with false by (symmetry; apply Z.eqb_neq; lia).
    rewrite u32_id by lia. cbn [bind]. rewrite P. cbn [bind]. eexists. exists n, (n1 :: ns). split; [reflexivity|].
    split; [constructor; assumption|]. split; [constructor; assumption|].
    intros t. rewrite <- !app_assoc, T, lex_number by (assumption || reflexivity). change (str ", ") with [","; " "]%char. cbn [app].
    rewrite lex_mark by (cbn; tauto). blanks. rewrite E. reflexivity.
Qed.

Lemma codes_back : forall w, map (fun c => ascii_of_nat (Z.to_nat c)) (name_codes w) = w.
Proof.
  intros w. unfold name_codes. rewrite map_map. rewrite <- (map_id w) at 2. apply map_ext. intros c. rewrite Nat2Z.id. apply ascii_nat_embedding.
Qed.
Lemma lex_flpel : forall l e, l <> [] -> printable l e -> exists text x, print_flpel e = Ok text /\ element_ok x /\ repeats l e (element_value x) /\
  forall t, L (text ++ t) = map lexeme_tok (element_lexemes x) ++ L t.
Proof.
  intros l e N ((w & W & ID) & I & R). destruct l as [|v l]; [congruence|].
  pose proof (qrep_size _ _ R) as SZ. destruct R as [(m & M1 & M2 & M3) Rc Rs Rst Re]. rewrite SZ in M3.
  destruct (lex_values l v (fe_powers e) m (q_start (fe_powers e)) ltac:(lia) Rst M2 M3) as (pt & n & ns & P & F & F2 & E).
  destruct (lex_icels (fe_ics e)) as (rs & A & B & C).
  destruct rs as [|r rs]; [exfalso; apply I; destruct (fe_ics e); [reflexivity|inversion B]|].
  assert (HS : (Z.to_nat (q_size (fe_powers e)) - 1 = List.length l)%nat) by (rewrite SZ, Nat2Z.id; cbn; apply Nat.sub_0_r).
  assert (HZ : (q_size (fe_powers e) =? 0) = false) by (rewrite SZ; apply Z.eqb_neq; cbn [List.length]; lia).
  unfold print_flpel, print_queue, queue_is_empty. rewrite HZ, M1, HS. unfold power in *. rewrite P. cbn [bind].
  eexists. exists (mkElement w (Several r rs) (Some (n, ns))). split; [reflexivity|].
  split; [split; [assumption|]; split; assumption|]. split.
  - split; [symmetry; assumption|]. split; [exact B|]. eexists. split; [reflexivity|]. exact F2.
  - intros t. rewrite ID, codes_back. unfold element_lexemes. cbn [el_name el_shape el_powers].
    rewrite !map_app. pose proof (powers_toks (Some (n, ns))) as PT. cbv beta iota in PT. rewrite PT. cbn [powers_value map power_toks].
    rewrite <- !app_assoc. rewrite lex_word by ((right; assumption) || reflexivity). change (str ":") with [":"%char]. cbn [app map].
    rewrite lex_mark by (cbn; tauto). blanks. apply f_equal2; [reflexivity|]. apply f_equal2; [reflexivity|].
    rewrite C. cbn [shape_lexemes]. f_equal.
    change (str "   power values ") with ([" "; " "; " "]%char ++ str "power" ++ [" "%char] ++ str "values" ++ [" "%char]).
    rewrite <- !app_assoc. cbn [app]. blanks. rewrite lex_word by ((left; cbn; tauto) || reflexivity). blanks.
    rewrite lex_word by ((left; cbn; tauto) || reflexivity). blanks. change (str " ") with [" "%char]. cbn [app]. blanks.
    rewrite E. change (str " ;") with [" "; ";"]%char. cbn [app]. blanks. rewrite lex_mark by (cbn; tauto). blanks.
    change (word_tok (str "power")) with POWER. change (word_tok (str "values")) with VALUES. change (mark_tok ";") with SEMI.
    reflexivity.
Qed.
Lemma lex_generate : forall ls es, Forall (fun l => l <> []) ls -> Forall2 printable ls es -> exists text xs, generate_floorplan_file es = Ok text /\
  Forall element_ok xs /\ List.length xs = List.length es /\
  (forall i l e x, nth_error ls i = Some l -> nth_error es i = Some e -> nth_error xs i = Some x -> repeats l e (element_value x)) /\
  L text = map lexeme_tok (flat_map element_lexemes xs).
Proof.
  intros ls es N H. induction H as [|l e ls es P _ IH].
  - exists [], []. split; [reflexivity|]. split; [constructor|]. split; [reflexivity|]. split; [|reflexivity]. intros [|i]; discriminate.
  - inversion N as [|? ? N1 N2]; subst. destruct (IH N2) as (text & xs & G & A & B & C & D).
    destruct (lex_flpel l e N1 P) as (t1 & x & P1 & P2 & P3 & P4).
    cbn [generate_floorplan_file]. rewrite P1. cbn [bind]. rewrite G. cbn [bind]. eexists. exists (x :: xs). split; [reflexivity|].
    split; [constructor; assumption|]. split; [cbn; congruence|]. split.
    + intros [|i] l' e' x' H1 H2 H3; cbn in H1, H2, H3; [|eapply C; eauto]. congruence.
    + rewrite P4. cbn [app]. rewrite lex_space by reflexivity. rewrite D. cbn [flat_map]. rewrite map_app. reflexivity.
Qed.
