From Coq Require Import ZArith List Bool QArith Qabs Qpower Qround String Ascii Lia Lqa.
From Verif Require Import Base Flex FlexProofs Vtk VtkSpec VtkProofs FlpText FlpTextSpec FlpTextProofs FlpLexProofs FlpPrintProofs Inspect
  StkScan StkText StkTextSpec ScanProofs StkInstProofs LayText StkSave StkSaveSpec.
Import ListNotations.
Local Open Scope string_scope.
Local Open Scope list_scope.
Local Open Scope Z_scope.

(** ** Powers of ten *)
Lemma ten_pos : forall e, (0 < ten e)%Q.
Proof. intros e. apply Qpower_0_lt. reflexivity. Qed.
Lemma ten_plus : forall a b, (ten (a + b) == ten a * ten b)%Q.
Proof. intros a b. apply Qpower_plus. discriminate. Qed.
Lemma ten_Z : forall e, 0 <= e -> (ten e == inject_Z (10 ^ e))%Q.
Proof. intros e H. unfold ten. change (10 # 1)%Q with (inject_Z 10). rewrite Zpower_Qpower by assumption. reflexivity. Qed.
Lemma ten_0 : (ten 0 == 1)%Q. Proof. reflexivity. Qed.
Lemma ten_back : forall a b, (ten a * ten (b - a) == ten b)%Q.
Proof. intros a b. rewrite <- ten_plus. replace (a + (b - a)) with b by lia. reflexivity. Qed.

Lemma count_digits_ok : forall f n, 0 < n -> n < 2 ^ (Z.of_nat f + 1) -> let k := count_digits f n in 1 <= k /\ 10 ^ (k - 1) <= n < 10 ^ k.
Proof.
  induction f as [|f IH]; intros n P U; cbn [count_digits].
  - cbn in U. change (10 ^ (1 - 1)) with 1. change (10 ^ 1) with 10. lia.
  - destruct (Z.ltb_spec n 10) as [L|L]; [change (10 ^ (1 - 1)) with 1; change (10 ^ 1) with 10; lia|].
    assert (D : 0 < n / 10) by (apply Z.div_str_pos; lia).
    assert (B : n / 10 < 2 ^ (Z.of_nat f + 1)).
    { apply Z.div_lt_upper_bound; [lia|]. replace (Z.of_nat (S f) + 1) with (1 + (Z.of_nat f + 1)) in U by lia. rewrite Z.pow_add_r in U by lia.
      change (2 ^ 1) with 2 in U. pose proof (Z.pow_pos_nonneg 2 (Z.of_nat f + 1)). lia. }
    destruct (IH _ D B) as (K1 & K2 & K3). set (k := count_digits f (n / 10)) in *. cbv zeta.
    replace (1 + k - 1) with (1 + (k - 1)) by lia. rewrite !Z.pow_add_r by lia. change (10 ^ 1) with 10.
    pose proof (Z.div_mod n 10 ltac:(lia)). pose proof (Z.mod_pos_bound n 10 ltac:(lia)). lia.
Qed.
Lemma ndigits_ok : forall n, 0 < n -> 1 <= ndigits n /\ 10 ^ (ndigits n - 1) <= n < 10 ^ ndigits n.
Proof.
  intros n P. apply count_digits_ok; [assumption|]. destruct (Z.log2_spec n P) as [_ H]. rewrite Z2Nat.id by apply Z.log2_nonneg. exact H.
Qed.
(** The exponent: 10^e <= x < 10^(e+1). *)
Lemma exp10_ok : forall x, (0 < x)%Q -> (ten (exp10 x) <= x)%Q /\ (x < ten (exp10 x + 1))%Q.
Proof.
  intros x P. assert (N : 0 < Qnum x) by (destruct x as [a b]; unfold Qlt in P; cbn in *; lia).
  destruct (ndigits_ok _ N) as (A1 & A2 & A3). destruct (ndigits_ok (Zpos (Qden x)) ltac:(lia)) as (B1 & B2 & B3).
  assert (X : (x * inject_Z (Zpos (Qden x)) == inject_Z (Qnum x))%Q) by (destruct x as [a b]; unfold Qeq; cbn [Qnum Qden Qmult inject_Z]; rewrite ?Pos.mul_1_r; lia).
  unfold exp10. set (a := ndigits (Qnum x)) in *. set (b := ndigits (Zpos (Qden x))) in *. set (d := inject_Z (Zpos (Qden x))) in *.
  rewrite Zle_Qle in A2, B2. rewrite Zlt_Qlt in A3, B3. rewrite <- !ten_Z in A2, A3, B2, B3 by lia. rewrite <- X in A2, A3. fold d in B2, B3.
  assert (D : (0 < d)%Q) by reflexivity.
  assert (U : (x < ten (a - b + 1))%Q).
  { assert (H : (x * ten (b - 1) < ten (a - b + 1) * ten (b - 1))%Q).
    { apply Qle_lt_trans with (x * d)%Q; [rewrite (Qmult_comm x), (Qmult_comm x); apply Qmult_le_compat_r; lra|].
      rewrite <- ten_plus. replace (a - b + 1 + (b - 1)) with a by lia. assumption. }
    apply Qmult_lt_r in H; [assumption|apply ten_pos]. }
  assert (V : (ten (a - b - 1) <= x)%Q).
  { assert (H : (ten (a - b - 1) * ten b <= x * ten b)%Q).
    { rewrite <- ten_plus. replace (a - b - 1 + b) with (a - 1) by lia. apply Qle_trans with (x * d)%Q; [assumption|].
      rewrite (Qmult_comm x), (Qmult_comm x); apply Qmult_le_compat_r; lra. }
    apply Qmult_le_r in H; [assumption|apply ten_pos]. }
  destruct (Qle_bool (ten (a - b)) x) eqn:E.
  - apply Qle_bool_iff in E. auto.
  - split; [assumption|]. replace (a - b - 1 + 1) with (a - b) by lia. apply Qnot_le_lt. intros H. apply Qle_bool_iff in H. congruence.
Qed.

(** ** "%.<p>e" *)
Definition printed_e (p : nat) (x : Q) : Z * Z :=
  let e := if Qeq_bool x 0 then 0 else exp10 (Qabs x) in
  let m := round_even (Qabs x * ten (Z.of_nat p - e)) in
  if m =? 10 ^ Z.of_nat (S p) then (10 ^ Z.of_nat p, e + 1) else (m, e).
Lemma printed_near : forall p x, let '(m, e) := printed_e p x in
  0 <= m /\ (Qabs (inject_Z m * ten (e - Z.of_nat p) - Qabs x) * (2 * inject_Z (10 ^ Z.of_nat p)) <= Qabs x)%Q.
Proof.
  intros p x. unfold printed_e. set (e := if Qeq_bool x 0 then 0 else exp10 (Qabs x)).
  set (m := round_even (Qabs x * ten (Z.of_nat p - e))).
  assert (X : (0 <= Qabs x)%Q) by apply Qabs_nonneg. pose proof (ten_pos (Z.of_nat p - e)) as T1. pose proof (ten_pos (e - Z.of_nat p)) as T2.
  assert (TT : (ten (Z.of_nat p - e) * ten (e - Z.of_nat p) == 1)%Q).
  { rewrite <- ten_plus. replace (Z.of_nat p - e + (e - Z.of_nat p)) with 0 by lia. reflexivity. }
  assert (M : 0 <= m) by (apply round_even_pos; apply Qmult_le_0_compat; lra).
  assert (G : (Qabs (inject_Z m * ten (e - Z.of_nat p) - Qabs x) * (2 * inject_Z (10 ^ Z.of_nat p)) <= Qabs x)%Q).
  { rewrite <- ten_Z by lia.
    destruct (Qeq_bool x 0) eqn:Z0.
    - apply Qeq_bool_iff in Z0. assert (A : (Qabs x == 0)%Q) by (rewrite Z0; reflexivity).
      assert (M0 : m = 0). { unfold m, round_even. assert (F : Qfloor (Qabs x * ten (Z.of_nat p - e)) = 0). { rewrite A. setoid_replace (0 * ten (Z.of_nat p - e))%Q with 0%Q by ring. reflexivity. }
        rewrite F. assert (C : ((Qabs x * ten (Z.of_nat p - e) - inject_Z 0 ?= 1 # 2) = Lt)%Q). { apply Qlt_alt. rewrite A. setoid_replace (0 * ten (Z.of_nat p - e) - inject_Z 0)%Q with 0%Q by ring. reflexivity. }
        rewrite C. reflexivity. }
      rewrite M0, A. setoid_replace (inject_Z 0 * ten (e - Z.of_nat p) - 0)%Q with 0%Q by ring. change (Qabs 0) with 0%Q.
      setoid_replace (0 * (2 * ten (Z.of_nat p)))%Q with 0%Q by ring. apply Qle_refl.
    - assert (P : (0 < Qabs x)%Q). { apply Qnot_le_lt. intros H. apply Qabs_Qle_condition in H. assert (x == 0)%Q by lra. apply Qeq_bool_iff in H0. congruence. }
      destruct (exp10_ok _ P) as [L _]. fold e in L.
      pose proof (round_even_near (Qabs x * ten (Z.of_nat p - e))) as R. fold m in R.
      setoid_replace (inject_Z m * ten (e - Z.of_nat p) - Qabs x)%Q with ((inject_Z m - Qabs x * ten (Z.of_nat p - e)) * ten (e - Z.of_nat p))%Q.
      2:{ setoid_replace ((inject_Z m - Qabs x * ten (Z.of_nat p - e)) * ten (e - Z.of_nat p))%Q
            with (inject_Z m * ten (e - Z.of_nat p) - Qabs x * (ten (Z.of_nat p - e) * ten (e - Z.of_nat p)))%Q by ring. rewrite TT. ring. }
      rewrite Qabs_Qmult, (Qabs_pos (ten (e - Z.of_nat p))) by lra.
      set (y := Qabs (inject_Z m - Qabs x * ten (Z.of_nat p - e))) in *.
      setoid_replace (y * ten (e - Z.of_nat p) * (2 * ten (Z.of_nat p)))%Q with ((2 * y) * (ten (Z.of_nat p) * ten (e - Z.of_nat p)))%Q by ring.
      rewrite ten_back. apply Qle_trans with (1 * ten e)%Q; [|lra]. apply Qmult_le_compat_r; [lra|]. apply Qlt_le_weak, ten_pos. }
  destruct (Z.eqb_spec m (10 ^ Z.of_nat (S p))) as [E|E]; [|auto]. split; [apply Z.pow_nonneg; lia|].
  assert (S' : (inject_Z (10 ^ Z.of_nat p) * ten (e + 1 - Z.of_nat p) == inject_Z m * ten (e - Z.of_nat p))%Q).
  { rewrite E, <- !ten_Z by lia. rewrite <- !ten_plus. replace (Z.of_nat p + (e + 1 - Z.of_nat p)) with (Z.of_nat (S p) + (e - Z.of_nat p)) by lia. reflexivity. }
  rewrite S'. assumption.
Qed.
(** The mantissa has one digit before the point. *)
Lemma printed_digit : forall p x, ~ (x == 0)%Q -> 1 <= fst (printed_e p x) / 10 ^ Z.of_nat p <= 9.
Proof.
  intros p x N. unfold printed_e. destruct (Qeq_bool x 0) eqn:Z0; [apply Qeq_bool_iff in Z0; contradiction|].
  assert (P : (0 < Qabs x)%Q). { apply Qnot_le_lt. intros H. apply Qabs_Qle_condition in H. apply N. lra. }
  destruct (exp10_ok _ P) as [L U]. set (e := exp10 (Qabs x)) in *. set (m := round_even (Qabs x * ten (Z.of_nat p - e))).
  pose proof (ten_pos (Z.of_nat p - e)) as T1. pose proof (Z.pow_pos_nonneg 10 (Z.of_nat p) ltac:(lia) ltac:(lia)) as T.
  assert (A : (inject_Z (10 ^ Z.of_nat p) <= Qabs x * ten (Z.of_nat p - e))%Q).
  { rewrite <- ten_Z by lia. rewrite <- (ten_back e (Z.of_nat p)). apply Qmult_le_compat_r; lra. }
  assert (B : (Qabs x * ten (Z.of_nat p - e) < inject_Z (10 ^ Z.of_nat (S p)))%Q).
  { rewrite <- ten_Z by lia. rewrite <- (ten_back (e + 1) (Z.of_nat (S p))). replace (Z.of_nat (S p) - (e + 1)) with (Z.of_nat p - e) by lia.
    apply Qmult_lt_r; [apply ten_pos|assumption]. }
  assert (TS : 10 ^ Z.of_nat (S p) = 10 * 10 ^ Z.of_nat p) by (rewrite Nat2Z.inj_succ, Z.pow_succ_r by lia; reflexivity).
  assert (F1 : 10 ^ Z.of_nat p <= Qfloor (Qabs x * ten (Z.of_nat p - e))) by (rewrite <- (Qfloor_Z (10 ^ Z.of_nat p)) at 1; apply Qfloor_resp_le; assumption).
  assert (F2 : Qfloor (Qabs x * ten (Z.of_nat p - e)) < 10 ^ Z.of_nat (S p)).
  { rewrite Zlt_Qlt. eapply Qle_lt_trans; [apply Qfloor_le|assumption]. }
  assert (M : 10 ^ Z.of_nat p <= m <= 10 ^ Z.of_nat (S p)).
  { unfold m, round_even. destruct (_ ?= _)%Q; [destruct (Z.even _)| |]; lia. }
  destruct (Z.eqb_spec m (10 ^ Z.of_nat (S p))) as [E|E]; cbn [fst].
  - rewrite Z.div_same by lia. lia.
  - split; [apply Z.div_le_lower_bound; lia|]. assert (m / 10 ^ Z.of_nat p < 10); [apply Z.div_lt_upper_bound; lia|lia].
Qed.

Lemma scientific_numeral : forall p x, (0 < p)%nat -> exists n, numeral_ok n /\ str (scientific p x) = numeral_text n /\
  (Qabs (numeral_value n - x) * (2 * inject_Z (10 ^ Z.of_nat p)) <= Qabs x)%Q.
Proof.
  intros p x P. pose proof (printed_near p x) as H. unfold scientific.
  set (e0 := if Qeq_bool x 0 then 0 else exp10 (Qabs x)). set (m0 := round_even (Qabs x * ten (Z.of_nat p - e0))).
  change (if m0 =? 10 ^ Z.of_nat (S p) then (10 ^ Z.of_nat p, e0 + 1) else (m0, e0)) with (printed_e p x).
  destruct (printed_e p x) as [m e]. clear e0 m0. destruct H as [M H].
  assert (T : 0 < 10 ^ Z.of_nat p) by (apply Z.pow_pos_nonneg; lia).
  assert (D0 : 0 <= m / 10 ^ Z.of_nat p) by (apply Z.div_pos; lia).
  pose proof (dec_digit _ D0) as A. pose proof (dec_nonempty _ D0) as NA. pose proof (dec_value _ D0) as VA.
  destruct (pad_digits_spec p m "" M) as (VB & B & L). cbn [all_digits String.length] in B, L. rewrite Nat.add_0_r in L.
  specialize (VB 0). cbn [Z.mul digits_value] in VB. rewrite Z.add_0_l in VB.
  set (a := dec (m / 10 ^ Z.of_nat p)) in *. set (b := pad_digits p m "") in *.
  assert (E0 : 0 <= Z.abs e) by lia.
  set (d := ((if (Z.abs e <? 10)%Z then "0" else "") ++ dec (Z.abs e))%string).
  assert (C : all_digits d = true /\ d <> "" /\ digits_value 0 d = Some (Z.abs e)).
  { unfold d. pose proof (dec_digit _ E0). pose proof (dec_nonempty _ E0). pose proof (dec_value _ E0).
    destruct (Z.abs e <? 10); cbn [append]; [|auto]. split; [cbn [all_digits]; rewrite H0; reflexivity|]. split; [discriminate|]. exact H2. }
  destruct C as (C & NC & VC).
  destruct (digits_list a A) as (la & A1 & A2 & A3 & A4). destruct (digits_list b B) as (lb & B1 & B2 & B3 & B4).
  destruct (digits_list d C) as (ld & C1 & C2 & C3 & C4).
  rewrite A4 in VA. injection VA as VA. rewrite B4 in VB. injection VB as VB. rewrite C4 in VC. injection VC as VC.
  set (n := mkNumeral (if Qle_bool 0 x then None else Some true) la (Some lb) (Some ("e"%char, Some (e <? 0), ld))). exists n.
  split; [|split].
  - split; [|split]; cbn [n n_int n_frac n_exp].
    + split; [|assumption]. intros ->. apply NA. destruct a; [reflexivity|discriminate].
    + split; [|assumption]. intros ->. cbn in B3. lia.
    + split; [auto|]. split; [|assumption]. intros ->. apply NC. destruct d; [reflexivity|discriminate].
  - change ("e" ++ (if (e <? 0)%Z then "-" else "+") ++ (if (Z.abs e <? 10)%Z then "0" else "") ++ dec (Z.abs e))%string
      with ("e" ++ (if (e <? 0)%Z then "-" else "+") ++ d)%string.
    rewrite !str_app, A1, B1, C1. unfold numeral_text. cbn [n n_sign n_int n_frac n_exp]. rewrite <- ?app_assoc.
    destruct (Qle_bool 0 x), (e <? 0); reflexivity.
  - assert (V : (numeral_value n == inject_Z (signed (n_sign n) 1) * (inject_Z m * ten (e - Z.of_nat p)))%Q).
    { unfold numeral_value. rewrite Qred_correct. cbn [n n_sign n_int n_frac n_exp]. rewrite VA, VB, VC.
      assert (SE : signed (Some (e <? 0)) (Z.abs e) = e) by (cbn [signed]; destruct (Z.ltb_spec e 0); lia). rewrite SE.
      assert (LB : List.length lb = p) by congruence. rewrite LB. fold (ten e).
      assert (TE : (ten e == ten (e - Z.of_nat p) * inject_Z (10 ^ Z.of_nat p))%Q) by (rewrite <- ten_Z, <- ten_plus by lia; replace (e - Z.of_nat p + Z.of_nat p) with e by lia; reflexivity).
      assert (MM : (inject_Z m == inject_Z (10 ^ Z.of_nat p) * inject_Z (m / 10 ^ Z.of_nat p) + inject_Z (m mod 10 ^ Z.of_nat p))%Q).
      { rewrite <- inject_Z_mult, <- inject_Z_plus. rewrite <- Z.div_mod by lia. reflexivity. }
      rewrite TE, MM. field. pose proof (pow10_pos p) as PP. intros Z0. rewrite Z0 in PP. apply Qlt_irrefl in PP. assumption. }
    rewrite V. cbn [n n_sign]. destruct (Qle_bool 0 x) eqn:S; cbn [signed].
    + apply Qle_bool_iff in S. change (inject_Z 1) with 1%Q. rewrite Qmult_1_l. rewrite (Qabs_pos x S) in *. assumption.
    + assert (S' : (x <= 0)%Q). { apply Qnot_lt_le. intros K. apply Qlt_le_weak in K. apply Qle_bool_iff in K. congruence. }
      change (inject_Z (-(1))) with (-(1))%Q. rewrite (Qabs_neg x S') in *.
      setoid_replace (-(1) * (inject_Z m * ten (e - Z.of_nat p)) - x)%Q with (- (inject_Z m * ten (e - Z.of_nat p) - - x))%Q by ring. rewrite Qabs_opp. assumption.
Qed.

(** ** The scanner on what is printed *)
Notation L := stk_tokens.
Lemma tok_name : forall i t, a_name_of i -> wstops t -> L (id_ i ++ t) = SI i :: L t.
Proof.
  intros i t (w & -> & N) W. unfold id_, chars_of. rewrite codes_back.
  apply (scan_lexm _ _ _ _ stk_scanner (SI w)); [|exact W]. split; [exact Logic.I|].
  apply (lexm_ok_same reserved stk_keywords (SI w)); [apply reserved_keywords|exact N].
Qed.
Lemma tok_path : forall p t, a_path_of p -> L (quoted p ++ t) = SP p :: L t.
Proof.
  intros p t (w & -> & N). unfold quoted, chars_of. rewrite codes_back. rewrite <- !app_assoc.
  apply (scan_path _ _ _ _ stk_scanner w t); [reflexivity|assumption].
Qed.
Lemma tok_num : forall n t, numeral_ok n -> stops t -> L (numeral_text n ++ t) = SN (numeral_value n) :: L t.
Proof. intros n t O W. apply (scan_lexm _ _ _ _ stk_scanner (SN n)); [split; [exact Logic.I|exact O]|exact W]. Qed.
Lemma tok_space : forall c t, is_space c = true -> L (c :: t) = L t.
Proof. apply (lex_space _ _ _ _ stk_scanner). Qed.
Lemma tok_fixed : forall p e x, (0 < p)%nat -> (e * (2 * inject_Z (10 ^ Z.of_nat p)) == 1)%Q ->
  exists q, near e q x /\ forall t, stops t -> L (str (fixed p x) ++ t) = SN q :: L t.
Proof.
  intros p e x P E. destruct (fixed_near p x e P E) as (n & O & T & N). exists (numeral_value n). split; [assumption|].
  intros t W. rewrite T. apply tok_num; assumption.
Qed.
Lemma pad_left_str : forall w s, str (pad_left w s) = List.repeat " "%char (w - String.length s) ++ str s.
Proof.
  intros w s. unfold pad_left. induction (w - String.length s)%nat as [|n IH]; [reflexivity|]. cbn [List.repeat List.fold_right app].
  unfold str in *. cbn [list_ascii_of_string]. rewrite IH. reflexivity.
Qed.
Lemma tok_blanks : forall n t, L (List.repeat " "%char n ++ t) = L t.
Proof. induction n as [|n IH]; intros t; [reflexivity|]. cbn [List.repeat app]. rewrite tok_space by reflexivity. apply IH. Qed.
Lemma tok_f1 : forall x, exists q, near (1 # 20) q x /\ forall t, stops t -> L (f1 x ++ t) = SN q :: L t.
Proof. intros x. apply tok_fixed; [lia|reflexivity]. Qed.
Lemma tok_f2 : forall x, exists q, near (1 # 200) q x /\ forall t, stops t -> L (f2 x ++ t) = SN q :: L t.
Proof. intros x. apply tok_fixed; [lia|reflexivity]. Qed.
Lemma tok_f71 : forall x, exists q, near (1 # 20) q x /\ forall t, stops t -> L (f71 x ++ t) = SN q :: L t.
Proof.
  intros x. destruct (tok_f1 x) as (q & N & H). exists q. split; [assumption|]. intros t W. unfold f71. rewrite pad_left_str, <- app_assoc, tok_blanks.
  apply H. assumption.
Qed.
Lemma tok_f41 : forall x, exists q, near (1 # 20) q x /\ forall t, stops t -> L (f41 x ++ t) = SN q :: L t.
Proof.
  intros x. destruct (tok_f1 x) as (q & N & H). exists q. split; [assumption|]. intros t W. unfold f41. rewrite pad_left_str, <- app_assoc, tok_blanks.
  apply H. assumption.
Qed.
Lemma tok_e4 : forall x, exists q, close q x /\ forall t, stops t -> L (e4 x ++ t) = SN q :: L t.
Proof.
  intros x. destruct (scientific_numeral 4 x ltac:(lia)) as (n & O & T & N). exists (numeral_value n). split.
  - unfold close. eapply Qle_trans; [|exact N]. change (2 * inject_Z (10 ^ Z.of_nat 4))%Q with (20000 # 1)%Q. apply Qle_refl.
  - intros t W. unfold e4. rewrite T. apply tok_num; assumption.
Qed.

(** Literal texts: words, blanks and marks. *)
Definition markb (c : ascii) : bool := existsb (Ascii.eqb c) stk_marks.
Definition wordb (w : chars) : bool :=
  existsb (fun k => if list_eq_dec ascii_dec w (str k) then true else false) stk_keywords
  || match w with c :: r => is_alpha c && forallb idch r | [] => false end.
Lemma wordb_ok : forall w, wordb w = true -> a_word stk_keywords w.
Proof.
  intros w H. unfold wordb in H. apply orb_prop in H. destruct H as [H|H].
  - apply existsb_exists in H. destruct H as (k & I & E). destruct (list_eq_dec ascii_dec w (str k)) as [->|]; [|discriminate]. left. apply in_map. assumption.
  - right. destruct w as [|c r]; [discriminate|]. apply andb_prop in H. destruct H as [H1 H2]. exists c, r. auto.
Qed.
Fixpoint literal (acc : chars) (s : chars) : option (list stok) :=
  match s with
  | [] => match acc with [] => Some [] | _ => None end
  | c :: r =>
    if is_space c || markb c then
      let w := match acc with [] => Some [] | _ => if wordb acc then Some [word_sym stk_keywords acc] else None end in
      match w, literal [] r with
      | Some w, Some l => Some (w ++ (if is_space c then [] else [SM c]) ++ l)
      | _, _ => None
      end
    else literal (acc ++ [c]) r
  end.
Lemma literal_ok : forall s acc ts, literal acc s = Some ts -> forall t, L (acc ++ s ++ t) = ts ++ L t.
Proof.
  induction s as [|c r IH]; intros acc ts H t; cbn [literal] in H.
  - destruct acc as [|a acc]; [|discriminate]. injection H as <-. reflexivity.
  - destruct (is_space c || markb c) eqn:E.
    + assert (C : forall l, literal [] r = Some l -> L (c :: r ++ t) = (if is_space c then [] else [SM c]) ++ l ++ L t).
      { intros l K. specialize (IH [] l K t). cbn [app] in IH. destruct (is_space c) eqn:S.
        - rewrite tok_space by assumption. rewrite IH. reflexivity.
        - cbn [orb] in E. unfold markb in E. apply existsb_exists in E. destruct E as (c' & I & EQ). apply Ascii.eqb_eq in EQ. subst c'.
          rewrite <- IH. apply (scan_mark _ _ _ _ stk_scanner). assumption. }
      assert (W : forall t', match acc with [] => Some [] | _ => if wordb acc then Some [word_sym stk_keywords acc] else None end = Some t' -> L (acc ++ c :: r ++ t) = t' ++ L (c :: r ++ t)).
      { intros t' K. destruct acc as [|a acc]; [injection K as <-; reflexivity|]. destruct (wordb (a :: acc)) eqn:B; [|discriminate]. injection K as <-.
        apply (scan_word _ _ _ _ stk_scanner (a :: acc) (c :: r ++ t)); [apply wordb_ok; assumption|]. clear -E. cbn.
        apply orb_prop in E. destruct E as [E|E].
        - destruct c as [[] [] [] [] [] [] [] []]; vm_compute in E |- *; congruence.
        - destruct c as [[] [] [] [] [] [] [] []]; vm_compute in E |- *; congruence. }
      destruct (match acc with [] => Some [] | _ => if wordb acc then Some [word_sym stk_keywords acc] else None end) as [w|] eqn:WE; [|discriminate].
      destruct (literal [] r) as [l|] eqn:LE; [|discriminate]. injection H as <-.
      cbn [app]. rewrite (W w eq_refl), (C l eq_refl). rewrite <- !app_assoc. reflexivity.
    + specialize (IH _ _ H t). rewrite <- app_assoc in IH. exact IH.
Qed.
Lemma tok_lit : forall s ts t, literal [] s = Some ts -> L (s ++ t) = ts ++ L t.
Proof. intros s ts t H. apply (literal_ok s [] ts H t). Qed.
Lemma tok_nl : forall t, L (nl ++ t) = L t.
Proof. intros t. apply tok_space. reflexivity. Qed.

(** ** Sections *)
Ltac step := first
  [ rewrite tok_nl
  | match goal with
    | H : forall t, stops t -> L (?x ++ t) = _ |- context [L (?x ++ ?t)] => rewrite (H t) by reflexivity
    | |- context [L (str ?s ++ ?t)] =>
      let r := eval vm_compute in (literal [] (str s)) in
      match r with Some ?ts => rewrite (tok_lit (str s) ts t) by (vm_compute; reflexivity) end
    | |- context [L (id_ ?i ++ ?t)] => rewrite (tok_name i t) by (assumption || reflexivity)
    | |- context [L (quoted ?p ++ ?t)] => rewrite (tok_path p t) by assumption
    end
  | progress cbn [app] ].
Ltac steps := rewrite <- ?app_assoc; repeat step.

Lemma lex_material : forall m, a_name_of (sm_id m) -> exists x y z v, close x (sm_x m) /\ close y (sm_y m) /\ close z (sm_z m) /\ close v (sm_vhc m) /\
  forall t, L (print_material m ++ t) =
    [SK "material"; SI (sm_id m); SM ":"; SK "thermal"; SK "conductivity"; SN x; SN y; SN z; SM ";"; SK "volumetric"; SK "heat"; SK "capacity"; SN v; SM ";"] ++ L t.
Proof.
  intros m I. destruct (tok_e4 (sm_x m)) as (x & X & HX), (tok_e4 (sm_y m)) as (y & Y & HY), (tok_e4 (sm_z m)) as (z & Z' & HZ), (tok_e4 (sm_vhc m)) as (v & V & HV).
  exists x, y, z, v. split; [assumption|]. split; [assumption|]. split; [assumption|]. split; [assumption|]. intros t. unfold print_material. steps. reflexivity.
Qed.
Lemma lex_top : forall h a, exists h' a', same_sink h a h' a' /\ forall t, L (print_convective "top" h a ++ t) = top_syntax (Convective h' a') ++ L t.
Proof.
  intros h a. destruct (tok_e4 h) as (x & X & HX), (tok_f2 a) as (y & Y & HY). exists x, y. split; [split; assumption|]. intros t. unfold print_convective.
  rewrite <- ?app_assoc. rewrite (app_assoc (str "top")), <- str_app. change ("top" ++ " heat sink :")%string with "top heat sink :". steps. reflexivity.
Qed.
Lemma lex_bottom : forall h a, exists h' a', same_sink h a h' a' /\ forall t, L (print_convective "bottom" h a ++ t) = bottom_syntax (mkBot h' a') ++ L t.
Proof.
  intros h a. destruct (tok_e4 h) as (x & X & HX), (tok_f2 a) as (y & Y & HY). exists x, y. split; [split; assumption|]. intros t. unfold print_convective.
  rewrite <- ?app_assoc. rewrite (app_assoc (str "bottom")), <- str_app. change ("bottom" ++ " heat sink :")%string with "bottom heat sink :". steps. reflexivity.
Qed.
Lemma lex_channel : forall c, a_name_of (chan_name c) -> exists c', same_channel c c' /\ forall t, L (print_channel c ++ t) = channel_syntax c' ++ L t.
Proof.
  intros [height channel wall first last m flow side top bottom vhc tin|height length pitch m flow top bottom vhc tin|staggered height diameter pitch m darcy vhc tin] I; cbn [chan_name] in I.
  - destruct (tok_f71 height) as (a1 & A1 & ?), (tok_f71 channel) as (a2 & A2 & ?), (tok_f71 wall) as (a3 & A3 & ?), (tok_f71 first) as (a4 & A4 & ?), (tok_f71 last) as (a5 & A5 & ?),
      (tok_f2 (to_mlmin flow)) as (a6 & A6 & ?), (tok_e4 side) as (a7 & A7 & ?), (tok_e4 top) as (a8 & A8 & ?), (tok_e4 bottom) as (a9 & A9 & ?), (tok_e4 vhc) as (b1 & B1 & ?), (tok_f2 tin) as (b2 & B2 & ?).
    exists (Chan4 a1 a2 a3 (Some a4) (Some a5) m a6 (Each4 a7 a8 a9) b1 b2). split; [unfold same_channel; change (to_mlmin flow) with (flow * 60 / 1000000000000)%Q in A6; tauto|].
    intros t. unfold print_channel. steps. reflexivity.
  - destruct (tok_f71 height) as (a1 & A1 & ?), (tok_f71 length) as (a2 & A2 & ?), (tok_f71 (pitch - length)%Q) as (a3 & A3 & ?),
      (tok_f2 (to_mlmin flow)) as (a6 & A6 & ?), (tok_e4 top) as (a8 & A8 & ?), (tok_e4 bottom) as (a9 & A9 & ?), (tok_e4 vhc) as (b1 & B1 & ?), (tok_f2 tin) as (b2 & B2 & ?).
    exists (Chan2 a1 a2 a3 m a6 (Each2 a8 a9) b1 b2). split; [unfold same_channel; change (to_mlmin flow) with (flow * 60 / 1000000000000)%Q in A6; tauto|].
    intros t. unfold print_channel. steps. reflexivity.
  - destruct (tok_f71 height) as (a1 & A1 & ?), (tok_f71 diameter) as (a2 & A2 & ?), (tok_f71 pitch) as (a3 & A3 & ?),
      (tok_e4 darcy) as (a6 & A6 & ?), (tok_e4 vhc) as (b1 & B1 & ?), (tok_f2 tin) as (b2 & B2 & ?).
    exists (Pins a1 a2 a3 staggered m a6 b1 b2). split; [unfold same_channel; tauto|].
    intros t. unfold print_channel. destruct staggered; steps; reflexivity.
Qed.
Lemma lex_dims : forall d, exists d', same_dims d d' /\ dd_nonuniform d' = None /\ forall t, L (print_dims d ++ t) = dims_syntax d' ++ L t.
Proof.
  intros d. destruct (tok_f71 (sx_length d)) as (a1 & A1 & ?), (tok_f71 (sx_width d)) as (a2 & A2 & ?), (tok_f71 (sx_cell_length d)) as (a3 & A3 & ?), (tok_f71 (sx_cell_width d)) as (a4 & A4 & ?).
  exists (mkDimd a1 a2 a3 a4 None). split; [unfold same_dims; cbn [dd_length dd_width dd_cell_length dd_cell_width]; tauto|]. split; [reflexivity|].
  intros t. unfold print_dims. steps. reflexivity.
Qed.
Lemma lex_layer : forall l, layer_names l -> exists text l', print_layer l = Ok text /\ same_layer l l' /\ forall t, L (text ++ t) = layer_syntax l' ++ L t.
Proof.
  intros l (N1 & N2 & N3). unfold print_layer. destruct (sl_layout l) as [p|] eqn:P; [|contradiction].
  destruct (tok_f1 (sl_height l)) as (h & H & ?). eexists. exists (mkLayd (sl_id l) h (sl_material l) (Some p)). split; [reflexivity|].
  split; [unfold same_layer; cbn [y_id y_height y_material y_layout]; auto|]. intros t. steps. reflexivity.
Qed.
Lemma lex_element : forall e, elem_ok e -> exists e', same_element e e' /\ forall t, L (print_element e ++ t) = element_syntax e' ++ L t.
Proof.
  intros e O. eexists. split; [reflexivity|]. intros t. destruct e as [i l|i|i d p]; cbn [elem_ok] in O; unfold print_element.
  - destruct O. steps. reflexivity.
  - steps. reflexivity.
  - destruct O as (? & ? & ?). steps. reflexivity.
Qed.

(** ** Dies, solver, inspection points *)
Lemma lex_contents : forall B c s, Z.of_nat (List.length B) <= s -> c = Z.of_nat (List.length B) -> c < two32 -> Forall (fun x : Q * list Z => a_name_of (snd x)) B ->
  exists B', Forall2 same_content B B' /\ forall t, L (print_die_layers c s B ++ t) = listed (fun c => words ["layer"] ++ content_syntax c) B' ++ L t.
Proof.
  induction B as [|[h m] B IH]; intros c s K C U N.
  - exists []. split; [constructor|]. reflexivity.
  - cbn [List.length] in *. inversion N as [|? ? N1 N2]; subst. cbn [snd] in N1.
    destruct (IH (Z.of_nat (List.length B)) s ltac:(lia) eq_refl ltac:(lia) N2) as (B' & F & E).
    destruct (tok_f41 h) as (q & Q1 & H). exists (Fresh q m :: B'). split; [constructor; [split; [assumption|reflexivity]|assumption]|].
    intros t. cbn [print_die_layers]. replace (u32 (Z.of_nat (Datatypes.S (List.length B)) - 1)) with (Z.of_nat (List.length B)) by (rewrite u32_id; lia).
    replace (Z.of_nat (List.length B) =? s) with false by (symmetry; apply Z.eqb_neq; lia). steps. rewrite E. reflexivity.
Qed.
Lemma lex_die_layers : forall A x B c s, s = Z.of_nat (List.length B) -> c = Z.of_nat (List.length (A ++ x :: B)) -> c < two32 ->
  Forall (fun x : Q * list Z => a_name_of (snd x)) (A ++ x :: B) ->
  exists A' x' B', Forall2 same_content A A' /\ same_content x x' /\ Forall2 same_content B B' /\
    forall t, L (print_die_layers c s (A ++ x :: B) ++ t) =
      listed (fun c => words ["layer"] ++ content_syntax c) A' ++ words ["source"] ++ content_syntax x' ++ listed (fun c => words ["layer"] ++ content_syntax c) B' ++ L t.
Proof.
  induction A as [|[h m] A IH]; intros [h0 m0] B c s S C U N; cbn [app List.length] in *.
  - inversion N as [|? ? N1 N2]; subst. cbn [snd] in N1.
    destruct (lex_contents B (Z.of_nat (List.length B)) (Z.of_nat (List.length B)) ltac:(lia) eq_refl ltac:(lia) N2) as (B' & F & E).
    destruct (tok_f41 h0) as (q & Q1 & H). exists [], (Fresh q m0), B'. split; [constructor|]. split; [split; [assumption|reflexivity]|]. split; [assumption|].
    intros t. cbn [print_die_layers]. replace (u32 (Z.of_nat (Datatypes.S (List.length B)) - 1)) with (Z.of_nat (List.length B)) by (rewrite u32_id; lia).
    rewrite Z.eqb_refl. steps. rewrite E. reflexivity.
  - inversion N as [|? ? N1 N2]; subst. cbn [snd] in N1.
    destruct (IH (h0, m0) B (Z.of_nat (List.length (A ++ (h0, m0) :: B))) (Z.of_nat (List.length B)) eq_refl eq_refl ltac:(lia) N2) as (A' & x' & B' & F1 & F2 & F3 & E).
    destruct (tok_f41 h) as (q & Q1 & H). exists (Fresh q m :: A'), x', B'. split; [constructor; [split; [assumption|reflexivity]|assumption]|]. split; [assumption|]. split; [assumption|].
    intros t. cbn [print_die_layers]. replace (u32 (Z.of_nat (Datatypes.S (List.length (A ++ (h0, m0) :: B))) - 1)) with (Z.of_nat (List.length (A ++ (h0, m0) :: B))) by (rewrite u32_id; lia).
    replace (Z.of_nat (List.length (A ++ (h0, m0) :: B)) =? Z.of_nat (List.length B)) with false by (symmetry; apply Z.eqb_neq; rewrite app_length; cbn [List.length]; lia).
    steps. rewrite E. reflexivity.
Qed.
Lemma lex_die : forall d, die_names d -> 0 <= sd_source d < Z.of_nat (List.length (sd_layers d)) -> Z.of_nat (List.length (sd_layers d)) < two32 ->
  exists d', same_die d d' /\ forall t, L (print_die d ++ t) = die_syntax d' ++ L t.
Proof.
  intros d (N1 & N2) S U.
  destruct (nth_error (sd_layers d) (List.length (sd_layers d) - 1 - Z.to_nat (sd_source d))) as [x|] eqn:X.
  2:{ apply nth_error_None in X. lia. }
  apply nth_error_split in X. destruct X as (A & B & E & LA).
  assert (LB : Z.of_nat (List.length B) = sd_source d). { rewrite E in *. rewrite app_length in *. cbn [List.length] in *. lia. }
  rewrite E in N2. destruct (lex_die_layers A x B (Z.of_nat (List.length (sd_layers d))) (sd_source d) (eq_sym LB)) as (A' & x' & B' & F1 & F2 & F3 & H); [rewrite E; reflexivity|assumption|assumption|].
  exists (mkDied (sd_id d) A' x' B'). split.
  - split; [reflexivity|]. cbn [i_above i_source i_below]. split.
    + rewrite E. apply Forall2_app; [assumption|]. constructor; assumption.
    + rewrite <- LB. f_equal. clear -F3. induction F3; cbn; congruence.
  - intros t. unfold print_die. steps. rewrite E at 2. rewrite H. unfold die_syntax. cbn [i_id i_above i_source i_below]. rewrite <- !app_assoc. reflexivity.
Qed.

Lemma tok_int : forall c, 0 <= c < two32 -> exists q, forall t, stops t -> L (str (dec_int c) ++ t) = SN q :: L t.
Proof.
  intros c H. assert (P : forall s n, 0 <= n -> exists q, forall t, stops t -> L (sign_text s ++ str (dec n) ++ t) = SN q :: L t).
  { intros s n N. destruct (digits_list (dec n) (dec_digit n N)) as (l & A & B & C & _).
    exists (numeral_value (mkNumeral s l None None)). intros t T.
    replace (sign_text s ++ str (dec n) ++ t) with (numeral_text (mkNumeral s l None None) ++ t).
    - apply tok_num; [|assumption]. split; [|split; exact I]. cbn [n_int]. split; [|assumption]. intros ->. apply (dec_nonempty n N). destruct (dec n); [reflexivity|discriminate].
    - unfold numeral_text. cbn [n_sign n_int n_frac n_exp]. rewrite A, <- !app_assoc. reflexivity. }
  unfold dec_int. destruct (Z.ltb_spec c 2147483648) as [K|K].
  - destruct (P None c ltac:(lia)) as (q & Q). exists q. exact Q.
  - destruct (P (Some true) (two32 - c) ltac:(lia)) as (q & Q). exists q. intros t T. rewrite str_app, <- app_assoc. apply Q. assumption.
Qed.
Lemma lex_solver : forall a, 0 <= sa_cores a < two32 -> exists s q, same_solver a s /\ v_cores s = None /\
  forall t, L (print_analysis a ++ t) = solver_syntax s ++ [SI (name_codes (str "number")); SI (name_codes (str "of")); SI (name_codes (str "cores")); SN q; SM ";"] ++ L t.
Proof.
  intros a C. destruct (tok_f2 (sa_initial a)) as (i & I1 & H1), (tok_int _ C) as (q & H2).
  unfold print_analysis. unfold same_solver. destruct (sa_transient a) as [[step slot]|].
  - destruct (tok_f2 step) as (a1 & A1 & ?), (tok_f2 slot) as (a2 & A2 & ?). exists (mkSolverd (Transient a1 a2) i None), q. cbn [v_analysis v_initial v_cores].
    split; [auto|]. split; [reflexivity|]. intros t. steps. reflexivity.
  - exists (mkSolverd Steady i None), q. cbn [v_analysis v_initial v_cores]. split; [auto|]. split; [reflexivity|]. intros t. steps. reflexivity.
Qed.
Lemma lex_when : forall w t, L (print_when w ++ t) = [SK (instant_name (the_instant w)); SM ")"; SM ";"] ++ L t.
Proof. intros [[]|] t; cbn [print_when the_instant instant_name]; steps; reflexivity. Qed.
(** What the printing makes of a quantity. *)
Definition kept_quantity (q : output_quantity) : output_quantity := match q with OQ_MAXIMUM => OQ_MAXIMUM | OQ_MINIMUM => OQ_MINIMUM | _ => OQ_AVERAGE end.
Lemma lex_quantity : forall q t, L (print_quantity q ++ t) = [SK (quantity_name (kept_quantity q)); SM ","] ++ L t.
Proof. intros [] t; cbn [print_quantity kept_quantity quantity_name]; steps; reflexivity. Qed.
Definition kept_point (x y : Q) (p : pointd Q (list Z) (list Z)) : pointd Q (list Z) (list Z) :=
  match p with
  | PT i _ _ f w => PT i x y f (Some (the_instant w))
  | PTflp i f q w => PTflp i f (kept_quantity q) (Some (the_instant w))
  | PTflpel i e f q w => PTflpel i e f (kept_quantity q) (Some (the_instant w))
  | PTmap i f w => PTmap i f (Some (the_instant w))
  | PT3d f w => PT3d f (Some (the_instant w))
  | PPmap i f w => PPmap i f (Some (the_instant w))
  | PTcoolant i f q w => PTcoolant i f (kept_quantity q) (Some (the_instant w))
  end.
Lemma lex_point : forall p, pt_ok p -> (forall f w, p <> PT3d f w) -> exists x y,
  match p with PT _ x0 y0 _ _ => near (1 # 20) x x0 /\ near (1 # 20) y y0 | _ => True end /\
  forall t, L (print_point p ++ t) = point_syntax (kept_point x y p) ++ L t.
Proof.
  intros p O N3. destruct p as [i x y f w|i f q w|i e f q w|i f w|f w|i f w|i f q w]; cbn [pt_ok] in O.
  - destruct O. destruct (tok_f1 x) as (a & A & ?), (tok_f1 y) as (b & B & ?). exists a, b. split; [auto|]. intros t. unfold print_point. steps. rewrite lex_when. reflexivity.
  - destruct O. exists 0%Q, 0%Q. split; [exact I|]. intros t. unfold print_point. steps. rewrite lex_quantity, lex_when. reflexivity.
  - destruct O as (? & ? & ?). exists 0%Q, 0%Q. split; [exact I|]. intros t. unfold print_point. steps. rewrite lex_quantity, lex_when. reflexivity.
  - destruct O. exists 0%Q, 0%Q. split; [exact I|]. intros t. unfold print_point. steps. rewrite lex_when. reflexivity.
  - exfalso. eapply N3. reflexivity.
  - destruct O. exists 0%Q, 0%Q. split; [exact I|]. intros t. unfold print_point. steps. rewrite lex_when. reflexivity.
  - destruct O. exists 0%Q, 0%Q. split; [exact I|]. intros t. unfold print_point. steps. rewrite lex_quantity, lex_when. reflexivity.
Qed.
Lemma lex_t3d : forall f w t, a_path_of f -> L (print_point (PT3d f w) ++ t) = [SI (name_codes (str "T3D")); SP f; SM ","; SK (instant_name (the_instant w)); SM ")"; SM ";"] ++ L t.
Proof. intros f w t P. unfold print_point. steps. rewrite lex_when. reflexivity. Qed.
Lemma tok_whole : forall x, exists q, forall t, stops t -> L (str (whole x) ++ t) = SN q :: L t.
Proof.
  intros x. assert (N : 0 <= round_even (Qabs x)) by (apply round_even_pos; apply Qabs_nonneg).
  destruct (digits_list _ (dec_digit _ N)) as (l & A & B & C & _).
  exists (numeral_value (mkNumeral (if Qle_bool 0 x then None else Some true) l None None)). intros t T. unfold whole. rewrite str_app, A, <- app_assoc.
  replace (str (if Qle_bool 0 x then "" else "-") ++ digits_text l ++ t) with (numeral_text (mkNumeral (if Qle_bool 0 x then None else Some true) l None None) ++ t).
  - apply tok_num; [|assumption]. split; [|split; exact I]. cbn [n_int]. split; [|assumption]. intros ->. apply (dec_nonempty _ N). destruct (dec _); [reflexivity|discriminate].
  - unfold numeral_text. cbn [n_sign n_int n_frac n_exp]. rewrite <- !app_assoc. destruct (Qle_bool 0 x); reflexivity.
Qed.
