(** * Proofs about the text of the three-dimensional map. *)
From Coq Require Import ZArith List Bool QArith Qabs Qround String Ascii Lia Lqa ZifyBool.
From Verif Require Import Base Dims Stack Inspect NonUniform Floorplan FloorplanProofs Vtk VtkSpec.
Import ListNotations.
Local Open Scope string_scope.
Local Open Scope Z_scope.

Lemma app_ass : forall a b c : string, (a ++ b) ++ c = a ++ (b ++ c).
Proof. induction a; intros; cbn; [easy | now rewrite IHa]. Qed.
Lemma app_nil_r' : forall a : string, a ++ "" = a.
Proof. induction a; cbn; [easy | now rewrite IHa]. Qed.

(** ** Words *)
Fixpoint no_blank (s : string) : bool := match s with "" => true | String c r => negb (blank c) && no_blank r end.
Lemma no_blank_app : forall a b, no_blank (a ++ b) = no_blank a && no_blank b.
Proof. induction a; intros; cbn; [easy|]. now rewrite IHa, andb_assoc. Qed.

Lemma words_blank : forall c r, blank c = true -> words (String c r) = words r.
Proof. intros c r H. unfold words. cbn [split_words]. destruct (split_words r) as [w l]. now rewrite H. Qed.
Lemma split_word : forall w c r, no_blank w = true -> blank c = true -> split_words (w ++ String c r) = (w, words r).
Proof.
  induction w as [|a w IH]; intros c r N B.
  - cbn [append split_words]. unfold words. destruct (split_words r) as [w l]. now rewrite B.
  - cbn [append split_words no_blank] in *. apply andb_true_iff in N. destruct N as [Na N].
    rewrite (IH c r N B). now rewrite (proj1 (negb_true_iff _) Na).
Qed.
Lemma words_word : forall w c r, w <> "" -> no_blank w = true -> blank c = true -> words (w ++ String c r) = w :: words r.
Proof. intros w c r W N B. unfold words at 1. rewrite (split_word w c r N B). destruct w; [congruence | reflexivity]. Qed.
Lemma words_pad : forall w s r, words (pad_left w s ++ r) = words (s ++ r).
Proof.
  intros w s r. unfold pad_left. induction (w - String.length s)%nat; [easy|].
  cbn [List.repeat fold_right append]. rewrite words_blank by reflexivity. exact IHn.
Qed.
Lemma a_word_says : forall w c r, w <> "" -> no_blank w = true -> blank c = true -> a_word w (words (w ++ String c r)) = Some (words r).
Proof. intros. rewrite words_word by assumption. cbn [a_word]. now rewrite String.eqb_refl. Qed.

(** ** Digits *)
Fixpoint all_digits (s : string) : bool :=
  match s with "" => true | String c r => (match digit_value c with Some _ => true | None => false end) && all_digits r end.
Lemma digit_is : forall n, 0 <= n <= 9 -> digit_value (digit n) = Some n.
Proof.
  intros n H. unfold digit_value, digit. rewrite nat_ascii_embedding by lia. rewrite Z2Nat.id by lia.
  replace (48 + n - 48) with n by lia. replace (0 <=? n) with true by lia. now replace (n <=? 9) with true by lia.
Qed.
Lemma digit_mod : forall n, digit_value (digit (n mod 10)) = Some (n mod 10).
Proof. intros. apply digit_is. pose proof (Z.mod_pos_bound n 10 ltac:(lia)). lia. Qed.
Lemma digit_char : forall c v, digit_value c = Some v -> blank c = false /\ Ascii.eqb c "."%char = false /\ Ascii.eqb c "-"%char = false.
Proof.
  intros c v H. unfold digit_value in H. unfold blank.
  destruct (Ascii.eqb_spec c " "%char) as [->|]; [discriminate H|].
  destruct (Ascii.eqb_spec c "010"%char) as [->|]; [discriminate H|].
  destruct (Ascii.eqb_spec c "009"%char) as [->|]; [discriminate H|].
  destruct (Ascii.eqb_spec c "."%char) as [->|]; [discriminate H|].
  destruct (Ascii.eqb_spec c "-"%char) as [->|]; [discriminate H|]. easy.
Qed.
Lemma digits_no_blank : forall s, all_digits s = true -> no_blank s = true.
Proof.
  induction s as [|c s IH]; cbn [all_digits no_blank]; [easy|]. intros H. apply andb_true_iff in H. destruct H as [A B].
  destruct (digit_value c) as [v|] eqn:V; [|discriminate A]. rewrite (proj1 (digit_char c v V)). now rewrite IH.
Qed.
Lemma digits_app : forall a b, all_digits (a ++ b) = all_digits a && all_digits b.
Proof. induction a; intros; cbn; [easy|]. now rewrite IHa, andb_assoc. Qed.

Lemma dec_digits_spec : forall f n tail, 0 <= n -> (Z.to_nat n < f)%nat ->
  (exists k, 0 <= k /\ forall acc, digits_value acc (dec_digits f n tail) = digits_value (acc * 10 ^ k + n) tail) /\
  all_digits (dec_digits f n tail) = all_digits tail /\ dec_digits f n tail <> "".
Proof.
  induction f as [|f IH]; intros n tail P F; [lia|]. cbn [dec_digits].
  pose proof (Z.div_mod n 10 ltac:(lia)) as D. pose proof (Z.mod_pos_bound n 10 ltac:(lia)) as D'.
  destruct (n / 10 =? 0) eqn:E.
  - split; [|split]; [|cbn [all_digits]; now rewrite digit_mod | discriminate].
    exists 1. split; [lia|]. intros acc. cbn [digits_value]. rewrite digit_mod. f_equal. change (10 ^ 1) with 10. lia.
  - assert (n / 10 <> 0) by lia. assert (0 <= n / 10) by (apply Z.div_pos; lia).
    assert (n / 10 < n) by (apply Z.div_lt; lia).
    destruct (IH (n / 10) (String (digit (n mod 10)) tail) ltac:(lia) ltac:(lia)) as [[k [Kp K]] [A N]].
    split; [|split].
    + exists (k + 1). split; [lia|]. intros acc. rewrite K. cbn [digits_value]. rewrite digit_mod. f_equal.
      rewrite Z.pow_add_r by lia. change (10 ^ 1) with 10. lia.
    + rewrite A. cbn [all_digits]. now rewrite digit_mod.
    + exact N.
Qed.
Lemma dec_value : forall n, 0 <= n -> digits_value 0 (dec n) = Some n.
Proof.
  intros n P. unfold dec. destruct (dec_digits_spec (S (Z.to_nat n)) n "" P ltac:(lia)) as [[k [_ K]] _].
  rewrite K. cbn [digits_value]. f_equal; lia.
Qed.
Lemma dec_digit : forall n, 0 <= n -> all_digits (dec n) = true.
Proof. intros n P. unfold dec. now rewrite (proj1 (proj2 (dec_digits_spec (S (Z.to_nat n)) n "" P ltac:(lia)))). Qed.
Lemma dec_nonempty : forall n, 0 <= n -> dec n <> "".
Proof. intros n P. exact (proj2 (proj2 (dec_digits_spec (S (Z.to_nat n)) n "" P ltac:(lia)))). Qed.
Lemma read_dec : forall n, 0 <= n -> read_count (dec n) = Some (Z.to_nat n).
Proof.
  intros n P. pose proof (dec_nonempty n P) as N. pose proof (dec_value n P) as V. unfold read_count.
  destruct (dec n) as [|c r]; [congruence|]. now rewrite V.
Qed.

Lemma pad_digits_spec : forall p n tail, 0 <= n ->
  (forall acc, digits_value acc (pad_digits p n tail) = digits_value (acc * 10 ^ Z.of_nat p + n mod 10 ^ Z.of_nat p) tail) /\
  all_digits (pad_digits p n tail) = all_digits tail /\ String.length (pad_digits p n tail) = (p + String.length tail)%nat.
Proof.
  induction p as [|p IH]; intros n tail P.
  - cbn [pad_digits]. split; [|easy]. intros acc. change (10 ^ Z.of_nat 0) with 1. rewrite Z.mod_1_r. f_equal. lia.
  - cbn [pad_digits]. assert (0 <= n / 10) by (apply Z.div_pos; lia).
    destruct (IH (n / 10) (String (digit (n mod 10)) tail) ltac:(lia)) as [K [A L]].
    split; [|split].
    + intros acc. rewrite K. cbn [digits_value]. rewrite digit_mod. f_equal.
      replace (Z.of_nat (S p)) with (1 + Z.of_nat p) by lia. rewrite Z.pow_add_r by lia. change (10 ^ 1) with 10.
      rewrite (Z.rem_mul_r n 10 (10 ^ Z.of_nat p)) by (try lia; apply Z.pow_pos_nonneg; lia). lia.
    + rewrite A. cbn [all_digits]. now rewrite digit_mod.
    + rewrite L. cbn [String.length]. lia.
Qed.

(** ** Decimals *)
Lemma cut_point_digits : forall a b, all_digits a = true -> cut_point (a ++ String "."%char b) = (a, b).
Proof.
  induction a as [|c a IH]; intros b H; [reflexivity|]. cbn [append cut_point all_digits] in *.
  apply andb_true_iff in H. destruct H as [H1 H2].
  destruct (digit_value c) as [v|] eqn:V; [|discriminate H1]. destruct (digit_char c v V) as [_ [-> _]].
  now rewrite (IH b H2).
Qed.

Lemma round_even_near : forall x, (Qabs (inject_Z (round_even x) - x) <= 1 # 2)%Q.
Proof.
  intros x. unfold round_even. pose proof (Qfloor_le x) as A. pose proof (Qlt_floor x) as B.
  rewrite inject_Z_plus in B. change (inject_Z 1) with 1%Q in B.
  apply Qabs_Qle_condition.
  destruct (Qcompare_spec (x - inject_Z (Qfloor x)) (1 # 2)) as [E|E|E]; [destruct (Z.even (Qfloor x))| |];
    rewrite ?inject_Z_plus; change (inject_Z 1) with 1%Q; split; lra.
Qed.
Lemma round_even_pos : forall x, (0 <= x)%Q -> 0 <= round_even x.
Proof.
  intros x H. assert (0 <= Qfloor x) by (change 0 with (Qfloor 0); now apply Qfloor_resp_le).
  unfold round_even. destruct (_ ?= _)%Q; [destruct (Z.even _)| |]; lia.
Qed.

Definition half_unit (p : nat) : Q := 1 # (2 * Pos.pow 10 (Pos.of_nat p)).

Lemma pow10_pos : forall p, (0 < inject_Z (10 ^ Z.of_nat p))%Q.
Proof. intros p. change 0%Q with (inject_Z 0). rewrite <- Zlt_Qlt. apply Z.pow_pos_nonneg; lia. Qed.

Lemma read_unsigned_fixed : forall p r, 0 <= r ->
  exists q, read_unsigned (dec (r / 10 ^ Z.of_nat p) ++ "." ++ pad_digits p r "") = Some q /\ (q * inject_Z (10 ^ Z.of_nat p) == inject_Z r)%Q.
Proof.
  intros p r R. assert (T : 0 < 10 ^ Z.of_nat p) by (apply Z.pow_pos_nonneg; lia).
  assert (D : 0 <= r / 10 ^ Z.of_nat p) by (apply Z.div_pos; lia).
  change ("." ++ pad_digits p r "") with (String "."%char (pad_digits p r "")).
  unfold read_unsigned. rewrite cut_point_digits by (now apply dec_digit).
  rewrite dec_value by assumption.
  destruct (pad_digits_spec p r "" R) as [V [_ L]]. rewrite V. cbn [digits_value]. rewrite L. cbn [String.length].
  rewrite Nat.add_0_r.
  eexists. split; [reflexivity|].
  pose proof (pow10_pos p) as P.
  assert (E : (inject_Z r == inject_Z (10 ^ Z.of_nat p) * inject_Z (r / 10 ^ Z.of_nat p) + inject_Z (r mod 10 ^ Z.of_nat p))%Q).
  { rewrite <- inject_Z_mult, <- inject_Z_plus. now rewrite <- Z.div_mod by lia. }
  rewrite E. cbn [Z.mul]. rewrite Z.add_0_l. field. intros Z0. rewrite Z0 in P. now apply Qlt_irrefl in P.
Qed.

Lemma first_digit : forall a b, all_digits a = true -> a <> "" -> exists c r, a ++ b = String c r /\ Ascii.eqb c "-"%char = false.
Proof.
  intros [|c a] b D N; [congruence|]. exists c, (a ++ b). split; [reflexivity|]. cbn [all_digits] in D.
  apply andb_true_iff in D. destruct D as [D _]. destruct (digit_value c) as [v|] eqn:V; [|discriminate D].
  exact (proj2 (proj2 (digit_char c v V))).
Qed.

Lemma read_fixed : forall p x, exists q, read_number (fixed p x) = Some q /\ (Qabs (q - x) * (2 * inject_Z (10 ^ Z.of_nat p)) <= 1)%Q.
Proof.
  intros p x. unfold fixed. set (T := inject_Z (10 ^ Z.of_nat p)). set (r := round_even (Qabs x * T)).
  pose proof (pow10_pos p) as P. fold T in P.
  assert (X : (0 <= Qabs x * T)%Q) by (apply Qmult_le_0_compat; [apply Qabs_nonneg | lra]).
  assert (R : 0 <= r) by (now apply round_even_pos).
  destruct (read_unsigned_fixed p r R) as [q [Q E]]. fold T in E.
  assert (D : 0 <= r / 10 ^ Z.of_nat p) by (apply Z.div_pos; [lia | apply Z.pow_pos_nonneg; lia]).
  assert (N : (Qabs (q - Qabs x) * (2 * T) <= 1)%Q).
  { pose proof (round_even_near (Qabs x * T)) as H. fold r in H. rewrite <- E in H.
    setoid_replace (q * T - Qabs x * T)%Q with ((q - Qabs x) * T)%Q in H by ring.
    rewrite Qabs_Qmult in H. rewrite (Qabs_pos T) in H by lra.
    setoid_replace (Qabs (q - Qabs x) * (2 * T))%Q with (2 * (Qabs (q - Qabs x) * T))%Q by ring. lra. }
  destruct (Qle_bool 0 x) eqn:S.
  - apply Qle_bool_iff in S. cbn [append].
    destruct (first_digit (dec (r / 10 ^ Z.of_nat p)) ("." ++ pad_digits p r "")) as [c [rest [W C]]]; [now apply dec_digit | now apply dec_nonempty |].
    exists q. split.
    + change (dec (r / 10 ^ Z.of_nat p) ++ String "."%char (pad_digits p r "")) with (dec (r / 10 ^ Z.of_nat p) ++ "." ++ pad_digits p r "").
      rewrite W in *. cbn [read_number]. now rewrite C.
    + rewrite (Qabs_pos x) in N by assumption. exact N.
  - assert (S' : (x <= 0)%Q). { apply Qnot_lt_le. intros H. apply Qlt_le_weak in H. apply Qle_bool_iff in H. congruence. }
    exists (- q)%Q. split.
    + change (option_map Qopp (read_unsigned (dec (r / 10 ^ Z.of_nat p) ++ "." ++ pad_digits p r "")) = Some (- q)%Q). now rewrite Q.
    + rewrite (Qabs_neg x) in N by assumption.
      setoid_replace (- q - x)%Q with (- (q - - x))%Q by ring. now rewrite Qabs_opp.
Qed.
Lemma fixed_no_blank : forall p x, no_blank (fixed p x) = true /\ fixed p x <> "".
Proof.
  intros p x. unfold fixed. set (T := inject_Z (10 ^ Z.of_nat p)). set (r := round_even (Qabs x * T)).
  pose proof (pow10_pos p) as P. fold T in P.
  assert (X : (0 <= Qabs x * T)%Q) by (apply Qmult_le_0_compat; [apply Qabs_nonneg | lra]).
  assert (R : 0 <= r) by (now apply round_even_pos).
  assert (D : 0 <= r / 10 ^ Z.of_nat p) by (apply Z.div_pos; [lia | apply Z.pow_pos_nonneg; lia]).
  pose proof (dec_nonempty _ D) as N. pose proof (digits_no_blank _ (dec_digit _ D)) as B.
  pose proof (digits_no_blank (pad_digits p r "") ltac:(now rewrite (proj1 (proj2 (pad_digits_spec p r "" R))))) as B2.
  split.
  - rewrite !no_blank_app, B, B2. now destruct (Qle_bool 0 x).
  - destruct (Qle_bool 0 x); [|discriminate]. cbn [append]. destruct (dec (r / 10 ^ Z.of_nat p)); [congruence | discriminate].
Qed.

(** ** Sequences *)
Lemma a_number_fixed : forall p e x c rest, (2 * inject_Z (10 ^ Z.of_nat p) * e == 1)%Q -> blank c = true ->
  exists q, a_number (words (fixed p x ++ String c rest)) = Some (q, words rest) /\ near e q x.
Proof.
  intros p e x c rest E B. destruct (fixed_no_blank p x) as [N0 N1]. destruct (read_fixed p x) as [q [R H]].
  exists q. rewrite words_word by assumption. cbn [a_number]. rewrite R. split; [reflexivity|].
  unfold near. pose proof (pow10_pos p) as P. set (T := inject_Z (10 ^ Z.of_nat p)) in *.
  assert (H2 : (0 < 2 * T)%Q) by lra.
  apply (Qmult_le_r _ _ (2 * T) H2). rewrite (Qmult_comm e). eapply Qle_trans; [exact H|]. rewrite E. apply Qle_refl.
Qed.
Lemma a_count_dec : forall n c rest, 0 <= n -> blank c = true -> a_count (words (dec n ++ String c rest)) = Some (Z.to_nat n, words rest).
Proof.
  intros n c rest P B. rewrite words_word by (assumption || now apply dec_nonempty || now apply digits_no_blank, dec_digit).
  cbn [a_count]. now rewrite read_dec.
Qed.

Section Many.
  Context {A B X : Type}.
  Variable one : list string -> option (A * list string).
  Variable R : A -> B -> Prop.
  Variable f : X -> string.
  Variable g : X -> list B.
  Variable m : nat.
  Lemma read_many_app : forall a b l, read_many one (a + b) l =
    match read_many one a l with
    | Some (xs, l1) => match read_many one b l1 with Some (ys, l2) => Some (xs ++ ys, l2)%list | None => None end
    | None => None
    end.
  Proof.
    induction a as [|a IH]; intros b l; cbn [read_many Nat.add].
    - now destruct (read_many one b l) as [[ys l2]|].
    - destruct (one l) as [[x l1]|]; [|reflexivity]. rewrite IH.
      destruct (read_many one a l1) as [[xs l2]|]; [|reflexivity]. now destruct (read_many one b l2) as [[ys l3]|].
  Qed.
  Lemma read_each : forall l rest, 
    (forall x r, In x l -> exists ys, read_many one m (words (f x ++ r)) = Some (ys, words r) /\ Forall2 R ys (g x)) ->
    exists ys, read_many one (m * Datatypes.length l) (words (concat_map f l ++ rest)) = Some (ys, words rest) /\ Forall2 R ys (flat_map g l).
  Proof.
    intros l rest. induction l as [|x l IH]; intros H.
    - exists []. rewrite Nat.mul_0_r. split; [reflexivity | constructor].
    - cbn [Datatypes.length concat_map fold_right flat_map].
      replace (m * S (Datatypes.length l))%nat with (m + m * Datatypes.length l)%nat by lia.
      fold (concat_map f l). rewrite app_ass, read_many_app.
      destruct (H x (concat_map f l ++ rest)) as [ys [E F]]; [now left|].
      destruct IH as [zs [E2 F2]]; [intros; apply H; now right|].
      exists (ys ++ zs)%list. rewrite E, E2. split; [reflexivity | now apply Forall2_app].
  Qed.
End Many.

(** ** The parts of the file *)
Lemma app_sp : forall s, " " ++ s = String " "%char s. Proof. reflexivity. Qed.
Lemma app_nl : forall s, endl ++ s = String newline s. Proof. reflexivity. Qed.
Lemma near_qeq : forall e a b c, near e a b -> (b == c)%Q -> near e a c.
Proof. intros e a b c H E. unfold near in *. now rewrite <- E. Qed.

Lemma a_point_says : forall x y z rest, exists p, a_point (words (point x y z ++ rest)) = Some (p, words rest) /\ near_point (1 # 2000000) p (x, y, z).
Proof.
  intros x y z rest. unfold point, a_point. rewrite !app_ass.
  destruct (a_number_fixed 6 (1 # 2000000) x " "%char (fixed 6 y ++ " " ++ fixed 6 z ++ endl ++ rest)) as [p [P Np]]; [reflexivity | reflexivity |].
  destruct (a_number_fixed 6 (1 # 2000000) y " "%char (fixed 6 z ++ endl ++ rest)) as [q [Q' Nq]]; [reflexivity | reflexivity |].
  destruct (a_number_fixed 6 (1 # 2000000) z newline rest) as [r [R Nr]]; [reflexivity | reflexivity |].
  exists (p, q, r). 
  rewrite ?app_sp, ?app_nl in *.
  rewrite P, Q', R. split; [reflexivity|]. now split.
Qed.

Lemma corners_say : forall v rest, exists ps, read_many a_point 8 (words (vtk_corners v ++ rest)) = Some (ps, words rest) /\
  Forall2 (near_point (1 # 2000000)) ps (box_corners (v_cell v)).
Proof.
  intros [c i] rest. unfold vtk_corners, box_corners. cbn [v_cell]. unfold c_length, c_width.
  destruct (c_rect c) as [x0 y0 x1 y1]. cbn [r_x0 r_y0 r_x1 r_y1].
  rewrite !app_ass. cbn [read_many].
  repeat match goal with
  | |- context [a_point (words (point ?x ?y ?z ++ ?rest))] =>
    let p := fresh "p" in let P := fresh "P" in let H := fresh "H" in
    destruct (a_point_says x y z rest) as [p [P H]]; rewrite P; clear P
  end.
  eexists. split; [reflexivity|].
  assert (X : (x0 + (x1 - x0) == x1)%Q) by ring. assert (Y : (y0 + (y1 - y0) == y1)%Q) by ring.
  repeat (constructor; [match goal with H : near_point _ ?p _ |- near_point _ ?p _ =>
    destruct H as [A [B C]]; split; [|split]; cbn [fst snd] in *; first [assumption | eapply near_qeq; eassumption] end|]).
  constructor.
Qed.

Definition corner_ids (i : Z) : list nat := map (fun k => Z.to_nat (8 * i + k)) [0; 1; 2; 3; 4; 5; 6; 7].

Lemma dec_int_dec : forall n, n < 2147483648 -> dec_int n = dec n.
Proof. intros n H. unfold dec_int. now replace (n <? 2147483648) with true by lia. Qed.

Lemma hexa_says : forall i rest, 0 <= i -> 8 * i + 7 < 2147483648 ->
  a_cell (words (vtk_hexa i ++ rest)) = Some (corner_ids i, words rest).
Proof.
  intros i rest P L. unfold vtk_hexa, a_cell.
  rewrite !u32_id by (unfold two32; lia). rewrite !dec_int_dec by lia. rewrite !app_ass.
  change ("8 " ++ ?s) with (dec 8 ++ String " "%char s).
  rewrite a_count_dec by (lia || reflexivity). change (Z.to_nat 8) with 8%nat. cbn [read_many].
  rewrite ?app_sp, ?app_nl.
  rewrite !a_count_dec by (lia || reflexivity).
  unfold corner_ids. cbn [map]. do 2 f_equal.
  repeat (apply f_equal2; [apply f_equal; lia|]). reflexivity.
Qed.

Lemma type_says : forall rest, a_count (words (("12" ++ endl) ++ rest)) = Some (12%nat, words rest).
Proof. intros rest. change (("12" ++ endl) ++ rest) with (dec 12 ++ String newline rest). rewrite a_count_dec by (lia || reflexivity). reflexivity. Qed.

Lemma temperature_says : forall t rest, exists q, a_number (words ((pad_left 7 (fixed 3 t) ++ endl) ++ rest)) = Some (q, words rest) /\ near (1 # 2000) q t.
Proof.
  intros t rest. rewrite app_ass. rewrite words_pad. change (endl ++ rest) with (String newline rest).
  apply a_number_fixed; reflexivity.
Qed.

Lemma label_says : forall v rest, exists q, a_number (words (vtk_label v ++ rest)) = Some (q, words rest) /\ ((q == 1 /\ labelled v) \/ (q == 0 /\ ~ labelled v))%Q.
Proof.
  intros [c [m|]] rest; unfold vtk_label, labelled; cbn [v_id]; rewrite app_ass; change (endl ++ rest) with (String newline rest).
  - destruct (String.eqb_spec m "UNDERFILL") as [->|U]; [|destruct (String.eqb_spec m "AIR") as [->|R]]; cbn [orb].
    + rewrite words_word by (discriminate || reflexivity). eexists. split; [reflexivity|]. left. split; [reflexivity | now left].
    + rewrite words_word by (discriminate || reflexivity). eexists. split; [reflexivity|]. left. split; [reflexivity | now right].
    + rewrite words_word by (discriminate || reflexivity). eexists. split; [reflexivity|]. right. split; [reflexivity |].
      intros [[= E]|[= E]]; congruence.
  - rewrite words_word by (discriminate || reflexivity). eexists. split; [reflexivity|]. right. split; [reflexivity |]. intros [E|E]; discriminate E.
Qed.

Lemma temperatures_text : forall temps n, n <= Z.of_nat (Datatypes.length temps) ->
  vtk_temperatures temps n = Ok (concat_map (fun i => pad_left 7 (fixed 3 (nth (Z.to_nat i) temps 0%Q)) ++ endl) (indexes n)).
Proof.
  intros temps n L. unfold vtk_temperatures.
  assert (H : forall i, In i (indexes n) -> 0 <= i < Z.of_nat (Datatypes.length temps)).
  { intros i I. apply in_zrange in I. lia. }
  induction (indexes n) as [|i l IH]; [reflexivity|].
  cbn [fold_right concat_map]. rewrite (arr_get_ok temps i 0%Q) by (apply H; now left). cbn [bind].
  rewrite IH by (intros; apply H; now right). cbn [bind]. now rewrite app_ass.
Qed.

(** ** The whole file *)
Fixpoint one_line (s : string) : bool := match s with "" => true | String c r => negb (Ascii.eqb c "010"%char) && one_line r end.
Lemma cut_line_app : forall a r, one_line a = true -> cut_line (a ++ String newline r) = (a, r).
Proof.
  induction a as [|c a IH]; intros r H; [reflexivity|]. cbn [append cut_line one_line] in *.
  apply andb_true_iff in H. destruct H as [H1 H2]. rewrite (proj1 (negb_true_iff _) H1). now rewrite IH.
Qed.
Lemma scalar_says : forall name type n x, name <> "" -> type <> "" -> no_blank name = true -> no_blank type = true ->
  a_scalar n (words ("SCALARS" ++ String " "%char (name ++ String " "%char (type ++ String " "%char ("1" ++ String newline ("LOOKUP_TABLE" ++ String " "%char ("default" ++ String newline x)))))))
  = match read_many a_number n (words x) with Some (vs, l) => Some ((name, vs), l) | None => None end.
Proof.
  intros name type n x N1 N2 B1 B2. unfold a_scalar. rewrite a_word_says by (discriminate || reflexivity).
  rewrite words_word by (assumption || reflexivity). rewrite words_word by (assumption || reflexivity).
  rewrite words_word by (discriminate || reflexivity). rewrite words_word by (discriminate || reflexivity).
  rewrite words_word by (discriminate || reflexivity). reflexivity.
Qed.
Lemma scalars_nil : forall f n, scalars f n [] = Some [].
Proof. intros [|f] n; reflexivity. Qed.

Lemma forall2_nth : forall {A B} (R : A -> B -> Prop) xs ys, Forall2 R xs ys -> forall k y, nth_error ys k = Some y -> exists x, nth_error xs k = Some x /\ R x y.
Proof.
  intros A B R xs ys H. induction H as [|x y xs ys Hxy H IH]; intros [|k] z E; try discriminate E.
  - exists x. cbn in *. split; [reflexivity|]. congruence.
  - cbn in *. exact (IH k z E).
Qed.
Lemma forall2_length : forall {A B} (R : A -> B -> Prop) xs ys, Forall2 R xs ys -> Datatypes.length xs = Datatypes.length ys.
Proof. intros A B R xs ys H. induction H; cbn; congruence. Qed.
Lemma flat_map_single : forall {A B} (f : A -> B) l, flat_map (fun x => [f x]) l = map f l.
Proof. induction l; cbn; [easy | now rewrite IHl]. Qed.
Lemma forall2_eq : forall {A} (xs ys : list A), Forall2 eq xs ys -> xs = ys.
Proof. intros A xs ys H. induction H; congruence. Qed.
Lemma nth_flat_map : forall {A B} (f : A -> list B) m l k j x, (forall x, In x l -> Datatypes.length (f x) = m) ->
  nth_error l k = Some x -> (j < m)%nat -> nth_error (flat_map f l) (m * k + j) = nth_error (f x) j.
Proof.
  intros A B f m l. induction l as [|a l IH]; intros k j x H E J; [destruct k; discriminate E|].
  pose proof (H a (or_introl eq_refl)) as La. cbn [flat_map].
  destruct k as [|k]; cbn in E.
  - rewrite Nat.mul_0_r. cbn [Nat.add]. replace x with a in * by congruence. apply nth_error_app1. lia.
  - rewrite nth_error_app2 by lia. replace (m * S k + j - Datatypes.length (f a))%nat with (m * k + j)%nat by lia.
    apply IH; [intros; apply H; now right | assumption | assumption].
Qed.

Lemma fold_sizes : forall l, fold_right (fun c s => (S (Datatypes.length c) + s)%nat) 0%nat (map corner_ids l) = (9 * Datatypes.length l)%nat.
Proof. induction l; cbn [map fold_right Datatypes.length]; [easy|]. rewrite IHl. cbn [corner_ids map Datatypes.length]. lia. Qed.

Lemma indexes_length : forall n, 0 <= n -> Datatypes.length (indexes n) = Z.to_nat n.
Proof. intros n H. unfold indexes. pose proof (zrange_length 0 (n - 1)). lia. Qed.
Lemma nth_indexes : forall n k, (k < Z.to_nat n)%nat -> nth_error (indexes n) k = Some (Z.of_nat k).
Proof.
  intros n k H. unfold indexes, zrange. rewrite nth_error_map.
  rewrite (nth_error_nth' _ 0%nat) by (rewrite seq_length; lia). rewrite seq_nth by lia. cbn [option_map]. f_equal; lia.
Qed.

Theorem vtk_text_shows : forall cells temps, 
  9 * Z.of_nat (Datatypes.length cells) < 2147483648 -> (Datatypes.length cells <= Datatypes.length temps)%nat ->
  exists text g, vtk_text (Z.of_nat (Datatypes.length cells)) cells temps = Ok text /\ read_vtk text = Some g /\ shows g cells temps.
Proof.
  intros cells temps L T. set (n := Z.of_nat (Datatypes.length cells)) in *.
  unfold vtk_text. rewrite temperatures_text by lia. cbn [bind]. eexists. 
  rewrite !u32_id by (unfold two32; lia). rewrite !dec_int_dec by lia.
  rewrite !app_nl.
  repeat match goal with
  | |- context ["DATASET UNSTRUCTURED_GRID" ++ ?x] => change ("DATASET UNSTRUCTURED_GRID" ++ x) with ("DATASET" ++ String " "%char ("UNSTRUCTURED_GRID" ++ x))
  | |- context ["POINTS " ++ ?x] => change ("POINTS " ++ x) with ("POINTS" ++ String " "%char x)
  | |- context [" float" ++ ?x] => change (" float" ++ x) with (String " "%char ("float" ++ x))
  | |- context ["CELLS " ++ ?x] => change ("CELLS " ++ x) with ("CELLS" ++ String " "%char x)
  | |- context ["CELL_TYPES " ++ ?x] => change ("CELL_TYPES " ++ x) with ("CELL_TYPES" ++ String " "%char x)
  | |- context ["CELL_DATA " ++ ?x] => change ("CELL_DATA " ++ x) with ("CELL_DATA" ++ String " "%char x)
  | |- context [" " ++ ?x] => change (" " ++ x) with (String " "%char x)
  | |- context ["LOOKUP_TABLE default" ++ ?x] => change ("LOOKUP_TABLE default" ++ x) with ("LOOKUP_TABLE" ++ String " "%char ("default" ++ x))
  | |- context ["SCALARS Temperature float 1" ++ ?x] => change ("SCALARS Temperature float 1" ++ x) with ("SCALARS" ++ String " "%char ("Temperature" ++ String " "%char ("float" ++ String " "%char ("1" ++ x))))
  | |- context ["SCALARS Labels int 1" ++ ?x] => change ("SCALARS Labels int 1" ++ x) with ("SCALARS" ++ String " "%char ("Labels" ++ String " "%char ("int" ++ String " "%char ("1" ++ x))))
  end.
  set (t5 := String newline ("SCALARS" ++ String " "%char ("Temperature" ++ _))).
  set (t4 := "CELL_TYPES" ++ String " "%char _).
  set (t3 := "CELLS" ++ String " "%char _).
  destruct (read_each a_point (near_point (1 # 2000000)) vtk_corners (fun v => box_corners (v_cell v)) 8 cells t3) as [ps [Eps Fps]].
  { intros v r _. apply corners_say. }
  destruct (read_each a_cell eq vtk_hexa (fun i => [corner_ids i]) 1 (indexes n) t4) as [cs [Ecs Fcs]].
  { intros i r I. apply in_zrange in I. exists [corner_ids i]. cbn [read_many]. rewrite hexa_says by lia. split; [reflexivity | repeat constructor]. }
  rewrite flat_map_single in Fcs. apply forall2_eq in Fcs.
  match goal with t := context [concat_map (fun _ => "12" ++ endl) (indexes n) ++ ?x] |- _ =>
    destruct (read_each a_count eq (fun _ : Z => "12" ++ endl) (fun _ => [12%nat]) 1 (indexes n) x) as [ts [Ets Fts]] end.
  { intros i r I. exists [12%nat]. cbn [read_many]. rewrite type_says. split; [reflexivity | repeat constructor]. }
  rewrite flat_map_single in Fts. apply forall2_eq in Fts.
  match goal with t := context [concat_map (fun i => pad_left 7 (fixed 3 (nth (Z.to_nat i) temps 0%Q)) ++ endl) (indexes n) ++ ?x] |- _ =>
    destruct (read_each a_number (near (1 # 2000)) (fun i => pad_left 7 (fixed 3 (nth (Z.to_nat i) temps 0%Q)) ++ endl) (fun i => [nth (Z.to_nat i) temps 0%Q]) 1 (indexes n) x) as [tv [Etv Ftv]] end.
  { intros i r I. destruct (temperature_says (nth (Z.to_nat i) temps 0%Q) r) as [q [E N]]. exists [q]. cbn [read_many]. rewrite E. split; [reflexivity | constructor; [exact N | constructor]]. }
  rewrite flat_map_single in Ftv.
  destruct (read_each a_number (fun l v => (l == 1 /\ labelled v) \/ (l == 0 /\ ~ labelled v))%Q vtk_label (fun v => [v]) 1 cells endl) as [lv [Elv Flv]].
  { intros v r _. destruct (label_says v r) as [q [E N]]. exists [q]. cbn [read_many]. rewrite E. split; [reflexivity | constructor; [exact N | constructor]]. }
  rewrite (flat_map_single (fun v => v)), map_id in Flv.
  rewrite indexes_length in Ecs, Ets, Etv by lia. rewrite Nat.mul_1_l in *.
  subst t3 t4 t5. eexists. split; [reflexivity|]. split.
  - unfold read_vtk. rewrite cut_line_app by reflexivity. 
    change (String.prefix header_line "# vtk DataFile Version 3.0") with true. cbv iota.
    rewrite cut_line_app by reflexivity. cbv zeta.
    do 4 rewrite a_word_says by (discriminate || reflexivity).
    rewrite a_count_dec by (lia || reflexivity). rewrite a_word_says by (discriminate || reflexivity).
    replace (Z.to_nat (n * 8)) with (8 * Datatypes.length cells)%nat by lia. rewrite Eps.
    rewrite a_word_says by (discriminate || reflexivity). do 2 rewrite a_count_dec by (lia || reflexivity).
    rewrite Ecs. rewrite Fcs, fold_sizes, indexes_length by lia.
    replace (9 * Z.to_nat n =? Z.to_nat (n * 9))%nat with true by (symmetry; apply Nat.eqb_eq; lia).
    rewrite a_word_says by (discriminate || reflexivity). rewrite a_count_dec by (lia || reflexivity).
    rewrite Ets. rewrite a_word_says by (discriminate || reflexivity).  rewrite a_count_dec by (lia || reflexivity).
    rewrite !Nat.eqb_refl. cbn [andb].
    match goal with |- context [scalars (Datatypes.length ?l) _ _] => set (w := l) end.
    assert (W : exists m, Datatypes.length w = S (S m)).
    { subst w. do 2 rewrite words_word by (discriminate || reflexivity). cbn [Datatypes.length]. eauto. }
    destruct W as [m ->].
    assert (W1 : exists a b, w = a :: b) by (subst w; rewrite words_word by (discriminate || reflexivity); eauto).
    destruct W1 as [a [b W1]].
    assert (S0 : forall f, scalars (S f) (Z.to_nat n) w = match a_scalar (Z.to_nat n) w with Some (s, l) => match scalars f (Z.to_nat n) l with Some ss => Some (s :: ss) | None => None end | None => None end).
    { intros f. now rewrite W1. }
    rewrite S0. clear S0 W1 a b. subst w.
    rewrite scalar_says by (discriminate || reflexivity). rewrite Etv.
    match goal with |- context [scalars (S m) _ ?l] => set (w := l) end.
    assert (W1 : exists a b, w = a :: b) by (subst w; rewrite words_word by (discriminate || reflexivity); eauto).
    destruct W1 as [a [b W1]].
    assert (S0 : forall f, scalars (S f) (Z.to_nat n) w = match a_scalar (Z.to_nat n) w with Some (s, l) => match scalars f (Z.to_nat n) l with Some ss => Some (s :: ss) | None => None end | None => None end).
    { intros f. now rewrite W1. }
    rewrite S0. clear S0 W1 a b. subst w.
    rewrite scalar_says by (discriminate || reflexivity).
    replace (Z.to_nat n) with (Datatypes.length cells) by lia. rewrite Elv.
    change (words endl) with (@nil string). rewrite scalars_nil. reflexivity.
  - assert (Ln : Z.to_nat n = Datatypes.length cells) by lia.
    split; cbn [vt_cells vt_types vt_points vt_scalars].
    + rewrite map_length, indexes_length; lia.
    + rewrite Fts. rewrite <- Ln, <- (indexes_length n) by lia. clear. induction (indexes n); cbn; [easy | now rewrite IHl].
    + intros k v Ev. assert (k < Datatypes.length cells)%nat by (apply nth_error_Some; congruence).
      exists (corner_ids (Z.of_nat k)). split; [|split; [reflexivity|]].
      * rewrite nth_error_map, nth_indexes by lia. reflexivity.
      * intros j i q Ei Eq. assert (J : (j < 8)%nat) by (change 8%nat with (Datatypes.length (corner_ids (Z.of_nat k))); apply nth_error_Some; congruence).
        assert (I : i = (8 * k + j)%nat).
        { unfold corner_ids in Ei. rewrite nth_error_map in Ei.
          do 8 (destruct j as [|j]; [cbn [nth_error option_map] in Ei; apply (f_equal (fun o => match o with Some x => x | None => 0%nat end)) in Ei; cbv beta iota in Ei; lia|]). lia. }
        subst i. apply (forall2_nth _ _ _ Fps). rewrite <- Eq.
        apply (nth_flat_map (fun v => box_corners (v_cell v))); [|assumption|assumption].
        intros u _. unfold box_corners. now destruct (c_rect (v_cell u)).
    + exists tv, lv. split; [reflexivity|]. split; [|split; [|split]].
      * rewrite (forall2_length _ _ _ Ftv), map_length, indexes_length; lia.
      * exact (forall2_length _ _ _ Flv).
      * intros k t K Et. apply (forall2_nth _ _ _ Ftv). rewrite nth_error_map, nth_indexes by lia. cbn [option_map]. f_equal.
        rewrite Nat2Z.id. now apply nth_error_nth.
      * intros k v Ev. exact (forall2_nth _ _ _ Flv k v Ev).
Qed.

(** ** The names *)
Lemma cut_dot_stem : forall a b, no_dot a = true -> cut_dot (a ++ String "."%char b) = a.
Proof.
  induction a as [|c a IH]; intros b H; [reflexivity|]. cbn [append cut_dot no_dot] in *.
  apply andb_true_iff in H. destruct H as [H1 H2]. rewrite (proj1 (negb_true_iff _) H1). now rewrite IH.
Qed.
Lemma length_app : forall a b : string, String.length (a ++ b) = (String.length a + String.length b)%nat.
Proof. induction a; intros; cbn; [easy | now rewrite IHa]. Qed.

Lemma dec_digits_first : forall f n tail, 0 < n -> (Z.to_nat n < f)%nat -> exists c r, dec_digits f n tail = String c r /\ c <> "0"%char.
Proof.
  induction f as [|f IH]; intros n tail P F; [lia|]. cbn [dec_digits].
  pose proof (Z.div_mod n 10 ltac:(lia)) as D. pose proof (Z.mod_pos_bound n 10 ltac:(lia)) as D'.
  destruct (n / 10 =? 0) eqn:E.
  - do 2 eexists. split; [reflexivity|]. intros C. pose proof (digit_mod n) as M. rewrite C in M. cbn in M. injection M. lia.
  - assert (0 <= n / 10) by (apply Z.div_pos; lia). assert (n / 10 < n) by (apply Z.div_lt; lia). apply IH; lia.
Qed.
Lemma dec_numeral : forall n, 0 <= n -> numeral (dec n) n.
Proof.
  intros n P. split; [now apply dec_value|]. split; [now apply dec_nonempty|].
  intros r E. destruct (Z.eq_dec n 0) as [->|N].
  - split; [reflexivity|]. cbn in E. injection E. congruence.
  - exfalso. destruct (dec_digits_first (S (Z.to_nat n)) n "" ltac:(lia) ltac:(lia)) as [c [r' [H C]]].
    unfold dec in E. rewrite H in E. injection E. congruence.
Qed.
Lemma dec_digits_length : forall f k n tail, 0 <= n < 10 ^ Z.of_nat (S k) -> (String.length (dec_digits f n tail) <= S k + String.length tail)%nat.
Proof.
  induction f as [|f IH]; intros k n tail P; [cbn; lia|]. cbn [dec_digits].
  destruct (n / 10 =? 0) eqn:E; [cbn [String.length]; lia|].
  destruct k as [|k].
  - exfalso. change (10 ^ Z.of_nat 1) with 10 in P. rewrite Z.div_small in E by lia. discriminate.
  - assert (H : 0 <= n / 10 < 10 ^ Z.of_nat (S k)).
    { split; [apply Z.div_pos; lia|]. apply Z.div_lt_upper_bound; [lia|]. replace (Z.of_nat (S (S k))) with (1 + Z.of_nat (S k)) in P by lia.
      rewrite Z.pow_add_r in P by lia. change (10 ^ 1) with 10 in P. lia. }
    specialize (IH k (n / 10) (String (digit (n mod 10)) tail) H). cbn [String.length] in IH. lia.
Qed.
Lemma digits_bound : forall s acc v, 0 <= acc -> digits_value acc s = Some v -> v < (acc + 1) * 10 ^ Z.of_nat (String.length s).
Proof.
  induction s as [|c s IH]; intros acc v P H; cbn [digits_value] in H.
  - cbn [String.length]. change (10 ^ Z.of_nat 0) with 1. assert (acc = v) by congruence. lia.
  - destruct (digit_value c) as [w|] eqn:W; [|discriminate H].
    assert (0 <= w <= 9).
    { unfold digit_value in W. destruct (_ && _) eqn:B in W; [|discriminate W]. apply andb_true_iff in B. assert (w = Z.of_nat (nat_of_ascii c) - 48) by congruence. lia. }
    specialize (IH (acc * 10 + w) v ltac:(lia) H). cbn [String.length].
    replace (Z.of_nat (S (String.length s))) with (1 + Z.of_nat (String.length s)) by lia. rewrite Z.pow_add_r by lia. change (10 ^ 1) with 10.
    assert (0 < 10 ^ Z.of_nat (String.length s)) by (apply Z.pow_pos_nonneg; lia). nia.
Qed.
Lemma dec_short : forall n, 0 <= n -> ((String.length (dec n) < 10)%nat <-> n < 1000000000).
Proof.
  intros n P. split; intros H.
  - pose proof (digits_bound (dec n) 0 n ltac:(lia) (dec_value n P)) as B.
    assert (10 ^ Z.of_nat (String.length (dec n)) <= 10 ^ 9) by (apply Z.pow_le_mono_r; lia). change (10 ^ 9) with 1000000000 in *. lia.
  - pose proof (dec_digits_length (S (Z.to_nat n)) 8 n "" ltac:(change (10 ^ Z.of_nat 9) with 1000000000; lia)). unfold dec. cbn [String.length] in *. lia.
Qed.
Lemma append_inj : forall a b c : string, a ++ b = a ++ c -> b = c.
Proof. induction a; intros b c H; [exact H|]. cbn in H. injection H. apply IHa. Qed.
Lemma append_inj_r : forall a b c : string, a ++ c = b ++ c -> a = b.
Proof.
  induction a as [|x a IH]; intros [|y b] c H; [reflexivity | | |].
  - exfalso. apply (f_equal String.length) in H. rewrite length_app in H. cbn [append String.length] in H. rewrite length_app in H. lia.
  - exfalso. apply (f_equal String.length) in H. cbn [append String.length] in H. rewrite length_app in H. cbn in H. lia.
  - cbn in H. injection H as -> H. f_equal. exact (IH b c H).
Qed.
Lemma name_inj : forall stem m n, 0 <= m -> 0 <= n -> stem ++ dec m ++ ".vtk" = stem ++ dec n ++ ".vtk" -> m = n.
Proof.
  intros stem m n M N E. apply append_inj, append_inj_r in E.
  pose proof (dec_value m M). pose proof (dec_value n N). rewrite E in *. congruence.
Qed.

Lemma name_cut : forall file t l i name, vtk_name file t l i = Ok name -> i <> OI_FINAL -> 0 <= t ->
  exists n, n = match i with OI_SLOT => t / l | _ => t end /\ name = cut_dot file ++ dec n ++ ".vtk".
Proof.
  intros file t l i name H I P. unfold vtk_name, in_array in H.
  destruct (_ <? _)%nat in H; [|discriminate H]. cbn [bind] in H.
  assert (X : exists n, n = match i with OI_SLOT => t / l | _ => t end /\
    (do index <- (if (String.length (dec n) <? 10)%nat then Ok (dec n) else UB) ;
     do a <- (if (String.length (cut_dot file ++ index) <? 50)%nat then Ok (cut_dot file ++ index) else UB) ;
     if (String.length (a ++ ".vtk") <? 50)%nat then Ok (a ++ ".vtk") else UB) = Ok name).
  { destruct i; try congruence; try (destruct (l =? 0); [discriminate H|]); eexists; (split; [reflexivity|]); exact H. }
  destruct X as [n [E X]]. exists n. split; [exact E|].
  destruct (_ <? _)%nat in X; [|discriminate X]. cbn [bind] in X.
  destruct (_ <? _)%nat in X; [|discriminate X]. cbn [bind] in X.
  destruct (_ <? _)%nat in X; [|discriminate X]. rewrite <- app_ass. congruence.
Qed.
Lemma name_fits : forall stem t l i, no_dot stem = true -> (String.length stem <= 36)%nat -> 0 <= t -> 0 < l -> i <> OI_FINAL ->
  let n := match i with OI_SLOT => t / l | _ => t end in
  n < 1000000000 -> vtk_name (stem ++ ".vtk") t l i = Ok (stem ++ dec n ++ ".vtk").
Proof.
  intros stem t l i D L T P I n B. assert (N : 0 <= n) by (subst n; destruct i; try lia; apply Z.div_pos; lia).
  pose proof (proj2 (dec_short n N) B) as S.
  unfold vtk_name, in_array. rewrite length_app. change (String.length ".vtk") with 4%nat.
  replace (String.length stem + 4 <? 50)%nat with true by (symmetry; apply Nat.ltb_lt; lia). cbn [bind].
  change (stem ++ ".vtk") with (stem ++ String "."%char "vtk"). rewrite cut_dot_stem by assumption.
  assert (Z : (do index <- (if (String.length (dec n) <? 10)%nat then Ok (dec n) else UB) ;
     do a <- (if (String.length (stem ++ index) <? 50)%nat then Ok (stem ++ index) else UB) ;
     if (String.length (a ++ ".vtk") <? 50)%nat then Ok (a ++ ".vtk") else UB) = Ok (stem ++ dec n ++ ".vtk")).
  { replace (String.length (dec n) <? 10)%nat with true by (symmetry; apply Nat.ltb_lt; lia). cbn [bind].
    rewrite !length_app. replace (String.length stem + String.length (dec n) <? 50)%nat with true by (symmetry; apply Nat.ltb_lt; lia). cbn [bind].
    rewrite !length_app. change (String.length ".vtk") with 4%nat.
    replace (String.length stem + String.length (dec n) + 4 <? 50)%nat with true by (symmetry; apply Nat.ltb_lt; lia).
    now rewrite app_ass. }
  destruct i; try congruence; cbn [bind]; try exact Z; replace (l =? 0) with false by lia; exact Z.
Qed.
