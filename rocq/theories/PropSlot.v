(** * C43: number of steps per slot, computed from the slot and step times *)
From Coq Require Import ZArith List Bool SpecFloat Lia QArith Qabs Lqa.
From Verif Require Import Base SlotLength SlotProofs.
Local Open Scope Z_scope.

(** The number a double stands for; the decimal i / 10^j. *)
Definition value (x : double) : Q :=
  match x with
  | S754_finite s m e => ((if s then -1 else 1) * (if (0 <=? e)%Z then inject_Z (Z.pos m * 2 ^ e) else inject_Z (Z.pos m) / inject_Z (2 ^ (- e))))%Q
  | _ => 0%Q
  end.
Definition decimal (i j : Z) : Q := (inject_Z i / inject_Z (10 ^ j))%Q.
(** [x] is a double the reading of the decimal can give: within a relative
    2^-53, which correct rounding guarantees (outside of the subnormal range). *)
Definition reads (x : double) (i j : Z) : Prop :=
  valid_binary 53 1024 x = true /\ (0 < value x)%Q /\ (Qabs (decimal i j - value x) <= value x / inject_Z (2 ^ 53))%Q.

Lemma value_units : forall m e, bnd m e -> (value (S754_finite false m e) == inject_Z (units m e) / inject_Z (2 ^ 1074))%Q.
Proof.
  intros m e B. apply bnd_iff in B. unfold value, units. destruct (Z.leb_spec 0 e) as [L|L].
  - rewrite Z.pow_add_r by lia. rewrite !inject_Z_mult. field. intro X. change 0%Q with (inject_Z 0) in X. rewrite inject_Z_injective in X. revert X. apply Z.pow_nonzero; lia.
  - assert (E : 2 ^ 1074 = 2 ^ (- e) * 2 ^ (e + 1074)) by (rewrite <- Z.pow_add_r by lia; f_equal; lia). rewrite E, !inject_Z_mult.
    assert (N : forall a, 0 <= a -> ~ (inject_Z (2 ^ a) == 0)%Q) by (intros a A X; change 0%Q with (inject_Z 0) in X; rewrite inject_Z_injective in X; revert X; apply Z.pow_nonzero; lia).
    field. split; apply N; lia.
Qed.
Lemma positive_double : forall x, valid_binary 53 1024 x = true -> (0 < value x)%Q -> exists m e, x = S754_finite false m e /\ bnd m e.
Proof.
  intros [s|s| |s m e] V P; cbn [value] in P; try (exfalso; revert P; apply Qlt_irrefl).
  exists m, e. destruct s.
  - exfalso. assert (0 <= (if (0 <=? e)%Z then inject_Z (Z.pos m * 2 ^ e) else inject_Z (Z.pos m) / inject_Z (2 ^ (- e))))%Q; [|lra].
    destruct (Z.leb_spec 0 e).
    + change 0%Q with (inject_Z 0). rewrite <- Zle_Qle. apply Z.mul_nonneg_nonneg; [lia|apply Z.pow_nonneg; lia].
    + apply Qle_shift_div_l; [change 0%Q with (inject_Z 0); rewrite <- Zlt_Qlt; apply Z.pow_pos_nonneg; lia|]. rewrite Qmult_0_l. change 0%Q with (inject_Z 0). rewrite <- Zle_Qle. lia.
  - split; [reflexivity|exact V].
Qed.
Lemma reads_units : forall x i j, reads x i j -> 0 <= j -> exists m e, x = S754_finite false m e /\ bnd m e /\
    Z.abs (i * 2 ^ 1074 - units m e * 10 ^ j) * 2 ^ 53 <= units m e * 10 ^ j.
Proof.
  intros x i j (V & P & C) J. destruct (positive_double x V P) as (m & e & -> & B). exists m, e. split; [reflexivity|]. split; [exact B|].
  rewrite (value_units m e B) in C. unfold decimal in C. pose proof (units_pos m e B).
  assert (PJ : 0 < 10 ^ j) by (apply Z.pow_pos_nonneg; lia).
  generalize dependent (units m e). intros u C U. assert (PT : 0 < 2 ^ 1074) by (apply Z.pow_pos_nonneg; lia).
  set (t := 2 ^ 1074) in *. set (p := 10 ^ j) in *. set (w := 2 ^ 53) in *. assert (PW : 0 < w) by reflexivity. clearbody t p w.
  assert (QT : (0 < inject_Z t)%Q) by (change 0%Q with (inject_Z 0); rewrite <- Zlt_Qlt; assumption).
  assert (QP : (0 < inject_Z p)%Q) by (change 0%Q with (inject_Z 0); rewrite <- Zlt_Qlt; assumption).
  assert (QW : (0 < inject_Z w)%Q) by (change 0%Q with (inject_Z 0); rewrite <- Zlt_Qlt; assumption).
  assert (E : (inject_Z i / inject_Z p - inject_Z u / inject_Z t == (inject_Z i * inject_Z t - inject_Z u * inject_Z p) / (inject_Z p * inject_Z t))%Q) by (field; split; lra).
  rewrite E in C. clear E.
  assert (PTQ : (0 < inject_Z p * inject_Z t)%Q) by (apply Qmult_lt_0_compat; assumption).
  assert (AB : (Qabs ((inject_Z i * inject_Z t - inject_Z u * inject_Z p) / (inject_Z p * inject_Z t)) == Qabs (inject_Z i * inject_Z t - inject_Z u * inject_Z p) / (inject_Z p * inject_Z t))%Q).
  { unfold Qdiv. rewrite Qabs_Qmult. rewrite (Qabs_pos (/ (inject_Z p * inject_Z t))); [reflexivity|]. apply Qlt_le_weak, Qinv_lt_0_compat. exact PTQ. }
  rewrite AB in C. clear AB.
  assert (C2 : (Qabs (inject_Z i * inject_Z t - inject_Z u * inject_Z p) * inject_Z w <= inject_Z u * inject_Z p)%Q).
  { assert (S : (0 < inject_Z p * inject_Z t * inject_Z w)%Q) by (apply Qmult_lt_0_compat; assumption).
    apply (Qmult_le_r _ _ _ S) in C.
    assert (E1 : (Qabs (inject_Z i * inject_Z t - inject_Z u * inject_Z p) / (inject_Z p * inject_Z t) * (inject_Z p * inject_Z t * inject_Z w) == Qabs (inject_Z i * inject_Z t - inject_Z u * inject_Z p) * inject_Z w)%Q) by (field; split; lra).
    assert (E2 : (inject_Z u / inject_Z t / inject_Z w * (inject_Z p * inject_Z t * inject_Z w) == inject_Z u * inject_Z p)%Q) by (field; split; lra).
    rewrite E1, E2 in C. exact C. }
  rewrite <- !inject_Z_mult in C2. unfold Qminus in C2. rewrite <- inject_Z_opp, <- inject_Z_plus in C2.
  change (Qabs (inject_Z (i * t + - (u * p)))) with (inject_Z (Z.abs (i * t + - (u * p)))) in C2. rewrite <- inject_Z_mult, <- Zle_Qle in C2. exact C2.
Qed.

(** The computation always ends, whatever the numbers (the scanner accepts no
    nan). *)
Theorem C43_always_ends : forall step slot, valid_binary 53 1024 step = true -> valid_binary 53 1024 slot = true ->
    step <> S754_nan -> slot <> S754_nan ->
    parse_times 400 step slot <> NoFuel.
Proof.
  intros step slot V1 V2 N1 N2. unfold parse_times.
  destruct (SFltb slot step) eqn:E1; [discriminate|]. destruct (SFleb step dzero) eqn:E2; [discriminate|]. destruct (SFleb slot dzero) eqn:E3; [discriminate|].
  assert (P : forall x, valid_binary 53 1024 x = true -> SFleb x dzero = false -> x <> S754_nan -> modf_frac_zero (times10 399 x) = true).
  { intros [[]|[]| |[] m e] V E N; try discriminate E; try congruence.
    - rewrite inf_stays. reflexivity.
    - apply times10_integral; [exact V|lia|reflexivity]. }
  assert (exists r, scale 400 slot step = Ok r) as (r & E).
  { apply (scale_ends 399); apply P; assumption. }
  unfold slot_length. rewrite E. cbn [bind]. destruct r as [a b].
  assert (Q : forall x, quantity_of x <> NoFuel).
  { intros [s|s| |s m e]; cbn [quantity_of]; try discriminate. destruct s; [destruct (_ =? 0)|destruct (_ <? two32)]; discriminate. }
  pose proof (Q a). destruct (quantity_of a) as [x| |]; cbn [bind]; try congruence. pose proof (Q b). destruct (quantity_of b) as [y| |]; cbn [bind]; try congruence.
  destruct (y =? 0); discriminate.
Qed.

Lemma log_bound : forall k u a, 1 <= u -> 8 ^ Z.of_nat k * u <= a * 2 ^ 1074 -> a < two32 -> Z.of_nat k <= 369.
Proof.
  intros k u a U H A. destruct (Z_le_gt_dec (Z.of_nat k) 369); [assumption|exfalso].
  assert (P : 0 < 2 ^ 1074) by (apply Z.pow_pos_nonneg; lia).
  assert (8 ^ Z.of_nat k <= 8 ^ Z.of_nat k * u) by (assert (0 < 8 ^ Z.of_nat k) by (apply Z.pow_pos_nonneg; lia); nia).
  assert (a * 2 ^ 1074 < 2 ^ 32 * 2 ^ 1074) by (apply Z.mul_lt_mono_pos_r; [exact P|exact A]). rewrite <- Z.pow_add_r in * by lia.
  assert (2 ^ (32 + 1074) <= 8 ^ Z.of_nat k); [|lia]. change 8 with (2 ^ 3). rewrite <- Z.pow_mul_r by lia. apply Z.pow_le_mono_r; lia.
Qed.
Lemma loop_value : forall x i j k a, reads x i j -> 0 <= j -> 0 < i < 2 ^ 42 -> Z.of_nat k < 2 ^ 50 ->
    modf_frac_zero (times10 k x) = true -> quantity_of (times10 k x) = Ok a -> i * 10 ^ Z.of_nat k = a * 10 ^ j /\ 0 < a < two32.
Proof.
  intros x i j k a R J I KB F Q. destruct (reads_units x i j R J) as (m & e & -> & B & C).
  destruct (times10_close m e i j B J ltac:(lia) C k KB) as [E|(m' & e' & E & B' & G & C')]; [rewrite E in Q; discriminate Q|].
  rewrite E in F, Q. destruct (quantity_units m' e' a B' F Q) as (EU & A). split; [|exact A].
  rewrite EU in G, C'. pose proof (units_pos m e B). apply exact_decimal; try assumption. apply (log_bound k (units m e) a); [assumption|exact G|apply A].
Qed.

(** For times that are decimals with the same number [j] of decimals, a number
    of steps per slot, if there is one, is the integer quotient of the decimals. *)
Theorem C43_quotient_partial : forall step slot i i' j n fuel, reads slot i j -> reads step i' j -> 0 <= j -> 0 < i' <= i -> i < 2 ^ 42 ->
    Z.of_nat fuel < 2 ^ 50 -> parse_times fuel step slot = Ok (Some n) -> n = i / i' /\ 1 <= n.
Proof.
  intros step slot i i' j n fuel R R' J I IB FB H. unfold parse_times in H.
  destruct (SFltb slot step); [discriminate|]. destruct (SFleb step dzero); [discriminate|]. destruct (SFleb slot dzero); [discriminate|].
  unfold slot_length in H. destruct (scale fuel slot step) as [[a b]| |] eqn:E; cbn [bind] in H; try discriminate.
  assert (EK : exists k, (k < fuel)%nat /\ a = times10 k slot /\ b = times10 k step /\ modf_frac_zero a = true /\ modf_frac_zero b = true).
  { clear H R R'. revert slot step E. induction fuel as [|f IH]; intros sl st E; [discriminate E|]. cbn [scale] in E.
    destruct (modf_frac_zero sl && modf_frac_zero st) eqn:F.
    - apply andb_true_iff in F. assert (a = sl /\ b = st) as (-> & ->) by (split; congruence). exists 0%nat. cbn [times10]. repeat split; try apply F. lia.
    - destruct (IH ltac:(lia) _ _ E) as (k & K & -> & -> & F1 & F2). exists (S k). rewrite !times10_shift. repeat split; try assumption. lia. }
  destruct EK as (k & KF & -> & -> & F1 & F2).
  destruct (quantity_of (times10 k slot)) as [x| |] eqn:Q1; cbn [bind] in H; try discriminate.
  destruct (quantity_of (times10 k step)) as [y| |] eqn:Q2; cbn [bind] in H; try discriminate.
  destruct (loop_value slot i j k x R J ltac:(lia) ltac:(lia) F1 Q1) as (V1 & A1).
  destruct (loop_value step i' j k y R' J ltac:(lia) ltac:(lia) F2 Q2) as (V2 & A2).
  destruct (Z.eqb_spec y 0); [lia|]. cbn [bind] in H. assert (n = x / y) as -> by congruence.
  assert (PJ : 0 < 10 ^ j) by (apply Z.pow_pos_nonneg; lia). assert (PK : 0 < 10 ^ Z.of_nat k) by (apply Z.pow_pos_nonneg; lia).
  assert (EQ : x / y = i / i').
  { rewrite <- (Z.div_mul_cancel_r x y (10 ^ j)) by lia. rewrite <- V1, <- V2. apply Z.div_mul_cancel_r; lia. }
  split; [exact EQ|]. rewrite EQ. apply Z.div_le_lower_bound; lia.
Qed.

(** Ordinary decimal times for which there is none: slot 0.07, step 0.01 leave
    7000000000000001 and 1000000000000000, which do not fit in 32 bits. *)
Definition d007 : double := S754_finite false 5044031582654956 (-56).
Definition d001 : double := S754_finite false 5764607523034235 (-59).
Theorem C43_out_of_range_refuted : exists step slot, reads slot 7 2 /\ reads step 1 2 /\ parse_times 400 step slot = UB.
Proof.
  exists d001, d007. split; [|split].
  - split; [reflexivity|]. split; [reflexivity|]. vm_compute. discriminate.
  - split; [reflexivity|]. split; [reflexivity|]. vm_compute. discriminate.
  - vm_compute. reflexivity.
Qed.
(** A case with an answer: slot 0.09, step 0.01. *)
Definition d009 : double := S754_finite false 6485183463413514 (-56).
Example C43_witness : reads d009 9 2 /\ reads d001 1 2 /\ parse_times 400 d001 d009 = Ok (Some 9).
Proof.
  split; [|split].
  - split; [reflexivity|]. split; [reflexivity|]. vm_compute. discriminate.
  - split; [reflexivity|]. split; [reflexivity|]. vm_compute. discriminate.
  - vm_compute. reflexivity.
Qed.

(** Refused exactly when the slot is shorter than the step or the step is not
    positive. *)
Definition finite (x : double) : Prop := match x with S754_zero _ | S754_finite _ _ _ => True | _ => False end.
Lemma compare_units : forall m1 e1 m2 e2, bnd m1 e1 -> bnd m2 e2 ->
    SFltb (S754_finite false m1 e1) (S754_finite false m2 e2) = true <-> units m1 e1 < units m2 e2.
Proof.
  assert (LT : forall m1 e1 m2 e2, bnd m1 e1 -> bnd m2 e2 -> e1 < e2 -> units m1 e1 < units m2 e2).
  { intros m1 e1 m2 e2 B1 B2 L. pose proof (bnd_lt _ _ B1) as M1. apply bnd_iff in B1, B2. unfold units.
    assert (D2 : Z.pos (digits2_pos m2) = 53) by lia. pose proof (digits_pos m2) as D. rewrite D2 in D. change (53 - 1) with 52 in D.
    replace (e2 + 1074) with (e2 - e1 + (e1 + 1074)) by lia. rewrite (Z.pow_add_r 2 (e2 - e1) (e1 + 1074)) by lia.
    pose proof (Z.pow_le_mono_r 2 1 (e2 - e1) ltac:(lia) ltac:(lia)) as P1. change (2 ^ 1) with 2 in P1.
    assert (P : 0 < 2 ^ (e1 + 1074)) by (apply Z.pow_pos_nonneg; lia). rewrite Z.mul_assoc. apply Z.mul_lt_mono_pos_r; [exact P|].
    change (2 ^ 53) with (2 ^ 52 * 2) in M1. apply Z.lt_le_trans with (2 ^ 52 * 2); [exact M1|]. apply Z.mul_le_mono_nonneg; lia. }
  intros m1 e1 m2 e2 B1 B2. unfold SFltb, SFcompare. destruct (Z.compare_spec e1 e2) as [->|L|L].
  - unfold units. assert (P : 0 < 2 ^ (e2 + 1074)) by (apply bnd_iff in B1; apply Z.pow_pos_nonneg; lia).
    change (Pcompare m1 m2 Eq) with (Pos.compare m1 m2). destruct (Pos.compare_spec m1 m2) as [->|X|X]; (split; intro H; try discriminate; try reflexivity; try (apply Z.mul_lt_mono_pos_r; [exact P|lia]); apply Z.mul_lt_mono_pos_r in H; lia).
  - split; [intros _; apply LT; assumption|reflexivity].
  - split; [discriminate|]. intro H. pose proof (LT _ _ _ _ B2 B1 L). lia.
Qed.
Lemma value_lt : forall m1 e1 m2 e2, bnd m1 e1 -> bnd m2 e2 ->
    (value (S754_finite false m1 e1) < value (S754_finite false m2 e2))%Q <-> units m1 e1 < units m2 e2.
Proof.
  intros m1 e1 m2 e2 B1 B2. rewrite (value_units m1 e1 B1), (value_units m2 e2 B2).
  assert (T : (0 < inject_Z (2 ^ 1074))%Q) by (change 0%Q with (inject_Z 0); rewrite <- Zlt_Qlt; apply Z.pow_pos_nonneg; lia).
  unfold Qdiv. rewrite Qmult_lt_r by (apply Qinv_lt_0_compat; exact T). rewrite <- Zlt_Qlt. reflexivity.
Qed.
Lemma value_pos : forall m e, bnd m e -> (0 < value (S754_finite false m e))%Q.
Proof.
  intros m e B. rewrite (value_units m e B). apply Qlt_shift_div_l; [change 0%Q with (inject_Z 0); rewrite <- Zlt_Qlt; apply Z.pow_pos_nonneg; lia|].
  rewrite Qmult_0_l. change 0%Q with (inject_Z 0). rewrite <- Zlt_Qlt. pose proof (units_pos m e B). lia.
Qed.
Lemma value_neg : forall m e, bnd m e -> (value (S754_finite true m e) < 0)%Q.
Proof. intros m e B. pose proof (value_pos m e B) as P. cbn [value] in *. lra. Qed.

Theorem C43_refused : forall step slot fuel, valid_binary 53 1024 step = true -> valid_binary 53 1024 slot = true -> finite step -> finite slot ->
    parse_times fuel step slot = Ok None <-> (value slot < value step \/ value step <= 0)%Q.
Proof.
  intros step slot fuel V1 V2 F1 F2. unfold parse_times.
  assert (NN : forall o : outcome Z, (do n <- o ; Ok (Some n)) <> Ok None) by (intros [x| |]; discriminate).
  destruct step as [s1|s1| |s1 m1 e1]; try contradiction.
  - split; [intros _; right; apply Qle_refl|]. intros _. destruct (SFltb _ _); [reflexivity|]. reflexivity.
  - destruct s1.
    + pose proof (value_neg m1 e1 V1). split; [intros _; right; lra|]. intros _. destruct (SFltb _ _); reflexivity.
    + pose proof (value_pos m1 e1 V1) as P1. destruct slot as [s2|s2| |[] m2 e2]; try contradiction.
      * split; [intros _; left; exact P1|]. intros _. reflexivity.
      * pose proof (value_neg m2 e2 V2). split; [intros _; left; lra|]. intros _. reflexivity.
      * destruct (SFltb (S754_finite false m2 e2) (S754_finite false m1 e1)) eqn:E.
        -- split; [|reflexivity]. intros _. left. apply value_lt; try assumption. apply compare_units; assumption.
        -- cbn [SFleb SFcompare dzero]. split; [intro H; exfalso; exact (NN _ H)|]. intros [H|H]; [|lra].
           apply value_lt in H; try assumption. apply compare_units in H; try assumption. congruence.
Qed.

(** Whole numbers of time units. *)
Theorem C43_whole : forall step slot i i', valid_binary 53 1024 step = true -> valid_binary 53 1024 slot = true ->
    (value slot == inject_Z i)%Q -> (value step == inject_Z i')%Q -> 0 < i' <= i -> i < two32 ->
    forall fuel, parse_times (S fuel) step slot = Ok (Some (i / i')).
Proof.
  intros step slot i i' V1 V2 E1 E2 I IB fuel.
  assert (PZ : forall z, 0 < z -> (0 < inject_Z z)%Q) by (intros z Z; change 0%Q with (inject_Z 0); rewrite <- Zlt_Qlt; exact Z).
  destruct (positive_double step V1) as (m1 & e1 & -> & B1); [rewrite E2; apply PZ; lia|].
  destruct (positive_double slot V2) as (m2 & e2 & -> & B2); [rewrite E1; apply PZ; lia|].
  assert (W : forall m e z, bnd m e -> (value (S754_finite false m e) == inject_Z z)%Q -> 0 < z < two32 ->
     modf_frac_zero (S754_finite false m e) = true /\ quantity_of (S754_finite false m e) = Ok z).
  { intros m e z B E Z. cbn [value modf_frac_zero quantity_of] in *. apply bnd_iff in B. rewrite Qmult_1_l in E. destruct (Z.leb_spec 0 e) as [L|L]; cbn [orb].
    - rewrite inject_Z_injective in E. rewrite E. destruct (Z.ltb_spec z two32); [auto|lia].
    - assert (P : 0 < 2 ^ (- e)) by (apply Z.pow_pos_nonneg; lia).
      assert (EM : Z.pos m = z * 2 ^ (- e)).
      { rewrite <- inject_Z_injective, inject_Z_mult, <- E. field. intro X. change 0%Q with (inject_Z 0) in X. rewrite inject_Z_injective in X. lia. }
      rewrite EM, Z.mod_mul, Z.div_mul by lia. destruct (Z.ltb_spec z two32); [auto|lia]. }
  destruct (W m1 e1 i' B1 E2 ltac:(lia)) as (F1 & Q1). destruct (W m2 e2 i B2 E1 ltac:(lia)) as (F2 & Q2).
  unfold parse_times. destruct (SFltb (S754_finite false m2 e2) (S754_finite false m1 e1)) eqn:LT.
  { exfalso. apply compare_units in LT; try assumption. apply value_lt in LT; try assumption. rewrite E1, E2, <- Zlt_Qlt in LT. lia. }
  change (SFleb (S754_finite false m1 e1) dzero) with false. change (SFleb (S754_finite false m2 e2) dzero) with false. cbv iota.
  unfold slot_length. cbn [scale]. rewrite F1, F2. cbn [andb bind]. rewrite Q1, Q2. cbn [bind]. destruct (Z.eqb_spec i' 0); [lia|]. reflexivity.
Qed.
Example C43_whole_witness : exists step slot, valid_binary 53 1024 step = true /\ valid_binary 53 1024 slot = true /\
    (value slot == inject_Z 20)%Q /\ (value step == inject_Z 10)%Q.
Proof. exists ten, (S754_finite false 5629499534213120 (-48)). repeat split; vm_compute; reflexivity. Qed.
Print Assumptions C43_always_ends. Print Assumptions C43_quotient_partial. Print Assumptions C43_out_of_range_refuted. Print Assumptions C43_refused. Print Assumptions C43_whole.
