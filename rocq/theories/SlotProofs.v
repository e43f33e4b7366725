(** * Rounding of a multiplication by ten (binary64) *)
From Coq Require Import ZArith List Bool SpecFloat Lia QArith Qabs Lqa.
From Verif Require Import Base SlotLength.
Local Open Scope Z_scope.

(** ** Digits *)
Lemma digits_pos : forall p, 2 ^ (Z.pos (digits2_pos p) - 1) <= Z.pos p < 2 ^ Z.pos (digits2_pos p).
Proof.
  induction p as [p IH|p IH|]; cbn [digits2_pos]; [| |cbn; lia];
    rewrite Pos2Z.inj_succ; replace (Z.succ (Z.pos (digits2_pos p)) - 1) with (Z.succ (Z.pos (digits2_pos p) - 1)) by lia;
    rewrite !Z.pow_succ_r by lia; lia.
Qed.
Lemma digits_eq : forall M n, 0 < M -> 2 ^ (n - 1) <= M < 2 ^ n -> 1 <= n -> Zdigits2 M = n.
Proof.
  intros M n P B N. destruct M as [|p|p]; try lia. cbn [Zdigits2]. pose proof (digits_pos p) as D. set (k := Z.pos (digits2_pos p)) in *.
  assert (1 <= k) by lia. destruct (Z.lt_trichotomy k n) as [L|[E|G]]; [|exact E|].
  - pose proof (Z.pow_le_mono_r 2 k (n - 1) ltac:(lia) ltac:(lia)). lia.
  - pose proof (Z.pow_le_mono_r 2 n (k - 1) ltac:(lia) ltac:(lia)). lia.
Qed.
Lemma digits_bounds : forall M, 0 < M -> 1 <= Zdigits2 M /\ 2 ^ (Zdigits2 M - 1) <= M < 2 ^ Zdigits2 M.
Proof. intros [|p|p] P; try lia. cbn [Zdigits2]. split; [lia|apply digits_pos]. Qed.

(** ** Shifting: what the record says about the bits dropped *)
Definition says (mrs : shr_record) (M k : Z) : Prop :=
  let rest := M - shr_m mrs * 2 ^ k in
  0 <= k /\ 0 <= shr_m mrs /\ 0 <= rest < 2 ^ k /\
  match shr_r mrs, shr_s mrs with
  | false, false => rest = 0
  | false, true => 0 < 2 * rest < 2 ^ k
  | true, false => 2 * rest = 2 ^ k
  | true, true => 2 ^ k < 2 * rest
  end.
Lemma says_start : forall M, 0 <= M -> says (Build_shr_record M false false) M 0.
Proof. intros M P. unfold says. cbn [shr_m shr_r shr_s]. change (2 ^ 0) with 1. lia. Qed.
Lemma says_step : forall mrs M k, says mrs M k -> says (shr_1 mrs) M (k + 1).
Proof.
  intros [m r s] M k (K & P & B & H). cbn [shr_m shr_r shr_s] in *. unfold says. pose proof (Z.pow_succ_r 2 k K) as E. unfold Z.succ in E.
  pose proof (Z.pow_pos_nonneg 2 k ltac:(lia) K). rewrite E.
  destruct m as [|[p|p|]|p]; try lia; cbn [shr_1 shr_m shr_r shr_s];
    [|rewrite (Pos2Z.inj_xI p) in *|rewrite (Pos2Z.inj_xO p) in *|]; set (t := 2 ^ k) in *; destruct r, s; cbn [orb]; nia.
Qed.
Lemma iter_says : forall p mrs M k, says mrs M k -> says (SpecFloat.iter_pos shr_1 p mrs) M (k + Z.pos p).
Proof.
  induction p as [p IH|p IH|]; intros mrs M k H; cbn [SpecFloat.iter_pos].
  - replace (k + Z.pos p~1) with (k + 1 + Z.pos p + Z.pos p) by lia. apply IH, IH, says_step, H.
  - replace (k + Z.pos p~0) with (k + Z.pos p + Z.pos p) by lia. apply IH, IH, H.
  - apply says_step, H.
Qed.
Lemma shr_says : forall M e n, 0 <= M -> 0 <= n -> exists mrs, shr (shr_record_of_loc M loc_Exact) e n = (mrs, e + n) /\ says mrs M n.
Proof.
  intros M e n P N. unfold shr, shr_record_of_loc. destruct n as [|p|p]; try lia.
  - exists (Build_shr_record M false false). split; [f_equal; lia|apply says_start; assumption].
  - exists (SpecFloat.iter_pos shr_1 p (Build_shr_record M false false)). split; [reflexivity|]. apply (iter_says p _ M 0). apply says_start. assumption.
Qed.
Lemma shr_none : forall M e n, n <= 0 -> shr (shr_record_of_loc M loc_Exact) e n = (Build_shr_record M false false, e).
Proof. intros M e n N. destruct n; try lia; reflexivity. Qed.

Lemma round_says : forall mrs M k, says mrs M k ->
    let r := round_nearest_even (shr_m mrs) (loc_of_shr_record mrs) in
    0 <= r /\ shr_m mrs <= r <= shr_m mrs + 1 /\ 2 * Z.abs (r * 2 ^ k - M) <= 2 ^ k.
Proof.
  intros [m r s] M k (K & P & B & H). cbn [shr_m shr_r shr_s loc_of_shr_record] in *. pose proof (Z.pow_pos_nonneg 2 k ltac:(lia) K). set (t := 2 ^ k) in *.
  destruct r, s; cbn [round_nearest_even]; [| |destruct (Z.even m)|]; try (destruct (Z.even m)); nia.
Qed.

(** ** Multiplication by ten *)
Definition bnd (m : positive) (e : Z) : Prop := bounded 53 1024 m e = true.
Lemma bnd_iff : forall m e, bnd m e <-> (Z.pos (digits2_pos m) <= 53 /\ -1074 <= e <= 971 /\ (Z.pos (digits2_pos m) = 53 \/ e = -1074)).
Proof.
  intros m e. unfold bnd, bounded, canonical_mantissa, fexp, SpecFloat.emin. rewrite andb_true_iff, Z.leb_le.
  rewrite <- Zeq_is_eq_bool. lia.
Qed.
Lemma bnd_lt : forall m e, bnd m e -> Z.pos m < 2 ^ 53.
Proof.
  intros m e B. apply bnd_iff in B. destruct B as (B & _). pose proof (digits_pos m). 
  pose proof (Z.pow_le_mono_r 2 (Z.pos (digits2_pos m)) 53 ltac:(lia) B). lia.
Qed.

Lemma mul10_spec : forall m e, bnd m e ->
    dmul (S754_finite false m e) ten = S754_infinity false \/
    exists m' e', dmul (S754_finite false m e) ten = S754_finite false m' e' /\ bnd m' e' /\ e <= e' /\
      2 * Z.abs (Z.pos m' * 2 ^ (e' - e) - 10 * Z.pos m) <= 2 ^ (e' - e) /\ (e < e' -> 2 ^ 52 <= Z.pos m').
Proof.
  intros m e B. pose proof B as BN. apply bnd_iff in BN. destruct BN as (B1 & B2 & B3).
  remember (dmul (S754_finite false m e) ten) as x eqn:HX. unfold dmul, ten in HX. cbn [SFmul xorb] in HX. set (M := Z.pos (m * 5629499534213120)).
  assert (EM : M = 10 * Z.pos m * 2 ^ 49) by (unfold M; rewrite Pos2Z.inj_mul; change (2 ^ 49) with 562949953421312; lia).
  destruct (digits_bounds (10 * Z.pos m) ltac:(lia)) as (G1 & G2). set (dg := Zdigits2 (10 * Z.pos m)) in *.
  assert (MP : 0 < M) by (unfold M; lia).
  assert (DM : Zdigits2 M = dg + 49).
  { apply digits_eq; [exact MP| |lia]. rewrite EM. replace (dg + 49 - 1) with (dg - 1 + 49) by lia. rewrite !Z.pow_add_r by lia.
    pose proof (Z.pow_pos_nonneg 2 49 ltac:(lia) ltac:(lia)). nia. }
  set (s := Z.max (dg - 53) 0).
  pose proof (digits_pos m) as DP.
  assert (D53 : Z.pos (digits2_pos m) = 53 -> 56 <= dg).
  { intro E. rewrite E in DP. destruct (Z_le_gt_dec 56 dg); [assumption|]. pose proof (Z.pow_le_mono_r 2 dg 55 ltac:(lia) ltac:(lia)).
    change (2 ^ (53 - 1)) with 4503599627370496 in DP. change (2 ^ 55) with 36028797018963968 in *. lia. }
  assert (K : fexp 53 1024 (Zdigits2 M + (e + -49)) - (e + -49) = s + 49) by (unfold fexp, SpecFloat.emin; rewrite DM; unfold s; lia).
  assert (S0 : 0 <= s) by (unfold s; lia).
  unfold binary_round_aux in HX. fold M in HX. unfold shr_fexp at 1 in HX. rewrite K in HX.
  destruct (shr_says M (e + -49) (s + 49) ltac:(lia) ltac:(lia)) as (mrs & ES & SY). rewrite ES in HX. clear ES.
  destruct (round_says mrs M (s + 49) SY) as (R0 & R1 & R2). set (r := round_nearest_even (shr_m mrs) (loc_of_shr_record mrs)) in *. unfold shr_fexp in HX.
  replace (e + -49 + (s + 49)) with (e + s) in HX by lia.
  destruct SY as (_ & SY1 & SY2 & _).
  assert (T49 : 0 < 2 ^ 49) by reflexivity. assert (TS : 0 < 2 ^ s) by (apply Z.pow_pos_nonneg; lia).
  rewrite Z.pow_add_r in R2, SY2 by lia.
  assert (RR : 2 * Z.abs (r * 2 ^ s - 10 * Z.pos m) <= 2 ^ s).
  { rewrite EM in R2. replace (r * (2 ^ s * 2 ^ 49) - 10 * Z.pos m * 2 ^ 49) with ((r * 2 ^ s - 10 * Z.pos m) * 2 ^ 49) in R2 by ring.
    rewrite Z.abs_mul, (Z.abs_eq (2 ^ 49)) in R2 by lia. nia. }
  assert (DS : 2 ^ dg = 2 ^ (dg - s) * 2 ^ s) by (rewrite <- Z.pow_add_r by (unfold s; lia); f_equal; lia).
  assert (D53' : 2 ^ (dg - s) <= 2 ^ 53) by (apply Z.pow_le_mono_r; unfold s; lia).
  assert (U : shr_m mrs < 2 ^ 53).
  { rewrite EM in SY2. assert (shr_m mrs * 2 ^ s < 2 ^ (dg - s) * 2 ^ s) by nia. assert (shr_m mrs < 2 ^ (dg - s)) by nia. lia. }
  assert (LO : 0 < s -> 2 ^ 52 <= r).
  { intro SP. assert (dg - s = 53) as E53 by (unfold s in *; lia).
    assert (E1 : 2 ^ (dg - 1) = 2 ^ 52 * 2 ^ s) by (rewrite <- Z.pow_add_r by lia; f_equal; lia).
    rewrite EM in SY2. assert (2 ^ 52 * 2 ^ s < (shr_m mrs + 1) * 2 ^ s) by nia. nia. }
  assert (RZ : s = 0 -> r = 10 * Z.pos m) by (intro E; rewrite E in RR; change (2 ^ 0) with 1 in RR; lia).
  assert (RP : 0 < r) by (destruct (Z.eq_dec s 0) as [E|E]; [rewrite (RZ E); lia|pose proof (LO ltac:(lia)); lia]).
  destruct (Z.eq_dec r (2 ^ 53)) as [E|NE].
  - assert (DR : Zdigits2 r = 54) by (rewrite E; reflexivity).
    assert (K2 : fexp 53 1024 (Zdigits2 r + (e + s)) - (e + s) = 1) by (unfold fexp, SpecFloat.emin; rewrite DR; lia).
    rewrite K2, E in HX. cbn [shr shr_record_of_loc SpecFloat.iter_pos] in HX. change (2 ^ 53) with 9007199254740992 in HX. cbn [shr_1 shr_m orb] in HX.
    destruct (Z.leb_spec (e + s + 1) (1024 - 53)) as [L|L]; [right|left; exact HX].
    exists 4503599627370496%positive, (e + s + 1). split; [exact HX|]. split; [apply bnd_iff; cbn [digits2_pos Pos.succ]; lia|]. split; [lia|].
    replace (e + s + 1 - e) with (s + 1) by lia. rewrite Z.pow_add_r by lia. change (2 ^ 1) with 2. change (2 ^ 52) with 4503599627370496.
    change (2 ^ 53) with 9007199254740992 in E. split; [|intros _; reflexivity]. rewrite E in RR. replace (4503599627370496 * (2 ^ s * 2)) with (9007199254740992 * 2 ^ s) by ring. lia.
  - assert (RL : r < 2 ^ 53) by lia.
    destruct (digits_bounds r RP) as (Q1 & Q2). set (dr := Zdigits2 r) in *.
    assert (DR : dr <= 53) by (destruct (Z_le_gt_dec dr 53); [assumption|]; pose proof (Z.pow_le_mono_r 2 53 (dr - 1) ltac:(lia) ltac:(lia)); lia).
    rewrite shr_none in HX by (unfold fexp, SpecFloat.emin; lia). cbn [shr_m] in HX.
    clearbody r. destruct r as [|p|p]; try lia.
    destruct (Z.leb_spec (e + s) (1024 - 53)) as [L|L]; [right|left; exact HX].
    exists p, (e + s). split; [exact HX|]. split.
    + apply bnd_iff. change (Z.pos (digits2_pos p)) with dr. split; [exact DR|]. split; [lia|].
      destruct (Z.eq_dec s 0) as [E0|E0]; [right|left; specialize (LO ltac:(lia))].
      * destruct B3 as [B3|B3]; [specialize (D53 B3); unfold s in *; lia|lia].
      * destruct (Z_le_gt_dec 53 dr); [lia|]. pose proof (Z.pow_le_mono_r 2 dr 52 ltac:(lia) ltac:(lia)). lia.
    + split; [lia|]. replace (e + s - e) with s by lia. split; [exact RR|]. intro X. apply LO. lia.
Qed.

(** ** The loop.  Values are multiples of 2^-1074. *)
Definition units (m : positive) (e : Z) : Z := Z.pos m * 2 ^ (e + 1074).
Fixpoint times10 (k : nat) (x : double) : double := match k with O => x | S n => dmul (times10 n x) ten end.

Lemma units_step : forall m e m' e', bnd m e -> bnd m' e' -> e <= e' ->
    2 * Z.abs (Z.pos m' * 2 ^ (e' - e) - 10 * Z.pos m) <= 2 ^ (e' - e) -> (e < e' -> 2 ^ 52 <= Z.pos m') ->
    Z.abs (units m' e' - 10 * units m e) * 2 ^ 53 <= units m' e'.
Proof.
  intros m e m' e' B B' L H1 H2. apply bnd_iff in B, B'. unfold units.
  assert (E : 2 ^ (e' + 1074) = 2 ^ (e' - e) * 2 ^ (e + 1074)) by (rewrite <- Z.pow_add_r by lia; f_equal; lia). rewrite E.
  set (P := 2 ^ (e + 1074)) in *. assert (PP : 0 < P) by (apply Z.pow_pos_nonneg; lia).
  replace (Z.pos m' * (2 ^ (e' - e) * P) - 10 * (Z.pos m * P)) with ((Z.pos m' * 2 ^ (e' - e) - 10 * Z.pos m) * P) by ring.
  rewrite Z.abs_mul, (Z.abs_eq P) by lia. set (A := Z.abs (Z.pos m' * 2 ^ (e' - e) - 10 * Z.pos m)) in *.
  assert (TP : 0 < 2 ^ (e' - e)) by (apply Z.pow_pos_nonneg; lia).
  assert (X : A * 2 ^ 53 <= Z.pos m' * 2 ^ (e' - e)).
  { destruct (Z.eq_dec e e') as [->|N].
    - replace (e' - e') with 0 in * by lia. change (2 ^ 0) with 1 in *. assert (A = 0) by lia. lia.
    - specialize (H2 ltac:(lia)). change (2 ^ 53) with (2 * 2 ^ 52). nia. }
  replace (A * P * 2 ^ 53) with (A * 2 ^ 53 * P) by ring. replace (Z.pos m' * (2 ^ (e' - e) * P)) with (Z.pos m' * 2 ^ (e' - e) * P) by ring.
  apply Z.mul_le_mono_nonneg_r; lia.
Qed.
Lemma units_pos : forall m e, bnd m e -> 1 <= units m e.
Proof.
  intros m e B. apply bnd_iff in B. unfold units. pose proof (Z.pow_pos_nonneg 2 (e + 1074) ltac:(lia) ltac:(lia)). nia.
Qed.

Lemma inf_stays : forall k, times10 k (S754_infinity false) = S754_infinity false.
Proof. induction k as [|k IH]; [reflexivity|]. cbn [times10]. rewrite IH. reflexivity. Qed.
Lemma times10_add : forall k x, times10 (S k) x = dmul (times10 k x) ten.
Proof. reflexivity. Qed.
Lemma times10_shift : forall k x, times10 (S k) x = times10 k (dmul x ten).
Proof. induction k as [|k IH]; intro x; [reflexivity|]. rewrite times10_add, IH. reflexivity. Qed.

(** After [k] multiplications: infinite, or [10^k] times the decimal [i / 10^j]
    up to [2 k + 1] relative roundings. *)
Lemma times10_close : forall m e i j, bnd m e -> 0 <= j -> 0 <= i ->
    Z.abs (i * 2 ^ 1074 - units m e * 10 ^ j) * 2 ^ 53 <= units m e * 10 ^ j ->
    forall k, Z.of_nat k < 2 ^ 50 -> times10 k (S754_finite false m e) = S754_infinity false \/
      exists m' e', times10 k (S754_finite false m e) = S754_finite false m' e' /\ bnd m' e' /\
        8 ^ Z.of_nat k * units m e <= units m' e' /\
        Z.abs (i * 2 ^ 1074 * 10 ^ Z.of_nat k - units m' e' * 10 ^ j) * 2 ^ 53 <= (2 * Z.of_nat k + 1) * (units m' e' * 10 ^ j).
Proof.
  intros m e i j B J I C. induction k as [|k IH]; intro KB.
  - right. exists m, e. split; [reflexivity|]. split; [exact B|]. change (8 ^ Z.of_nat 0) with 1. change (10 ^ Z.of_nat 0) with 1. rewrite Z.mul_1_r. lia.
  - rewrite times10_add. destruct (IH ltac:(lia)) as [->|(m1 & e1 & -> & B1 & G1 & C1)]; [left; reflexivity|].
    destruct (mul10_spec m1 e1 B1) as [->|(m2 & e2 & -> & B2 & L & H1 & H2)]; [left; reflexivity|right].
    exists m2, e2. split; [reflexivity|]. split; [exact B2|].
    pose proof (units_step m1 e1 m2 e2 B1 B2 L H1 H2) as ST. pose proof (units_pos m1 e1 B1). pose proof (units_pos m2 e2 B2).
    rewrite Nat2Z.inj_succ. rewrite !Z.pow_succ_r by lia. set (K := Z.of_nat k) in *.
    set (V1 := units m1 e1) in *. set (V2 := units m2 e2) in *. set (V := units m e) in *.
    assert (G : 9 * V1 <= V2) by lia. split; [|].
    + replace (8 * 8 ^ K * V) with (8 * (8 ^ K * V)) by ring. lia.
    + set (D := i * 2 ^ 1074 * 10 ^ K) in *. set (P := 10 ^ j) in *. assert (PP : 0 < P) by (apply Z.pow_pos_nonneg; lia).
      replace (i * 2 ^ 1074 * (10 * 10 ^ K)) with (10 * D) by (unfold D; ring). clearbody D.
      assert (ST' : Z.abs (V2 * P - 10 * (V1 * P)) * 2 ^ 53 <= V2 * P).
      { replace (V2 * P - 10 * (V1 * P)) with ((V2 - 10 * V1) * P) by ring. rewrite Z.abs_mul, (Z.abs_eq P) by lia.
        replace (Z.abs (V2 - 10 * V1) * P * 2 ^ 53) with (Z.abs (V2 - 10 * V1) * 2 ^ 53 * P) by ring. apply Z.mul_le_mono_nonneg_r; lia. }
      assert (0 < V1 * P) by (apply Z.mul_pos_pos; lia). assert (0 < V2 * P) by (apply Z.mul_pos_pos; lia).
      set (W1 := V1 * P) in *. set (W2 := V2 * P) in *. clearbody W1 W2. unfold Z.succ.
      assert (X1 : Z.abs (10 * D - W2) <= 10 * Z.abs (D - W1) + Z.abs (W2 - 10 * W1)) by lia.
      set (A := Z.abs (D - W1)) in *. set (Bb := Z.abs (W2 - 10 * W1)) in *. assert (0 <= A) by (unfold A; lia). assert (0 <= Bb) by (unfold Bb; lia).
      assert (X2 : 10 * W1 * 2 ^ 53 <= W2 * (2 ^ 53 + 1)) by lia. clearbody A Bb.
      set (u := 2 ^ 53) in *. assert (U : u = 9007199254740992) by reflexivity. assert (KU : 2 * K + 1 <= u) by (rewrite U; change (2 ^ 50) with 1125899906842624 in KB; lia).
      assert (X3 : 10 * A * u <= (2 * K + 1) * (10 * W1)) by lia.
      assert (X4 : 10 * A * u * u <= (2 * K + 1) * (W2 * (u + 1))).
      { apply Z.le_trans with ((2 * K + 1) * (10 * W1) * u); [apply Z.mul_le_mono_nonneg_r; lia|].
        replace ((2 * K + 1) * (10 * W1) * u) with ((2 * K + 1) * (10 * W1 * u)) by ring. apply Z.mul_le_mono_nonneg_l; lia. }
      assert (X5 : (2 * K + 1) * (W2 * (u + 1)) <= ((2 * K + 1) * W2 + W2) * u).
      { replace ((2 * K + 1) * (W2 * (u + 1))) with ((2 * K + 1) * W2 * u + (2 * K + 1) * W2) by ring.
        assert ((2 * K + 1) * W2 <= W2 * u) by (rewrite (Z.mul_comm W2 u); apply Z.mul_le_mono_nonneg_r; lia). lia. }
      assert (X6 : 10 * A * u <= (2 * K + 1) * W2 + W2) by (apply Z.mul_le_mono_pos_r with u; lia).
      assert (X7 : Z.abs (10 * D - W2) * u <= (10 * A + Bb) * u) by (apply Z.mul_le_mono_nonneg_r; lia). lia.
Qed.

Lemma scale_inv : forall f sl st r, scale f sl st = Ok r ->
    exists k, r = (times10 k sl, times10 k st) /\ modf_frac_zero (times10 k sl) = true /\ modf_frac_zero (times10 k st) = true.
Proof.
  induction f as [|f IH]; intros sl st r H; [discriminate|]. cbn [scale] in H.
  destruct (modf_frac_zero sl && modf_frac_zero st) eqn:E.
  - apply andb_true_iff in E. exists 0%nat. cbn [times10]. assert (r = (sl, st)) as -> by congruence. auto.
  - apply IH in H. destruct H as (k & -> & H1 & H2). exists (S k). rewrite !times10_shift. auto.
Qed.
Lemma scale_ends : forall n sl st, modf_frac_zero (times10 n sl) = true -> modf_frac_zero (times10 n st) = true ->
    exists r, scale (S n) sl st = Ok r.
Proof.
  induction n as [|n IH]; intros sl st H1 H2.
  - cbn [scale]. cbn [times10] in *. rewrite H1, H2. cbn. eauto.
  - change (scale (S (S n)) sl st) with (if modf_frac_zero sl && modf_frac_zero st then Ok (sl, st) else scale (S n) (dmul sl ten) (dmul st ten)).
    destruct (modf_frac_zero sl && modf_frac_zero st); [eauto|]. rewrite times10_shift in H1, H2. apply IH; assumption.
Qed.

Lemma big_integral : forall m e, bnd m e -> 2 ^ 1127 <= units m e -> modf_frac_zero (S754_finite false m e) = true.
Proof.
  intros m e B G. cbn [modf_frac_zero]. pose proof (bnd_lt m e B) as L. apply bnd_iff in B. unfold units in G.
  destruct (Z.leb_spec 0 e); [reflexivity|]. exfalso.
  pose proof (Z.pow_le_mono_r 2 (e + 1074) 1074 ltac:(lia) ltac:(lia)). pose proof (Z.pow_pos_nonneg 2 (e + 1074) ltac:(lia) ltac:(lia)).
  assert (Z.pos m * 2 ^ (e + 1074) < 2 ^ 53 * 2 ^ 1074) by nia. rewrite <- Z.pow_add_r in * by lia. change (53 + 1074) with 1127 in *. lia.
Qed.
Lemma times10_integral : forall m e k, bnd m e -> (380 <= k)%nat -> Z.of_nat k < 2 ^ 50 -> modf_frac_zero (times10 k (S754_finite false m e)) = true.
Proof.
  intros m e k B K KB. pose proof (units_pos m e B) as P.
  assert (exists m0 e0, times10 k (S754_finite false m e) = S754_infinity false \/ (times10 k (S754_finite false m e) = S754_finite false m0 e0 /\ bnd m0 e0 /\ 8 ^ Z.of_nat k * units m e <= units m0 e0)) as (m0 & e0 & [->|(-> & B0 & G)]).
  { clear K KB. induction k as [|k IH].
    - exists m, e. right. change (8 ^ Z.of_nat 0) with 1. split; [reflexivity|]. split; [exact B|lia].
    - destruct IH as (m0 & e0 & [E|(E & B0 & G)]).
      + exists m, e. left. rewrite times10_add, E. reflexivity.
      + rewrite times10_add, E. destruct (mul10_spec m0 e0 B0) as [->|(m2 & e2 & -> & B2 & L & H1 & H2)]; [exists m, e; left; reflexivity|].
        exists m2, e2. right. split; [reflexivity|]. split; [exact B2|]. pose proof (units_step m0 e0 m2 e2 B0 B2 L H1 H2). pose proof (units_pos m0 e0 B0). pose proof (units_pos m2 e2 B2).
        rewrite Nat2Z.inj_succ, Z.pow_succ_r by lia. replace (8 * 8 ^ Z.of_nat k * units m e) with (8 * (8 ^ Z.of_nat k * units m e)) by ring. lia. }
  - reflexivity.
  - apply big_integral; [exact B0|]. apply Z.le_trans with (8 ^ Z.of_nat k).
    + change 8 with (2 ^ 3). rewrite <- Z.pow_mul_r by lia. apply Z.pow_le_mono_r; lia.
    + assert (0 < 8 ^ Z.of_nat k) by (apply Z.pow_pos_nonneg; lia). nia.
Qed.

Lemma quantity_units : forall m e a, bnd m e -> modf_frac_zero (S754_finite false m e) = true -> quantity_of (S754_finite false m e) = Ok a ->
    units m e = a * 2 ^ 1074 /\ 0 < a < two32.
Proof.
  intros m e a B F Q. cbn [modf_frac_zero quantity_of] in *. pose proof B as BB. apply bnd_iff in BB. pose proof (units_pos m e B) as P. unfold units in *.
  assert (E : units m e = a * 2 ^ 1074 /\ a < two32).
  { unfold units. destruct (Z.leb_spec 0 e) as [L|L].
    - cbn [orb] in F. destruct (Z.ltb_spec (Z.pos m * 2 ^ e) two32) as [T|T]; [|discriminate]. assert (a = Z.pos m * 2 ^ e) as -> by congruence.
      rewrite Z.pow_add_r by lia. split; [ring|exact T].
    - cbn [orb] in F. apply Z.eqb_eq in F. destruct (Z.ltb_spec (Z.pos m / 2 ^ (- e)) two32) as [T|T]; [|discriminate]. assert (a = Z.pos m / 2 ^ (- e)) as -> by congruence.
      split; [|exact T]. pose proof (Z.div_mod (Z.pos m) (2 ^ (- e)) ltac:(apply Z.pow_nonzero; lia)) as D. rewrite F, Z.add_0_r in D.
      rewrite D at 1. assert (2 ^ 1074 = 2 ^ (- e) * 2 ^ (e + 1074)) as -> by (rewrite <- Z.pow_add_r by lia; f_equal; lia). ring. }
  unfold units in E. destruct E as (E1 & E2). split; [exact E1|]. split; [|exact E2]. rewrite E1 in P. assert (0 < 2 ^ 1074) by (apply Z.pow_pos_nonneg; lia). nia.
Qed.

(** The integers left by the loop are the decimals times a power of ten. *)
Lemma exact_decimal : forall k j i a, 0 <= j -> 0 < i < 2 ^ 42 -> 0 < a < two32 -> Z.of_nat k <= 369 ->
    Z.abs (i * 2 ^ 1074 * 10 ^ Z.of_nat k - a * 2 ^ 1074 * 10 ^ j) * 2 ^ 53 <= (2 * Z.of_nat k + 1) * (a * 2 ^ 1074 * 10 ^ j) ->
    i * 10 ^ Z.of_nat k = a * 10 ^ j.
Proof.
  intros k j i a J I A K H. set (n := Z.of_nat k) in *. assert (N : 0 <= n) by (unfold n; lia). clearbody n.
  assert (T : 0 < 2 ^ 1074) by (apply Z.pow_pos_nonneg; lia). set (t := 2 ^ 1074) in *. clearbody t.
  assert (H1 : Z.abs (i * 10 ^ n - a * 10 ^ j) * 2 ^ 53 <= 739 * (a * 10 ^ j)).
  { replace (i * t * 10 ^ n - a * t * 10 ^ j) with ((i * 10 ^ n - a * 10 ^ j) * t) in H by ring. rewrite Z.abs_mul, (Z.abs_eq t) in H by lia.
    assert (P : 0 < 10 ^ j) by (apply Z.pow_pos_nonneg; lia). assert (0 < a * 10 ^ j) by (apply Z.mul_pos_pos; lia).
    set (X := Z.abs (i * 10 ^ n - a * 10 ^ j)) in *. set (Y := a * 10 ^ j) in *.
    replace (X * t * 2 ^ 53) with (X * 2 ^ 53 * t) in H by ring. replace ((2 * n + 1) * (a * t * 10 ^ j)) with ((2 * n + 1) * Y * t) in H by (unfold Y; ring).
    apply Z.mul_le_mono_pos_r in H; [|exact T]. assert ((2 * n + 1) * Y <= 739 * Y) by (apply Z.mul_le_mono_nonneg_r; lia). lia. }
  unfold two32 in A. change (2 ^ 53) with 9007199254740992 in H1. change (2 ^ 42) with 4398046511104 in I.
  destruct (Z.le_ge_cases j n) as [L|L].
  - assert (E : 10 ^ n = 10 ^ (n - j) * 10 ^ j) by (rewrite <- Z.pow_add_r by lia; f_equal; lia). rewrite E in *.
    assert (P : 0 < 10 ^ j) by (apply Z.pow_pos_nonneg; lia). set (p := 10 ^ j) in *. set (w := 10 ^ (n - j)) in *. clearbody p w.
    replace (i * (w * p) - a * p) with ((i * w - a) * p) in H1 by ring. rewrite Z.abs_mul, (Z.abs_eq p) in H1 by lia.
    replace (Z.abs (i * w - a) * p * 9007199254740992) with (Z.abs (i * w - a) * 9007199254740992 * p) in H1 by ring.
    replace (739 * (a * p)) with (739 * a * p) in H1 by ring. apply Z.mul_le_mono_pos_r in H1; [|exact P]. assert (i * w = a) by lia. nia.
  - assert (E : 10 ^ j = 10 ^ (j - n) * 10 ^ n) by (rewrite <- Z.pow_add_r by lia; f_equal; lia). rewrite E in *.
    assert (P : 0 < 10 ^ n) by (apply Z.pow_pos_nonneg; lia). set (p := 10 ^ n) in *. set (w := 10 ^ (j - n)) in *. clearbody p w.
    replace (i * p - a * (w * p)) with ((i - a * w) * p) in H1 by ring. rewrite Z.abs_mul, (Z.abs_eq p) in H1 by lia.
    replace (Z.abs (i - a * w) * p * 9007199254740992) with (Z.abs (i - a * w) * 9007199254740992 * p) in H1 by ring.
    replace (739 * (a * (w * p))) with (739 * (a * w) * p) in H1 by ring. apply Z.mul_le_mono_pos_r in H1; [|exact P]. set (y := a * w) in *.
    assert (i = y) as -> by lia. unfold y. ring.
Qed.
