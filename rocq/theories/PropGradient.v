(** * C80: refinement of a floorplan by temperature gradients *)
From Coq Require Import ZArith QArith Qabs Qminmax Qround Bool List String Ascii Lia Lqa Permutation Sorting.Sorted.
From Verif Require Import Base Flex Vtk VtkSpec VtkProofs FlpText FlpTextSpec FlpTextProofs FlpLexProofs FlpGramProofs FlpPrintProofs PropFlpText DivisionSpec Gradient GradientSpec.
Import ListNotations.
Local Open Scope list_scope.
Local Open Scope Z_scope.

(** ** Averages *)
Lemma inside_iff : forall e c, inside e c = true <-> corner_in e c.
Proof. intros e c. unfold inside, corner_in. rewrite !andb_true_iff, !Qle_bool_iff. tauto. Qed.
Lemma sum_fold : forall l t, (fold_left (fun t c => t + gradient c) l t == t + Qsum (map gradient l))%Q.
Proof. induction l; intros t; cbn [fold_left map Qsum]; [ring|]. rewrite IHl. ring. Qed.
Lemma split_filter : forall {A} (f : A -> bool) l, Permutation l (filter f l ++ filter (fun x => negb (f x)) l).
Proof.
  intros A f. induction l as [|x l IH]; [reflexivity|]. cbn [filter]. destruct (f x); cbn [negb app].
  - apply perm_skip. exact IH.
  - rewrite IH at 1. apply Permutation_middle.
Qed.
Lemma average_spec : forall cells e, match average cells e with
  | Some a => is_average cells e a
  | None => ~ covered cells e
  end.
Proof.
  intros cells e. unfold average. destruct (filter (inside e) cells) as [|c l] eqn:F.
  - intros (c & Hc & I). apply inside_iff in I. assert (X : In c (filter (inside e) cells)) by (apply filter_In; split; assumption). rewrite F in X. destruct X.
  - exists (c :: l), (filter (fun x => negb (inside e x)) cells). split; [rewrite <- F; apply split_filter|]. split.
    { rewrite <- F. apply Forall_forall. intros x Hx. apply filter_In in Hx. apply inside_iff. tauto. }
    split; [apply Forall_forall; intros x Hx; apply filter_In in Hx; destruct Hx as (_ & Hx); rewrite negb_true_iff in Hx; intros C; apply inside_iff in C; congruence|].
    split; [discriminate|]. unfold mean. rewrite map_length. apply Qmult_comp; [|reflexivity]. rewrite sum_fold. ring.
Qed.
Lemma averages_spec : forall cells es, (exists e, In e es /\ ~ covered cells e) \/ exists avs, map (average cells) es = map Some avs /\ Forall2 (is_average cells) es avs.
Proof.
  intros cells. induction es as [|e es IH]; [right; exists []; split; [reflexivity|constructor]|].
  assert (A := average_spec cells e). destruct IH as [(x & X1 & X2)|(avs & E & F)].
  - left. exists x. split; [right; exact X1|exact X2].
  - destruct (average cells e) as [a|] eqn:EA.
    + right. exists (a :: avs). split; [cbn [map]; rewrite EA, E; reflexivity|constructor; assumption].
    + left. exists e. split; [left; reflexivity|exact A].
Qed.
Lemma numbers_all : forall l, numbers (map Some l) = l.
Proof. induction l; cbn [map numbers]; congruence. Qed.
Lemma min_spec : forall r x, least_of (fold_left Qmin r x) (x :: r).
Proof.
  induction r as [|y r IH]; intros x; cbn [fold_left].
  - split; [left; reflexivity|constructor; [apply Qle_refl|constructor]].
  - destruct (IH (Qmin x y)) as (A & B). inversion B as [|z l B1 B2]. subst. split.
    + inversion A as [z l E|z l E]; subst; [|right; right; exact E]. destruct (Q.min_spec x y) as [(_ & M)|(_ & M)]; rewrite M in E at 2.
      * left. exact E.
      * right. left. exact E.
    + assert (M1 := Q.le_min_l x y). assert (M2 := Q.le_min_r x y). constructor; [lra|]. constructor; [lra|exact B2].
Qed.
Lemma max_spec : forall r x, greatest_of (fold_left Qmax r x) (x :: r).
Proof.
  induction r as [|y r IH]; intros x; cbn [fold_left].
  - split; [left; reflexivity|constructor; [apply Qle_refl|constructor]].
  - destruct (IH (Qmax x y)) as (A & B). inversion B as [|z l B1 B2]. subst. split.
    + inversion A as [z l E|z l E]; subst; [|right; right; exact E]. destruct (Q.max_spec x y) as [(_ & M)|(_ & M)]; rewrite M in E at 2.
      * right. left. exact E.
      * left. exact E.
    + assert (M1 := Q.le_max_l x y). assert (M2 := Q.le_max_r x y). constructor; [lra|]. constructor; [lra|exact B2].
Qed.
Lemma normalise_spec : forall avs, avs <> [] -> exists lo hi, least_of lo avs /\ greatest_of hi avs /\ normalise (map Some avs) = map (fun a => Some (relative lo hi a)) avs.
Proof.
  intros [|x r] H; [congruence|]. exists (fold_left Qmin r x), (fold_left Qmax r x). split; [apply min_spec|]. split; [apply max_spec|].
  unfold normalise. rewrite numbers_all. rewrite map_map. reflexivity.
Qed.
Lemma relative_bounds : forall lo hi a, (lo <= a)%Q -> (a <= hi)%Q -> (0 <= relative lo hi a <= 1)%Q.
Proof.
  intros lo hi a H1 H2. unfold relative. assert (P : (0 < hi - lo + float_eps)%Q). { assert (E : (0 < float_eps)%Q) by reflexivity. lra. }
  assert (E : (0 < float_eps)%Q) by reflexivity. split.
  - apply Qle_shift_div_l; [exact P|]. lra.
  - apply Qle_shift_div_r; [exact P|]. lra.
Qed.

(** ** The percentile *)
Lemma put_perm : forall x l, Permutation (put x l) (x :: l).
Proof. intros x. induction l as [|y l IH]; cbn [put]; [reflexivity|]. destruct (Qle_bool x y); [reflexivity|]. rewrite IH. apply perm_swap. Qed.
Lemma sorted_perm : forall l, Permutation (sorted l) l.
Proof. induction l as [|x l IH]; [reflexivity|]. cbn [sorted fold_right]. rewrite put_perm. apply perm_skip. exact IH. Qed.
Lemma put_sorted : forall x l, StronglySorted Qle l -> StronglySorted Qle (put x l).
Proof.
  intros x. induction l as [|y l IH]; intros H; cbn [put]; [constructor; constructor|]. inversion H as [|z k H1 H2]. subst. destruct (Qle_bool x y) eqn:E.
  - apply Qle_bool_iff in E. constructor; [exact H|]. constructor; [exact E|]. eapply Forall_impl; [|exact H2]. intros z Hz. cbn beta in Hz. exact (Qle_trans _ _ _ E Hz).
  - assert (L : (y <= x)%Q). { apply Qlt_le_weak, Qnot_le_lt. intros C. apply Qle_bool_iff in C. congruence. }
    constructor; [exact (IH H1)|]. apply Forall_forall. intros z Hz. apply (Permutation_in z (put_perm x l)) in Hz. destruct Hz as [<-|Hz]; [exact L|]. rewrite Forall_forall in H2. exact (H2 z Hz).
Qed.
Lemma sorted_sorted : forall l, StronglySorted Qle (sorted l).
Proof. induction l; [constructor|]. apply put_sorted. exact IHl. Qed.
Lemma percentile_spec : forall l p, l <> [] -> (0 <= p <= 100)%Q -> exists v, percentile (map Some l) p = Some v /\ is_percentile p l v.
Proof.
  intros l p NE HP. unfold percentile. rewrite numbers_all. assert (PM := sorted_perm l). assert (ST := sorted_sorted l).
  assert (LN : (1 <= List.length (sorted l))%nat). { rewrite (Permutation_length PM). destruct l; [congruence|cbn [List.length]; lia]. }
  set (s := sorted l) in *. clearbody s.
  set (h := (inject_Z (Z.of_nat (List.length s) - 1) * (p / 100))%Q).
  assert (H0 : (0 <= h)%Q). { unfold h. apply Qmult_le_0_compat; [unfold Qle; cbn; lia|]. apply Qle_shift_div_l; [reflexivity|]. lra. }
  assert (H1 : (h <= inject_Z (Z.of_nat (List.length s) - 1))%Q).
  { unfold h. assert (X : (p / 100 <= 1)%Q) by (apply Qle_shift_div_r; [reflexivity|lra]). assert (Y : (0 <= inject_Z (Z.of_nat (List.length s) - 1))%Q) by (unfold Qle; cbn; lia).
    set (w := inject_Z (Z.of_nat (List.length s) - 1)) in *. setoid_replace w with (w * 1)%Q at 2 by ring. rewrite (Qmult_comm w (p / 100)), (Qmult_comm w 1). apply Qmult_le_compat_r; assumption. }
  assert (K0 : 0 <= Qfloor h). { change 0 with (Qfloor 0). apply Qfloor_resp_le. exact H0. }
  assert (K1 : Qfloor h <= Z.of_nat (List.length s) - 1). { rewrite <- (Qfloor_Z (Z.of_nat (List.length s) - 1)). apply Qfloor_resp_le. exact H1. }
  assert (KL : (Z.to_nat (Qfloor h) < List.length s)%nat) by lia.
  exists (nth (Z.to_nat (Qfloor h)) s 0 + (h - inject_Z (Qfloor h)) * (nth (Nat.min (S (Z.to_nat (Qfloor h))) (List.length s - 1)) s 0 - nth (Z.to_nat (Qfloor h)) s 0))%Q.
  split; [destruct s; [cbn [List.length] in LN; lia|]; reflexivity|].
  exists s. split; [exact PM|]. split; [exact ST|]. cbv zeta. fold h. exists (Z.to_nat (Qfloor h)), (nth (Z.to_nat (Qfloor h)) s 0%Q), (nth (Nat.min (S (Z.to_nat (Qfloor h))) (List.length s - 1)) s 0%Q), (h - inject_Z (Qfloor h))%Q.
  split; [lia|]. split; [apply nth_error_nth'; exact KL|]. split.
  - destruct (Nat.lt_ge_cases (S (Z.to_nat (Qfloor h))) (List.length s)) as [C|C].
    + left. rewrite Nat.min_l by lia. apply nth_error_nth'. exact C.
    + right. split; [lia|]. rewrite Nat.min_r by lia. f_equal. lia.
  - split; [reflexivity|]. ring.
Qed.
Lemma percentile_bounds : forall p l v lo hi, is_percentile p l v -> Forall (fun x => lo <= x <= hi)%Q l -> (lo <= v <= hi)%Q.
Proof.
  intros p l v lo hi (s & PM & _ & H) HF. cbv zeta in H. destruct H as (k & a & b & t & K & A & B & T & V). set (h := (inject_Z (Z.of_nat (List.length s) - 1) * (p / 100))%Q) in *.
  assert (T0 : (0 <= t)%Q) by (assert (G := Qfloor_le h); lra). assert (T1 : (t <= 1)%Q).
  { assert (G := Qlt_floor h). rewrite inject_Z_plus in G. unfold inject_Z in G at 2. lra. }
  assert (IN : forall i x, nth_error s i = Some x -> (lo <= x <= hi)%Q). { intros i x E. apply nth_error_In in E. apply (Permutation_in x PM) in E. rewrite Forall_forall in HF. exact (HF x E). }
  assert (HA := IN k a A). assert (HB : (lo <= b <= hi)%Q). { destruct B as [B|(_ & ->)]; [exact (IN _ b B)|exact HA]. }
  assert (E1 : (0 <= (1 - t) * (a - lo))%Q) by (apply Qmult_le_0_compat; lra). assert (E2 : (0 <= t * (b - lo))%Q) by (apply Qmult_le_0_compat; lra).
  assert (E3 : (0 <= (1 - t) * (hi - a))%Q) by (apply Qmult_le_0_compat; lra). assert (E4 : (0 <= t * (hi - b))%Q) by (apply Qmult_le_0_compat; lra). split; lra.
Qed.

(** ** Sizes and counts *)
Lemma refined_spec : forall t lo hi, (lo <= hi)%Q -> kept_between lo hi t (refined t lo hi).
Proof.
  intros t lo hi H. unfold refined, kept_between. destruct (Q.max_spec t lo) as [(A & B)|(A & B)].
  - left. split; [lra|]. rewrite B. apply Q.min_l. exact H.
  - destruct (Q.min_spec (Qmax t lo) hi) as [(C & D)|(C & D)].
    + right. left. rewrite B in C. split; [split; lra|]. rewrite D. exact B.
    + right. right. rewrite B in C. split; [exact C|exact D].
Qed.
Lemma kept_range : forall lo hi t s, (lo <= hi)%Q -> kept_between lo hi t s -> (lo <= s <= hi)%Q.
Proof. intros lo hi t s H [(A & B)|[(A & B)|(A & B)]]; lra. Qed.
Lemma kept_monotone : forall lo hi t t' s s', (lo <= hi)%Q -> (t <= t')%Q -> kept_between lo hi t s -> kept_between lo hi t' s' -> (s <= s')%Q.
Proof. intros lo hi t t' s s' H T [(A & B)|[(A & B)|(A & B)]] [(C & D)|[(C & D)|(C & D)]]; lra. Qed.
Lemma ceiling_least : forall h s n, (0 < s)%Q -> (h <= inject_Z n * s)%Q <-> Qceiling (h / s) <= n.
Proof.
  intros h s n P. split; intros H.
  - rewrite <- (Qceiling_Z n). apply Qceiling_resp_le. apply Qle_shift_div_r; assumption.
  - assert (A := Qle_ceiling (h / s)). assert (B : (inject_Z (Qceiling (h / s)) <= inject_Z n)%Q) by (rewrite <- Zle_Qle; exact H).
    assert (C : (h == h / s * s)%Q) by (field; lra). rewrite C. apply Qmult_le_compat_r; lra.
Qed.
Lemma count_coarsest : forall lx ly sx sy, (0 < sx)%Q -> (0 < sy)%Q -> coarsest lx ly sx sy (Z.max (Qceiling (lx / sx)) (Qceiling (ly / sy))).
Proof.
  intros lx ly sx sy PX PY. split; [apply ceiling_least; [exact PX|lia]|]. split; [apply ceiling_least; [exact PY|lia]|].
  intros m H1 H2. apply ceiling_least in H1; [|exact PX]. apply ceiling_least in H2; [|exact PY]. lia.
Qed.
Lemma counts_none : forall a p es, (exists e, In (e, None) es) -> counts a p es = None.
Proof.
  intros a p. induction es as [|[e [m|]] es IH]; intros (x & H); [destruct H| |reflexivity].
  destruct H as [H|H]; [discriminate H|]. assert (G := IH (ex_intro _ x H)). cbn [counts]. destruct p; [|reflexivity]. rewrite G. reflexivity.
Qed.
Lemma counts_some : forall a p es ms, List.length es = List.length ms -> counts a (Some p) (combine es (map Some ms)) = Some (map (fun x => count a p (fst x) (snd x)) (combine es ms)).
Proof.
  intros a p. induction es as [|e es IH]; intros [|m ms] H; try discriminate H; cbn [map combine counts]; [reflexivity|].
  rewrite IH by (cbn [List.length] in H; lia). reflexivity.
Qed.
Record valid_settings (a : settings) : Prop := {
  va_percentage : (0 <= percentage a <= 100)%Q;
  va_x : (0 < min_x a <= max_x a)%Q;
  va_y : (0 < min_y a <= max_y a)%Q }.
Lemma valid_iff : forall a, valid a = true <-> valid_settings a.
Proof.
  intros a. unfold valid. rewrite !andb_true_iff, !negb_true_iff, !orb_false_iff, !Qle_bool_iff. split.
  - intros (((((A & B) & C & D) & E & F) & G) & H).
    assert (N : forall x, Qle_bool x 0 = false -> (0 < x)%Q) by (intros x X; apply Qnot_le_lt; intros K; apply Qle_bool_iff in K; congruence).
    apply N in C, D. constructor; split; assumption.
  - intros [(A & B) (C & D) (E & F)]. assert (N : forall x, (0 < x)%Q -> Qle_bool x 0 = false) by (intros x X; destruct (Qle_bool x 0) eqn:K; [apply Qle_bool_iff in K; lra|reflexivity]).
    repeat match goal with |- _ /\ _ => split end; try assumption; apply N; lra.
Qed.
Lemma normalise_missing : forall l k, nth_error l k = Some None -> nth_error (normalise l) k = Some None.
Proof. intros l k H. unfold normalise. destruct (numbers l); rewrite nth_error_map, H; reflexivity. Qed.
Lemma refine_missing : forall a cells es e, In e es -> ~ covered cells e -> refine a cells es = None.
Proof.
  intros a cells es e He HC. unfold refine. apply counts_none. exists e.
  apply In_nth_error in He. destruct He as (k & He). assert (A := average_spec cells e).
  assert (NA : average cells e = None). { destruct (average cells e) as [x|]; [|reflexivity]. exfalso. apply HC. destruct A as (l & out & PM & HI & _ & NE & _).
    destruct l as [|c l]; [congruence|]. inversion HI. subst. exists c. split; [apply (Permutation_in c (Permutation_sym PM)); left; reflexivity|assumption]. }
  assert (N1 : nth_error (map (average cells) es) k = Some None) by (rewrite nth_error_map, He; cbn [option_map]; rewrite NA; reflexivity).
  apply normalise_missing in N1. clear - He N1. set (ms := normalise (map (average cells) es)) in *. clearbody ms. revert es ms He N1.
  induction k; intros [|x es] [|m ms] H1 H2; try discriminate H1; try discriminate H2; cbn [nth_error combine] in *.
  - injection H1 as ->. injection H2 as ->. left. reflexivity.
  - right. exact (IHk es ms H1 H2).
Qed.
Lemma refine_some : forall a cells es, valid a = true -> es <> [] -> (forall e, In e es -> covered cells e) ->
  exists avs lo hi ref, Forall2 (is_average cells) es avs /\ least_of lo avs /\ greatest_of hi avs /\
    is_percentile (percentage a) (map (relative lo hi) avs) ref /\
    refine a cells es = Some (map (fun x => count a ref (fst x) (relative lo hi (snd x))) (combine es avs)).
Proof.
  intros a cells es V NE HC. apply valid_iff in V. destruct V as [VP _ _]. destruct (averages_spec cells es) as [(e & E1 & E2)|(avs & E & F)].
  { exfalso. apply E2. exact (HC e E1). }
  assert (LN : List.length es = List.length avs) by (clear - F; induction F; cbn [List.length]; congruence).
  assert (NA : avs <> []) by (intros ->; destruct es; [congruence|discriminate LN]). destruct (normalise_spec avs NA) as (lo & hi & L & H & N).
  assert (NM : map (relative lo hi) avs <> []) by (destruct avs; [congruence|discriminate]).
  destruct (percentile_spec (map (relative lo hi) avs) (percentage a) NM VP) as (ref & R1 & R2).
  exists avs, lo, hi, ref. split; [exact F|]. split; [exact L|]. split; [exact H|]. split; [exact R2|].
  unfold refine. rewrite E, N. rewrite <- map_map with (f := relative lo hi) (g := Some). rewrite R1. rewrite counts_some by (rewrite map_length; exact LN). f_equal.
  clear. revert avs. induction es as [|e es IH]; intros [|m avs]; cbn [combine map]; try reflexivity. rewrite IH. reflexivity.
Qed.

(** The tool fails exactly for wrong arguments, without elements, and when an element
    contains the corner of no cell (a small element: the division of NaN). *)
Theorem C80_fails : forall a cells es, tool a cells es = None <-> valid a = false \/ es = [] \/ exists e, In e es /\ ~ covered cells e.
Proof.
  intros a cells es. unfold tool. destruct (valid a) eqn:V; cbn [negb]; [|tauto]. destruct es as [|e0 r] eqn:E; [tauto|]. rewrite <- E. split.
  - intros H. right. right. destruct (averages_spec cells es) as [X|(avs & A & F)]; [exact X|]. exfalso.
    destruct (refine_some a cells es V) as (avs' & lo & hi & ref & _ & _ & _ & _ & R); [rewrite E; discriminate| |rewrite R in H; discriminate H].
    intros e He. clear - F He. induction F as [|x y l1 l2 H1 H2 IH]; [destruct He|]. destruct He as [<-|He]; [|exact (IH He)].
    destruct H1 as (l & out & PM & HI & _ & NE & _). destruct l as [|c l]; [congruence|]. inversion HI. subst. exists c. split; [apply (Permutation_in c (Permutation_sym PM)); left; reflexivity|assumption].
  - intros [C|[C|(e & E1 & E2)]]; [discriminate C|rewrite E in C; discriminate C|]. rewrite (refine_missing a cells es e E1 E2). reflexivity.
Qed.
Print Assumptions C80_fails.

(** Every element is divided by the coarsest square array of cells whose sides are at most
    the size asked for: its side times the percentile of the relative gradients over its
    own, kept between the limits. *)
Theorem C80_cells : forall a cells es ns, valid a = true -> es <> [] -> refine a cells es = Some ns ->
  exists avs lo hi ref, Forall2 (is_average cells) es avs /\ least_of lo avs /\ greatest_of hi avs /\
    is_percentile (percentage a) (map (relative lo hi) avs) ref /\ (0 <= ref <= 1)%Q /\
    Forall2 (fun x n => exists sx sy,
               kept_between (min_x a) (max_x a) (p_length (fst x) * (ref / (relative lo hi (snd x) + (1 # 1000000)))) sx /\
               kept_between (min_y a) (max_y a) (p_width (fst x) * (ref / (relative lo hi (snd x) + (1 # 1000000)))) sy /\
               coarsest (p_length (fst x)) (p_width (fst x)) sx sy n) (combine es avs) ns.
Proof.
  intros a cells es ns V NE R.
  assert (HC : forall e, In e es -> covered cells e).
  { intros e He. assert (A := average_spec cells e). destruct (average cells e) as [x|] eqn:EA; [|rewrite (refine_missing a cells es e He A) in R; discriminate R].
    destruct A as (l & out & PM & HI & _ & NL & _). destruct l as [|c l]; [congruence|]. inversion HI. subst. exists c. split; [apply (Permutation_in c (Permutation_sym PM)); left; reflexivity|assumption]. }
  destruct (refine_some a cells es V NE HC) as (avs & lo & hi & ref & F & L & H & P & E). rewrite R in E. injection E as ->.
  exists avs, lo, hi, ref. split; [exact F|]. split; [exact L|]. split; [exact H|]. split; [exact P|]. split.
  - apply (percentile_bounds _ _ _ _ _ P). apply Forall_forall. intros x Hx. apply in_map_iff in Hx. destruct Hx as (y & <- & Hy). destruct L as (_ & L). destruct H as (_ & H).
    rewrite Forall_forall in L, H. apply relative_bounds; [exact (L y Hy)|exact (H y Hy)].
  - apply valid_iff in V. destruct V as [_ (X1 & X2) (Y1 & Y2)]. clear - X1 X2 Y1 Y2. induction (combine es avs) as [|[e x] l IH]; cbn [map]; constructor; [|exact IH]. cbn [fst snd]. unfold count, small.
    set (tx := (p_length e * (ref / (relative lo hi x + (1 # 1000000))))%Q). set (ty := (p_width e * (ref / (relative lo hi x + (1 # 1000000))))%Q).
    exists (refined tx (min_x a) (max_x a)), (refined ty (min_y a) (max_y a)). assert (KX := refined_spec tx _ _ X2). assert (KY := refined_spec ty _ _ Y2).
    assert (RX := kept_range _ _ _ _ X2 KX). assert (RY := kept_range _ _ _ _ Y2 KY). split; [exact KX|]. split; [exact KY|]. apply count_coarsest; lra.
Qed.
Print Assumptions C80_cells.

(** So the cells of an element are never larger than the greatest size allowed, and fewer
    cells would do if all were to be larger than the least size. *)
Theorem C80_size : forall a cells es ns, valid a = true -> es <> [] -> refine a cells es = Some ns ->
  Forall2 (fun e n => (0 < p_length e)%Q ->
             1 <= n /\ (p_length e <= inject_Z n * max_x a)%Q /\ (p_width e <= inject_Z n * max_y a)%Q /\
             ((inject_Z (n - 1) * min_x a < p_length e)%Q \/ (inject_Z (n - 1) * min_y a < p_width e)%Q)) es ns.
Proof.
  intros a cells es ns V NE R. destruct (C80_cells a cells es ns V NE R) as (avs & lo & hi & ref & F & _ & _ & _ & _ & C). apply valid_iff in V. destruct V as [_ (X1 & X2) (Y1 & Y2)].
  clear R NE. revert ns C. induction F as [|e x es avs HX HF IH]; intros ns C; cbn [combine] in C; inversion C as [|p n l1 l2 C1 C2]; subst; constructor; [|exact (IH _ C2)].
  destruct C1 as (sx & sy & KX & KY & (A & B & D)). cbn [fst snd] in *. assert (RX := kept_range _ _ _ _ X2 KX). assert (RY := kept_range _ _ _ _ Y2 KY).
  intros P. assert (POS : 1 <= n).
  { destruct (Z.lt_ge_cases n 1) as [N|N]; [exfalso|exact N]. assert (Q0 : (inject_Z n <= 0)%Q) by (unfold Qle; cbn; lia).
    assert (Q1 : (inject_Z n * sx <= 0 * sx)%Q) by (apply Qmult_le_compat_r; lra). lra. }
  assert (BIG : forall h s m, (0 < s <= m)%Q -> (h <= inject_Z n * s)%Q -> (h <= inject_Z n * m)%Q).
  { intros h s m (S0 & S1) Hh. assert (Q0 : (0 <= inject_Z n)%Q) by (unfold Qle; cbn; lia). assert (Q1 : (s * inject_Z n <= m * inject_Z n)%Q) by (apply Qmult_le_compat_r; assumption). lra. }
  split; [exact POS|]. split; [apply (BIG _ sx); [split; lra|exact A]|]. split; [apply (BIG _ sy); [split; lra|exact B]|].
  destruct (Qlt_le_dec (inject_Z (n - 1) * min_x a) (p_length e)) as [G|G]; [left; exact G|]. destruct (Qlt_le_dec (inject_Z (n - 1) * min_y a) (p_width e)) as [G2|G2]; [right; exact G2|].
  exfalso. assert (Q0 : (0 <= inject_Z (n - 1))%Q) by (unfold Qle; cbn; lia).
  assert (Q1 : (min_x a * inject_Z (n - 1) <= sx * inject_Z (n - 1))%Q) by (apply Qmult_le_compat_r; lra).
  assert (Q2 : (min_y a * inject_Z (n - 1) <= sy * inject_Z (n - 1))%Q) by (apply Qmult_le_compat_r; lra).
  assert (G3 := D (n - 1) ltac:(lra) ltac:(lra)). lia.
Qed.
Print Assumptions C80_size.

Lemma coarsest_positive : forall lx ly sx sy n, (0 < lx)%Q -> (0 < sx)%Q -> coarsest lx ly sx sy n -> 1 <= n.
Proof.
  intros lx ly sx sy n P S (A & _). destruct (Z.lt_ge_cases n 1) as [N|N]; [exfalso|exact N]. assert (Q0 : (inject_Z n <= 0)%Q) by (unfold Qle; cbn; lia).
  assert (Q1 : (inject_Z n * sx <= 0 * sx)%Q) by (apply Qmult_le_compat_r; lra). lra.
Qed.
Lemma coarsest_monotone : forall lx ly sx sy sx' sy' n n', (0 < lx)%Q -> (0 < sx')%Q -> (0 < sy')%Q -> (sx' <= sx)%Q -> (sy' <= sy)%Q ->
  coarsest lx ly sx sy n -> coarsest lx ly sx' sy' n' -> n <= n'.
Proof.
  intros lx ly sx sy sx' sy' n n' P PX PY SX SY (_ & _ & D) C. assert (N := coarsest_positive _ _ _ _ _ P PX C). destruct C as (A & B & _).
  assert (Q0 : (0 <= inject_Z n')%Q) by (unfold Qle; cbn; lia). apply D.
  - assert (Q1 : (sx' * inject_Z n' <= sx * inject_Z n')%Q) by (apply Qmult_le_compat_r; assumption). lra.
  - assert (Q1 : (sy' * inject_Z n' <= sy * inject_Z n')%Q) by (apply Qmult_le_compat_r; assumption). lra.
Qed.
Lemma Forall2_at : forall {A B} (R : A -> B -> Prop) l k i a, Forall2 R l k -> nth_error l i = Some a -> exists b, nth_error k i = Some b /\ R a b.
Proof.
  intros A B R l k i a H. revert i. induction H; intros i E; [destruct i; discriminate E|]. destruct i as [|i].
  - cbn in E. injection E as <-. exists y. split; [reflexivity|assumption].
  - exact (IHForall2 i E).
Qed.
Lemma combine_at : forall {A B} (l : list A) (k : list B) i a b, nth_error l i = Some a -> nth_error k i = Some b -> nth_error (combine l k) i = Some (a, b).
Proof.
  intros A B. induction l as [|x l IH]; intros [|y k] [|i] a b H1 H2; try discriminate H1; try discriminate H2; cbn [nth_error combine] in *.
  - injection H1 as ->. injection H2 as ->. reflexivity.
  - exact (IH k i a b H1 H2).
Qed.
Lemma average_unique : forall cells e a b, is_average cells e a -> is_average cells e b -> (a == b)%Q.
Proof.
  assert (G : forall cells e a, is_average cells e a -> exists x, average cells e = Some x /\ (a == x)%Q).
  { intros cells e a (l & out & PM & HI & HO & NE & E). unfold average.
    assert (PF : Permutation (filter (inside e) cells) l).
    { assert (PF : Permutation (filter (inside e) cells) (filter (inside e) (l ++ out))).
      { clear - PM. induction PM; cbn [filter]; try reflexivity; repeat match goal with |- context [inside e ?x] => destruct (inside e x) end; try (now repeat apply perm_skip); try apply perm_swap; try assumption; try (now etransitivity; eassumption).
        all: try reflexivity. }
      rewrite filter_app in PF. assert (F1 : filter (inside e) l = l). { clear - HI. induction HI; [reflexivity|]. cbn [filter]. apply inside_iff in H. rewrite H, IHHI. reflexivity. }
      assert (F2 : filter (inside e) out = []). { clear - HO. induction HO as [|c l H1 H2 IH]; [reflexivity|]. cbn [filter]. destruct (inside e c) eqn:X; [apply inside_iff in X; contradiction|exact IH]. }
      rewrite F1, F2, app_nil_r in PF. exact PF. }
    destruct (filter (inside e) cells) as [|c r] eqn:F; [apply Permutation_nil in PF; congruence|]. eexists. split; [reflexivity|].
    rewrite E. unfold mean. rewrite map_length, <- (Permutation_length PF). apply Qmult_comp; [|reflexivity]. rewrite sum_fold.
    assert (S1 : forall l1 l2, Permutation l1 l2 -> (Qsum (map gradient l1) == Qsum (map gradient l2))%Q).
    { clear. intros l1 l2 H. induction H; cbn [map Qsum]; [reflexivity|rewrite IHPermutation; reflexivity|ring|rewrite IHPermutation1; assumption]. }
    rewrite <- (S1 _ _ PF). ring. }
  intros cells e a b HA HB. destruct (G _ _ _ HA) as (x & X1 & X2). destruct (G _ _ _ HB) as (y & Y1 & Y2). rewrite X1 in Y1. injection Y1 as <-. rewrite X2, Y2. reflexivity.
Qed.

Lemma relative_monotone : forall lo hi x y, (lo <= hi)%Q -> (x <= y)%Q -> (relative lo hi x <= relative lo hi y)%Q.
Proof.
  intros lo hi x y H XY. unfold relative. assert (E : (0 < float_eps)%Q) by reflexivity. assert (P : (0 < hi - lo + float_eps)%Q) by lra.
  unfold Qdiv. apply Qmult_le_compat_r; [lra|]. apply Qlt_le_weak, Qinv_lt_0_compat. exact P.
Qed.
Lemma ratio_antitone : forall ref u v s, (0 <= ref)%Q -> (0 <= u)%Q -> (u <= v)%Q -> (0 < s)%Q -> (ref / (v + s) <= ref / (u + s))%Q.
Proof.
  intros ref u v s R U UV S. apply Qle_shift_div_l; [lra|]. assert (W : (0 <= ref / (v + s))%Q) by (apply Qle_shift_div_l; lra).
  assert (E : (ref / (v + s) * (v + s) == ref)%Q) by (field; lra). set (w := (ref / (v + s))%Q) in *. clearbody w.
  assert (G : ((u + s) * w <= (v + s) * w)%Q) by (apply Qmult_le_compat_r; lra). lra.
Qed.

(** Of two elements of the same size the one with the greater average gradient gets at
    least as many cells. *)
Theorem C80_monotone : forall a cells es ns i j e f x y n m, valid a = true -> refine a cells es = Some ns ->
  nth_error es i = Some e -> nth_error es j = Some f -> nth_error ns i = Some n -> nth_error ns j = Some m ->
  (p_length e == p_length f)%Q -> (p_width e == p_width f)%Q -> (0 < p_length e)%Q -> (0 < p_width e)%Q ->
  is_average cells e x -> is_average cells f y -> (x <= y)%Q -> n <= m.
Proof.
  intros a cells es ns i j e f x y n m V R Ei Ej Ni Nj EL EW PL PW AX AY XY.
  assert (NE : es <> []) by (intros ->; destruct i; discriminate Ei).
  destruct (C80_cells a cells es ns V NE R) as (avs & lo & hi & ref & F & (_ & L) & (_ & H) & _ & RB & C). apply valid_iff in V. destruct V as [_ (X1 & X2) (Y1 & Y2)].
  destruct (Forall2_at _ _ _ _ _ F Ei) as (x' & E1 & A1). destruct (Forall2_at _ _ _ _ _ F Ej) as (y' & E2 & A2).
  assert (XX := average_unique _ _ _ _ AX A1). assert (YY := average_unique _ _ _ _ AY A2).
  destruct (Forall2_at _ _ _ _ _ C (combine_at _ _ _ _ _ Ei E1)) as (n' & N1 & sx & sy & KX & KY & CN). rewrite Ni in N1. injection N1 as <-.
  destruct (Forall2_at _ _ _ _ _ C (combine_at _ _ _ _ _ Ej E2)) as (m' & M1 & tx & ty & LX & LY & CM). rewrite Nj in M1. injection M1 as <-. cbn [fst snd] in *.
  assert (RX := kept_range _ _ _ _ X2 KX). assert (RY := kept_range _ _ _ _ Y2 KY). assert (SX := kept_range _ _ _ _ X2 LX). assert (SY := kept_range _ _ _ _ Y2 LY).
  rewrite Forall_forall in L, H. assert (B1 := L _ (nth_error_In _ _ E1)). assert (B2 := H _ (nth_error_In _ _ E1)).
  assert (U := relative_bounds lo hi x' B1 B2). assert (UV := relative_monotone lo hi x' y' ltac:(lra) ltac:(lra)).
  assert (RT := ratio_antitone ref _ _ (1 # 1000000) (proj1 RB) (proj1 U) UV eq_refl).
  set (rx := (ref / (relative lo hi x' + (1 # 1000000)))%Q) in *. set (ry := (ref / (relative lo hi y' + (1 # 1000000)))%Q) in *. clearbody rx ry.
  assert (TX : (p_length f * ry <= p_length e * rx)%Q). { rewrite <- EL. rewrite (Qmult_comm _ ry), (Qmult_comm _ rx). apply Qmult_le_compat_r; lra. }
  assert (TY : (p_width f * ry <= p_width e * rx)%Q). { rewrite <- EW. rewrite (Qmult_comm _ ry), (Qmult_comm _ rx). apply Qmult_le_compat_r; lra. }
  assert (MX := kept_monotone _ _ _ _ _ _ X2 TX LX KX). assert (MY := kept_monotone _ _ _ _ _ _ Y2 TY LY KY).
  assert (CM2 : coarsest (p_length e) (p_width e) tx ty m).
  { destruct CM as (A & B & D). split; [rewrite EL; exact A|]. split; [rewrite EW; exact B|]. intros k K1 K2. apply D; [rewrite <- EL; exact K1|rewrite <- EW; exact K2]. }
  apply (coarsest_monotone (p_length e) (p_width e) sx sy tx ty n m); try assumption; lra.
Qed.
Print Assumptions C80_monotone.

(** When all elements have the same average gradient (one element, for example), or for
    percentage 0, all get the finest cells allowed. *)
Lemma finest : forall a cells es ns avs lo hi ref, valid a = true -> (ref == 0)%Q -> 
  Forall2 (fun (x : part * Q) n => exists sx sy,
               kept_between (min_x a) (max_x a) (p_length (fst x) * (ref / (relative lo hi (snd x) + (1 # 1000000)))) sx /\
               kept_between (min_y a) (max_y a) (p_width (fst x) * (ref / (relative lo hi (snd x) + (1 # 1000000)))) sy /\
               coarsest (p_length (fst x)) (p_width (fst x)) sx sy n) (combine es avs) ns ->
  Forall2 (is_average cells) es avs ->
  Forall2 (fun e n => coarsest (p_length e) (p_width e) (min_x a) (min_y a) n) es ns.
Proof.
  intros a cells es ns avs lo hi ref V R C F. apply valid_iff in V. destruct V as [_ (X1 & X2) (Y1 & Y2)]. revert ns C.
  induction F as [|e x es avs HX HF IH]; intros ns C; cbn [combine] in C; inversion C as [|p n l1 l2 C1 C2]; subst; constructor; [|exact (IH _ C2)].
  destruct C1 as (sx & sy & KX & KY & (A & B & D)). cbn [fst snd] in *.
  assert (Z0 : forall h, (h * (ref / (relative lo hi x + (1 # 1000000))) == 0)%Q) by (intros h; rewrite R; unfold Qdiv; ring).
  assert (EX : (sx == min_x a)%Q). { assert (G := Z0 (p_length e)). destruct KX as [(K1 & K2)|[((K1 & K3) & K2)|(K1 & K2)]]; lra. }
  assert (EY : (sy == min_y a)%Q). { assert (G := Z0 (p_width e)). destruct KY as [(K1 & K2)|[((K1 & K3) & K2)|(K1 & K2)]]; lra. }
  split; [rewrite <- EX; exact A|]. split; [rewrite <- EY; exact B|]. intros k K1 K2. apply D; [rewrite EX; exact K1|rewrite EY; exact K2].
Qed.
Theorem C80_finest : forall a cells es ns, valid a = true -> es <> [] -> refine a cells es = Some ns ->
  (percentage a == 0)%Q \/ (forall e f x y, In e es -> In f es -> is_average cells e x -> is_average cells f y -> (x == y)%Q) ->
  Forall2 (fun e n => coarsest (p_length e) (p_width e) (min_x a) (min_y a) n) es ns.
Proof.
  intros a cells es ns V NE R HE. destruct (C80_cells a cells es ns V NE R) as (avs & lo & hi & ref & F & (L0 & L) & (H0 & H) & P & RB & C).
  apply (finest a cells es ns avs lo hi ref V); [|exact C|exact F].
  assert (AT : exists x0, In x0 avs /\ (relative lo hi x0 == 0)%Q).
  { apply Exists_exists in L0. destruct L0 as (x0 & I0 & E0). exists x0. split; [exact I0|]. unfold relative. rewrite <- E0. unfold Qdiv. ring. }
  destruct AT as (x0 & I0 & E0). destruct HE as [HE|HE].
  - destruct P as (s & PM & ST & K). cbv zeta in K. destruct K as (k & p & b & t & K & A & B & T & VV).
    assert (HZ : (inject_Z (Z.of_nat (List.length s) - 1) * (percentage a / 100) == 0)%Q) by (rewrite HE; unfold Qdiv; ring).
    set (h := (inject_Z (Z.of_nat (List.length s) - 1) * (percentage a / 100))%Q) in *. clearbody h.
    assert (FZ : Qfloor h = 0) by (rewrite HZ; reflexivity). rewrite FZ in K, T. change (inject_Z 0) with 0%Q in T. assert (k = 0%nat) by lia. subst k.
    assert (T0 : (t == 0)%Q) by lra.
    assert (I1 : In (relative lo hi x0) s) by (apply (Permutation_in _ (Permutation_sym PM)), in_map; exact I0).
    destruct s as [|s0 s]; [discriminate A|]. cbn in A. injection A as ->. inversion ST as [|? ? S1 S2]. subst.
    assert (G : (p <= 0)%Q). { rewrite <- E0. destruct I1 as [<-|I1]; [apply Qle_refl|]. rewrite Forall_forall in S2. exact (S2 _ I1). }
    assert (RV : (ref == p)%Q) by (rewrite VV, T0; ring). lra.
  - assert (ALL : Forall (fun x => 0 <= x <= 0)%Q (map (relative lo hi) avs)).
    { apply Forall_forall. intros y Hy. apply in_map_iff in Hy. destruct Hy as (x & <- & Hx).
      assert (SRC : forall z, In z avs -> exists e, In e es /\ is_average cells e z).
      { clear - F. intros z Hz. induction F as [|e x es avs H1 H2 IH]; [destruct Hz|]. destruct Hz as [<-|Hz]; [exists e; split; [left; reflexivity|exact H1]|].
        destruct (IH Hz) as (f & F1 & F2). exists f. split; [right; exact F1|exact F2]. }
      destruct (SRC x Hx) as (e & E1 & E2). destruct (SRC x0 I0) as (f & F1 & F2). assert (EQ := HE e f x x0 E1 F1 E2 F2).
      assert (RR : (relative lo hi x == 0)%Q) by (rewrite <- E0; unfold relative; rewrite EQ; reflexivity). lra. }
    assert (G := percentile_bounds _ _ _ _ _ P ALL). lra.
Qed.
Print Assumptions C80_finest.

(** *** The text that is written is read again *)
Lemma int_numeral : forall n, 0 < n -> exists m, numeral_ok m /\ str (int_text n) = numeral_text m /\ (numeral_value m == inject_Z n)%Q.
Proof.
  intros n P. unfold int_text. replace (n <? 0) with false by (symmetry; apply Z.ltb_ge; lia).
  assert (P0 : 0 <= n) by lia. destruct (digits_list (dec n) (dec_digit n P0)) as (l & A & B & D & V).
  exists (mkNumeral None l None None). split.
  - split; [|split; exact Logic.I]. split; [|exact B]. cbn. intros ->. apply (dec_nonempty n P0). destruct (dec n); [reflexivity|discriminate D].
  - split; [rewrite A; unfold numeral_text; cbn [n_sign n_int n_frac n_exp sign_text app]; rewrite app_nil_r; reflexivity|].
    unfold numeral_value. cbn [n_sign n_int n_frac n_exp signed]. rewrite Qred_correct. change (Qpower (10 # 1) 0) with 1%Q. change (inject_Z 1) with 1%Q.
    assert (E : digits_number 0 l = n) by (pose proof (dec_value n P0) as DV; specialize (V 0); congruence). rewrite E. ring.
Qed.
Notation lexed := (lex flp_rules O INITIAL).
Lemma lex_line_end : forall t, lexed (line_end ++ t) = lexed t.
Proof. intros t. change line_end with ["010"%char]. cbn [app]. apply lex_space. reflexivity. Qed.
Lemma lex_pair : forall x y t, numeral_ok x -> numeral_ok y ->
  lexed (numeral_text x ++ str ", " ++ numeral_text y ++ str " ;" ++ line_end ++ t) = map lexeme_tok (pair_lexemes x y) ++ lexed t.
Proof.
  intros x y t X Y. change (str ", ") with [","; " "]%char. change (str " ;") with [" "; ";"]%char. change line_end with ["010"%char]. cbn [app].
  rewrite lex_number by (assumption || reflexivity). rewrite lex_mark by (cbn; tauto). blanks.
  rewrite lex_number by (assumption || reflexivity). blanks. rewrite lex_mark by (cbn; tauto). blanks. reflexivity.
Qed.
Lemma lex_joined : forall l v, exists n ns, Forall numeral_ok (n :: ns) /\
  Forall2 (near (1 # 2000000000000)) (map numeral_value (n :: ns)) (v :: l) /\
  forall t, lexed (joined (v :: l) ++ str " ;" ++ line_end ++ line_end ++ t) =
            map lexeme_tok (LNum n :: flat_map (fun v => [mark ","; LNum v]) ns ++ [mark ";"]) ++ lexed t.
Proof.
  induction l as [|w l IH]; intros v; destruct (fixed_near 12 v (1 # 2000000000000) ltac:(lia) eq_refl) as (n & O1 & T1 & N1).
  - exists n, []. split; [constructor; [exact O1|constructor]|]. split; [constructor; [exact N1|constructor]|]. intros t.
    change (joined [v]) with (str (fixed 12 v)). rewrite T1. change (str " ;") with [" "; ";"]%char. change line_end with ["010"%char]. cbn [app flat_map].
    rewrite lex_number by (assumption || reflexivity). blanks. rewrite lex_mark by (cbn; tauto). blanks. reflexivity.
  - destruct (IH w) as (m & ms & A & B & C). exists n, (m :: ms). split; [constructor; assumption|]. split; [constructor; assumption|]. intros t.
    change (joined (v :: w :: l)) with (str (fixed 12 v) ++ str ", " ++ joined (w :: l)). rewrite T1, <- !app_assoc. change (str ", ") with [","; " "]%char. cbn [app].
    rewrite lex_number by (assumption || reflexivity). rewrite lex_mark by (cbn; tauto). blanks. rewrite C. reflexivity.
Qed.

Lemma lex_element : forall e n, writable e -> 0 < n -> exists x, element_ok x /\ declares e n (element_value x) /\
  forall t, lexed (element_text e n ++ t) = map lexeme_tok (element_lexemes x) ++ lexed t.
Proof.
  intros e n (_ & _ & NM & MT) P. destruct (int_numeral n P) as (k & K1 & K2 & K3).
  destruct (fixed_near 6 (p_x e) (1 # 2000000) ltac:(lia) eq_refl) as (nx & O1 & T1 & N1).
  destruct (fixed_near 6 (p_y e) (1 # 2000000) ltac:(lia) eq_refl) as (ny & O2 & T2 & N2).
  destruct (fixed_near 6 (p_length e) (1 # 2000000) ltac:(lia) eq_refl) as (nl & O3 & T3 & N3).
  destruct (fixed_near 6 (p_width e) (1 # 2000000) ltac:(lia) eq_refl) as (nw & O4 & T4 & N4).
  set (ps := match p_power e with None | Some [] => [0%Q] | Some l => l end).
  assert (PS : exists v l, ps = v :: l) by (unfold ps; destruct (p_power e) as [[|v l]|]; eauto).
  destruct PS as (v & l & PS). destruct (lex_joined l v) as (p & q & A & B & C).
  exists (mkElement (p_name e) (Single (mkRectangle nx ny nl nw) (p_material e) (Some (k, k))) (Some (p, q))). split; [|split].
  - split; [exact NM|]. split; [|exact A]. split; [split; [exact O1|split; [exact O2|split; assumption]]|]. split; [exact MT|split; exact K1].
  - split; [reflexivity|]. split; [exists (numeral_value nx), (numeral_value ny), (numeral_value nl), (numeral_value nw); split; [reflexivity|tauto]|].
    split; [cbn; destruct (p_material e); reflexivity|]. split; [exists (numeral_value k), (numeral_value k); split; [reflexivity|split; exact K3]|].
    eexists. split; [reflexivity|]. fold ps. rewrite PS. exact B.
  - intros t. unfold element_text. fold ps. cbv zeta. rewrite PS. unfold f6. rewrite T1, T2, T3, T4, K2.
    unfold element_lexemes. cbn [el_name el_shape el_powers shape_lexemes re_x re_y re_length re_width].
    change (str " :") with [" "; ":"]%char. change (str "  position    ") with ([" "; " "]%char ++ str "position" ++ [" "; " "; " "; " "]%char).
    change (str "  dimension   ") with ([" "; " "]%char ++ str "dimension" ++ [" "; " "; " "]%char).
    change (str "  discretization ") with ([" "; " "]%char ++ str "discretization" ++ [" "]%char).
    change (str "  power values  ") with ([" "; " "]%char ++ str "power" ++ [" "]%char ++ str "values" ++ [" "; " "]%char).
    rewrite <- !app_assoc. rewrite lex_word by ((right; assumption) || reflexivity). cbn [app]. blanks. rewrite lex_mark by (cbn; tauto).
    rewrite !lex_line_end. blanks. rewrite lex_word by ((left; cbn; tauto) || reflexivity). blanks.
    rewrite lex_pair by assumption. blanks. rewrite lex_word by ((left; cbn; tauto) || reflexivity). blanks. rewrite lex_pair by assumption.
    cbn [pair_lexemes map app]. do 12 (apply f_equal2; [reflexivity|]).
    assert (TL : forall t, lexed (" "%char :: " "%char :: str "discretization" ++ " "%char :: numeral_text k ++ str ", " ++ numeral_text k ++ str " ;" ++ line_end ++
       " "%char :: " "%char :: str "power" ++ " "%char :: str "values" ++ " "%char :: " "%char :: joined (v :: l) ++ str " ;" ++ line_end ++ line_end ++ t) =
       map lexeme_tok (word "discretization" :: pair_lexemes k k) ++ map lexeme_tok (word "power" :: word "values" :: LNum p :: flat_map (fun v => [mark ","; LNum v]) q ++ [mark ";"]) ++ lexed t).
    { clear t. intros t. blanks. rewrite lex_word by ((left; cbn; tauto) || reflexivity). blanks. rewrite lex_pair by assumption. blanks.
      rewrite lex_word by ((left; cbn; tauto) || reflexivity). blanks. rewrite lex_word by ((left; cbn; tauto) || reflexivity). blanks. rewrite C.
      repeat (rewrite map_app || rewrite <- app_assoc || cbn [pair_lexemes map app]). reflexivity. }
    destruct (p_material e) as [m|].
    + change (str "  material ") with ([" "; " "]%char ++ str "material" ++ [" "]%char). change (str " ;") with [" "; ";"]%char at 1.
      rewrite <- !app_assoc. cbn [app]. blanks. rewrite lex_word by ((left; cbn; tauto) || reflexivity). blanks.
      rewrite lex_word by ((right; assumption) || reflexivity). blanks. rewrite lex_mark by (cbn; tauto). rewrite lex_line_end, TL.
      cbn [pair_lexemes map app]. repeat (rewrite map_app || rewrite <- app_assoc || cbn [pair_lexemes map app]). reflexivity.
    + cbn [app]. rewrite TL. cbn [pair_lexemes map app]. repeat (rewrite map_app || rewrite <- app_assoc || cbn [pair_lexemes map app]). reflexivity.
Qed.
Lemma lex_written : forall ps, Forall (fun p : part * Z => writable (fst p) /\ 0 < snd p) ps ->
  exists xs, Forall element_ok xs /\ Forall2 (fun p x => declares (fst p) (snd p) (element_value x)) ps xs /\
    lexed (flat_map (fun p => element_text (fst p) (snd p)) ps) = map lexeme_tok (flat_map element_lexemes xs).
Proof.
  intros ps H. induction H as [|[e n] ps [W P] H (xs & A & B & C)]; [exists []; split; [constructor|]; split; [constructor|reflexivity]|].
  destruct (lex_element e n W P) as (x & X1 & X2 & X3). exists (x :: xs). split; [constructor; assumption|]. split; [constructor; assumption|].
  cbn [flat_map fst snd]. rewrite X3, C, map_app. reflexivity.
Qed.
(** The floorplan the tool writes is accepted, and declares each element with its own
    number of cells; the numbers are those of C80_cells. *)
Theorem C80_file : forall a cells es text, tool a cells es = Some text -> Forall writable es ->
  exists ns ds, refine a cells es = Some ns /\ List.length ns = List.length es /\ read_decls text = Some ds /\
    Forall2 (fun p d => declares (fst p) (snd p) d) (combine es ns) ds.
Proof.
  intros a cells es text T W. unfold tool in T. destruct (valid a) eqn:V; cbn [negb] in T; [|discriminate].
  assert (NE : es <> []) by (intros ->; discriminate T).
  destruct (refine a cells es) as [ns|] eqn:R; [|destruct es; discriminate T]. assert (E : text = written es ns) by (destruct es; [congruence|congruence]). subst text. clear T.
  assert (SZ := C80_size a cells es ns V NE R). exists ns.
  assert (LN : List.length ns = List.length es) by (clear - SZ; induction SZ; cbn; congruence).
  assert (OK : Forall (fun p : part * Z => writable (fst p) /\ 0 < snd p) (combine es ns)).
  { clear R V NE LN. induction SZ as [|e n es ns H1 H2 IH]; [constructor|]. inversion W as [|? ? W1 W2]; subst. constructor; [|exact (IH W2)].
    split; [exact W1|]. destruct (H1 (proj1 W1)) as (N1 & _). cbn. lia. }
  destruct (lex_written _ OK) as (xs & A & B & C). exists (map element_value xs). split; [reflexivity|]. split; [exact LN|].
  assert (NX : xs <> []).
  { intros ->. inversion B as [D|]. symmetry in D. destruct es as [|e es]; [congruence|]. destruct ns as [|n ns]; [discriminate LN|discriminate D]. }
  split.
  - unfold read_decls, tokens. cbv zeta. unfold written. change (lex flp_rules O INITIAL) with lexed. rewrite C. apply p_elements_ok; [assumption|assumption|lia].
  - clear - B. induction B; constructor; assumption.
Qed.
Print Assumptions C80_file.

(** ** Defects and a concrete case *)
Definition grid1 (d : Q) : settings := mk_settings d 10 10 100 100.
Definition core : part := mk_part (str "core") 0 0 1000 10 None (Some [1; 2]%Q).
Definition cache : part := mk_part (str "cache") 1000 0 200 200 (Some (str "SILICON")) None.
(** A core of 1000 by 10 with one cell only next to a cache: the core gets 100 by 100
    cells, of 10 by 0.1: below the minimum of 10, and not square. *)
Theorem C80_cell_refuted : exists a cells es n m, refine a cells es = Some [n; m] /\ es = [core; cache] /\ (min_y a == 10)%Q /\ n = 100 /\
  (p_width core / inject_Z n < min_y a)%Q /\ ~ (p_width core / inject_Z n == p_length core / inject_Z n)%Q.
Proof.
  exists (grid1 0), [mk_cell 500 5 3; mk_cell 1100 100 1], [core; cache]. do 2 eexists. split; [vm_compute; reflexivity|]. split; [reflexivity|].
  split; [reflexivity|]. split; [reflexivity|]. split; [reflexivity|]. intros H. vm_compute in H. discriminate H.
Qed.
Print Assumptions C80_cell_refuted.
(** A cell that starts where the core ends counts for the core, too: its gradient changes
    the grid of the core, which it does not overlap. *)
Theorem C80_border_refuted : exists c,
  corner_in core c /\ corner_in cache c /\ llx c = (p_x core + p_length core)%Q /\
  average [mk_cell 500 5 3; c] core = Some (13 / 2)%Q.
Proof.
  exists (mk_cell 1000 0 10). split; [unfold corner_in; cbn; lra|]. split; [unfold corner_in; cbn; lra|]. split; [reflexivity|]. vm_compute. reflexivity.
Qed.
Print Assumptions C80_border_refuted.
(** The hypotheses of C80_file are met; the cache, with less gradient, gets larger cells. *)
Example C80_witness : exists text, tool (grid1 50) [mk_cell 500 5 3; mk_cell 1100 100 1; mk_cell 1100 50 1] [core; cache] = Some text /\
  Forall writable [core; cache] /\ refine (grid1 50) [mk_cell 500 5 3; mk_cell 1100 100 1; mk_cell 1100 50 1] [core; cache] = Some [10; 2].
Proof.
  assert (R : refine (grid1 50) [mk_cell 500 5 3; mk_cell 1100 100 1; mk_cell 1100 50 1] [core; cache] = Some [10; 2]) by (vm_compute; reflexivity).
  exists (written [core; cache] [10; 2]). split; [unfold tool; change (valid (grid1 50)) with true; cbn [negb]; rewrite R; reflexivity|]. split; [|exact R].
  assert (N1 : name_ok (str "core")). { split; [exists "c"%char, (str "ore"); split; [reflexivity|split; [cbn; tauto|repeat (apply Forall_cons; [left; cbn; tauto|]); constructor]]|]. cbn. intros H. repeat (destruct H as [H|H]; [discriminate H|]). exact H. }
  assert (N2 : name_ok (str "cache")). { split; [exists "c"%char, (str "ache"); split; [reflexivity|split; [cbn; tauto|repeat (apply Forall_cons; [left; cbn; tauto|]); constructor]]|]. cbn. intros H. repeat (destruct H as [H|H]; [discriminate H|]). exact H. }
  assert (N3 : name_ok (str "SILICON")). { split; [exists "S"%char, (str "ILICON"); split; [reflexivity|split; [cbn; tauto|repeat (apply Forall_cons; [left; cbn; tauto|]); constructor]]|]. cbn. intros H. repeat (destruct H as [H|H]; [discriminate H|]). exact H. }
  constructor; [|constructor; [|constructor]]; (split; [reflexivity|]; split; [reflexivity|]; split; assumption || exact Logic.I).
Qed.
Print Assumptions C80_witness.
