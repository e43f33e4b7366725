(** * C79: division of low-conductance layers *)
From Coq Require Import ZArith QArith Qround Bool List String Lia Lqa Permutation Sorting.Sorted.
From Verif Require Import Base Division DivisionSpec.
Import ListNotations.
Local Open Scope Z_scope.

(** ** The file *)
Lemma entries_spec : forall ls, fst (entries ls) = Z.of_nat (List.length (fst (cells_then_blocks ls))) /\
  blocks (snd (entries ls)) = blocks ls /\ (List.length (snd (entries ls)) <= List.length ls)%nat.
Proof.
  induction ls as [|[|c|k n|h] r (A & B & C)].
  - repeat split; cbn; lia.
  - cbn. repeat split; [exact A|exact B|lia].
  - cbn [entries cells_then_blocks]. destruct (entries r) as [n rest]. cbn [fst snd] in *. unfold blocks. cbn [snd cells_then_blocks List.length].
    repeat split; [lia|exact B|lia].
  - repeat split; cbn; lia.
  - repeat split; cbn; lia.
Qed.
Definition long (b : string * list (option Q)) : bool := 2 <=? Z.of_nat (List.length (snd b)).
Lemma scan_spec : forall f ls, (List.length ls <= f)%nat -> scan_blocks f ls = map fst (filter long (blocks ls)).
Proof.
  induction f; intros ls H; [destruct ls; [reflexivity|cbn in H; lia]|].
  destruct ls as [|[|c|k n|h] r]; cbn [List.length] in H; try reflexivity; cbn [scan_blocks].
  - rewrite IHf by lia. reflexivity.
  - rewrite IHf by lia. reflexivity.
  - rewrite IHf by lia. reflexivity.
  - destruct (entries_spec r) as (A & B & C). destruct (entries r) as [n rest]. cbn [fst snd] in *.
    rewrite IHf by lia. rewrite B.
    assert (G : blocks (Header h :: r) = (h, fst (cells_then_blocks r)) :: blocks r) by reflexivity. rewrite G. cbn [filter].
    assert (K : long (h, fst (cells_then_blocks r)) = (2 <=? n)) by (unfold long; cbn [snd]; rewrite A; reflexivity). rewrite K.
    destruct (2 <=? n); reflexivity.
Qed.
Lemma mem_scan : forall f ls h, (List.length ls <= f)%nat -> mem h (scan_blocks f ls) = excluded ls h.
Proof.
  intros f ls h H. rewrite scan_spec by exact H. unfold mem, excluded.
  induction (blocks ls) as [|b l IH]; [reflexivity|]. cbn [filter existsb]. unfold long at 1.
  destruct (2 <=? Z.of_nat (List.length (snd b))) eqn:E; cbn [map existsb]; rewrite IH.
  - rewrite andb_true_r. reflexivity.
  - rewrite andb_false_r. reflexivity.
Qed.
Lemma first_spec : forall r, match first_conductance r with
  | (None, at_j) => Forall (fun c => c = None) (fst (cells_then_blocks r)) /\ blocks at_j = blocks r /\ (List.length at_j <= List.length r)%nat
  | (Some c, at_j) => exists t pre, at_j = Cells (Some c) :: t /\ blocks t = blocks r /\ (List.length t < List.length r)%nat /\
      fst (cells_then_blocks r) = pre ++ Some c :: fst (cells_then_blocks t)
  end.
Proof.
  induction r as [|[|c|k n|h] r IH]; cbn [first_conductance ends_block].
  - repeat split; [constructor|lia].
  - destruct (first_conductance r) as [[c|] at_j].
    + destruct IH as (t & pre & -> & B & C & E). exists t, pre. repeat split; [exact B|cbn; lia|exact E].
    + destruct IH as (A & B & C). repeat split; [exact A|exact B|cbn; lia].
  - destruct c as [c|].
    + exists r, []. repeat split. cbn. lia.
    + destruct (first_conductance r) as [[c|] at_j].
      * destruct IH as (t & pre & -> & B & C & E). exists t, (None :: pre). repeat split; [exact B|cbn; lia|]. cbn [cells_then_blocks fst]. rewrite E. reflexivity.
      * destruct IH as (A & B & C). repeat split; [|exact B|cbn; lia]. cbn [cells_then_blocks fst]. constructor; [reflexivity|exact A].
  - repeat split; [constructor|cbn; lia].
  - repeat split; [constructor|cbn; lia].
Qed.
Lemma another_none : forall t, fst (cells_then_blocks t) = [] -> another t = false.
Proof. induction t as [|[|c|k n|h] r IH]; intros E; try reflexivity; cbn [another ends_block]; [exact (IH E)|discriminate E]. Qed.
Lemma skip_spec : forall r, blocks (skip_block r) = blocks r /\ (List.length (skip_block r) <= List.length r)%nat.
Proof. induction r as [|[|c|k n|h] r (A & B)]; cbn [skip_block ends_block]; split; try reflexivity; try exact A; cbn [List.length]; lia. Qed.
Definition taken (ex : list string) (b : string * list (option Q)) : list (string * Q) :=
  match snd b with [Some c] => if mem (fst b) ex then [] else [(fst b, c)] | _ => [] end.
Lemma parse_spec : forall f ls ex, (List.length ls <= f)%nat -> (forall b, In b (blocks ls) -> long b = true -> mem (fst b) ex = true) ->
  fst (parse f ls ex) = flat_map (taken ex) (blocks ls).
Proof.
  induction f; intros ls ex H HX; [destruct ls; [reflexivity|cbn in H; lia]|].
  destruct ls as [|[|c|k n|h] r]; cbn [List.length] in H; try reflexivity; cbn [parse].
  - rewrite IHf by (lia || exact HX). reflexivity.
  - rewrite IHf by (lia || exact HX). reflexivity.
  - assert (G := IHf r ex ltac:(lia) HX). destruct (parse f r ex) as [p u]. exact G.
  - unfold blocks in HX. cbn [cells_then_blocks snd] in HX. fold (blocks r) in HX.
    unfold blocks. cbn [cells_then_blocks snd flat_map]. fold (blocks r).
    assert (HR : forall b, In b (blocks r) -> long b = true -> mem (fst b) ex = true) by (intros b Hb; apply HX; right; exact Hb).
    unfold taken at 1. cbn [fst snd]. destruct (mem h ex) eqn:M.
    + destruct (skip_spec r) as (A & B). rewrite IHf; [rewrite A|lia|rewrite A; exact HR].
      destruct (fst (cells_then_blocks r)) as [|[c|] [|]]; reflexivity.
    + assert (S : (List.length (fst (cells_then_blocks r)) < 2)%nat).
      { assert (G := HX _ (or_introl eq_refl)). unfold long in G. cbn [fst snd] in G. rewrite M in G.
        destruct (2 <=? Z.of_nat (List.length (fst (cells_then_blocks r)))) eqn:E; [specialize (G eq_refl); discriminate G|]. lia. }
      assert (F := first_spec r). destruct (first_conductance r) as [[c|] at_j].
      * destruct F as (t & pre & -> & B & C & E). rewrite E in S |- *. rewrite app_length in S. cbn [List.length] in S.
        destruct pre as [|]; [|cbn [List.length] in S; lia]. destruct (fst (cells_then_blocks t)) eqn:ET; [|cbn [List.length] in S; lia].
        cbn [tl app]. rewrite (another_none t ET). assert (G := IHf t ex ltac:(lia) ltac:(rewrite B; exact HR)).
        destruct (parse f t ex) as [p u]. cbn [fst] in G |- *. rewrite G, B. reflexivity.
      * destruct F as (A & B & C). rewrite IHf; [rewrite B|lia|rewrite B; exact HR].
        destruct (fst (cells_then_blocks r)) as [|[c|] [|]]; try reflexivity. inversion A. discriminate.
Qed.

(** The layers of the analysis are the headers with exactly one line, with its
    conductance, in the order of the file; a name that heads several lines anywhere is
    left out everywhere. *)
Theorem C79_file : forall ls, read_layers ls = accepted ls.
Proof.
  intros ls. unfold read_layers, accepted. rewrite parse_spec; [|lia|].
  - assert (G : forall l, flat_map (taken (scan_blocks (List.length ls) ls)) l =
      flat_map (fun b => match snd b with [Some c] => if excluded ls (fst b) then [] else [(fst b, c)] | _ => [] end) l).
    { induction l as [|b l IH]; [reflexivity|]. cbn [flat_map]. rewrite IH. f_equal. unfold taken. rewrite mem_scan by lia. reflexivity. }
    apply G.
  - intros b Hb HL. rewrite scan_spec by lia. unfold mem. apply existsb_exists. exists (fst b). split; [|apply String.eqb_refl].
    apply in_map. apply filter_In. split; assumption.
Qed.

(** ** Sums *)
Lemma Qsum_app : forall a b, (Qsum (a ++ b) == Qsum a + Qsum b)%Q.
Proof. induction a; intros b; cbn [app Qsum]; [ring|]. rewrite IHa. ring. Qed.
Lemma fold_Q : forall {A} (f : A -> Q) l t, (fold_left (fun t s => t + f s) l t == t + Qsum (map f l))%Q.
Proof. intros A f. induction l; intros t; cbn [fold_left map Qsum]; [ring|]. rewrite IHl. ring. Qed.
Lemma fold_Z : forall {A} (f : A -> Z) l t, fold_left (fun t s => t + f s) l t = t + fold_right (fun s t => f s + t) 0 l.
Proof. intros A f. induction l; intros t; cbn [fold_left fold_right]; [lia|]. rewrite IHl. lia. Qed.
Lemma Qsum_repeat : forall x n, (Qsum (repeat x n) == x * inject_Z (Z.of_nat n))%Q.
Proof. intros x. induction n; cbn [repeat Qsum]; [unfold inject_Z; cbn; ring|]. rewrite IHn, Nat2Z.inj_succ. unfold Z.succ. rewrite inject_Z_plus. unfold inject_Z at 3. ring. Qed.
Lemma map_repeat : forall {A B} (f : A -> B) x n, map f (repeat x n) = repeat (f x) n.
Proof. intros A B f x. induction n; cbn; congruence. Qed.

Definition weight (st : list layer) : Z := fold_right (fun s t => sublayers s + t) 0 (eligible st).
Definition numbered (st : list layer) : Prop := Forall (fun s => 1 <= sublayers s) st.
Lemma weight_length : forall st, numbered st -> Z.of_nat (List.length (sublayer_conductances st)) = weight st.
Proof.
  intros st H. unfold weight, sublayer_conductances, eligible. induction H as [|s st H HF IH]; [reflexivity|].
  cbn [filter]. destruct (neglected s); cbn [negb flat_map fold_right]; [exact IH|]. rewrite app_length, repeat_length. lia.
Qed.
Lemma sum_conductances : forall (g : Q -> Q) st, numbered st ->
  (Qsum (map g (sublayer_conductances st)) == Qsum (map (fun s => inject_Z (sublayers s) * g (current s)) (eligible st)))%Q.
Proof.
  intros g st H. unfold sublayer_conductances, eligible. induction H as [|s st H HF IH]; [reflexivity|].
  cbn [filter]. destruct (neglected s); cbn [negb flat_map map Qsum]; [exact IH|]. rewrite map_app, Qsum_app, map_repeat, Qsum_repeat, IH.
  rewrite Z2Nat.id by lia. ring.
Qed.
Lemma average_spec : forall st, numbered st ->
  match weighted_average st with
  | None => sublayer_conductances st = []
  | Some a => sublayer_conductances st <> [] /\ (a == mean (sublayer_conductances st))%Q
  end.
Proof.
  intros st H. assert (W := weight_length st H). unfold weighted_average.
  assert (E : fold_left (fun w s => w + sublayers s) (eligible st) 0 = weight st) by (rewrite (fold_Z sublayers); unfold weight; lia).
  rewrite E. destruct (weight st =? 0) eqn:Z0.
  - destruct (sublayer_conductances st); [reflexivity|cbn [List.length] in W; lia].
  - split; [intros C; rewrite C in W; cbn in W; lia|]. unfold mean. rewrite W, fold_Q.
    assert (G := sum_conductances (fun x => x) st H). rewrite map_id in G. rewrite G.
    apply Qmult_comp; [|reflexivity].
    rewrite Qplus_0_l. clear. induction (eligible st); [reflexivity|]. cbn [map Qsum]. rewrite IHl. ring.
Qed.
Lemma Qsum_ext : forall {A} (f g : A -> Q) l, (forall x, In x l -> f x == g x)%Q -> (Qsum (map f l) == Qsum (map g l))%Q.
Proof. intros A f g. induction l; intros H; [reflexivity|]. cbn [map Qsum]. rewrite (H a (or_introl eq_refl)), IHl; [reflexivity|]. intros x Hx. apply H. right. exact Hx. Qed.
Lemma variance_spec : forall st, numbered st -> is_variance st (var_s st).
Proof.
  intros st H. assert (W := weight_length st H). assert (A := average_spec st H). unfold var_s, is_variance.
  destruct (weighted_average st) as [a|]; [|exact A]. destruct A as (A1 & A2).
  assert (E : fold_left (fun w s => w + sublayers s) (eligible st) 0 = weight st) by (rewrite (fold_Z sublayers); unfold weight; lia).
  rewrite E. destruct (weight st <? 2) eqn:L.
  - destruct (sublayer_conductances st) as [|x [|y l]]; [contradiction|reflexivity|cbn [List.length] in W; lia].
  - split; [lia|]. unfold sample_variance. rewrite W. apply Qmult_comp; [|unfold Z.sub; rewrite inject_Z_plus; reflexivity].
    rewrite fold_Q, (sum_conductances (fun x => (x - mean (sublayer_conductances st)) * (x - mean (sublayer_conductances st)))%Q st H), Qplus_0_l.
    apply Qsum_ext. intros s _. rewrite A2. ring.
Qed.

(** ** The candidates of a phase and their order *)
Lemma Qlt_bool_iff : forall a b, Qlt_bool a b = true <-> (a < b)%Q.
Proof.
  intros a b. unfold Qlt_bool. rewrite negb_true_iff. split.
  - intros H. apply Qnot_le_lt. intros C. apply Qle_bool_iff in C. congruence.
  - intros H. destruct (Qle_bool b a) eqn:E; [|reflexivity]. apply Qle_bool_iff in E. exfalso. exact (Qlt_not_le _ _ H E).
Qed.
Definition low (avg : Q) (s : layer) : Prop := neglected s = false /\ (current s < avg)%Q.
Lemma candidates_spec : forall st k avg i c, In (i, c) (candidates k avg st) <->
  exists j s, i = (k + j)%nat /\ nth_error st j = Some s /\ low avg s /\ c = current s.
Proof.
  induction st as [|s st IH]; intros k avg i c; cbn [candidates].
  - split; [intros []|]. intros (j & s & _ & E & _). destruct j; discriminate E.
  - assert (G : In (i, c) (candidates (S k) avg st) <-> exists j t, i = (k + S j)%nat /\ nth_error (s :: st) (S j) = Some t /\ low avg t /\ c = current t).
    { rewrite IH. split; intros (j & t & E1 & E2 & E3 & E4); exists j, t; repeat split; try assumption; try (destruct E3; assumption); lia. }
    destruct (negb (neglected s) && Qlt_bool (current s) avg) eqn:B.
    + apply andb_true_iff in B. destruct B as (B1 & B2). apply negb_true_iff in B1. apply Qlt_bool_iff in B2. cbn [In]. rewrite G. split.
      * intros [E|(j & t & E)]; [|exists (S j), t; exact E]. injection E as <- <-. exists 0%nat, s. repeat split; [lia|exact B1|exact B2].
      * intros ([|j] & t & E1 & E2 & E3 & E4); [left|right; exists j, t; repeat split; try assumption; destruct E3; assumption].
        cbn in E2. injection E2 as <-. rewrite E1, E4, Nat.add_0_r. reflexivity.
    + rewrite G. split; [intros (j & t & E); exists (S j), t; exact E|].
      intros ([|j] & t & E1 & E2 & (E3 & E5) & E4); [|exists j, t; repeat split; assumption].
      cbn in E2. injection E2 as <-. rewrite E3 in B. apply Qlt_bool_iff in E5. rewrite E5 in B. discriminate B.
Qed.
Definition before (x y : nat * Q) : Prop := (snd x < snd y)%Q \/ (snd x == snd y)%Q /\ (fst x < fst y)%nat.
Lemma candidates_sorted : forall st k avg, StronglySorted (fun x y => (fst x < fst y)%nat) (candidates k avg st).
Proof.
  induction st as [|s st IH]; intros k avg; cbn [candidates]; [constructor|].
  destruct (negb (neglected s) && Qlt_bool (current s) avg); [|apply IH]. constructor; [apply IH|].
  apply Forall_forall. intros [i c] H. apply candidates_spec in H. destruct H as (j & t & -> & _). cbn [fst]. lia.
Qed.
Lemma insert_perm : forall x l, Permutation (insert x l) (x :: l).
Proof. intros x. induction l as [|y l IH]; cbn [insert]; [reflexivity|]. destruct (Qle_bool (snd x) (snd y)); [reflexivity|]. rewrite IH. apply perm_swap. Qed.
Lemma sort_perm : forall l, Permutation (fold_right insert [] l) l.
Proof. induction l as [|x l IH]; cbn [fold_right]; [reflexivity|]. rewrite insert_perm. apply perm_skip. exact IH. Qed.
Lemma insert_sorted : forall x l, StronglySorted before l -> (forall y, In y l -> (fst x < fst y)%nat) -> StronglySorted before (insert x l).
Proof.
  intros x. induction l as [|y l IH]; intros HS HX; cbn [insert]; [constructor; constructor|].
  inversion HS as [|y' l' HS' HF]. subst. destruct (Qle_bool (snd x) (snd y)) eqn:E.
  - apply Qle_bool_iff in E. constructor; [exact HS|]. assert (B : before x y).
    { destruct (Qlt_le_dec (snd x) (snd y)) as [C|C]; [left; exact C|right; split; [lra|apply HX; left; reflexivity]]. }
    constructor; [exact B|]. apply Forall_forall. intros z Hz. rewrite Forall_forall in HF. assert (D := HF z Hz). assert (F := HX z (or_intror Hz)). unfold before in *.
    destruct (Qlt_le_dec (snd x) (snd z)) as [C|C]; [left; exact C|right]. split; [|exact F]. destruct D as [D|(D & _)]; lra.
  - assert (L : (snd y < snd x)%Q) by (apply Qnot_le_lt; intros C; apply Qle_bool_iff in C; congruence).
    constructor; [apply IH; [exact HS'|intros z Hz; apply HX; right; exact Hz]|].
    apply Forall_forall. intros z Hz. apply (Permutation_in z (insert_perm x l)) in Hz. destruct Hz as [<-|Hz]; [left; exact L|]. rewrite Forall_forall in HF. exact (HF z Hz).
Qed.
Lemma sort_sorted : forall l, StronglySorted (fun x y => (fst x < fst y)%nat) l -> StronglySorted before (fold_right insert [] l).
Proof.
  induction l as [|x l IH]; intros H; cbn [fold_right]; [constructor|]. inversion H as [|x' l' H1 H2]. subst. apply insert_sorted; [exact (IH H1)|].
  intros y Hy. apply (Permutation_in y (sort_perm l)) in Hy. rewrite Forall_forall in H2. exact (H2 y Hy).
Qed.

(** ** One division *)
Lemma change_length : forall f i st, List.length (change f i st) = List.length st.
Proof. intros f. induction i; intros [|s st]; cbn [change List.length]; try reflexivity. rewrite IHi. reflexivity. Qed.
Lemma change_nth : forall f i st j, nth_error (change f i st) j = if (i =? j)%nat then option_map f (nth_error st j) else nth_error st j.
Proof.
  intros f. induction i; intros [|s st] [|j]; cbn [change nth_error Nat.eqb option_map]; try reflexivity.
  - destruct (i =? j)%nat; reflexivity.
  - apply IHi.
Qed.
Lemma change_split : forall f i st s, nth_error st i = Some s -> exists a b, st = a ++ s :: b /\ change f i st = a ++ f s :: b.
Proof.
  intros f. induction i; intros [|s0 st] s E; try discriminate E; cbn [nth_error] in E.
  - injection E as ->. exists [], st. split; reflexivity.
  - destruct (IHi st s E) as (a & b & -> & E2). exists (s0 :: a), b. split; [reflexivity|]. cbn [change app]. rewrite E2. reflexivity.
Qed.
Lemma split_divisions : forall a s b, divisions (a ++ s :: b) = divisions a + (sublayers s - 1) + divisions b.
Proof. unfold divisions. induction a; intros s b; cbn [app fold_right]; [lia|]. rewrite IHa. lia. Qed.
Lemma nonzero_Z : forall n, 1 <= n -> ~ (inject_Z n == 0)%Q.
Proof. intros n H C. unfold Qeq in C. cbn in C. lia. Qed.
Lemma subdivide_conductance : forall s, 1 <= sublayers s ->
  (current (subdivide_one s) * inject_Z (sublayers s) == current s * inject_Z (sublayers s + 1))%Q.
Proof. intros s H. cbn [subdivide_one current]. assert (N := nonzero_Z _ H). field. exact N. Qed.
Lemma change_division : forall i st s, nth_error st i = Some s -> neglected s = false -> 1 <= sublayers s ->
  one_division st (change subdivide_one i st) /\ divisions (change subdivide_one i st) = divisions st + 1.
Proof.
  intros i st s E N H. destruct (change_split subdivide_one i st s E) as (a & b & -> & ->). split.
  - exists a, s, b, (subdivide_one s). repeat split; try assumption. apply subdivide_conductance. exact H.
  - rewrite !split_divisions. cbn [subdivide_one sublayers]. lia.
Qed.
Lemma numbered_nth : forall st i s, numbered st -> nth_error st i = Some s -> 1 <= sublayers s.
Proof. intros st i s H E. apply nth_error_In in E. unfold numbered in H. rewrite Forall_forall in H. exact (H s E). Qed.
Lemma change_numbered : forall i st, numbered st -> numbered (change subdivide_one i st).
Proof.
  induction i; intros [|s st] H; cbn [change]; try exact H; inversion H; subst; constructor; try assumption.
  - cbn [subdivide_one sublayers]. lia.
  - apply IHi. assumption.
Qed.
Definition eligible_at (st : list layer) (i : nat) : Prop := exists s, nth_error st i = Some s /\ neglected s = false.
Lemma change_eligible : forall i j st, eligible_at st j -> eligible_at (change subdivide_one i st) j.
Proof.
  intros i j st (s & E & N). unfold eligible_at. rewrite change_nth, E. destruct (i =? j)%nat; [|exists s; split; [reflexivity|exact N]].
  exists (subdivide_one s). split; [reflexivity|exact N].
Qed.
Lemma conductances_of : forall st i s, nth_error st i = Some s -> neglected s = false -> (Z.to_nat (sublayers s) <= List.length (sublayer_conductances st))%nat.
Proof.
  intros st i s E N. apply nth_error_split in E. destruct E as (a & b & -> & _). unfold sublayer_conductances.
  rewrite filter_app, flat_map_app, app_length. cbn [filter]. rewrite N. cbn [negb flat_map]. rewrite app_length, repeat_length. lia.
Qed.
Lemma variance_after : forall i st s, numbered st -> nth_error st i = Some s -> neglected s = false ->
  exists q, var_s (change subdivide_one i st) = Value q /\ is_variance (change subdivide_one i st) (Value q).
Proof.
  intros i st s H E N. assert (V := variance_spec _ (change_numbered i st H)).
  assert (L := conductances_of (change subdivide_one i st) i (subdivide_one s)). rewrite change_nth, Nat.eqb_refl, E in L. specialize (L eq_refl N).
  assert (HS := numbered_nth st i s H E). cbn [subdivide_one sublayers] in L.
  destruct (var_s (change subdivide_one i st)) as [| |q]; unfold is_variance in V.
  - rewrite V in L. cbn [List.length] in L. lia.
  - rewrite V in L. lia.
  - exists q. split; [reflexivity|exact V].
Qed.

(** ** One phase *)
Definition recorded (st : list layer) (v : variance) : Prop := is_variance st v /\ exists q, v = Value q.
Lemma history_app : forall sts1 st st1 sts2 st2, history st sts1 st1 -> history st1 sts2 st2 -> history st (sts1 ++ sts2) st2.
Proof. induction sts1; intros st st1 sts2 st2 H1 H2; cbn [app history] in *; [subst; exact H2|]. destruct H1 as (A & B). split; [exact A|]. exact (IHsts1 _ _ _ _ B H2). Qed.
Lemma divide_spec : forall order left st, numbered st -> (forall i, In i order -> eligible_at st i) ->
  let '(l', st', vs) := divide order left st in
  l' = (left - List.length order)%nat /\
  st' = fold_left (fun s i => change subdivide_one i s) (firstn left order) st /\ numbered st' /\
  divisions st' = divisions st + Z.of_nat (left - l') /\
  exists sts, history st sts st' /\ Forall2 recorded sts vs /\ List.length vs = (left - l')%nat.
Proof.
  induction order as [|i r IH]; intros left st H HE; cbn [divide].
  - rewrite firstn_nil. repeat split; [cbn; lia|exact H|lia|]. exists []. repeat split; [constructor|cbn; lia].
  - destruct left as [|l].
    + repeat split; [exact H|lia|]. exists []. repeat split. constructor.
    + destruct (HE i (or_introl eq_refl)) as (s & E & N). assert (HS := numbered_nth st i s H E).
      destruct (change_division i st s E N HS) as (D1 & D2). destruct (variance_after i st s H E N) as (q & V1 & V2).
      assert (G := IH l (change subdivide_one i st) (change_numbered i st H) (fun j Hj => change_eligible i j st (HE j (or_intror Hj)))).
      destruct (divide r l (change subdivide_one i st)) as [[l' st'] vs]. destruct G as (A & B & C & D & sts & F1 & F2 & F3).
      rewrite V1. split; [cbn [List.length]; lia|]. split; [exact B|]. split; [exact C|]. split; [lia|].
      exists (change subdivide_one i st :: sts). split; [split; assumption|]. split; [constructor; [split; [exact V2|exists q; reflexivity]|exact F2]|].
      cbn [List.length]. lia.
Qed.
Lemma fold_change_nth : forall order st j, NoDup order ->
  nth_error (fold_left (fun s i => change subdivide_one i s) order st) j =
  if existsb (Nat.eqb j) order then option_map subdivide_one (nth_error st j) else nth_error st j.
Proof.
  induction order as [|i r IH]; intros st j H; cbn [fold_left existsb]; [reflexivity|]. inversion H as [|i' r' H1 H2]. subst.
  rewrite (IH _ _ H2), change_nth, (Nat.eqb_sym j i). destruct (i =? j)%nat eqn:E; cbn [orb]; [|reflexivity].
  apply Nat.eqb_eq in E. subst i. destruct (existsb (Nat.eqb j) r) eqn:X; [|reflexivity].
  apply existsb_exists in X. destruct X as (k & K1 & K2). apply Nat.eqb_eq in K2. subst k. contradiction.
Qed.
Lemma fold_change_length : forall order st, List.length (fold_left (fun s i => change subdivide_one i s) order st) = List.length st.
Proof. induction order; intros st; cbn [fold_left]; [reflexivity|]. rewrite IHorder. apply change_length. Qed.
Lemma Forall2_nth : forall {A B} (R : A -> B -> Prop) l k, List.length l = List.length k ->
  (forall i a b, nth_error l i = Some a -> nth_error k i = Some b -> R a b) -> Forall2 R l k.
Proof.
  intros A B R. induction l as [|a l IH]; intros [|b k] E H; try discriminate E; constructor.
  - exact (H 0%nat a b eq_refl eq_refl).
  - apply IH; [injection E as E; exact E|]. intros i x y. exact (H (S i) x y).
Qed.
Definition phase_step (avg : Q) (s s' : layer) : Prop := s' = s \/ low avg s /\ s' = subdivide_one s.
Lemma sort_in : forall avg st i, In i (sort_candidates (candidates 0 avg st)) <-> exists s, nth_error st i = Some s /\ low avg s.
Proof.
  intros avg st i. unfold sort_candidates. rewrite in_map_iff. split.
  - intros ([j c] & <- & H). apply (Permutation_in _ (sort_perm _)) in H. apply candidates_spec in H. destruct H as (k & s & E & F & G & _). cbn [fst]. cbn in E. subst. exists s. split; assumption.
  - intros (s & E & L). exists (i, current s). split; [reflexivity|]. apply (Permutation_in _ (Permutation_sym (sort_perm _))). apply candidates_spec. exists i, s. repeat split; try assumption; destruct L; assumption.
Qed.
Lemma sorted_nodup : forall (l : list (nat * Q)), StronglySorted (fun x y => (fst x < fst y)%nat) l -> NoDup (map fst l).
Proof.
  intros l H. induction H as [|x l HS IH HF]; cbn [map]; constructor; [|exact IH]. intros C. apply in_map_iff in C. destruct C as (y & E & Hy).
  rewrite Forall_forall in HF. assert (G := HF y Hy). lia.
Qed.
Lemma sort_nodup : forall avg st, NoDup (sort_candidates (candidates 0 avg st)).
Proof.
  intros avg st. unfold sort_candidates. apply (Permutation_NoDup (Permutation_map fst (Permutation_sym (sort_perm _)))). apply sorted_nodup. apply candidates_sorted.
Qed.
Lemma firstn_in : forall {A} n (l : list A) x, In x (firstn n l) -> In x l.
Proof. intros A n l x H. rewrite <- (firstn_skipn n l). apply in_or_app. left. exact H. Qed.
Lemma firstn_nodup : forall {A} n (l : list A), NoDup l -> NoDup (firstn n l).
Proof.
  intros A. induction n; intros l H; [constructor|]. destruct l as [|x l]; [constructor|]. inversion H. subst. cbn [firstn]. constructor; [|apply IHn; assumption].
  intros C. apply firstn_in in C. contradiction.
Qed.
Lemma phase_steps : forall avg st left, Forall2 (phase_step avg) st
  (fold_left (fun s i => change subdivide_one i s) (firstn left (sort_candidates (candidates 0 avg st))) st).
Proof.
  intros avg st left. apply Forall2_nth; [symmetry; apply fold_change_length|]. intros i a b E1 E2.
  rewrite fold_change_nth in E2 by (apply firstn_nodup, sort_nodup). rewrite E1 in E2. cbn [option_map] in E2.
  destruct (existsb (Nat.eqb i) (firstn left (sort_candidates (candidates 0 avg st)))) eqn:X; injection E2 as <-; [right|left; reflexivity].
  apply existsb_exists in X. destruct X as (k & K1 & K2). apply Nat.eqb_eq in K2. subst k. apply firstn_in, sort_in in K1.
  destruct K1 as (s & E & L). rewrite E1 in E. injection E as <-. split; [exact L|reflexivity].
Qed.

(** ** All phases *)
Lemma phases_spec : forall fuel left st, (left <= fuel)%nat -> numbered st ->
  let '(l', st', vs) := phases fuel left st in
  (l' <= left)%nat /\ numbered st' /\ divisions st' = divisions st + Z.of_nat (left - l') /\
  (exists sts, history st sts st' /\ Forall2 recorded sts vs /\ List.length vs = (left - l')%nat) /\
  (forall P : list layer -> Prop, (forall s avg s', P s -> numbered s -> weighted_average s = Some avg -> Forall2 (phase_step avg) s s' -> P s') -> P st -> P st') /\
  (l' = 0%nat \/ match weighted_average st' with None => True | Some avg => forall i s, nth_error st' i = Some s -> low avg s -> False end).
Proof.
  induction fuel as [|f IH]; intros left st HL H.
  - assert (left = 0%nat) by lia. subst left. cbn [phases]. repeat split; [lia|exact H|cbn; lia| |tauto|left; reflexivity]. exists []. repeat split. constructor.
  - destruct left as [|l].
    { cbn [phases]. repeat split; [lia|exact H|cbn; lia| |tauto|left; reflexivity]. exists []. repeat split. constructor. }
    assert (STOP : forall Q0 : Prop, Q0 -> (S l <= S l)%nat /\ numbered st /\ divisions st = divisions st + Z.of_nat (S l - S l) /\
      (exists sts, history st sts st /\ Forall2 recorded sts [] /\ List.length (@nil variance) = (S l - S l)%nat) /\
      (forall P : list layer -> Prop, (forall s avg s', P s -> numbered s -> weighted_average s = Some avg -> Forall2 (phase_step avg) s s' -> P s') -> P st -> P st) /\
      (S l = 0%nat \/ Q0)).
    { intros Q0 HQ. rewrite Nat.sub_diag. repeat split; [lia|exact H|lia| |tauto|right; exact HQ]. exists []. repeat split. constructor. }
    cbn [phases]. destruct (weighted_average st) as [avg|] eqn:W.
    2:{ apply STOP. rewrite W. exact I. }
    destruct (sort_candidates (candidates 0 avg st)) as [|i r] eqn:C.
    { apply STOP. rewrite W. intros i s E L. assert (G : In i (sort_candidates (candidates 0 avg st))) by (apply sort_in; exists s; split; assumption). rewrite C in G. destruct G. }
    assert (D := divide_spec (i :: r) (S l) st H). rewrite <- C in D.
    assert (HE : forall i, In i (sort_candidates (candidates 0 avg st)) -> eligible_at st i).
    { intros j Hj. apply sort_in in Hj. destruct Hj as (s & E & N & _). exists s. split; assumption. }
    specialize (D HE). rewrite <- C. assert (LC : (1 <= List.length (sort_candidates (candidates 0 avg st)))%nat) by (rewrite C; cbn; lia).
    assert (PS := phase_steps avg st (S l)).
    destruct (divide (sort_candidates (candidates 0 avg st)) (S l) st) as [[l1 st1] vs1]. destruct D as (D1 & D2 & D3 & D4 & sts1 & D5 & D6 & D7). rewrite <- D2 in PS. clear D2.
    assert (G := IH l1 st1 ltac:(lia) D3). destruct (phases f l1 st1) as [[l2 st2] vs2]. destruct G as (G1 & G2 & G3 & (sts2 & G4 & G5 & G6) & G7 & G8).
    split; [lia|]. split; [exact G2|]. split; [lia|]. split.
    { exists (sts1 ++ sts2). split; [exact (history_app _ _ _ _ _ D5 G4)|]. split; [apply Forall2_app; assumption|]. rewrite app_length. lia. }
    split; [|exact G8]. intros P HP HS. apply (G7 P HP). exact (HP st avg st1 HS H W PS).
Qed.

(** ** Averages *)
Definition total (L : list layer) : Q := Qsum (map (fun s => current s * inject_Z (sublayers s))%Q L).
Definition weights (L : list layer) : Z := fold_right (fun s t => sublayers s + t) 0 L.
Lemma weights_nonneg : forall L, numbered L -> 0 <= weights L.
Proof. intros L H. induction H; cbn [weights fold_right]; [lia|]. fold (weights l). lia. Qed.
Lemma eligible_in : forall st s, In s (eligible st) <-> In s st /\ neglected s = false.
Proof. intros. unfold eligible. rewrite filter_In, negb_true_iff. reflexivity. Qed.
Lemma numbered_eligible : forall st, numbered st -> numbered (eligible st).
Proof. intros st H. apply Forall_forall. intros s Hs. apply eligible_in in Hs. unfold numbered in H. rewrite Forall_forall in H. apply H. tauto. Qed.
Lemma average_is : forall st, numbered st -> match weighted_average st with
  | None => eligible st = []
  | Some a => 1 <= weights (eligible st) /\ (a * inject_Z (weights (eligible st)) == total (eligible st))%Q end.
Proof.
  intros st H. unfold weighted_average. assert (E : fold_left (fun w s => w + sublayers s) (eligible st) 0 = weights (eligible st)) by (rewrite (fold_Z sublayers); unfold weights; lia).
  rewrite E. assert (W := weights_nonneg _ (numbered_eligible st H)). destruct (weights (eligible st) =? 0) eqn:Z0.
  - assert (G := numbered_eligible st H). destruct (eligible st) as [|s l]; [reflexivity|]. inversion G as [|s' l' G1 G2]. subst.
    cbn [weights fold_right] in Z0. fold (weights l) in Z0. assert (W2 := weights_nonneg l G2). lia.
  - split; [lia|]. assert (NZ := nonzero_Z (weights (eligible st)) ltac:(lia)). rewrite fold_Q, Qplus_0_l. fold (total (eligible st)). field. exact NZ.
Qed.
Lemma positive_Z : forall n, 1 <= n -> (0 < inject_Z n)%Q.
Proof. intros n H. unfold Qlt. cbn. lia. Qed.
Lemma total_le : forall M L, numbered L -> (forall s, In s L -> current s <= M)%Q -> (total L <= M * inject_Z (weights L))%Q.
Proof.
  intros M L H. induction H as [|s l H1 H2 IH]; intros HM; cbn [total map Qsum weights fold_right].
  - unfold inject_Z. lra.
  - fold (total l) (weights l). rewrite inject_Z_plus. assert (A := IH (fun x Hx => HM x (or_intror Hx))). assert (B := HM s (or_introl eq_refl)).
    assert (C := positive_Z _ H1). assert (D : (current s * inject_Z (sublayers s) <= M * inject_Z (sublayers s))%Q) by (apply Qmult_le_compat_r; lra). lra.
Qed.
Lemma total_ge : forall a L, numbered L -> (forall s, In s L -> a <= current s)%Q -> (a * inject_Z (weights L) <= total L)%Q /\
  ((total L <= a * inject_Z (weights L))%Q -> forall s, In s L -> (current s == a)%Q).
Proof.
  intros a L H. induction H as [|s l H1 H2 IH]; intros HM; cbn [total map Qsum weights fold_right].
  - split; [unfold inject_Z; lra|intros _ s []].
  - fold (total l) (weights l). rewrite inject_Z_plus. destruct (IH (fun x Hx => HM x (or_intror Hx))) as (A1 & A2). assert (B := HM s (or_introl eq_refl)).
    assert (C := positive_Z _ H1). assert (D : (a * inject_Z (sublayers s) <= current s * inject_Z (sublayers s))%Q) by (apply Qmult_le_compat_r; lra).
    split; [lra|]. intros E t [<-|Ht]; [|apply A2; [lra|exact Ht]].
    assert (F : (current s * inject_Z (sublayers s) <= a * inject_Z (sublayers s))%Q) by lra. apply Qmult_lt_0_le_reg_r in F; [lra|exact C].
Qed.
Lemma average_le : forall M st a, numbered st -> weighted_average st = Some a -> (forall s, In s st -> neglected s = false -> current s <= M)%Q -> (a <= M)%Q.
Proof.
  intros M st a H E HM. assert (A := average_is st H). rewrite E in A. destruct A as (A1 & A2).
  assert (G := total_le M (eligible st) (numbered_eligible st H)). apply (Qmult_lt_0_le_reg_r a M (inject_Z (weights (eligible st)))); [apply positive_Z; exact A1|].
  rewrite A2. apply G. intros s Hs. apply eligible_in in Hs. apply HM; tauto.
Qed.
Lemma no_candidates_levelled : forall st, numbered st ->
  match weighted_average st with None => True | Some avg => forall i s, nth_error st i = Some s -> low avg s -> False end -> levelled st.
Proof.
  intros st H HC. assert (A := average_is st H). destruct (weighted_average st) as [a|].
  - destruct A as (A1 & A2). destruct (total_ge a (eligible st) (numbered_eligible st H)) as (G1 & G2).
    { intros s Hs. apply eligible_in in Hs. destruct Hs as (Hs & N). apply Qnot_lt_le. intros C. apply In_nth_error in Hs. destruct Hs as (i & E). apply (HC i s E). split; assumption. }
    assert (G := G2 ltac:(lra)). intros s s' H1 H2 N1 N2. rewrite (G s), (G s'); [reflexivity| |]; apply eligible_in; tauto.
  - intros s s' H1 _ N1 _. assert (X : In s (eligible st)) by (apply eligible_in; tauto). rewrite A in X. destruct X.
Qed.

(** ** The layers of a run *)
Lemma mean_fold : forall cs : list (string * Q), cs <> [] ->
  (fold_left (fun t s => t + base s) (map initial cs) 0 / inject_Z (Z.of_nat (List.length (map initial cs))) == mean (map snd cs))%Q.
Proof.
  intros cs _. unfold mean. rewrite fold_Q, map_map, !map_length. apply Qmult_comp; [|reflexivity]. rewrite Qplus_0_l. reflexivity.
Qed.
Lemma mark_spec : forall cs, cs <> [] -> exists a, (a == 3 * mean (map snd cs))%Q /\
  mark_neglected (map initial cs) = map (fun p => mk_layer (fst p) (snd p) (snd p) 1 (Qlt_bool a (snd p))) cs.
Proof.
  intros cs H. assert (M := mean_fold cs H). set (a := (3 * (fold_left (fun t s => t + base s) (map initial cs) 0 / inject_Z (Z.of_nat (List.length (map initial cs)))))%Q).
  exists a. split; [unfold a; rewrite M; reflexivity|]. transitivity (map (fun s => if Qlt_bool a (base s) then mk_layer (name s) (base s) (current s) (sublayers s) true else s) (map initial cs)).
  { unfold a. destruct cs as [|c l]; [contradiction|]. reflexivity. }
  clearbody a. rewrite map_map. apply map_ext. intros p. cbn [initial base name current sublayers]. destruct (Qlt_bool a (snd p)); reflexivity.
Qed.
Definition kept (s t : layer) : Prop :=
  name t = name s /\ base t = base s /\ neglected t = neglected s /\ divided t /\ (neglected s = true -> t = s).
Lemma kept_step : forall s avg t u, kept s t -> phase_step avg t u -> kept s u.
Proof.
  intros s avg t u K [->|((N & _) & ->)]; [exact K|]. destruct K as (A & B & C & (D1 & D2) & E). unfold kept. cbn [subdivide_one name base neglected].
  repeat split; try assumption.
  - cbn [subdivide_one sublayers]. lia.
  - assert (G := subdivide_conductance t D1). assert (NZ := nonzero_Z _ D1). cbn [subdivide_one sublayers current base] in *. rewrite D2. unfold Qdiv. set (x := inject_Z (sublayers t + 1)). set (y := inject_Z (sublayers t)) in *. clearbody x y. field. exact NZ.
  - intros F. rewrite <- C, N in F. discriminate F.
Qed.
Lemma Forall2_trans_step : forall {A} (K : A -> A -> Prop) (R : A -> A -> Prop), (forall a b c, K a b -> R b c -> K a c) -> forall l m n, Forall2 K l m -> Forall2 R m n -> Forall2 K l n.
Proof. intros A K R H l m n HK. revert n. induction HK; intros n HR; inversion HR; subst; constructor; [eapply H; eassumption|]. apply IHHK. assumption. Qed.
Lemma run_spec : forall cs n st' v0 vs, run cs n = Some (st', v0, vs) ->
  let st0 := mark_neglected (map initial cs) in
  cs <> [] /\ v0 = var_s st0 /\ numbered st0 /\ numbered st' /\ Forall2 kept st0 st' /\
  divisions st' = Z.of_nat (List.length vs) /\ Z.of_nat (List.length vs) <= Z.max 0 n /\
  (exists sts, history st0 sts st' /\ Forall2 recorded sts vs) /\
  (forall P : list layer -> Prop, (forall s avg s', P s -> numbered s -> weighted_average s = Some avg -> Forall2 (phase_step avg) s s' -> P s') -> P st0 -> P st') /\
  (Z.of_nat (List.length vs) < n -> levelled st').
Proof.
  intros cs n st' v0 vs R st0. unfold run in R. destruct cs as [|c cs0]; [discriminate R|]. set (cs := c :: cs0) in *.
  assert (NE : cs <> []) by discriminate. destruct (mark_spec cs NE) as (a & A1 & A2).
  assert (H : numbered st0). { unfold st0. rewrite A2. apply Forall_forall. intros s Hs. apply in_map_iff in Hs. destruct Hs as (p & <- & _). cbn. lia. }
  assert (D0 : divisions st0 = 0). { unfold st0. rewrite A2. clear. induction cs; [reflexivity|]. unfold divisions in *. cbn [map fold_right sublayers]. lia. }
  assert (K0 : Forall2 kept st0 st0). { unfold st0. rewrite A2. clear. induction cs as [|p l IH]; constructor; [|exact IH]. unfold kept, divided. cbn [name base current sublayers neglected].
    repeat split; [lia|unfold inject_Z; ring]. }
  assert (G := phases_spec (Z.to_nat n) (Z.to_nat n) st0 ltac:(lia) H). fold st0 in R. clearbody st0. clearbody cs.
  destruct (phases (Z.to_nat n) (Z.to_nat n) st0) as [[l1 st1] vs1]. injection R as <- <- <-.
  destruct G as (G1 & G2 & G3 & (sts & G4 & G5 & G6) & G7 & G8).
  split; [exact NE|]. split; [reflexivity|]. split; [exact H|]. split; [exact G2|]. split.
  { apply G7; [|exact K0]. intros s avg s' HK _ _ HP. exact (Forall2_trans_step kept (phase_step avg) (fun a b c => kept_step a avg b c) _ _ _ HK HP). }
  split; [lia|]. split; [lia|]. split; [exists sts; split; assumption|]. split; [exact G7|].
  intros L. apply no_candidates_levelled; [exact G2|]. destruct G8 as [G8|G8]; [lia|exact G8].
Qed.

(** Of the layers of the file, in their order: names and conductances are kept; n
    sublayers have n times the conductance each; exactly the layers above three times the
    average are neglected, and these are never divided. *)
Theorem C79_layers : forall cs n st' v0 vs, run cs n = Some (st', v0, vs) ->
  Forall2 (fun p s => name s = fst p /\ base s = snd p /\ divided s /\
                      (neglected s = true <-> (3 * mean (map snd cs) < snd p)%Q) /\ (neglected s = true -> sublayers s = 1)) cs st'.
Proof.
  intros cs n st' v0 vs R. assert (G := run_spec _ _ _ _ _ R). cbv zeta in G. destruct G as (NE & _ & _ & _ & K & _). destruct (mark_spec cs NE) as (a & A1 & A2). rewrite A2 in K.
  clear R A2 NE. set (m := mean (map snd cs)) in *. clearbody m. revert st' K. induction cs as [|p l IH]; intros st' K; inversion K as [|s t l1 l2 K1 K2]; subst; constructor; [|apply IH; exact K2].
  destruct K1 as (B1 & B2 & B3 & B4 & B5). cbn [name base neglected] in *. repeat split; try assumption; try (destruct B4; assumption).
  - intros N. rewrite B3 in N. apply Qlt_bool_iff in N. lra.
  - intros N. rewrite B3. apply Qlt_bool_iff. lra.
  - intros N. rewrite B3 in N. rewrite (B5 N). reflexivity.
Qed.

(** There are never more divisions than allowed, one variance is reported for each, and a
    run that stops short of the limit has levelled all layers that take part. *)
Theorem C79_budget : forall cs n st' v0 vs, run cs n = Some (st', v0, vs) ->
  divisions st' = Z.of_nat (List.length vs) /\ divisions st' <= Z.max 0 n /\ (divisions st' < n -> levelled st').
Proof.
  intros cs n st' v0 vs R. assert (G := run_spec _ _ _ _ _ R). cbv zeta in G. destruct G as (_ & _ & _ & _ & _ & D & B & _ & _ & L).
  split; [exact D|]. split; [lia|]. intros H. apply L. lia.
Qed.

(** The reported variances are the sample variances of the sublayers, at the start and
    after each division of one layer that takes part. *)
Theorem C79_variances : forall cs n st' v0 vs, run cs n = Some (st', v0, vs) ->
  exists st0 sts, run cs 0 = Some (st0, v0, []) /\ is_variance st0 v0 /\ history st0 sts st' /\
    Forall2 (fun s v => is_variance s v /\ exists q, v = Value q) sts vs.
Proof.
  intros cs n st' v0 vs R. assert (G := run_spec _ _ _ _ _ R). cbv zeta in G. destruct G as (NE & V & H & _ & _ & _ & _ & (sts & S1 & S2) & _).
  exists (mark_neglected (map initial cs)), sts. repeat split; try assumption.
  - unfold run. destruct cs as [|c l]; [contradiction|]. rewrite V. reflexivity.
  - rewrite V. apply variance_spec. exact H.
Qed.

(** ** Least common multiples *)
Lemma taking_part_bases : forall cs st', cs <> [] -> Forall2 kept (mark_neglected (map initial cs)) st' ->
  map base (eligible st') = taking_part (map snd cs).
Proof.
  intros cs st' NE K. destruct (mark_spec cs NE) as (a & A1 & A2). rewrite A2 in K. clear A2 NE. unfold taking_part.
  set (m := mean (map snd cs)) in *. clearbody m. revert st' K. induction cs as [|p l IH]; intros st' K; inversion K as [|s t l1 l2 K1 K2]; subst; [reflexivity|].
  destruct K1 as (B1 & B2 & B3 & _). cbn [name base neglected] in *. specialize (IH _ K2). unfold eligible in *. cbn [map filter]. rewrite B3.
  assert (E : Qlt_bool a (snd p) = negb (Qle_bool (snd p) (3 * m))). { unfold Qlt_bool. rewrite A1. reflexivity. }
  rewrite E, negb_involutive. destruct (Qle_bool (snd p) (3 * m)); cbn [map]; rewrite IH; [rewrite B2; reflexivity|reflexivity].
Qed.
Definition inside (m : Q) (s : layer) : Prop := neglected s = false -> (0 < base s)%Q /\ divided s /\ exists k, sublayers s <= k /\ (m == base s * inject_Z k)%Q.
Lemma inside_le : forall m s, inside m s -> neglected s = false -> (current s <= m)%Q.
Proof.
  intros m s H N. destruct (H N) as (P & (D1 & D2) & k & K1 & K2). rewrite D2, K2, (Qmult_comm _ (inject_Z (sublayers s))), (Qmult_comm _ (inject_Z k)).
  apply Qmult_le_compat_r; [unfold Qle; cbn; lia|lra].
Qed.
Lemma inside_step : forall m avg s t, inside m s -> (avg <= m)%Q -> phase_step avg s t -> inside m t.
Proof.
  intros m avg s t H HA [->|((N & L) & ->)]; [exact H|]. intros _. destruct (H N) as (P & (D1 & D2) & k & K1 & K2). cbn [subdivide_one base sublayers].
  split; [exact P|]. split.
  - split; [cbn [subdivide_one sublayers]; lia|]. assert (NZ := nonzero_Z _ D1). cbn [subdivide_one sublayers current base]. rewrite D2. unfold Qdiv.
    set (x := inject_Z (sublayers s + 1)). set (y := inject_Z (sublayers s)) in *. clearbody x y. field. exact NZ.
  - exists k. split; [|exact K2]. assert (C : (base s * inject_Z (sublayers s) < base s * inject_Z k)%Q) by (rewrite <- D2, <- K2; lra).
    rewrite (Qmult_comm _ (inject_Z (sublayers s))), (Qmult_comm _ (inject_Z k)) in C. apply Qmult_lt_r in C; [|exact P]. unfold Qlt in C. cbn in C. lia.
Qed.
Lemma Forall2_right : forall {A B} (R : A -> B -> Prop) (P : A -> Prop) (Q0 : B -> Prop) l k, Forall2 R l k -> (forall a b, P a -> R a b -> Q0 b) -> Forall P l -> Forall Q0 k.
Proof. intros A B R P Q0 l k H HR. induction H; intros HP; inversion HP; subst; constructor; [eapply HR; eassumption|]. apply IHForall2. assumption. Qed.
Lemma run_inside : forall cs n st' v0 vs m, run cs n = Some (st', v0, vs) -> Forall (fun b => 0 < b)%Q (taking_part (map snd cs)) ->
  common_multiple m (taking_part (map snd cs)) -> Forall (inside m) st'.
Proof.
  intros cs n st' v0 vs m R HP HM. assert (G := run_spec _ _ _ _ _ R). cbv zeta in G. destruct G as (NE & _ & H & _ & _ & _ & _ & _ & I & _).
  apply I.
  - intros s avg s' HS HN W F. assert (A : (avg <= m)%Q).
    { apply (average_le m s avg HN W). intros x Hx Nx. apply inside_le; [|exact Nx]. rewrite Forall_forall in HS. exact (HS x Hx). }
    exact (Forall2_right _ _ _ _ _ F (fun a b Ha Hab => inside_step m avg a b Ha A Hab) HS).
  - clear I. assert (E : Forall2 kept (mark_neglected (map initial cs)) (mark_neglected (map initial cs))).
    { destruct (mark_spec cs NE) as (a & A1 & A2). rewrite A2. clear. induction cs as [|p l IH]; constructor; [|exact IH]. unfold kept, divided. cbn [name base current sublayers neglected].
      repeat split; [lia|unfold inject_Z; ring]. }
    assert (B := taking_part_bases cs _ NE E). rewrite <- B in HP, HM. apply Forall_forall. intros s Hs N.
    assert (X : In (base s) (map base (eligible (mark_neglected (map initial cs))))) by (apply in_map, eligible_in; tauto).
    unfold common_multiple in HM. rewrite Forall_forall in HP, HM. destruct (HM _ X) as (k & K1 & K2). split; [exact (HP _ X)|].
    destruct (mark_spec cs NE) as (a & A1 & A2). rewrite A2 in Hs. apply in_map_iff in Hs. destruct Hs as (p & <- & _). cbn [base sublayers current] in *. split.
    + unfold divided. cbn [base sublayers current]. split; [lia|]. unfold inject_Z. ring.
    + exists k. split; [exact K1|exact K2].
Qed.

(** With positive conductances no layer is divided beyond a common multiple of the
    conductances of the layers that take part. *)
Theorem C79_bound : forall cs n st' v0 vs m, run cs n = Some (st', v0, vs) -> Forall (fun b => 0 < b)%Q (taking_part (map snd cs)) ->
  common_multiple m (taking_part (map snd cs)) -> forall s, In s st' -> neglected s = false -> (current s <= m)%Q.
Proof.
  intros cs n st' v0 vs m R HP HM s Hs N. assert (G := run_inside _ _ _ _ _ _ R HP HM). rewrite Forall_forall in G. exact (inside_le m s (G s Hs) N).
Qed.

Lemma multiple_exists : forall bs, Forall (fun b => 0 < b)%Q bs -> exists m : Z, 1 <= m /\ common_multiple (inject_Z m) bs.
Proof.
  intros bs H. induction H as [|b l Hb HF (m & M1 & M2)].
  - exists 1. split; [lia|constructor].
  - assert (P : 1 <= Qnum b) by (unfold Qlt in Hb; cbn in Hb; lia). exists (Qnum b * m). split; [nia|]. constructor.
    + exists (Z.pos (Qden b) * m). split; [nia|]. destruct b as [p q]. cbn [Qnum Qden] in *. assert (E : (p # q == inject_Z p / inject_Z (Z.pos q))%Q) by apply Qmake_Qdiv. rewrite E, !inject_Z_mult. field. apply nonzero_Z. lia.
    + apply Forall_forall. intros c Hc. unfold common_multiple in M2. rewrite Forall_forall in M2. destruct (M2 c Hc) as (k & K1 & K2). exists (Qnum b * k). split; [nia|].
      rewrite !inject_Z_mult, K2. ring.
Qed.
Definition room (m : Q) (bs : list Q) : Z := fold_right (fun b t => Qfloor (m / b) - 1 + t) 0 bs.
Lemma divisions_eligible : forall st, (forall s, In s st -> neglected s = true -> sublayers s = 1) -> divisions st = fold_right (fun s t => sublayers s - 1 + t) 0 (eligible st).
Proof.
  unfold divisions, eligible. induction st as [|s l IH]; intros H; [reflexivity|]. cbn [filter fold_right]. rewrite IH by (intros x Hx; apply H; right; exact Hx).
  destruct (neglected s) eqn:N; cbn [negb fold_right]; [rewrite (H s (or_introl eq_refl) N); lia|lia].
Qed.
Lemma floor_multiple : forall m b k, (0 < b)%Q -> (m == b * inject_Z k)%Q -> Qfloor (m / b) = k.
Proof. intros m b k H E. assert (F : (m / b == inject_Z k)%Q) by (rewrite E; field; lra). rewrite F. apply Qfloor_Z. Qed.
Lemma room_spec : forall m L, Forall (inside m) L -> (forall s, In s L -> neglected s = false) ->
  fold_right (fun s t => sublayers s - 1 + t) 0 L <= room m (map base L) /\
  (room m (map base L) <= fold_right (fun s t => sublayers s - 1 + t) 0 L -> forall s, In s L -> (current s == m)%Q).
Proof.
  intros m L H. induction H as [|s l HS HF IH]; intros HN; cbn [fold_right map room].
  - split; [lia|intros _ s []].
  - fold (room m (map base l)). destruct (IH (fun x Hx => HN x (or_intror Hx))) as (A1 & A2). destruct (HS (HN s (or_introl eq_refl))) as (P & (D1 & D2) & k & K1 & K2).
    rewrite (floor_multiple m (base s) k P K2). split; [lia|]. intros E t [<-|Ht]; [|apply A2; [lia|exact Ht]].
    assert (sublayers s = k) by lia. subst k. rewrite D2, K2. reflexivity.
Qed.
Lemma run_reaches : forall cs m n st' v0 vs, Forall (fun b => 0 < b)%Q (taking_part (map snd cs)) -> common_multiple m (taking_part (map snd cs)) ->
  room m (taking_part (map snd cs)) <= n -> run cs n = Some (st', v0, vs) -> levelled st'.
Proof.
  intros cs m n st' v0 vs HP HM HN R. assert (I := run_inside _ _ _ _ _ _ R HP HM). assert (B := C79_budget _ _ _ _ _ R). destruct B as (_ & _ & B).
  destruct (Z.lt_ge_cases (divisions st') n) as [L|L]; [exact (B L)|].
  assert (G := run_spec _ _ _ _ _ R). cbv zeta in G. destruct G as (NE & _ & _ & _ & K & _). assert (T := taking_part_bases cs st' NE K).
  assert (LY := C79_layers _ _ _ _ _ R).
  assert (S1 : forall s, In s st' -> neglected s = true -> sublayers s = 1).
  { clear - LY. intros s Hs N. set (m := mean (map snd cs)) in *. clearbody m. induction LY as [|p t l1 l2 HH HF IH]; [destruct Hs|].
    destruct Hs as [<-|Hs]; [|exact (IH Hs)]. destruct HH as (_ & _ & _ & _ & HH). exact (HH N). }
  assert (E := divisions_eligible st' S1). assert (IE : Forall (inside m) (eligible st')).
  { apply Forall_forall. intros s Hs. apply eligible_in in Hs. rewrite Forall_forall in I. apply I. tauto. }
  destruct (room_spec m (eligible st') IE) as (Q1 & Q2); [intros s Hs; apply eligible_in in Hs; tauto|]. rewrite T in Q1, Q2.
  assert (Q3 := Q2 ltac:(lia)). intros s s' H1 H2 N1 N2. rewrite (Q3 s), (Q3 s'); [reflexivity| |]; apply eligible_in; tauto.
Qed.

(** With positive conductances and enough divisions allowed, all layers that take part end
    with one and the same conductance per sublayer: the least common multiple of their
    conductances (not their largest conductance). *)
Theorem C79_levelled : forall cs, taking_part (map snd cs) <> [] -> Forall (fun b => 0 < b)%Q (taking_part (map snd cs)) ->
  exists enough m, common_multiple m (taking_part (map snd cs)) /\ (forall m', common_multiple m' (taking_part (map snd cs)) -> (m <= m')%Q) /\
    forall n st' v0 vs, enough <= n -> run cs n = Some (st', v0, vs) -> forall s, In s st' -> neglected s = false -> (current s == m)%Q.
Proof.
  intros cs NT HP. destruct (multiple_exists _ HP) as (m0 & _ & M0). set (enough := room (inject_Z m0) (taking_part (map snd cs))).
  assert (L : forall n st' v0 vs, enough <= n -> run cs n = Some (st', v0, vs) -> forall s, In s st' -> neglected s = false ->
    common_multiple (current s) (taking_part (map snd cs)) /\ (forall m', common_multiple m' (taking_part (map snd cs)) -> (current s <= m')%Q)).
  { intros n st' v0 vs HN R s Hs N. assert (LV := run_reaches cs (inject_Z m0) n st' v0 vs HP M0 HN R). split.
    - assert (G := run_spec _ _ _ _ _ R). cbv zeta in G. destruct G as (NE & _ & _ & _ & K & _). assert (T := taking_part_bases cs st' NE K).
      unfold common_multiple. rewrite <- T. apply Forall_forall. intros b Hb. apply in_map_iff in Hb. destruct Hb as (t & <- & Ht). apply eligible_in in Ht. destruct Ht as (Ht & Nt).
      assert (I := run_inside _ _ _ _ _ _ R HP M0). rewrite Forall_forall in I. destruct (I t Ht Nt) as (_ & (D1 & D2) & _).
      exists (sublayers t). split; [exact D1|]. rewrite (LV s t Hs Ht N Nt). exact D2.
    - intros m' HM. exact (C79_bound _ _ _ _ _ _ R HP HM s Hs N). }
  assert (NE : cs <> []) by (intros ->; apply NT; reflexivity).
  destruct (run cs enough) as [[[st1 v1] vs1]|] eqn:R1.
  2:{ exfalso. unfold run in R1. destruct cs; [apply NE; reflexivity|]. destruct (phases _ _ _) as [[? ?] ?]. discriminate R1. }
  assert (G := run_spec _ _ _ _ _ R1). cbv zeta in G. destruct G as (_ & _ & _ & _ & K & _). assert (T := taking_part_bases cs st1 NE K).
  destruct (eligible st1) as [|s1 l1] eqn:E1; [exfalso; apply NT; rewrite <- T; reflexivity|].
  assert (H1 : In s1 (eligible st1)) by (rewrite E1; left; reflexivity). apply eligible_in in H1. destruct H1 as (H1 & N1).
  destruct (L enough st1 v1 vs1 ltac:(lia) R1 s1 H1 N1) as (C1 & C2). exists enough, (current s1). split; [exact C1|]. split; [exact C2|].
  intros n st' v0 vs HN R s Hs N. destruct (L n st' v0 vs HN R s Hs N) as (D1 & D2). apply Qle_antisym; [exact (D2 _ C1)|exact (C2 _ D1)].
Qed.

(** A layer of no (or negative) conductance beside one of positive conductance is divided
    for as long as divisions are allowed. *)
Theorem C79_nonpositive : forall cs n st' v0 vs x y, run cs n = Some (st', v0, vs) ->
  In x (taking_part (map snd cs)) -> (x <= 0)%Q -> In y (taking_part (map snd cs)) -> (0 < y)%Q -> divisions st' = Z.max 0 n.
Proof.
  intros cs n st' v0 vs x y R Hx X Hy Y. assert (B := C79_budget _ _ _ _ _ R). destruct B as (B0 & B1 & B2).
  destruct (Z.lt_ge_cases (divisions st') n) as [L|L]; [exfalso|lia]. assert (LV := B2 L).
  assert (G := run_spec _ _ _ _ _ R). cbv zeta in G. destruct G as (NE & _ & _ & _ & K & _). rewrite <- (taking_part_bases cs st' NE K) in Hx, Hy.
  assert (D : forall s, In s st' -> divided s). { clear - K. intros s Hs. induction K as [|a b l1 l2 HH HF IH]; [destruct Hs|]. destruct Hs as [<-|Hs]; [|exact (IH Hs)]. destruct HH as (_ & _ & _ & HH & _). exact HH. }
  apply in_map_iff in Hx. destruct Hx as (s & <- & Hs). apply in_map_iff in Hy. destruct Hy as (t & <- & Ht). apply eligible_in in Hs. apply eligible_in in Ht.
  destruct Hs as (Hs & Ns). destruct Ht as (Ht & Nt). assert (E := LV s t Hs Ht Ns Nt). destruct (D s Hs) as (D1 & D2). destruct (D t Ht) as (D3 & D4). rewrite D2, D4 in E.
  assert (P1 := positive_Z _ D1). assert (P2 := positive_Z _ D3). assert (P3 : (0 < base t * inject_Z (sublayers t))%Q) by (apply Qmult_lt_0_compat; assumption).
  assert (P4 : (base s * inject_Z (sublayers s) <= 0 * inject_Z (sublayers s))%Q) by (apply Qmult_le_compat_r; lra). lra.
Qed.

(** ** The order of the divisions *)
Lemma sorted_split : forall {A} (R : A -> A -> Prop) n l x y, StronglySorted R l -> In x (firstn n l) -> In y (skipn n l) -> R x y.
Proof.
  intros A R. induction n; intros l x y H HX HY; [destruct HX|]. destruct l as [|z l]; [destruct HX|]. inversion H as [|z' l' H1 H2]. subst.
  cbn [firstn skipn] in *. destruct HX as [<-|HX]; [|exact (IHn l x y H1 HX HY)]. rewrite Forall_forall in H2. apply H2. rewrite <- (firstn_skipn n l). apply in_or_app. right. exact HY.
Qed.
Lemma pairs_current : forall avg st i c, In (i, c) (candidates 0 avg st) -> exists s, nth_error st i = Some s /\ c = current s.
Proof. intros avg st i c H. apply candidates_spec in H. destruct H as (j & s & -> & E & _ & F). exists s. split; [exact E|exact F]. Qed.
Lemma chosen_first : forall avg st n i j s t, In i (firstn n (sort_candidates (candidates 0 avg st))) -> In j (sort_candidates (candidates 0 avg st)) ->
  ~ In j (firstn n (sort_candidates (candidates 0 avg st))) -> nth_error st i = Some s -> nth_error st j = Some t ->
  (current s < current t)%Q \/ (current s == current t)%Q /\ (i < j)%nat.
Proof.
  intros avg st n i j s t HI HJ NJ ES ET. unfold sort_candidates in *. set (ps := fold_right insert [] (candidates 0 avg st)) in *.
  assert (SP : forall p, In p ps -> exists u, nth_error st (fst p) = Some u /\ snd p = current u).
  { intros [k c] Hp. apply (Permutation_in _ (sort_perm _)) in Hp. exact (pairs_current avg st k c Hp). }
  assert (HS : StronglySorted before ps) by (apply sort_sorted, candidates_sorted). clearbody ps.
  rewrite firstn_map in HI, NJ. apply in_map_iff in HI. destruct HI as (p & P1 & P2). apply in_map_iff in HJ. destruct HJ as (q & Q1 & Q2).
  assert (QS : In q (skipn n ps)).
  { rewrite <- (firstn_skipn n ps) in Q2. apply in_app_or in Q2. destruct Q2 as [Q2|Q2]; [|exact Q2]. exfalso. apply NJ. rewrite <- Q1. apply in_map. exact Q2. }
  assert (B := sorted_split before n ps p q HS P2 QS). destruct (SP p (firstn_in _ _ _ P2)) as (u & U1 & U2). rewrite P1, ES in U1. injection U1 as <-.
  destruct (SP q Q2) as (w & W1 & W2). rewrite Q1, ET in W1. injection W1 as <-. unfold before in B. rewrite U2, W2, P1, Q1 in B. exact B.
Qed.
Lemma initial_conductances : forall cs, cs <> [] -> sublayer_conductances (mark_neglected (map initial cs)) = taking_part (map snd cs).
Proof.
  intros cs NE. destruct (mark_spec cs NE) as (a & A1 & A2). rewrite A2. unfold sublayer_conductances, taking_part. set (m := mean (map snd cs)) in *. clearbody m. clear A2 NE.
  induction cs as [|p l IH]; [reflexivity|]. cbn [map filter].
  assert (E : Qlt_bool a (snd p) = negb (Qle_bool (snd p) (3 * m))) by (unfold Qlt_bool; rewrite A1; reflexivity).
  cbn [neglected]. rewrite E, negb_involutive. destruct (Qle_bool (snd p) (3 * m)); cbn [flat_map sublayers current]; [|exact IH]. rewrite IH. reflexivity.
Qed.
Lemma Forall2_nth_inv : forall {A B} (R : A -> B -> Prop) l k i b, Forall2 R l k -> nth_error k i = Some b -> exists a, nth_error l i = Some a /\ R a b.
Proof.
  intros A B R l k i b H. revert i. induction H; intros i E; [destruct i; discriminate E|]. destruct i as [|i].
  - cbn in E. injection E as <-. exists x. split; [reflexivity|assumption].
  - exact (IHForall2 i E).
Qed.
Lemma Forall2_nth_fwd : forall {A B} (R : A -> B -> Prop) l k i a, Forall2 R l k -> nth_error l i = Some a -> exists b, nth_error k i = Some b /\ R a b.
Proof.
  intros A B R l k i a H. revert i. induction H; intros i E; [destruct i; discriminate E|]. destruct i as [|i].
  - cbn in E. injection E as <-. exists y. split; [reflexivity|assumption].
  - exact (IHForall2 i E).
Qed.

(** The lowest conductances are divided first: when the limit leaves a layer below the
    initial average undivided, every layer that was divided was divided once, and had a
    lower conductance, or the same one and an earlier place in the file. *)
Theorem C79_order : forall cs n st' v0 vs j t, run cs n = Some (st', v0, vs) -> nth_error st' j = Some t ->
  neglected t = false -> (base t < mean (taking_part (map snd cs)))%Q -> sublayers t = 1 ->
  forall i s, nth_error st' i = Some s -> sublayers s = 1 \/ sublayers s = 2 /\ ((base s < base t)%Q \/ (base s == base t)%Q /\ (i < j)%nat).
Proof.
  intros cs n st' v0 vs j t R ET NT LT ST. assert (G := run_spec _ _ _ _ _ R). cbv zeta in G. destruct G as (NE & _ & H & _ & K & _).
  rewrite <- (initial_conductances cs NE) in LT.
  assert (I0 : forall i s, nth_error (mark_neglected (map initial cs)) i = Some s -> sublayers s = 1 /\ current s = base s).
  { intros i s E. destruct (mark_spec cs NE) as (a & A1 & A2). rewrite A2 in E. apply nth_error_In, in_map_iff in E. destruct E as (p & <- & _). split; reflexivity. }
  unfold run in R. destruct cs as [|c cs0]; [contradiction|]. set (st0 := mark_neglected (map initial (c :: cs0))) in *. clearbody st0. clear NE.
  destruct (Forall2_nth_inv _ _ _ _ _ K ET) as (t0 & ET0 & KT). destruct KT as (_ & KB & KN & _ & _). destruct (I0 j t0 ET0) as (_ & CT0).
  destruct (Z.to_nat n) as [|l].
  { cbn [phases] in R. injection R as <- <- <-. intros i s E. left. exact (proj1 (I0 i s E)). }
  cbn [phases] in R. assert (AV := average_spec st0 H). destruct (weighted_average st0) as [avg|] eqn:W.
  2:{ injection R as <- <- <-. intros i s E. left. exact (proj1 (I0 i s E)). }
  destruct AV as (_ & AV). assert (LOW : low avg t0) by (split; [congruence|rewrite CT0, <- KB, AV; exact LT]).
  assert (HJ : In j (sort_candidates (candidates 0 avg st0))) by (apply sort_in; exists t0; split; assumption).
  assert (D := divide_spec (sort_candidates (candidates 0 avg st0)) (S l) st0 H).
  assert (HE : forall i, In i (sort_candidates (candidates 0 avg st0)) -> eligible_at st0 i).
  { intros k Hk. apply sort_in in Hk. destruct Hk as (s & E & N & _). exists s. split; assumption. }
  specialize (D HE). assert (CH := fun i s => chosen_first avg st0 (S l) i j s t0). assert (ND := firstn_nodup (S l) _ (sort_nodup avg st0)).
  set (order := sort_candidates (candidates 0 avg st0)) in *. clearbody order.
  destruct order as [|o1 os]; [destruct HJ|]. set (order := o1 :: os) in *. 
  destruct (divide order (S l) st0) as [[l1 st1] vs1]. destruct D as (D1 & D2 & D3 & _).
  destruct (in_dec Nat.eq_dec j (firstn (S l) order)) as [IJ|NJ].
  - exfalso. assert (P1 : exists s, nth_error st1 j = Some s /\ 2 <= sublayers s).
    { rewrite D2, fold_change_nth by exact ND. assert (X : existsb (Nat.eqb j) (firstn (S l) order) = true) by (apply existsb_exists; exists j; split; [exact IJ|apply Nat.eqb_refl]).
      rewrite X, ET0. exists (subdivide_one t0). split; [reflexivity|]. cbn [subdivide_one sublayers]. rewrite (proj1 (I0 j t0 ET0)). lia. }
    assert (LL : (l1 <= l)%nat) by (unfold order in D1; cbn [List.length] in D1; lia).
    assert (P := phases_spec l l1 st1 LL D3). destruct (phases l l1 st1) as [[l2 st2] vs2]. injection R as <- <- <-. destruct P as (_ & _ & _ & _ & P & _).
    assert (F : exists s, nth_error st2 j = Some s /\ 2 <= sublayers s).
    { apply (P (fun st => exists s, nth_error st j = Some s /\ 2 <= sublayers s)); [|exact P1]. clear. intros st avg st' (s & E & Hs) _ _ F.
      destruct (Forall2_nth_fwd _ _ _ j s F E) as (u & U1 & U2). exists u. split; [exact U1|]. destruct U2 as [->|(_ & ->)]; [exact Hs|cbn [subdivide_one sublayers]; lia]. }
    destruct F as (s & E & Hs). rewrite ET in E. injection E as <-. lia.
  - assert (L0 : l1 = 0%nat).
    { rewrite D1. destruct (Nat.le_gt_cases (List.length order) (S l)) as [C|C]; [|lia]. exfalso. apply NJ. rewrite firstn_all2 by exact C. exact HJ. }
    rewrite L0 in R. assert (P0 : phases l 0 st1 = (0%nat, st1, [])) by (destruct l; reflexivity). rewrite P0 in R. injection R as <- <- <-.
    intros i s E. rewrite D2, fold_change_nth in E by exact ND. destruct (existsb (Nat.eqb i) (firstn (S l) order)) eqn:X.
    + right. apply existsb_exists in X. destruct X as (k & K1 & K2). apply Nat.eqb_eq in K2. subst k. destruct (nth_error st0 i) as [s0|] eqn:E0; [|discriminate E].
      cbn [option_map] in E. injection E as <-. destruct (I0 i s0 E0) as (S1 & S2). cbn [subdivide_one sublayers base]. split; [lia|].
      assert (CC := CH i s0 K1 HJ NJ E0 ET0). rewrite S2, CT0, <- KB in CC. exact CC.
    + left. exact (proj1 (I0 i s E)).
Qed.

(** When no conductance is negative some layer takes part. *)
Theorem C79_some : forall cs : list Q, cs <> [] -> Forall (fun c => 0 <= c)%Q cs -> taking_part cs <> [].
Proof.
  intros cs NE HP C. assert (A : forall l m, filter (fun c => Qle_bool c (3 * m)) l = [] -> (3 * m * inject_Z (Z.of_nat (List.length l)) <= Qsum l)%Q).
  { clear. induction l as [|x l IH]; intros m E; [cbn; unfold inject_Z; lra|]. cbn [filter] in E. destruct (Qle_bool x (3 * m)) eqn:B; [discriminate E|].
    assert (L : (3 * m < x)%Q) by (apply Qnot_le_lt; intros X; apply Qle_bool_iff in X; congruence). specialize (IH m E). cbn [List.length Qsum]. rewrite Nat2Z.inj_succ. unfold Z.succ. rewrite inject_Z_plus. unfold inject_Z at 2. lra. }
  assert (S0 : (0 <= Qsum cs)%Q). { clear - HP. induction HP; cbn [Qsum]; lra. }
  assert (N : 1 <= Z.of_nat (List.length cs)) by (destruct cs; [contradiction|cbn [List.length]; lia]).
  assert (NZ := nonzero_Z _ N). assert (M : (mean cs * inject_Z (Z.of_nat (List.length cs)) == Qsum cs)%Q) by (unfold mean; field; exact NZ).
  assert (G := A cs (mean cs) C). assert (Z0 : (Qsum cs == 0)%Q) by lra.
  assert (ALL : Forall (fun c => c == 0)%Q cs).
  { clear - HP S0 Z0. induction HP as [|x l H1 H2 IH]; constructor; cbn [Qsum] in *; assert (0 <= Qsum l)%Q by (clear - H2; induction H2; cbn [Qsum]; lra); [lra|]. apply IH; lra. }
  destruct cs as [|x l]; [contradiction|]. inversion ALL as [|x' l' X1 X2]. unfold taking_part in C. cbn [filter] in C. assert (MM : (mean (x :: l) == 0)%Q) by (unfold mean; rewrite Z0; field; exact NZ).
  assert (B : Qle_bool x (3 * mean (x :: l)) = true) by (apply Qle_bool_iff; rewrite MM, X1; lra). rewrite B in C. discriminate C.
Qed.

(** ** What does not hold *)
(** The variance need not fall: after two divisions of layers of 2 and 3 W/K it is higher
    than at the start. *)
Theorem C79_variance_refuted : ~ (forall cs n st' vs q0 q, run cs n = Some (st', Value q0, vs) -> In (Value q) vs -> (q <= q0)%Q).
Proof.
  intros H. assert (R : exists st' vs, run [("a"%string, 2%Q); ("b"%string, 3%Q)] 2 = Some (st', Value (8 # 16), Value (54 # 162) :: Value (1024 # 768) :: vs)).
  { eexists. eexists. vm_compute. reflexivity. }
  destruct R as (st' & vs & R). assert (G := H _ _ _ _ _ (1024 # 768)%Q R (or_intror (or_introl eq_refl))). unfold Qle in G. cbn in G. lia.
Qed.
(** Dividing does not stop near the largest conductance: 100 and 101 are only levelled at
    10100 per sublayer. *)
Theorem C79_far : forall n st' v0 vs, run [("a"%string, 100%Q); ("b"%string, 101%Q)] n = Some (st', v0, vs) -> levelled st' ->
  forall s, In s st' -> (10100 <= current s)%Q.
Proof.
  intros n st' v0 vs R LV s Hs. assert (L := C79_layers _ _ _ _ _ R). inversion L as [|p a l1 l2 A1 A2]. subst. inversion A2 as [|p2 b l3 l4 B1 B2]. subst. inversion B2. subst.
  destruct A1 as (_ & AB & (A3 & A4) & AN & _). destruct B1 as (_ & BB & (B3 & B4) & BN & _).
  assert (NA : neglected a = false). { destruct (neglected a); [|reflexivity]. destruct AN as (AN & _). specialize (AN eq_refl). exfalso. revert AN. vm_compute. discriminate. }
  assert (NB : neglected b = false). { destruct (neglected b); [|reflexivity]. destruct BN as (BN & _). specialize (BN eq_refl). exfalso. revert BN. vm_compute. discriminate. }
  assert (E := LV a b (or_introl eq_refl) (or_intror (or_introl eq_refl)) NA NB). cbn [snd] in AB, BB.
  assert (E2 : (100 * inject_Z (sublayers a) == 101 * inject_Z (sublayers b))%Q) by (rewrite <- AB, <- BB, <- A4, <- B4; exact E).
  assert (K : 100 * sublayers a = 101 * sublayers b) by (unfold Qeq in E2; cbn [Qnum Qden Qmult inject_Z] in E2; lia). assert (K2 : 101 <= sublayers a) by lia. assert (K3 : 100 <= sublayers b) by lia.
  destruct Hs as [<-|[<-|[]]].
  - rewrite A4, AB. unfold Qle. cbn [Qnum Qden Qmult inject_Z]. lia.
  - rewrite B4, BB. unfold Qle. cbn [Qnum Qden Qmult inject_Z]. lia.
Qed.
Example C79_witness :
  taking_part [2; 3; 60]%Q = [2; 3; 60]%Q /\ taking_part [2; 3; 3; 60]%Q = [2; 3; 3]%Q /\ common_multiple 6 [2; 3; 3]%Q /\
  accepted [Header "Layer2"; Cells (Some 5%Q); Blank; Header "Layer1"; Cells (Some 1%Q); Cells (Some 2%Q); Unprofiled "Layer" "PCB"; Header "Layer3"; Cells None]%string
    = [("Layer2"%string, 5%Q)] /\
  option_map (fun r => map (fun s => (sublayers s, Qred (current s))) (fst (fst r))) (run [("a"%string, 2%Q); ("b"%string, 3%Q); ("c"%string, 3%Q); ("d"%string, 60%Q)] 9)
    = Some [(3, 6%Q); (2, 6%Q); (2, 6%Q); (1, 60%Q)].
Proof.
  split; [reflexivity|]. split; [reflexivity|]. split.
  - constructor; [exists 3; split; [lia|reflexivity]|]. constructor; [exists 2; split; [lia|reflexivity]|]. constructor; [exists 2; split; [lia|reflexivity]|]. constructor.
  - split; reflexivity.
Qed.
