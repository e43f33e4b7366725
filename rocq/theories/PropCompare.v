(** * C78: the comparison of results with references *)
From Coq Require Import ZArith QArith Qabs Bool List Lia Lqa.
From Verif Require Import Base Compare CompareSpec.
Import ListNotations.
Local Open Scope Z_scope.

Lemma all2_length : forall {A B} (R : A -> B -> Prop) l k, Forall2 R l k -> length l = length k.
Proof. intros A B R l k H. induction H; cbn; congruence. Qed.
Lemma scan_value : forall w v r, value_of w = Some v -> scan_double (w :: r) = Some (v, r).
Proof. intros [z|x|] v r E; cbn [value_of] in E; [injection E as <-; reflexivity|injection E as <-; reflexivity|discriminate E]. Qed.
Lemma scan_pair : forall l p r, is_pair l p -> scan_two (l ++ r) = Some (fst p, snd p, r).
Proof.
  intros [|a [|b [|c l]]] p r E; try discriminate E. unfold is_pair in E. cbn [map] in E. injection E as E1 E2.
  unfold scan_two. cbn [app]. rewrite (scan_value a _ _ E1), (scan_value b _ _ E2). reflexivity.
Qed.
Lemma scan_triple : forall l p r, is_triple l p -> scan_three (l ++ r) = Some (fst (fst p), snd (fst p), snd p, r).
Proof.
  intros [|a [|b [|c [|e l]]]] p r E; try discriminate E. unfold is_triple in E. cbn [map] in E. injection E as E1 E2 E3.
  unfold scan_three, scan_two. cbn [app]. rewrite (scan_value a _ _ E1), (scan_value b _ _ E2), (scan_value c _ _ E3). reflexivity.
Qed.
Lemma scan_line : forall l e r, is_entry l e -> scan_entry (l ++ r) = Some (fst (fst e), snd (fst e), snd e, r).
Proof. intros l e r (w & -> & E). unfold scan_entry. cbn [app scan_int]. rewrite (scan_value w _ _ E). reflexivity. Qed.
Lemma differ_same : forall a b, differ a b = false <-> same a b.
Proof.
  intros [x|] [y|]; unfold differ, same; split.
  - intros H. exists x, y. split; [reflexivity|]. split; [reflexivity|]. apply Qeq_bool_iff. destruct (Qeq_bool x y); [reflexivity|discriminate].
  - intros (x' & y' & E1 & E2 & E). injection E1 as <-. injection E2 as <-. apply Qeq_bool_iff in E. rewrite E. reflexivity.
  - discriminate. 
  - intros (x' & y' & E1 & E2 & _). discriminate E2.
  - discriminate.
  - intros (x' & y' & E1 & _). discriminate E1.
  - discriminate.
  - intros (x' & y' & E1 & _). discriminate E1.
Qed.
Lemma differ_pair : forall r1 r2 r3, (differ (fst r1) (fst r2) || differ (fst r2) (fst (fst r3)) = false)%bool <-> times_agree r1 r2 r3.
Proof. intros. unfold times_agree. rewrite orb_false_iff, !differ_same. reflexivity. Qed.

(** ** The largest *)
Definition pick {X} (best : number * X) (it : number * X) : number * X := if above (fst it) (fst best) then it else best.
Lemma pick_spec : forall {X} (ds : list number) (xs : list X) m0 a0, length ds = length xs ->
    exists m a, fold_left pick (combine ds xs) (Some m0, a0) = (Some m, a) /\ (m0 <= m)%Q /\ (forall i d, nth_error ds i = Some (Some d) -> (d <= m)%Q) /\
      ((m = m0 /\ a = a0) \/ (m0 < m)%Q /\ exists i, nth_error xs i = Some a /\ nth_error ds i = Some (Some m) /\ forall j d, (j < i)%nat -> nth_error ds j = Some (Some d) -> (d < m)%Q).
Proof.
  intros X ds. induction ds as [|d ds IH]; intros [|x xs] m0 a0 L; try discriminate L.
  - exists m0, a0. split; [reflexivity|]. split; [apply Qle_refl|]. split; [intros [|i] d E; discriminate E|]. left. auto.
  - cbn [length] in L. injection L as L. cbn [combine fold_left]. unfold pick at 2. cbn [fst].
    destruct (above d (Some m0)) eqn:AB.
    + destruct d as [d|]; [|discriminate AB]. assert (D : (m0 < d)%Q).
      { cbn in AB. apply Qnot_le_lt. intros H. apply Qle_bool_iff in H. rewrite H in AB. discriminate. }
      destruct (IH xs d x L) as (m & a & E & LE & ALL & CASE). exists m, a. split; [exact E|]. split; [lra|]. split.
      { intros [|i] d' F; cbn in F; [injection F as <-; exact LE|exact (ALL i d' F)]. }
      right. destruct CASE as [(-> & ->)|(LT & i & F1 & F2 & F3)].
      * split; [exact D|]. exists 0%nat. split; [reflexivity|]. split; [reflexivity|]. lia.
      * split; [lra|]. exists (S i). split; [exact F1|]. split; [exact F2|]. intros [|j] d' LJ F; cbn in F; [injection F as <-; exact LT|exact (F3 j d' ltac:(lia) F)].
    + destruct (IH xs m0 a0 L) as (m & a & E & LE & ALL & CASE). exists m, a. split; [exact E|]. split; [exact LE|].
      assert (D : forall d', d = Some d' -> (d' <= m0)%Q).
      { intros d' ->. cbn in AB. destruct (Qle_bool d' m0) eqn:QB; [apply Qle_bool_iff; exact QB|discriminate]. }
      split. { intros [|i] d' F; cbn in F; [injection F as F; specialize (D d' F); lra|exact (ALL i d' F)]. }
      destruct CASE as [C|(LT & i & F1 & F2 & F3)]; [left; exact C|]. right. split; [exact LT|]. exists (S i). split; [exact F1|]. split; [exact F2|].
      intros [|j] d' LJ F; cbn in F; [injection F as F; specialize (D d' F); lra|exact (F3 j d' ltac:(lia) F)].
Qed.
Lemma pick_largest : forall {X} (ds : list number) (xs : list X) (a0 : X), length ds = length xs ->
    exists m a, fold_left pick (combine ds xs) (Some 0%Q, a0) = (Some m, a) /\ first_largest ds xs m a a0.
Proof.
  intros X ds xs a0 L. destruct (pick_spec ds xs 0 a0 L) as (m & a & E & LE & ALL & CASE). exists m, a. split; [exact E|]. split; [exact LE|]. split; [exact ALL|].
  destruct CASE as [(-> & ->)|C]; [left; split; reflexivity|right; exact C].
Qed.

(** ** CompareTemperatures *)
Lemma loop_agree : forall l1 r1, Forall2 is_pair l1 r1 -> forall l2 r2 l3 r3 k m1 a1 m2 a2, Forall2 is_pair l2 r2 -> Forall2 is_triple l3 r3 ->
    length r2 = length r1 -> length r3 = length r1 ->
    (forall i p1 p2 p3, nth_error r1 i = Some p1 -> nth_error r2 i = Some p2 -> nth_error r3 i = Some p3 -> times_agree p1 p2 p3) ->
    exists b1 b2, temperatures_loop (length l1) k (concat l1) (concat l2) (concat l3) (m1, a1, m2, a2) = Result (b1, b2) /\
      b1 = (fst (fst b1), snd (fst b1), snd b1) /\
      (fst (fst b1), snd (fst b1)) = fold_left pick (combine (map (fun p => distance (snd (fst p)) (snd (fst (snd p)))) (combine r1 r3)) (map fst r1)) (m1, a1) /\
      (snd b1, b2) = fold_left pick (combine (map (fun p => distance (snd (fst p)) (snd (snd p))) (combine r2 r3)) (map fst r1)) (m2, a2).
Proof.
  intros l1 r1 F1. induction F1 as [|x1 p1 l1 r1 P1 F1 IH]; intros l2 r2 l3 r3 k m1 a1 m2 a2 F2 F3 L2 L3 AG.
  - destruct r2; [|discriminate L2]. destruct r3; [|discriminate L3]. exists (m1, a1, m2), a2. repeat split.
  - destruct F2 as [|x2 p2 l2 r2 P2 F2]; [discriminate L2|]. destruct F3 as [|x3 p3 l3 r3 P3 F3]; [discriminate L3|]. cbn [length] in L2, L3.
    cbn [length temperatures_loop concat]. rewrite (scan_pair _ _ _ P1), (scan_pair _ _ _ P2), (scan_triple _ _ _ P3).
    rewrite (proj2 (differ_pair p1 p2 p3) (AG 0%nat p1 p2 p3 eq_refl eq_refl eq_refl)).
    cbn [combine map fold_left fst snd]. unfold pick at 2 4. cbn [fst snd].
    destruct (above (distance (snd p1) (snd (fst p3))) m1); destruct (above (distance (snd p2) (snd p3)) m2);
      apply (IH l2 r2 l3 r3); try assumption; try lia; intros i q1 q2 q3 E1 E2 E3; exact (AG (S i) q1 q2 q3 E1 E2 E3).
Qed.
Lemma loop_mismatch : forall i l1 r1 l2 r2 l3 r3 k m, Forall2 is_pair l1 r1 -> Forall2 is_pair l2 r2 -> Forall2 is_triple l3 r3 ->
    length r2 = length r1 -> length r3 = length r1 ->
    (forall j p1 p2 p3, (j < i)%nat -> nth_error r1 j = Some p1 -> nth_error r2 j = Some p2 -> nth_error r3 j = Some p3 -> times_agree p1 p2 p3) ->
    (exists p1 p2 p3, nth_error r1 i = Some p1 /\ nth_error r2 i = Some p2 /\ nth_error r3 i = Some p3 /\ ~ times_agree p1 p2 p3) ->
    temperatures_loop (length l1) k (concat l1) (concat l2) (concat l3) m = Mismatch (k + Z.of_nat i + 1).
Proof.
  induction i as [|i IH]; intros l1 r1 l2 r2 l3 r3 k m F1 F2 F3 L2 L3 AG (p1 & p2 & p3 & E1 & E2 & E3 & N);
    (destruct F1 as [|x1 q1 l1 r1 P1 F1]; [discriminate E1|]); (destruct F2 as [|x2 q2 l2 r2 P2 F2]; [discriminate E2|]); (destruct F3 as [|x3 q3 l3 r3 P3 F3]; [discriminate E3|]);
    cbn [length temperatures_loop concat]; rewrite (scan_pair _ _ _ P1), (scan_pair _ _ _ P2), (scan_triple _ _ _ P3).
  - cbn in E1, E2, E3. assert (q1 = p1 /\ q2 = p2 /\ q3 = p3) as (-> & -> & ->) by (split; [|split]; congruence).
    destruct (differ (fst p1) (fst p2) || differ (fst p2) (fst (fst p3)))%bool eqn:D; [f_equal; lia|]. exfalso. apply N, differ_pair, D.
  - rewrite (proj2 (differ_pair q1 q2 q3) (AG 0%nat q1 q2 q3 ltac:(lia) eq_refl eq_refl eq_refl)).
    destruct m as [[[m1 a1] m2] a2]. cbn [length] in L2, L3.
    replace (k + Z.of_nat (S i) + 1) with (k + 1 + Z.of_nat i + 1) by lia.
    destruct (above (distance (snd q1) (snd (fst q3))) m1); destruct (above (distance (snd q2) (snd q3)) m2);
      (apply (IH l1 r1 l2 r2 l3 r3); try assumption; try lia; [intros j u1 u2 u3 LJ G1 G2 G3; exact (AG (S j) u1 u2 u3 ltac:(lia) G1 G2 G3)|exists p1, p2, p3; auto]).
Qed.

(** On files of the right form and length: the first line whose times differ is
    reported; if there is none, the largest differences of the two nodes and the times
    of the first lines that attain them. *)
Theorem C78_temperatures : forall f1 f2 f3 r1 r2 r3, Forall2 is_pair (skipn 3 f1) r1 -> Forall2 is_pair (skipn 3 f2) r2 -> Forall2 is_triple f3 r3 ->
    length r2 = length r1 -> length r3 = length r1 ->
    ((forall i p1 p2 p3, nth_error r1 i = Some p1 -> nth_error r2 i = Some p2 -> nth_error r3 i = Some p3 -> times_agree p1 p2 p3) ->
       exists m1 at1 m2 at2, compare_temperatures (Some f1) (Some f2) (Some f3) = Result (Some m1, at1, Some m2, at2) /\
         first_largest (map (fun p => distance (snd (fst p)) (snd (fst (snd p)))) (combine r1 r3)) (map fst r1) m1 at1 (Some 0%Q) /\
         first_largest (map (fun p => distance (snd (fst p)) (snd (snd p))) (combine r2 r3)) (map fst r1) m2 at2 (Some 0%Q)) /\
    (forall i, (forall j p1 p2 p3, (j < i)%nat -> nth_error r1 j = Some p1 -> nth_error r2 j = Some p2 -> nth_error r3 j = Some p3 -> times_agree p1 p2 p3) ->
       (exists p1 p2 p3, nth_error r1 i = Some p1 /\ nth_error r2 i = Some p2 /\ nth_error r3 i = Some p3 /\ ~ times_agree p1 p2 p3) ->
       compare_temperatures (Some f1) (Some f2) (Some f3) = Mismatch (Z.of_nat i + 1)).
Proof.
  intros f1 f2 f3 r1 r2 r3 F1 F2 F3 L2 L3. unfold compare_temperatures.
  pose proof (all2_length _ _ _ F1) as N1. pose proof (all2_length _ _ _ F2) as N2. pose proof (all2_length _ _ _ F3) as N3.
  replace (length (skipn 3 f1) =? length (skipn 3 f2))%nat with true by (symmetry; apply Nat.eqb_eq; lia).
  replace (length (skipn 3 f2) =? length f3)%nat with true by (symmetry; apply Nat.eqb_eq; lia). cbn [negb orb]. split.
  - intros AG. destruct (loop_agree _ _ F1 _ _ _ _ 0 (Some 0%Q) (Some 0%Q) (Some 0%Q) (Some 0%Q) F2 F3 L2 L3 AG) as (b1 & b2 & E & _ & E1 & E2).
    destruct (pick_largest (map (fun p => distance (snd (fst p)) (snd (fst (snd p)))) (combine r1 r3)) (map fst r1) (Some 0%Q)) as (m1 & at1 & G1 & H1); [rewrite !map_length, combine_length; lia|].
    destruct (pick_largest (map (fun p => distance (snd (fst p)) (snd (snd p))) (combine r2 r3)) (map fst r1) (Some 0%Q)) as (m2 & at2 & G2 & H2); [rewrite !map_length, combine_length; lia|].
    pose proof (eq_trans E1 G1) as X1. pose proof (eq_trans E2 G2) as X2. clear E1 E2 G1 G2. exists m1, at1, m2, at2. split; [|split; assumption]. etransitivity; [exact E|]. destruct b1 as [[u v] w]. cbn [fst snd] in X1, X2. injection X1 as -> ->. injection X2 as -> ->. reflexivity.
  - intros i AG NA. rewrite (loop_mismatch i _ _ _ _ _ _ 0 _ F1 F2 F3 L2 L3 AG NA). f_equal.
Qed.
Print Assumptions C78_temperatures.

(** ** CompareSystemMatrix *)
Lemma qmul_neg : forall x y, (x * y < 0)%Q <-> (x < 0 /\ 0 < y)%Q \/ (0 < x /\ y < 0)%Q.
Proof.
  intros x y. split.
  - intros H. destruct (Q_dec x 0) as [[L|G]|E].
    + left. split; [exact L|]. destruct (Qlt_le_dec 0 y) as [P|P]; [exact P|exfalso]. assert (0 <= (- x) * (- y))%Q by (apply Qmult_le_0_compat; lra). lra.
    + right. split; [exact G|]. destruct (Qlt_le_dec y 0) as [P|P]; [exact P|exfalso]. assert (0 <= x * y)%Q by (apply Qmult_le_0_compat; lra). lra.
    + exfalso. rewrite E in H. lra.
  - intros [(A & B)|(A & B)].
    + assert (0 < (- x) * y)%Q by (apply Qmult_lt_0_compat; lra). lra.
    + assert (0 < x * (- y))%Q by (apply Qmult_lt_0_compat; lra). lra.
Qed.
Lemma above_lt : forall x y, above (Some x) (Some y) = true <-> (y < x)%Q.
Proof.
  intros x y. cbn. split.
  - intros H. apply Qnot_le_lt. intros L. apply Qle_bool_iff in L. rewrite L in H. discriminate.
  - intros L. destruct (Qle_bool x y) eqn:B; [|reflexivity]. apply Qle_bool_iff in B. exfalso. lra.
Qed.
Lemma opposite_bool : forall a b, (above (Some 0%Q) a && above b (Some 0%Q) || above a (Some 0%Q) && above (Some 0%Q) b = true)%bool <-> opposite a b.
Proof.
  intros a b. rewrite orb_true_iff, !andb_true_iff. unfold opposite. split.
  - intros [(A & B)|(A & B)]; (destruct a as [x|]; [|discriminate]); (destruct b as [y|]; [|discriminate]); rewrite above_lt in A, B; exists x, y; (split; [reflexivity|]); (split; [reflexivity|]); apply qmul_neg; [left|right]; split; assumption.
  - intros (x & y & -> & -> & N). apply qmul_neg in N. rewrite !above_lt. exact N.
Qed.
Lemma sits_bool : forall e f : Z * Z * number, negb (fst (fst e) =? fst (fst f)) || negb (snd (fst e) =? snd (fst f)) = false <-> sits e f.
Proof.
  intros [[a b] v] [[c d] w]. unfold sits. cbn [fst snd]. rewrite orb_false_iff, !negb_false_iff, !Z.eqb_eq. split; [intros (-> & ->); reflexivity|intros E; split; congruence].
Qed.
Lemma matrix_agree : forall l1 e1, Forall2 is_entry l1 e1 -> forall l2 e2 k m a1 a2 a3, Forall2 is_entry l2 e2 -> length e2 = length e1 ->
    (forall i p q, nth_error e1 i = Some p -> nth_error e2 i = Some q -> sits p q /\ ~ opposite (snd p) (snd q)) ->
    exists b c1 c2 c3, matrix_loop (length l1) k (concat l1) (concat l2) (m, a1, a2, a3) = Result (b, c1, c2, c3) /\
      (b, (c1, c2, c3)) = fold_left pick (combine (map (fun p => distance (snd (fst p)) (snd (snd p))) (combine e1 e2))
                                               (map line_of (combine (map (fun i => k + Z.of_nat i) (seq 1 (length e1))) e1))) (m, (a1, a2, a3)).
Proof.
  intros l1 e1 F1. induction F1 as [|x1 p1 l1 e1 P1 F1 IH]; intros l2 e2 k m a1 a2 a3 F2 L2 AG.
  - destruct e2; [|discriminate L2]. exists m, a1, a2, a3. split; reflexivity.
  - destruct F2 as [|x2 p2 l2 e2 P2 F2]; [discriminate L2|]. cbn [length] in L2. cbn [length matrix_loop concat]. rewrite (scan_line _ _ _ P1), (scan_line _ _ _ P2).
    destruct (AG 0%nat p1 p2 eq_refl eq_refl) as (SI & OP). rewrite (proj2 (sits_bool p1 p2) SI).
    destruct (above (Some 0%Q) (snd p1) && above (snd p2) (Some 0%Q) || above (snd p1) (Some 0%Q) && above (Some 0%Q) (snd p2))%bool eqn:OB; [exfalso; apply OP, opposite_bool, OB|].
    cbn [combine map fold_left seq fst snd line_of]. unfold pick at 2. cbn [fst snd].
    assert (AG' : forall i p q, nth_error e1 i = Some p -> nth_error e2 i = Some q -> sits p q /\ ~ opposite (snd p) (snd q)) by (intros i p q G1 G2; exact (AG (S i) p q G1 G2)).
    assert (SH : map (fun i => k + 1 + Z.of_nat i) (seq 1 (length e1)) = map (fun i => k + Z.of_nat i) (seq 2 (length e1))).
    { rewrite <- (seq_shift (length e1) 1), map_map. apply map_ext. intros i. lia. }
    destruct (above (distance (snd p1) (snd p2)) m).
    + destruct (IH l2 e2 (k + 1) (distance (snd p1) (snd p2)) (k + 1) (fst (fst p1)) (snd (fst p1)) F2 ltac:(lia) AG') as (b & c1 & c2 & c3 & E & F). exists b, c1, c2, c3. split; [exact E|]. rewrite F, SH. reflexivity.
    + destruct (IH l2 e2 (k + 1) m a1 a2 a3 F2 ltac:(lia) AG') as (b & c1 & c2 & c3 & E & F). exists b, c1, c2, c3. split; [exact E|]. rewrite F, SH. reflexivity.
Qed.
Lemma matrix_stops : forall i l1 e1 l2 e2 k m p q, Forall2 is_entry l1 e1 -> Forall2 is_entry l2 e2 ->
    (forall j p q, (j < i)%nat -> nth_error e1 j = Some p -> nth_error e2 j = Some q -> sits p q /\ ~ opposite (snd p) (snd q)) ->
    nth_error e1 i = Some p -> nth_error e2 i = Some q -> ~ (sits p q /\ ~ opposite (snd p) (snd q)) ->
    (~ sits p q -> matrix_loop (length l1) k (concat l1) (concat l2) m = Mismatch (k + Z.of_nat i + 1)) /\
    (sits p q -> matrix_loop (length l1) k (concat l1) (concat l2) m = Sign_mismatch (k + Z.of_nat i + 1)).
Proof.
  induction i as [|i IH]; intros l1 e1 l2 e2 k m p q F1 F2 AG E1 E2 N;
    (destruct F1 as [|x1 p1 l1 e1 P1 F1]; [discriminate E1|]); (destruct F2 as [|x2 p2 l2 e2 P2 F2]; [discriminate E2|]); cbn [length matrix_loop concat]; rewrite (scan_line _ _ _ P1), (scan_line _ _ _ P2).
  - cbn in E1, E2. injection E1 as ->. injection E2 as ->.
    destruct (negb (fst (fst p) =? fst (fst q)) || negb (snd (fst p) =? snd (fst q)))%bool eqn:S0.
    + split; [intros _; f_equal; lia|]. intros SI. apply sits_bool in SI. congruence.
    + apply sits_bool in S0. split; [intros X; contradiction|]. intros _.
      destruct (above (Some 0%Q) (snd p) && above (snd q) (Some 0%Q) || above (snd p) (Some 0%Q) && above (Some 0%Q) (snd q))%bool eqn:OB; [f_equal; lia|].
      exfalso. apply N. split; [exact S0|]. intros O. apply opposite_bool in O. congruence.
  - destruct (AG 0%nat p1 p2 ltac:(lia) eq_refl eq_refl) as (SI & OP). rewrite (proj2 (sits_bool p1 p2) SI).
    destruct (above (Some 0%Q) (snd p1) && above (snd p2) (Some 0%Q) || above (snd p1) (Some 0%Q) && above (Some 0%Q) (snd p2))%bool eqn:OB; [exfalso; apply OP, opposite_bool, OB|].
    destruct m as [[[m a1] a2] a3]. replace (k + Z.of_nat (S i) + 1) with (k + 1 + Z.of_nat i + 1) by lia.
    apply (IH l1 e1 l2 e2); try assumption. intros j u v LJ G1 G2. exact (AG (S j) u v ltac:(lia) G1 G2).
Qed.
(** Likewise for matrices: the first line with other coordinates or the opposite sign,
    or else the largest difference and the number and coordinates of the first line that
    attains it (line 1 and coordinates (0, 0) when there is no difference). *)
Theorem C78_matrices : forall f1 f2 e1 e2, Forall2 is_entry f1 e1 -> Forall2 is_entry f2 e2 -> length e2 = length e1 ->
    let fine p q := sits p q /\ ~ opposite (snd p) (snd q) in
    ((forall i p q, nth_error e1 i = Some p -> nth_error e2 i = Some q -> fine p q) ->
       exists m l r c, compare_matrices (Some f1) (Some f2) = Result (Some m, l, r, c) /\
         first_largest (map (fun p => distance (snd (fst p)) (snd (snd p))) (combine e1 e2))
           (map line_of (combine (map Z.of_nat (seq 1 (length e1))) e1)) m (l, r, c) (1, 0, 0)) /\
    (forall i p q, (forall j p q, (j < i)%nat -> nth_error e1 j = Some p -> nth_error e2 j = Some q -> fine p q) ->
       nth_error e1 i = Some p -> nth_error e2 i = Some q -> ~ fine p q ->
       (~ sits p q -> compare_matrices (Some f1) (Some f2) = Mismatch (Z.of_nat i + 1)) /\
       (sits p q -> compare_matrices (Some f1) (Some f2) = Sign_mismatch (Z.of_nat i + 1))).
Proof.
  intros f1 f2 e1 e2 F1 F2 L fine. unfold compare_matrices. pose proof (all2_length _ _ _ F1) as N1. pose proof (all2_length _ _ _ F2) as N2.
  replace (length f1 =? length f2)%nat with true by (symmetry; apply Nat.eqb_eq; lia). cbn [negb]. split.
  - intros AG. destruct (matrix_agree f1 e1 F1 f2 e2 0 (Some 0%Q) 1 0 0 F2 L AG) as (b & c1 & c2 & c3 & E & F).
    replace (map (fun i => 0 + Z.of_nat i) (seq 1 (length e1))) with (map Z.of_nat (seq 1 (length e1))) in F by (apply map_ext; intros; lia).
    destruct (pick_largest (map (fun p => distance (snd (fst p)) (snd (snd p))) (combine e1 e2)) (map line_of (combine (map Z.of_nat (seq 1 (length e1))) e1)) (1, 0, 0)) as (m & a & G & H).
    { rewrite !map_length, !combine_length, map_length, seq_length. lia. }
    pose proof (eq_trans F G) as X. exists m, c1, c2, c3. assert (b = Some m /\ a = (c1, c2, c3)) as (-> & ->) by (destruct a as [[u v] w]; injection X as -> -> -> ->; auto). split; [exact E|exact H].
  - intros i p q AG E1 E2 N. exact (matrix_stops i f1 e1 f2 e2 0 _ p q F1 F2 AG E1 E2 N).
Qed.
Print Assumptions C78_matrices.

(** ** The exit status *)
(** The status is that of a success exactly when the files can be opened and have the
    same number of lines; whatever the lines say. *)
Theorem C78_status : forall a b c,
    (exit_success (compare_temperatures a b c) = true <->
      exists f1 f2 f3, a = Some f1 /\ b = Some f2 /\ c = Some f3 /\ length (skipn 3 f1) = length f3 /\ length (skipn 3 f2) = length f3) /\
    (exit_success (compare_matrices a b) = true <-> exists f1 f2, a = Some f1 /\ b = Some f2 /\ length f1 = length f2).
Proof.
  intros a b c.
  assert (LT : forall n k w1 w2 w3 m, exit_success (temperatures_loop n k w1 w2 w3 m) = true).
  { induction n as [|n IH]; intros k w1 w2 w3 m; [reflexivity|]. cbn [temperatures_loop]. destruct (scan_two w1) as [[[x1 y1] u1]|]; [|reflexivity]. destruct (scan_two w2) as [[[x2 y2] u2]|]; [|reflexivity].
    destruct (scan_three w3) as [[[[x3 y3] z3] u3]|]; [|reflexivity]. destruct (differ x1 x2 || differ x2 x3)%bool; [reflexivity|]. destruct m as [[[m1 a1] m2] a2].
    destruct (above (distance y1 y3) m1); destruct (above (distance y2 z3) m2); apply IH. }
  assert (LM : forall n k w1 w2 m, exit_success (matrix_loop n k w1 w2 m) = true).
  { induction n as [|n IH]; intros k w1 w2 m; [reflexivity|]. cbn [matrix_loop]. destruct (scan_entry w1) as [[[[r1 c1] v1] u1]|]; [|reflexivity]. destruct (scan_entry w2) as [[[[r2 c2] v2] u2]|]; [|reflexivity].
    destruct (negb (r1 =? r2) || negb (c1 =? c2))%bool; [reflexivity|]. destruct (_ || _)%bool; [reflexivity|]. destruct m as [[[m1 a1] a2] a3]. apply IH. }
  split.
  - unfold compare_temperatures. destruct a as [f1|]; [|split; [discriminate|intros (f1 & f2 & f3 & E & _); discriminate E]].
    destruct b as [f2|]; [|split; [discriminate|intros (x & f2 & f3 & _ & E & _); discriminate E]]. destruct c as [f3|]; [|split; [discriminate|intros (x & y & f3 & _ & _ & E & _); discriminate E]].
    destruct (Nat.eqb_spec (length (skipn 3 f1)) (length (skipn 3 f2))) as [L1|L1]; destruct (Nat.eqb_spec (length (skipn 3 f2)) (length f3)) as [L2|L2]; cbn [negb orb].
    + split; [|intros _; apply LT]. intros _. exists f1, f2, f3. repeat split; congruence.
    + split; [discriminate|]. intros (g1 & g2 & g3 & E1 & E2 & E3 & X & Y). injection E1 as <-. injection E2 as <-. injection E3 as <-. congruence.
    + split; [discriminate|]. intros (g1 & g2 & g3 & E1 & E2 & E3 & X & Y). injection E1 as <-. injection E2 as <-. injection E3 as <-. congruence.
    + split; [discriminate|]. intros (g1 & g2 & g3 & E1 & E2 & E3 & X & Y). injection E1 as <-. injection E2 as <-. injection E3 as <-. congruence.
  - unfold compare_matrices. destruct a as [f1|]; [|split; [discriminate|intros (f1 & f2 & E & _); discriminate E]].
    destruct b as [f2|]; [|split; [discriminate|intros (x & f2 & _ & E & _); discriminate E]].
    destruct (Nat.eqb_spec (length f1) (length f2)) as [L1|L1]; cbn [negb].
    + split; [|intros _; apply LM]. intros _. exists f1, f2. auto.
    + split; [discriminate|]. intros (g1 & g2 & E1 & E2 & X). injection E1 as <-. injection E2 as <-. congruence.
Qed.
Print Assumptions C78_status.

(** ** Witnesses *)
Definition num (q : Q) : word := WNum (Some q).
Definition comment : line := [WText].
Definition node (rows : list (Q * Q)) : text := [comment; comment; comment] ++ map (fun p => [num (fst p); num (snd p)]) rows.
Definition both (rows : list (Q * Q * Q)) : text := map (fun p => [num (fst (fst p)); num (snd (fst p)); num (snd p)]) rows.
Lemma node_pairs : forall rows, Forall2 is_pair (skipn 3 (node rows)) (map (fun p => (Some (fst p), Some (snd p))) rows).
Proof. induction rows as [|p rows IH]; constructor; [reflexivity|exact IH]. Qed.
Lemma both_triples : forall rows, Forall2 is_triple (both rows) (map (fun p => (Some (fst (fst p)), Some (snd (fst p)), Some (snd p))) rows).
Proof. induction rows as [|p rows IH]; constructor; [reflexivity|exact IH]. Qed.
Example C78_witness :
    compare_temperatures (Some (node [(1, 300); (2, 310)]%Q)) (Some (node [(1, 300); (2, 305)]%Q)) (Some (both [((1, 300), 301); ((2, 313), 306)]%Q)) =
      Result (Some 3, Some 2, Some 1, Some 1)%Q /\
    compare_matrices (Some [[WInt 1; WInt 1; num 5]; [WInt 2; WInt 1; num (-3)]]) (Some [[WInt 1; WInt 1; num 5]; [WInt 2; WInt 1; num (-1)]]) = Result (Some 2%Q, 2, 2, 1).
Proof. split; vm_compute; reflexivity. Qed.

(** A success does not mean that the files were compared: other times, other
    coordinates and lines that cannot be read also end with EXIT_SUCCESS. *)
Theorem C78_success_refuted :
    ~ (forall a b c, exit_success (compare_temperatures a b c) = true -> exists m, compare_temperatures a b c = Result m) /\
    ~ (forall a b, exit_success (compare_matrices a b) = true -> exists m, compare_matrices a b = Result m).
Proof.
  split.
  - intros H. destruct (H (Some (node [(1, 300)]%Q)) (Some (node [(2, 300)]%Q)) (Some (both [((1, 300), 300)]%Q)) eq_refl) as (m & E). discriminate E.
  - intros H. destruct (H (Some [[WInt 1; WInt 2; num 5]]) (Some [[WInt 1; WInt 3; num 5]]) eq_refl) as (m & E). discriminate E.
Qed.
Print Assumptions C78_success_refuted.
(** A difference of 0 does not mean that the temperatures are the same numbers: one that
    is not a number differs from nothing. *)
Theorem C78_nan_refuted : ~ (forall f1 f2 f3 r1 r2 r3 at1 at2, Forall2 is_pair (skipn 3 f1) r1 -> Forall2 is_pair (skipn 3 f2) r2 -> Forall2 is_triple f3 r3 ->
    compare_temperatures (Some f1) (Some f2) (Some f3) = Result (Some 0%Q, at1, Some 0%Q, at2) ->
    forall i p q, nth_error r1 i = Some p -> nth_error r3 i = Some q -> same (snd p) (snd (fst q))).
Proof.
  intros H. destruct (H ([comment; comment; comment] ++ [[num 1; WNum None]]) (node [(1, 300)]%Q) (both [((1, 300), 300)]%Q) [(Some 1%Q, None)] _ _ (Some 0%Q) (Some 0%Q)
    ltac:(constructor; [reflexivity|constructor]) (node_pairs _) (both_triples _) eq_refl 0%nat _ _ eq_refl eq_refl) as (x & y & E & _). discriminate E.
Qed.
Print Assumptions C78_nan_refuted.
(** Among numbers it does: a reported 0 means the same temperatures. *)
Theorem C78_zero : forall f1 f2 f3 r1 r2 r3 m1 at1 m2 at2, Forall2 is_pair (skipn 3 f1) r1 -> Forall2 is_pair (skipn 3 f2) r2 -> Forall2 is_triple f3 r3 ->
    compare_temperatures (Some f1) (Some f2) (Some f3) = Result (Some m1, at1, Some m2, at2) -> (m1 == 0)%Q -> (m2 == 0)%Q ->
    forall i p1 p2 p3 x1 x2 x3 x4, nth_error r1 i = Some p1 -> nth_error r2 i = Some p2 -> nth_error r3 i = Some p3 ->
      snd p1 = Some x1 -> snd p2 = Some x2 -> snd (fst p3) = Some x3 -> snd p3 = Some x4 -> (x1 == x3 /\ x2 == x4)%Q.
Proof.
  intros f1 f2 f3 r1 r2 r3 m1 at1 m2 at2 F1 F2 F3 E Z1 Z2 i p1 p2 p3 x1 x2 x3 x4 N1 N2 N3 X1 X2 X3 X4.
  assert (LL : length r2 = length r1 /\ length r3 = length r1).
  { assert (ST : exit_success (compare_temperatures (Some f1) (Some f2) (Some f3)) = true) by (rewrite E; reflexivity).
    apply (C78_status (Some f1) (Some f2) (Some f3)) in ST. destruct ST as (g1 & g2 & g3 & G1 & G2 & G3 & L1 & L2). injection G1 as <-. injection G2 as <-. injection G3 as <-.
    pose proof (all2_length _ _ _ F1). pose proof (all2_length _ _ _ F2). pose proof (all2_length _ _ _ F3). split; lia. }
  destruct LL as (L2 & L3). destruct (C78_temperatures f1 f2 f3 r1 r2 r3 F1 F2 F3 L2 L3) as (OK & BAD).
  assert (AG : forall n j q1 q2 q3, (j < n)%nat -> nth_error r1 j = Some q1 -> nth_error r2 j = Some q2 -> nth_error r3 j = Some q3 -> times_agree q1 q2 q3).
  { induction n as [|n IH]; intros j q1 q2 q3 LJ Q1 Q2 Q3; [lia|]. destruct (Nat.eq_dec j n) as [->|NE]; [|exact (IH j q1 q2 q3 ltac:(lia) Q1 Q2 Q3)].
    destruct (differ (fst q1) (fst q2) || differ (fst q2) (fst (fst q3)))%bool eqn:D; [|apply differ_pair; exact D]. exfalso.
    assert (NA : ~ times_agree q1 q2 q3) by (intros T; apply differ_pair in T; congruence).
    rewrite (BAD n IH (ex_intro _ q1 (ex_intro _ q2 (ex_intro _ q3 (conj Q1 (conj Q2 (conj Q3 NA))))))) in E. discriminate E. }
  destruct (OK (fun j q1 q2 q3 => AG (S j) j q1 q2 q3 ltac:(lia))) as (n1 & b1 & n2 & b2 & E' & (_ & A1 & _) & (_ & A2 & _)).
  assert (n1 = m1 /\ n2 = m2) as (-> & ->) by (rewrite E in E'; injection E' as -> -> -> ->; auto).
  assert (CB : forall {A B} (u : list A) (v : list B) j a b, nth_error u j = Some a -> nth_error v j = Some b -> nth_error (combine u v) j = Some (a, b)).
  { intros A B u. induction u as [|a0 u IH]; intros [|b0 v] [|j] a b U V; try discriminate U; try discriminate V; [cbn in U, V |- *; congruence|exact (IH v j a b U V)]. }
  assert (D1 : (Qabs (x1 - x3) <= m1)%Q).
  { apply (A1 i). rewrite nth_error_map, (CB _ _ _ _ _ _ _ N1 N3). cbn [option_map fst snd]. rewrite X1, X3. reflexivity. }
  assert (D2 : (Qabs (x2 - x4) <= m2)%Q).
  { apply (A2 i). rewrite nth_error_map, (CB _ _ _ _ _ _ _ N2 N3). cbn [option_map fst snd]. rewrite X2, X4. reflexivity. }
  rewrite Z1 in D1. rewrite Z2 in D2. apply Qabs_Qle_condition in D1. apply Qabs_Qle_condition in D2. split; lra.
Qed.
Print Assumptions C78_zero.
