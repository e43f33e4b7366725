(** * C81, C82: floorplans made from GDS layouts *)
From Coq Require Import ZArith QArith Qabs Qround Qfield Bool List String Ascii Lia Lqa Permutation Sorting.Sorted.
From Verif Require Import Base Flex Vtk VtkSpec VtkProofs FlpText FlpTextSpec FlpTextProofs FlpLexProofs FlpGramProofs FlpPrintProofs PropFlpText Gradient GradientSpec PropGradient Gds GdsSpec.
Import ListNotations.
Local Open Scope list_scope.
Local Open Scope Z_scope.

(** ** C82: the division into regions *)
Lemma in_one_app_l : forall x y l m, in_one x y l -> Forall (fun s => ~ point_in x y s) m -> in_one x y (l ++ m).
Proof.
  intros x y l m (l1 & r & l2 & -> & P & F) H. exists l1, r, (l2 ++ m). rewrite <- app_assoc. split; [reflexivity|]. split; [exact P|].
  rewrite app_assoc. apply Forall_app. split; assumption.
Qed.
Lemma in_one_app_r : forall x y l m, in_one x y m -> Forall (fun s => ~ point_in x y s) l -> in_one x y (l ++ m).
Proof.
  intros x y l m (l1 & r & l2 & -> & P & F) H. exists (l ++ l1), r, l2. rewrite <- app_assoc. split; [reflexivity|]. split; [exact P|].
  rewrite <- app_assoc. apply Forall_app. split; assumption.
Qed.
Section Division.
Variable overlap : region -> Q.
Variables t1 t2 most : Q.
Notation divide := (subdivide overlap t1 t2 most).
Definition regions (l : list (Z * region * Q)) : list region := map (fun p => snd (fst p)) l.

(** Every point of the region is in exactly one of the regions written, every other point
    in none; the areas add up. *)
Theorem C82_tiles : forall more r index, proper r ->
  (forall x y, point_in x y r -> in_one x y (regions (fst (divide more r index)))) /\
  (forall x y, ~ point_in x y r -> Forall (fun s => ~ point_in x y s) (regions (fst (divide more r index)))) /\
  (total (map r_area (regions (fst (divide more r index)))) == r_area r)%Q /\
  Forall proper (regions (fst (divide more r index))).
Proof.
  induction more as [|more IH]; intros r index P; cbn [subdivide].
  1: { cbn. split; [intros x y H; exists [], r, []; split; [reflexivity|split; [exact H|constructor]]|]. split; [intros x y H; constructor; [exact H|constructor]|]. split; [ring|constructor; [exact P|constructor]]. }
  destruct (_ && _).
  1: { cbn. split; [intros x y H; exists [], r, []; split; [reflexivity|split; [exact H|constructor]]|]. split; [intros x y H; constructor; [exact H|constructor]|]. split; [ring|constructor; [exact P|constructor]]. }
  destruct r as [x0 y0 x1 y1]. unfold proper in P. cbn [r_min_x r_min_y r_max_x r_max_y] in *. destruct P as [PX PY].
  assert (MX : (x0 < (x0 + x1) / 2 /\ (x0 + x1) / 2 < x1)%Q) by (split; [apply Qlt_shift_div_l|apply Qlt_shift_div_r]; lra).
  assert (MY : (y0 < (y0 + y1) / 2 /\ (y0 + y1) / 2 < y1)%Q) by (split; [apply Qlt_shift_div_l|apply Qlt_shift_div_r]; lra).
  set (mx := ((x0 + x1) / 2)%Q) in *. set (my := ((y0 + y1) / 2)%Q) in *. clearbody mx my.
  set (a := mk_region x0 y0 mx my). set (b := mk_region mx y0 x1 my). set (c := mk_region x0 my mx y1). set (d := mk_region mx my x1 y1).
  destruct (IH a index) as (A1 & A2 & A3 & A4); [unfold proper; cbn; tauto|]. destruct (divide more a index) as [la ia].
  destruct (IH b ia) as (B1 & B2 & B3 & B4); [unfold proper; cbn; tauto|]. destruct (divide more b ia) as [lb ib].
  destruct (IH c ib) as (C1 & C2 & C3 & C4); [unfold proper; cbn; tauto|]. destruct (divide more c ib) as [lc ic].
  destruct (IH d ic) as (D1 & D2 & D3 & D4); [unfold proper; cbn; tauto|]. destruct (divide more d ic) as [ld id].
  cbn [fst] in *. unfold regions in *. rewrite !map_app.
  set (ra := map (fun p => snd (fst p)) la) in *. set (rb := map (fun p => snd (fst p)) lb) in *. set (rc := map (fun p => snd (fst p)) lc) in *. set (rd := map (fun p => snd (fst p)) ld) in *.
  clearbody ra rb rc rd. clear IH la lb lc ld ia ib ic id.
  assert (PA : forall x y, point_in x y a <-> (x0 <= x /\ x < mx /\ y0 <= y /\ y < my)%Q) by (intros; reflexivity).
  assert (PB : forall x y, point_in x y b <-> (mx <= x /\ x < x1 /\ y0 <= y /\ y < my)%Q) by (intros; reflexivity).
  assert (PC : forall x y, point_in x y c <-> (x0 <= x /\ x < mx /\ my <= y /\ y < y1)%Q) by (intros; reflexivity).
  assert (PD : forall x y, point_in x y d <-> (mx <= x /\ x < x1 /\ my <= y /\ y < y1)%Q) by (intros; reflexivity).
  split; [|split; [|split]].
  - intros x y (H1 & H2 & H3 & H4). cbn [r_min_x r_min_y r_max_x r_max_y] in *.
    destruct (Qlt_le_dec x mx) as [X|X]; destruct (Qlt_le_dec y my) as [Y|Y].
    + apply in_one_app_l; [apply A1, PA; tauto|]. rewrite !Forall_app. split; [apply B2; rewrite PB; lra|split; [apply C2; rewrite PC; lra|apply D2; rewrite PD; lra]].
    + apply in_one_app_r; [|apply A2; rewrite PA; lra]. apply in_one_app_r; [|apply B2; rewrite PB; lra]. apply in_one_app_l; [apply C1, PC; tauto|apply D2; rewrite PD; lra].
    + apply in_one_app_r; [|apply A2; rewrite PA; lra]. apply in_one_app_l; [apply B1, PB; tauto|]. rewrite Forall_app. split; [apply C2; rewrite PC; lra|apply D2; rewrite PD; lra].
    + apply in_one_app_r; [|apply A2; rewrite PA; lra]. apply in_one_app_r; [|apply B2; rewrite PB; lra]. apply in_one_app_r; [apply D1, PD; tauto|apply C2; rewrite PC; lra].
  - intros x y H. unfold point_in in H. cbn [r_min_x r_min_y r_max_x r_max_y] in H.
    rewrite !Forall_app. split; [apply A2; rewrite PA; intros K; apply H; repeat split; lra|].
    split; [apply B2; rewrite PB; intros K; apply H; repeat split; lra|]. split; [apply C2; rewrite PC; intros K; apply H; repeat split; lra|apply D2; rewrite PD; intros K; apply H; repeat split; lra].
  - assert (T : forall l m, (total (l ++ m) == total l + total m)%Q) by (induction l as [|q l IH]; intros m; cbn [app total]; [ring|rewrite IH; ring]).
    rewrite ?map_app, !T, A3, B3, C3, D3. unfold r_area, a, b, c, d. cbn. ring.
  - rewrite !Forall_app. tauto.
Qed.

(** The regions are numbered in order. *)
Theorem C82_numbers : forall more r index,
  map (fun p => fst (fst p)) (fst (divide more r index)) = map (fun k => index + Z.of_nat k) (seq 0 (List.length (fst (divide more r index)))) /\
  snd (divide more r index) = index + Z.of_nat (List.length (fst (divide more r index))) /\
  (List.length (fst (divide more r index)) <= 4 ^ more)%nat.
Proof.
  induction more as [|more IH]; intros r index; cbn [subdivide].
  1: { cbn. rewrite Z.add_0_r. split; [reflexivity|split; [reflexivity|lia]]. }
  destruct (_ && _).
  1: { cbn [fst snd List.length seq map]. rewrite Z.add_0_r. split; [reflexivity|split; [reflexivity|]]. assert (P := Nat.pow_nonzero 4 (S more)). lia. }
  set (mx := ((r_min_x r + r_max_x r) / 2)%Q). set (my := ((r_min_y r + r_max_y r) / 2)%Q).
  assert (E : forall a i l j, divide more a i = (l, j) -> map (fun p => fst (fst p)) l = map (fun k => i + Z.of_nat k) (seq 0 (List.length l)) /\
              j = i + Z.of_nat (List.length l) /\ (List.length l <= 4 ^ more)%nat).
  { intros a i l j H. assert (G := IH a i). rewrite H in G. exact G. }
  destruct (divide more (mk_region (r_min_x r) (r_min_y r) mx my) index) as [la ia] eqn:HA. destruct (divide more (mk_region mx (r_min_y r) (r_max_x r) my) ia) as [lb ib] eqn:HB.
  destruct (divide more (mk_region (r_min_x r) my mx (r_max_y r)) ib) as [lc ic] eqn:HC. destruct (divide more (mk_region mx my (r_max_x r) (r_max_y r)) ic) as [ld id] eqn:HD.
  apply E in HA, HB, HC, HD. destruct HA as (A1 & A2 & A3), HB as (B1 & B2 & B3), HC as (C1 & C2 & C3), HD as (D1 & D2 & D3).
  cbn [fst snd]. rewrite !map_app, A1, B1, C1, D1, !app_length. split; [|split; [lia|cbn [Nat.pow]; lia]].
  assert (SH : forall m n i s, map (fun k => i + Z.of_nat n + Z.of_nat k) (seq s m) = map (fun k => i + Z.of_nat k) (seq (n + s) m)).
  { clear. induction m as [|m IH]; intros n i s; [reflexivity|]. cbn [seq map]. f_equal; [lia|]. rewrite IH, Nat.add_succ_r. reflexivity. }
  subst ia ib ic id. rewrite (SH _ _ _ 0%nat), Nat.add_0_r.
  rewrite (seq_app (List.length la)), map_app. f_equal. rewrite (seq_app (List.length lb)), map_app. f_equal. cbn [Nat.add].
  rewrite (seq_app (List.length lc)), map_app. f_equal.
  - rewrite <- (Z.add_assoc index), <- Nat2Z.inj_add, (SH _ _ _ 0%nat), Nat.add_0_r. reflexivity.
  - rewrite <- !(Z.add_assoc index), <- !Nat2Z.inj_add, (SH _ _ _ 0%nat), Nat.add_0_r. reflexivity.
Qed.

(** A region that is written is within the limits, or has been halved as often as allowed;
    all have the proportions of the whole. The ratio is that of the region. *)
Theorem C82_leaves : forall more r index, Forall (fun p => exists d, (d <= more)%nat /\ halved d r (snd (fst p)) /\
    snd p = area_ratio overlap (snd (fst p)) /\
    (d = more \/ ((snd p <= t2 \/ t1 <= snd p) /\ r_area (snd (fst p)) <= most)%Q)) (fst (divide more r index)).
Proof.
  induction more as [|more IH]; intros r index; cbn [subdivide].
  1: { constructor; [|constructor]. exists 0%nat. split; [lia|]. cbn. split; [unfold halved; cbn; split; field|]. split; [reflexivity|left; reflexivity]. }
  destruct (_ && _) eqn:Q0.
  1: { constructor; [|constructor]. exists 0%nat. split; [lia|]. split; [unfold halved; cbn; split; field|]. split; [reflexivity|right]. cbn.
       apply andb_prop in Q0. destruct Q0 as [Q1 Q2]. apply orb_prop in Q1. rewrite !Qle_bool_iff in Q1. rewrite Qle_bool_iff in Q2. split; assumption. }
  set (mx := ((r_min_x r + r_max_x r) / 2)%Q). set (my := ((r_min_y r + r_max_y r) / 2)%Q).
  assert (E : forall a i l j, divide more a i = (l, j) -> (r_max_x a - r_min_x a == (r_max_x r - r_min_x r) / 2)%Q -> (r_max_y a - r_min_y a == (r_max_y r - r_min_y r) / 2)%Q ->
     Forall (fun p : Z * region * Q => exists d, (d <= S more)%nat /\ halved d r (snd (fst p)) /\ snd p = area_ratio overlap (snd (fst p)) /\
       (d = S more \/ ((snd p <= t2 \/ t1 <= snd p) /\ r_area (snd (fst p)) <= most)%Q)) l).
  { intros a i l j H X Y. assert (G := IH a i). rewrite H in G. cbn [fst] in G. eapply Forall_impl; [|exact G]. intros p (d & D1 & (D2 & D3) & D4 & D5).
    exists (S d). split; [lia|]. assert (P2 : (inject_Z (2 ^ Z.of_nat (S d)) == 2 * inject_Z (2 ^ Z.of_nat d))%Q).
    { rewrite Nat2Z.inj_succ, Z.pow_succ_r by lia. rewrite inject_Z_mult. reflexivity. }
    assert (P3 : ~ (inject_Z (2 ^ Z.of_nat d) == 0)%Q). { intros K. assert (0 < 2 ^ Z.of_nat d) by (apply Z.pow_pos_nonneg; lia). unfold Qeq in K. cbn in K. lia. }
    split; [|split; [exact D4|destruct D5 as [->|D5]; [left; reflexivity|right; exact D5]]].
    unfold halved. rewrite D2, D3, X, Y, P2. set (z := inject_Z (2 ^ Z.of_nat d)) in *. clearbody z. split; field; exact P3. }
  destruct (divide more (mk_region (r_min_x r) (r_min_y r) mx my) index) as [la ia] eqn:HA. destruct (divide more (mk_region mx (r_min_y r) (r_max_x r) my) ia) as [lb ib] eqn:HB.
  destruct (divide more (mk_region (r_min_x r) my mx (r_max_y r)) ib) as [lc ic] eqn:HC. destruct (divide more (mk_region mx my (r_max_x r) (r_max_y r)) ic) as [ld id] eqn:HD.
  cbn [fst]. rewrite !Forall_app.
  split; [|split; [|split]]; (eapply E; [eassumption|cbn; unfold mx; field|cbn; unfold my; field]).
Qed.

(** No polygon area is lost or counted twice: shares times areas add up to the whole. *)
Theorem C82_overlap : forall more r index, proper r -> additive overlap ->
  (total (map (fun p => snd p * r_area (snd (fst p))) (fst (divide more r index))) == overlap r)%Q.
Proof.
  intros more r index P AD. revert r index P.
  assert (LF : forall r, proper r -> (area_ratio overlap r * r_area r == overlap r)%Q).
  { intros r [P1 P2]. assert (AP : (0 < r_area r)%Q) by (unfold r_area; apply Qmult_lt_0_compat; lra). unfold area_ratio.
    destruct (Qle_bool (r_area r) 0) eqn:K; [apply Qle_bool_iff in K; lra|]. field. lra. }
  induction more as [|more IH]; intros r index P; cbn [subdivide].
  1: { cbn. rewrite LF by exact P. ring. }
  destruct (_ && _).
  1: { cbn. rewrite LF by exact P. ring. }
  destruct r as [x0 y0 x1 y1]. unfold proper in P. cbn [r_min_x r_min_y r_max_x r_max_y] in *. destruct P as [PX PY].
  assert (MX : (x0 < (x0 + x1) / 2 < x1)%Q) by (split; [apply Qlt_shift_div_l|apply Qlt_shift_div_r]; lra).
  assert (MY : (y0 < (y0 + y1) / 2 < y1)%Q) by (split; [apply Qlt_shift_div_l|apply Qlt_shift_div_r]; lra).
  set (mx := ((x0 + x1) / 2)%Q) in *. set (my := ((y0 + y1) / 2)%Q) in *. clearbody mx my.
  rewrite (AD x0 y0 x1 y1 mx my MX MY).
  assert (A := IH (mk_region x0 y0 mx my) index). destruct (divide more (mk_region x0 y0 mx my) index) as [la ia].
  assert (B := IH (mk_region mx y0 x1 my) ia). destruct (divide more (mk_region mx y0 x1 my) ia) as [lb ib].
  assert (C := IH (mk_region x0 my mx y1) ib). destruct (divide more (mk_region x0 my mx y1) ib) as [lc ic].
  assert (D := IH (mk_region mx my x1 y1) ic). destruct (divide more (mk_region mx my x1 y1) ic) as [ld id].
  cbn [fst] in *. assert (T : forall l m, (total (l ++ m) == total l + total m)%Q) by (clear; induction l as [|q l IH]; intros m; cbn [app total]; [ring|rewrite IH; ring]).
  rewrite !map_app, !T, A, B, C, D by (unfold proper; cbn; tauto). ring.
Qed.
End Division.

(** ** C81: materials and floorplan *)
Lemma int_dec : forall k, 0 <= k -> int_text k = dec k.
Proof. intros k H. unfold int_text. replace (k <? 0) with false by (symmetry; apply Z.ltb_ge; lia). reflexivity. Qed.
Lemma raw_floor : forall r, (inject_Z (raw_index r - 1) <= 100 * r)%Q /\ (100 * r < inject_Z (raw_index r))%Q.
Proof.
  intros r. unfold raw_index, Num_of_material. assert (A := Qfloor_le (r * inject_Z 100)). assert (B := Qlt_floor (r * inject_Z 100)).
  replace (Qfloor (r * inject_Z 100) + 1 - 1) with (Qfloor (r * inject_Z 100)) by lia. set (f := Qfloor (r * inject_Z 100)) in *. clearbody f.
  change (inject_Z 100) with (100 # 1)%Q in *. split; lra.
Qed.
Lemma number_unique : forall r k l, material_number r k -> material_number r l -> k = l.
Proof.
  intros r k l. unfold material_number. intros [[A1 A2]|[(A1 & A2 & A3 & A4)|[A1 A2]]] [[B1 B2]|[(B1 & B2 & B3 & B4)|[B1 B2]]]; try (exfalso; lra); try congruence.
  assert (K1 : (inject_Z (k - 1) < inject_Z l)%Q) by lra. assert (K2 : (inject_Z (l - 1) < inject_Z k)%Q) by lra. rewrite <- Zlt_Qlt in K1, K2. lia.
Qed.
(** The material number of every block is the one of the specification. *)
Lemma number_index : forall r, (0 <= r)%Q -> material_number r (ratio_index r) /\ 0 <= ratio_index r <= 100.
Proof.
  intros r R. destruct (raw_floor r) as [A B]. unfold ratio_index. cbv zeta. set (i := raw_index r) in *. clearbody i. unfold Num_of_material.
  assert (P : 0 < i) by (assert (K : (inject_Z 0 < inject_Z i)%Q) by (change (inject_Z 0) with 0%Q; lra); rewrite <- Zlt_Qlt in K; exact K).
  destruct (Z.eqb_spec i 1) as [->|N1].
  - change (0 >? 100) with false. cbv iota. change (inject_Z 1) with 1%Q in B. split; [left; split; [lra|reflexivity]|lia].
  - assert (K : (inject_Z 1 <= inject_Z (i - 1))%Q) by (rewrite <- Zle_Qle; lia). change (inject_Z 1) with 1%Q in K.
    destruct (i >? 100) eqn:G; rewrite Z.gtb_ltb in G; [apply Z.ltb_lt in G|apply Z.ltb_ge in G].
    + assert (K2 : (inject_Z 100 <= inject_Z (i - 1))%Q) by (rewrite <- Zle_Qle; lia). change (inject_Z 100) with (100 # 1)%Q in K2. split; [right; right; split; [lra|reflexivity]|lia].
    + assert (K2 : (inject_Z i <= inject_Z 100)%Q) by (rewrite <- Zle_Qle; lia). change (inject_Z 100) with (100 # 1)%Q in K2. split; [right; left; repeat split; lra|lia].
Qed.

(** *** The list of the indices *)
Lemma insert_in : forall x l y, In y (insert x l) <-> y = x \/ In y l.
Proof.
  intros x l y. induction l as [|z l IH]; [cbn; intuition|]. cbn [insert]. destruct (Z.eqb_spec x z) as [->|N]; [cbn; intuition|].
  destruct (x <? z); cbn [In]; [intuition|rewrite IH; intuition].
Qed.
Lemma insert_sorted : forall x l, StronglySorted Z.lt l -> StronglySorted Z.lt (insert x l).
Proof.
  intros x l H. induction H as [|z l H IH F]; [repeat constructor|]. cbn [insert]. destruct (Z.eqb_spec x z) as [->|N]; [constructor; assumption|].
  destruct (Z.ltb_spec x z) as [L|L].
  - constructor; [constructor; assumption|]. constructor; [exact L|]. eapply Forall_impl; [|exact F]. intros y Y. cbn in Y. lia.
  - constructor; [exact IH|]. apply Forall_forall. intros y Y. apply insert_in in Y. destruct Y as [->|Y]; [lia|]. rewrite Forall_forall in F. exact (F y Y).
Qed.
Lemma sorted_filter : forall f l, StronglySorted Z.lt l -> StronglySorted Z.lt (filter f l).
Proof.
  intros f l H. induction H as [|z l H IH F]; [constructor|]. cbn [filter]. destruct (f z); [|exact IH]. constructor; [exact IH|].
  apply Forall_forall. intros y Y. apply filter_In in Y. rewrite Forall_forall in F. exact (F y (proj1 Y)).
Qed.
Lemma unique_in : forall bs i, In i (unique_indices bs) <-> i <= 100 /\ exists b, In b bs /\ raw_index (b_ratio b) = i.
Proof.
  intros bs i. unfold unique_indices, Num_of_material. rewrite filter_In, Z.leb_le.
  assert (G : forall l, In i (fold_right insert [] l) <-> In i l).
  { induction l as [|x l IH]; [reflexivity|]. cbn [fold_right]. rewrite insert_in, IH. cbn [In]. intuition. }
  rewrite G, in_map_iff. split.
  - intros ((b & H1 & H2) & A). split; [exact A|]. exists b. tauto.
  - intros (A & b & H1 & H2). split; [exists b; tauto|exact A].
Qed.
Lemma unique_sorted : forall bs, StronglySorted Z.lt (unique_indices bs).
Proof. intros bs. unfold unique_indices. apply sorted_filter. induction (map (fun b => raw_index (b_ratio b)) bs) as [|x l IH]; [constructor|]. cbn. apply insert_sorted. exact IH. Qed.

Section Materials.
Variable root : Q -> Q.
Lemma materials_none : forall l, materials_of root l = None <-> exists i, In i l /\ i < 0.
Proof.
  assert (M : forall i, material_of root i = None <-> i < 0).
  { intros i. unfold material_of. cbv zeta. set (k := if i =? 1 then 0 else i). assert (K : i < 0 <-> k < 0) by (unfold k; destruct (Z.eqb_spec i 1); lia).
    clearbody k. rewrite K. destruct (Z.ltb_spec k 0); split; intros; (reflexivity || lia || discriminate). }
  induction l as [|i l IH]; [cbn; split; [discriminate|intros (? & [] & _)]|]. cbn [materials_of].
  destruct (material_of root i) eqn:E.
  - assert (NI : ~ i < 0) by (intros K; apply M in K; congruence). destruct (materials_of root l) eqn:E2.
    + split; [discriminate|]. intros (j & [<-|J] & K); [contradiction|]. assert (H : @Some (list material) l0 = None) by (apply IH; exists j; tauto). discriminate H.
    + split; [|reflexivity]. intros _. destruct (proj1 IH eq_refl) as (j & J & K). exists j. split; [right; exact J|exact K].
  - split; [|reflexivity]. intros _. exists i. split; [left; reflexivity|apply M; exact E].
Qed.
Lemma materials_some : forall l ms, materials_of root l = Some ms -> Forall2 (fun i m => material_of root i = Some m) l ms.
Proof.
  induction l as [|i l IH]; intros ms H; cbn [materials_of] in H; [injection H as <-; constructor|].
  destruct (material_of root i) eqn:E; [|discriminate]. destruct (materials_of root l) eqn:E2; [|discriminate]. injection H as <-. constructor; [exact E|apply IH; reflexivity].
Qed.

(** The tool ends with an error exactly when there is no block, or a share is below minus
    one hundredth. *)
Theorem C81_fails : forall bs, convert root bs = None <-> bs = [] \/ exists b, In b bs /\ (b_ratio b < - (1 # 100))%Q.
Proof.
  intros bs. unfold convert. destruct bs as [|b0 bs]; [split; [left; reflexivity|reflexivity]|]. set (l := b0 :: bs).
  assert (NE : l <> []) by discriminate. clearbody l. clear b0 bs.
  assert (G : materials_of root (unique_indices l) = None <-> exists b, In b l /\ (b_ratio b < - (1 # 100))%Q).
  { rewrite materials_none. split.
    - intros (i & I1 & I2). apply unique_in in I1. destruct I1 as (_ & b & B1 & B2). exists b. split; [exact B1|]. destruct (raw_floor (b_ratio b)) as [_ R]. rewrite B2 in R.
      assert (K : (inject_Z i <= inject_Z (-1))%Q) by (rewrite <- Zle_Qle; lia). change (inject_Z (-1)) with (-1 # 1)%Q in K. lra.
    - intros (b & B1 & B2). destruct (raw_floor (b_ratio b)) as [R _]. assert (K : (inject_Z (raw_index (b_ratio b) - 1) < inject_Z (-1))%Q) by (change (inject_Z (-1)) with (-1 # 1)%Q; lra).
      rewrite <- Zlt_Qlt in K. exists (raw_index (b_ratio b)). split; [|lia]. apply unique_in. split; [lia|]. exists b. split; [exact B1|reflexivity]. }
  destruct (materials_of root (unique_indices l)) eqn:E; (split; [|intros [K|K]]).
  - discriminate.
  - contradiction.
  - apply G in K. discriminate K.
  - intros _. right. apply G. reflexivity.
  - contradiction.
  - reflexivity.
Qed.

Definition base_index (i : Z) : Z := if i =? 1 then 0 else i.
Lemma material_spec : forall i m, material_of root i = Some m -> let k := base_index i in let p := (inject_Z k / 100)%Q in
  0 <= k /\ m_name m = gds_name k /\ m_ky m = m_kx m /\ (m_kz m == mixture p 385 (3 # 2) / 1000000)%Q /\
  (m_vhc m == mixture p 3449600 1540000 / inject_Z (10 ^ 18))%Q /\
  m_kx m = (((1 - root p) * k_Substrate + root p * k_Polygon * k_Substrate / ((1 - root p) * k_Polygon + root p * k_Substrate)) / 1000000)%Q.
Proof.
  intros i m H. unfold material_of in H. cbv zeta in H. change (if i =? 1 then 0 else i) with (base_index i) in H. cbv zeta. set (k := base_index i) in *. clearbody k.
  destruct (Z.ltb_spec k 0) as [L|L]; [discriminate|]. injection H as <-. cbn [m_name m_kx m_ky m_kz m_vhc].
  split; [exact L|]. split; [unfold material_name, gds_name; rewrite int_dec by exact L; reflexivity|]. split; [reflexivity|].
  split; [unfold mixture; reflexivity|]. split; [unfold mixture; reflexivity|]. reflexivity.
Qed.
Lemma names_injective : forall k l, 0 <= k -> 0 <= l -> gds_name k = gds_name l -> k = l.
Proof.
  intros k l K L H. unfold gds_name in H. apply app_inv_head in H.
  assert (E : dec k = dec l). { rewrite <- (string_of_list_ascii_of_string (dec k)), <- (string_of_list_ascii_of_string (dec l)). unfold str in H. rewrite H. reflexivity. }
  assert (A := dec_value k K). assert (B := dec_value l L). rewrite E in A. congruence.
Qed.
Lemma index_base : forall r, (0 <= r)%Q -> raw_index r <= 100 -> base_index (raw_index r) = ratio_index r.
Proof.
  intros r R L. unfold ratio_index, base_index, Num_of_material. cbv zeta. destruct (Z.eqb_spec (raw_index r) 1) as [E|E]; [reflexivity|].
  rewrite Z.gtb_ltb. destruct (Z.ltb_spec 100 (raw_index r)); [lia|reflexivity].
Qed.
Lemma raw_below : forall r, raw_index r <= 100 <-> (r < 1)%Q.
Proof.
  intros r. destruct (raw_floor r) as [A B]. split; intros H.
  - assert (K : (inject_Z (raw_index r) <= inject_Z 100)%Q) by (rewrite <- Zle_Qle; exact H). change (inject_Z 100) with (100 # 1)%Q in K. lra.
  - assert (K : (inject_Z (raw_index r - 1) < inject_Z 100)%Q) by (change (inject_Z 100) with (100 # 1)%Q; lra). rewrite <- Zlt_Qlt in K. lia.
Qed.
Lemma raw_positive : forall r, (0 <= r)%Q -> 1 <= raw_index r.
Proof.
  intros r R. destruct (raw_floor r) as [A B]. assert (K : (inject_Z 0 < inject_Z (raw_index r))%Q) by (change (inject_Z 0) with 0%Q; lra). rewrite <- Zlt_Qlt in K. lia.
Qed.
Lemma convert_some : forall bs t ms, convert root bs = Some (t, ms) -> bs <> [] /\ t = blocks_text 1 bs /\
  Forall2 (fun i m => material_of root i = Some m) (unique_indices bs) ms.
Proof.
  intros bs t ms H. unfold convert in H. destruct bs as [|b bs]; [discriminate|]. destruct (materials_of root (unique_indices (b :: bs))) as [l|] eqn:E; [|discriminate].
  injection H as <- <-. split; [discriminate|]. split; [reflexivity|]. apply materials_some. exact E.
Qed.
Lemma Forall2_right : forall (A B : Type) (P : A -> B -> Prop) l m y, Forall2 P l m -> In y m -> exists x, In x l /\ P x y.
Proof.
  intros A B P l m y H. induction H as [|a b l m H1 H2 IH]; intros I; [destruct I|]. destruct I as [<-|I]; [exists a; split; [left; reflexivity|exact H1]|].
  destruct (IH I) as (x & X1 & X2). exists x. split; [right; exact X1|exact X2].
Qed.
Lemma Forall2_left : forall (A B : Type) (P : A -> B -> Prop) l m x, Forall2 P l m -> In x l -> exists y, In y m /\ P x y.
Proof.
  intros A B P l m x H. induction H as [|a b l m H1 H2 IH]; intros I; [destruct I|]. destruct I as [<-|I]; [exists b; split; [left; reflexivity|exact H1]|].
  destruct (IH I) as (y & X1 & X2). exists y. split; [right; exact X1|exact X2].
Qed.

(** No name is defined twice; every definition is used; the material of a block is defined
    exactly when its share is below 1 or another share is between 0.99 and 1. *)
Theorem C81_defined : forall bs t ms, convert root bs = Some (t, ms) -> Forall (fun b => 0 <= b_ratio b)%Q bs ->
  NoDup (map m_name ms) /\
  (forall m, In m ms -> exists b k, In b bs /\ material_number (b_ratio b) k /\ m_name m = gds_name k) /\
  (forall b k, In b bs -> material_number (b_ratio b) k ->
     (defined (gds_name k) ms <-> (b_ratio b < 1)%Q \/ exists c, In c bs /\ (99 # 100 <= b_ratio c /\ b_ratio c < 1)%Q)).
Proof.
  intros bs t ms H POS. rewrite Forall_forall in POS. destruct (convert_some _ _ _ H) as (_ & _ & F). split; [|split].
  - assert (SO := unique_sorted bs). assert (LO : Forall (fun i => 1 <= i) (unique_indices bs)).
    { apply Forall_forall. intros i I. apply unique_in in I. destruct I as (_ & b & B & <-). apply raw_positive, POS, B. }
    clear H. induction F as [|i m l ms H1 H2 IH]; [constructor|]. inversion SO as [|? ? S1 S2]; subst. inversion LO as [|? ? L1 L2]; subst.
    cbn [map]. constructor; [|exact (IH S1 L2)]. intros K. apply in_map_iff in K. destruct K as (m' & E & I). destruct (Forall2_right _ _ _ _ _ _ H2 I) as (j & J & MJ).
    destruct (material_spec _ _ H1) as (P1 & N1 & _). destruct (material_spec _ _ MJ) as (P2 & N2 & _). rewrite N1, N2 in E. apply names_injective in E; [|assumption|assumption].
    rewrite Forall_forall in S2, L2. specialize (S2 j J). specialize (L2 j J). unfold base_index in E. destruct (Z.eqb_spec i 1); destruct (Z.eqb_spec j 1); lia.
  - intros m I. destruct (Forall2_right _ _ _ _ _ _ F I) as (i & J & M). apply unique_in in J. destruct J as (L & b & B & E). destruct (material_spec _ _ M) as (P1 & N1 & _).
    exists b, (ratio_index (b_ratio b)). split; [exact B|]. split; [apply number_index, POS, B|]. rewrite N1, <- E, index_base; [reflexivity|apply POS, B|rewrite E; exact L].
  - intros b k B K. destruct (number_index _ (POS b B)) as [K2 K3]. assert (EK := number_unique _ _ _ K K2). subst k.
    assert (DEF : forall c, In c bs -> (b_ratio c < 1)%Q -> defined (gds_name (ratio_index (b_ratio c))) ms).
    { intros c C L. apply raw_below in L. assert (U : In (raw_index (b_ratio c)) (unique_indices bs)) by (apply unique_in; split; [exact L|exists c; tauto]).
      destruct (Forall2_left _ _ _ _ _ _ F U) as (m & M1 & M2). exists m. split; [exact M1|]. destruct (material_spec _ _ M2) as (_ & N & _). rewrite N, index_base; [reflexivity|apply POS, C|exact L]. }
    split.
    + intros (m & M1 & M2). destruct (Qlt_le_dec (b_ratio b) 1) as [L|L]; [left; exact L|right].
      destruct (Forall2_right _ _ _ _ _ _ F M1) as (i & J & M). apply unique_in in J. destruct J as (Li & c & C & E). destruct (material_spec _ _ M) as (P1 & N1 & _).
      assert (K100 : ratio_index (b_ratio b) = 100) by (apply (number_unique (b_ratio b)); [exact K|right; right; split; [exact L|reflexivity]]).
      rewrite N1, K100 in M2. apply names_injective in M2; [|assumption|lia]. assert (I100 : i = 100) by (unfold base_index in M2; destruct (Z.eqb_spec i 1); lia).
      exists c. split; [exact C|]. destruct (raw_floor (b_ratio c)) as [R1 R2]. rewrite E, I100 in R1, R2. change (inject_Z (100 - 1)) with (99 # 1)%Q in R1. change (inject_Z 100) with (100 # 1)%Q in R2. split; lra.
    + intros [L|(c & C & L1 & L2)]; [apply DEF; assumption|]. destruct (Qlt_le_dec (b_ratio b) 1) as [L|L]; [apply DEF; assumption|].
      assert (K100 : ratio_index (b_ratio b) = 100) by (apply (number_unique (b_ratio b)); [exact K|right; right; split; [exact L|reflexivity]]).
      assert (C100 : ratio_index (b_ratio c) = 100).
      { apply (number_unique (b_ratio c)); [apply number_index, POS, C|]. right. left. change (inject_Z (100 - 1)) with (99 # 1)%Q. change (inject_Z 100) with (100 # 1)%Q. repeat split; lra. }
      rewrite K100, <- C100. apply DEF; assumption.
Qed.

(** The values: between those of the substrate and of the polygons; the two horizontal
    conductivities are equal, and not above the vertical one by more than the error of the
    square root makes it. *)
Lemma along : forall s, (0 <= s <= 1)%Q -> exists h, ((3 # 2) <= h /\ h <= 385 /\ h <= (1 - s) * (3 # 2) + s * 385)%Q /\
  ((1 - s) * k_Substrate + s * k_Polygon * k_Substrate / ((1 - s) * k_Polygon + s * k_Substrate) == (1 - s) * (3 # 2) + s * h)%Q /\
  (h * (385 - (767 # 2) * s) == 1155 # 2)%Q.
Proof.
  intros s [S0 S1]. unfold k_Substrate, k_Polygon. assert (D : (0 < (1 - s) * 385 + s * (3 # 2))%Q) by lra. exists ((1155 # 2) / ((1 - s) * 385 + s * (3 # 2)))%Q.
  split; [|split].
  - split; [apply Qle_shift_div_l; [exact D|lra]|]. split; [apply Qle_shift_div_r; [exact D|nra]|]. apply Qle_shift_div_r; [exact D|nra].
  - field. lra.
  - field. lra.
Qed.
Theorem C81_values : forall bs t ms eps, convert root bs = Some (t, ms) -> Forall (fun b => 0 <= b_ratio b)%Q bs ->
  (forall p, 0 <= p <= 1 -> 0 <= root p <= 1 /\ Qabs (root p * root p - p) <= eps)%Q ->
  Forall (fun m => exists k, 0 <= k <= 100 /\ m_name m = gds_name k /\
     (m_kz m == mixture (inject_Z k / 100) 385 (3 # 2) / 1000000)%Q /\
     (m_vhc m == mixture (inject_Z k / 100) 3449600 1540000 / inject_Z (10 ^ 18))%Q /\
     m_kx m = m_ky m /\ ((3 # 2) / 1000000 <= m_kx m /\ m_kx m <= 385 / 1000000)%Q /\ (m_kx m <= m_kz m + eps * (767 # 2) / 1000000)%Q) ms.
Proof.
  intros bs t ms eps H POS RT. rewrite Forall_forall in POS. destruct (convert_some _ _ _ H) as (_ & _ & F). apply Forall_forall. intros m I.
  destruct (Forall2_right _ _ _ _ _ _ F I) as (i & J & M). apply unique_in in J. destruct J as (L & b & B & E). destruct (material_spec _ _ M) as (P1 & N1 & Y & Z1 & V & X).
  cbv zeta in *. exists (base_index i). assert (KB : base_index i <= 100) by (unfold base_index; destruct (i =? 1); lia). set (k := base_index i) in *. clearbody k.
  split; [lia|]. split; [exact N1|]. split; [exact Z1|]. split; [exact V|]. split; [symmetry; exact Y|].
  set (p := (inject_Z k / 100)%Q) in *. assert (PB : (0 <= p <= 1)%Q).
  { assert (A1 : (inject_Z 0 <= inject_Z k)%Q) by (rewrite <- Zle_Qle; lia). assert (A2 : (inject_Z k <= inject_Z 100)%Q) by (rewrite <- Zle_Qle; lia).
    change (inject_Z 0) with 0%Q in A1. change (inject_Z 100) with (100 # 1)%Q in A2. unfold p. split; [apply Qle_shift_div_l; lra|apply Qle_shift_div_r; lra]. }
  clearbody p. destruct (RT p PB) as [RB RE]. set (s := root p) in *. clearbody s. destruct (along s RB) as (h & (H1 & H2 & H3) & H4 & _). rewrite X, Z1.
  apply Qabs_Qle_condition in RE. destruct RE as [RE1 RE2].
  assert (Q1 : forall q, (q / 1000000 == q * (1 # 1000000))%Q) by (intros q; field). rewrite !Q1, H4. unfold mixture. clear Q1 H4 X Z1 V N1 F M. split; [split; nra|]. nra.
Qed.
(** A larger share of polygons gives larger values. *)
Theorem C81_monotone : forall bs t ms m n k l, convert root bs = Some (t, ms) -> In m ms -> In n ms ->
  m_name m = gds_name k -> m_name n = gds_name l -> 0 <= k -> k < l -> 
  (m_kz m < m_kz n)%Q /\ (m_vhc m < m_vhc n)%Q /\
  ((0 <= root (inject_Z k / 100) /\ root (inject_Z k / 100) <= root (inject_Z l / 100) /\ root (inject_Z l / 100) <= 1)%Q -> (m_kx m <= m_kx n)%Q).
Proof.
  intros bs t ms m n k l H IM IN EM EN K0 KL. destruct (convert_some _ _ _ H) as (_ & _ & F).
  destruct (Forall2_right _ _ _ _ _ _ F IM) as (i & _ & M). destruct (Forall2_right _ _ _ _ _ _ F IN) as (j & _ & N).
  destruct (material_spec _ _ M) as (P1 & N1 & Y1 & Z1 & V1 & X1). destruct (material_spec _ _ N) as (P2 & N2 & Y2 & Z2 & V2 & X2). cbv zeta in *.
  rewrite N1 in EM. apply names_injective in EM; [|assumption|assumption]. rewrite N2 in EN. apply names_injective in EN; [|assumption|lia]. rewrite EM in *. rewrite EN in *. clear N1 N2 EM EN F M N.
  assert (LT : (inject_Z k / 100 < inject_Z l / 100)%Q). { assert (A : (inject_Z k < inject_Z l)%Q) by (rewrite <- Zlt_Qlt; exact KL). apply Qlt_shift_div_l; [reflexivity|]. assert (G : (inject_Z k / 100 * 100 == inject_Z k)%Q) by field. lra. }
  set (p := (inject_Z k / 100)%Q) in *. set (q := (inject_Z l / 100)%Q) in *. clearbody p q.
  assert (Q1 : forall q, (q / 1000000 == q * (1 # 1000000))%Q) by (intros; field). assert (Q2 : forall q, (q / inject_Z (10 ^ 18) == q * (1 # 1000000000000000000))%Q) by (intros; change (inject_Z (10 ^ 18)) with (1000000000000000000 # 1)%Q; unfold Qdiv; reflexivity).
  unfold mixture in *. rewrite Z1, Z2, V1, V2, X1, X2, !Q1, !Q2. split; [lra|]. split; [lra|]. intros (S0 & S1 & S2).
  set (s := root p) in *. set (u := root q) in *. clearbody s u. destruct (along s ltac:(lra)) as (h & (A1 & A2 & A3) & A4 & A5). destruct (along u ltac:(lra)) as (g & (B1 & B2 & B3) & B4 & B5). rewrite A4, B4.
  assert (HG : (h <= g)%Q) by nra. nra.
Qed.
End Materials.
Print Assumptions C81_fails.
Print Assumptions C81_defined.
Print Assumptions C81_values.
Print Assumptions C81_monotone.

(** *** The floorplan is read again *)
Lemma dec_letters : forall n, 0 <= n -> Forall letter_digit (str (dec n)).
Proof.
  intros n P. destruct (digits_list (dec n) (dec_digit n P)) as (l & -> & D & _). unfold digits_text. apply Forall_forall. intros c H. apply in_map_iff in H.
  destruct H as (k & <- & I). rewrite Forall_forall in D. specialize (D k I). right.
  do 10 (destruct k as [|k]; [cbn; tauto|]). lia.
Qed.
Lemma gds_name_ok : forall k, 0 <= k -> name_ok (gds_name k).
Proof.
  intros k K. split.
  - exists "G"%char, (str "DS_mat" ++ str (dec k)). split; [reflexivity|]. split; [unfold letter; cbn; tauto|].
    apply Forall_app. split; [|apply dec_letters, K]. unfold str, letter_digit, letter. cbn [list_ascii_of_string].
    repeat (apply Forall_cons; [solve [left; cbn; tauto|right; cbn; tauto]|]). constructor.
  - intros H. unfold gds_name in H. cbn in H. repeat (destruct H as [H|H]; [discriminate H|]). exact H.
Qed.
Lemma element_name_ok : forall k, 0 <= k -> name_ok (element_name k).
Proof.
  intros k K. split.
  - exists "E"%char, (str "lement" ++ str (dec k)). split; [reflexivity|]. split; [unfold letter; cbn; tauto|].
    apply Forall_app. split; [|apply dec_letters, K]. unfold str, letter_digit, letter. cbn [list_ascii_of_string].
    repeat (apply Forall_cons; [solve [left; cbn; tauto]|]). constructor.
  - intros H. unfold element_name in H. cbn in H. repeat (destruct H as [H|H]; [discriminate H|]). exact H.
Qed.
Lemma lex_block : forall i b, 0 <= i -> (0 <= b_ratio b)%Q -> exists x, element_ok x /\ declares_block i b (element_value x) /\
  forall t, lexed (block_text i b ++ t) = map lexeme_tok (element_lexemes x) ++ lexed t.
Proof.
  intros i b I R. destruct (number_index _ R) as [NI NB]. destruct (int_numeral 1 eq_refl) as (k & K1 & K2 & K3).
  destruct (fixed_near 12 (b_x b) (1 # 2000000000000) ltac:(lia) eq_refl) as (nx & O1 & T1 & N1).
  destruct (fixed_near 12 (b_y b) (1 # 2000000000000) ltac:(lia) eq_refl) as (ny & O2 & T2 & N2).
  destruct (fixed_near 12 (b_w b) (1 # 2000000000000) ltac:(lia) eq_refl) as (nl & O3 & T3 & N3).
  destruct (fixed_near 12 (b_h b) (1 # 2000000000000) ltac:(lia) eq_refl) as (nw & O4 & T4 & N4).
  destruct (fixed_near 12 0 (1 # 2000000000000) ltac:(lia) eq_refl) as (p & O5 & T5 & N5).
  set (n := ratio_index (b_ratio b)) in *.
  assert (EN : name_ok (element_name i)) by (apply element_name_ok, I). assert (MN : name_ok (gds_name n)) by (apply gds_name_ok; lia).
  exists (mkElement (element_name i) (Single (mkRectangle nx ny nl nw) (Some (gds_name n)) (Some (k, k))) (Some (p, []))). split; [|split].
  - split; [exact EN|]. split; [|constructor; [exact O5|constructor]]. split; [split; [exact O1|split; [exact O2|split; assumption]]|]. split; [exact MN|split; exact K1].
  - split; [reflexivity|]. split; [exists (numeral_value nx), (numeral_value ny), (numeral_value nl), (numeral_value nw); split; [reflexivity|tauto]|].
    split; [exists n; split; [exact NI|reflexivity]|]. split; [exists (numeral_value k), (numeral_value k); split; [reflexivity|split; exact K3]|].
    eexists. split; [reflexivity|]. exact N5.
  - intros t. unfold block_text. fold n. unfold f12. rewrite T1, T2, T3, T4, T5, K2. unfold material_name. rewrite !int_dec by lia.
    rewrite (app_assoc (str "Element")). fold (element_name i). 
    unfold element_lexemes. cbn [el_name el_shape el_powers shape_lexemes re_x re_y re_length re_width].
    change (str " :") with [" "; ":"]%char. change (str "  position    ") with ([" "; " "]%char ++ str "position" ++ [" "; " "; " "; " "]%char).
    change (str "  dimension   ") with ([" "; " "]%char ++ str "dimension" ++ [" "; " "; " "]%char).
    change (str "  material ") with ([" "; " "]%char ++ str "material" ++ [" "]%char).
    change (str "  discretization ") with ([" "; " "]%char ++ str "discretization" ++ [" "]%char).
    change (str "  power values ") with ([" "; " "]%char ++ str "power" ++ [" "]%char ++ str "values" ++ [" "]%char).
    fold (gds_name n). change (str ";") with [";"%char].
    rewrite <- !app_assoc. rewrite lex_word by ((right; assumption) || reflexivity). cbn [app]. blanks. rewrite lex_mark by (cbn; tauto).
    rewrite lex_line_end. blanks. rewrite lex_word by ((left; cbn; tauto) || reflexivity). blanks.
    rewrite lex_pair by assumption. blanks. rewrite lex_word by ((left; cbn; tauto) || reflexivity). blanks. rewrite lex_pair by assumption.
    blanks. rewrite lex_word by ((left; cbn; tauto) || reflexivity). blanks. rewrite lex_word by ((right; assumption) || reflexivity). rewrite lex_mark by (cbn; tauto). rewrite lex_line_end.
    blanks. rewrite lex_word by ((left; cbn; tauto) || reflexivity). blanks. rewrite lex_pair by assumption. blanks.
    rewrite lex_word by ((left; cbn; tauto) || reflexivity). blanks. rewrite lex_word by ((left; cbn; tauto) || reflexivity). blanks.
    rewrite lex_number by (assumption || reflexivity). change (str " ;") with [" "; ";"]%char. cbn [app]. blanks. rewrite lex_mark by (cbn; tauto). rewrite !lex_line_end.
    repeat (rewrite map_app || rewrite <- app_assoc || cbn [pair_lexemes map app flat_map]). reflexivity.
Qed.
Lemma lex_blocks : forall bs i, 0 <= i -> Forall (fun b => 0 <= b_ratio b)%Q bs -> exists xs, Forall element_ok xs /\ List.length xs = List.length bs /\
  (forall k b x, nth_error bs k = Some b -> nth_error xs k = Some x -> declares_block (i + Z.of_nat k) b (element_value x)) /\
  lexed (blocks_text i bs) = map lexeme_tok (flat_map element_lexemes xs).
Proof.
  induction bs as [|b bs IH]; intros i I H.
  - exists []. split; [constructor|]. split; [reflexivity|]. split; [intros [|k]; discriminate|reflexivity].
  - inversion H as [|? ? H1 H2]; subst. destruct (lex_block i b I H1) as (x & X1 & X2 & X3). destruct (IH (i + 1) ltac:(lia) H2) as (xs & A & B & C & D).
    exists (x :: xs). split; [constructor; assumption|]. split; [cbn; congruence|]. split.
    + intros [|k] c y E1 E2; cbn in E1, E2; [injection E1 as <-; injection E2 as <-; rewrite Z.add_0_r; exact X2|].
      replace (i + Z.of_nat (S k)) with (i + 1 + Z.of_nat k) by lia. eapply C; eassumption.
    + cbn [blocks_text flat_map]. rewrite X3, D, map_app. reflexivity.
Qed.
(** The floorplan is accepted, and declares the blocks in order as Element1, Element2, ... *)
Theorem C81_floorplan : forall root bs text ms, convert root bs = Some (text, ms) -> Forall (fun b => 0 <= b_ratio b)%Q bs ->
  exists ds, read_decls text = Some ds /\ List.length ds = List.length bs /\
    forall k b d, nth_error bs k = Some b -> nth_error ds k = Some d -> declares_block (Z.of_nat (S k)) b d.
Proof.
  intros root bs text ms H POS. destruct (convert_some _ _ _ _ H) as (NE & -> & _). destruct (lex_blocks bs 1 ltac:(lia) POS) as (xs & A & B & C & D).
  exists (map element_value xs). assert (NX : xs <> []) by (intros ->; destruct bs; [congruence|discriminate B]). split; [|split; [rewrite map_length; exact B|]].
  - unfold read_decls, tokens. cbv zeta. change (lex flp_rules O INITIAL) with lexed. rewrite D. apply p_elements_ok; [assumption|assumption|lia].
  - intros k b d E1 E2. rewrite nth_error_map in E2. destruct (nth_error xs k) as [x|] eqn:X; [|discriminate]. cbn [option_map] in E2.
    assert (E3 : element_value x = d) by congruence. subst d. replace (Z.of_nat (S k)) with (1 + Z.of_nat k) by lia. eapply C; eassumption.
Qed.
Print Assumptions C81_floorplan.

(** *** A defect, and concrete cases *)
Definition bisect (p : Q) : Q := if Qle_bool 1 p then 1%Q else if Qle_bool (1 # 2) p then (7 # 10)%Q else if Qle_bool p 0 then 0%Q else (1 # 2)%Q.
(** A region covered by polygons altogether ("1.00", the common case) is of GDS_mat100, and
    material.txt does not define it. *)
Theorem C81_full_refuted : exists root bs text ms, convert root bs = Some (text, ms) /\ map b_ratio bs = [1; 1 # 2]%Q /\
  map m_name ms = [gds_name 51] /\ 
  (exists ds, read_decls text = Some ds /\ map fd_material ds = [Some (name_codes (gds_name 100)); Some (name_codes (gds_name 51))]) /\
  ~ defined (gds_name 100) ms.
Proof.
  set (bs := [mk_block 0 0 10 10 1; mk_block 10 0 10 10 (1 # 2)]).
  assert (U : unique_indices bs = [51]) by reflexivity.
  destruct (material_of bisect 51) as [m|] eqn:M; [|discriminate M].
  assert (E : convert bisect bs = Some (blocks_text 1 bs, [m])). { unfold convert. rewrite U. cbn [materials_of]. rewrite M. reflexivity. }
  assert (POS : Forall (fun b => 0 <= b_ratio b)%Q bs) by (repeat constructor; cbn; lra).
  assert (NM : m_name m = gds_name 51) by (destruct (material_spec _ _ _ M) as (_ & N & _); exact N).
  exists bisect, bs, (blocks_text 1 bs), [m]. split; [exact E|]. split; [reflexivity|]. split; [cbn [map]; rewrite NM; reflexivity|]. split.
  - destruct (C81_floorplan _ _ _ _ E POS) as (ds & D1 & D2 & D3). exists ds. split; [exact D1|].
    destruct ds as [|d0 [|d1 [|? ?]]]; try discriminate D2. 
    destruct (D3 0%nat _ d0 eq_refl eq_refl) as (_ & _ & (k & K1 & K2) & _). destruct (D3 1%nat _ d1 eq_refl eq_refl) as (_ & _ & (l & L1 & L2) & _).
    assert (EK : k = 100) by (apply (number_unique 1); [exact K1|right; right; split; [lra|reflexivity]]).
    assert (EL : l = 51). { apply (number_unique (1 # 2)); [exact L1|]. right. left. change (inject_Z (51 - 1)) with (50 # 1)%Q. change (inject_Z 51) with (51 # 1)%Q. repeat split; lra. }
    cbn [map]. rewrite K2, L2, EK, EL. reflexivity.
  - intros (x & [<-|[]] & X). rewrite NM in X. apply names_injective in X; lia.
Qed.
Print Assumptions C81_full_refuted.
(** A square root with three decimals meets the hypothesis of C81_values. *)
Definition root3 (p : Q) : Q := (inject_Z (Z.sqrt (Qfloor (p * inject_Z 1000000))) * (1 # 1000))%Q.
Example C81_root : forall p, (0 <= p <= 1 -> 0 <= root3 p <= 1 /\ Qabs (root3 p * root3 p - p) <= 3 # 1000)%Q.
Proof.
  intros p [P0 P1]. unfold root3. change (inject_Z 1000000) with (1000000 # 1)%Q. assert (A := Qfloor_le (p * (1000000 # 1))). assert (B := Qlt_floor (p * (1000000 # 1))).
  set (m := Qfloor (p * (1000000 # 1))) in *. clearbody m.
  assert (M0 : 0 <= m). { assert (K : (inject_Z 0 < inject_Z (m + 1))%Q) by (change (inject_Z 0) with 0%Q; lra). rewrite <- Zlt_Qlt in K. lia. }
  assert (M1 : m <= 1000000). { assert (K : (inject_Z m <= inject_Z 1000000)%Q) by (change (inject_Z 1000000) with (1000000 # 1)%Q; lra). rewrite <- Zle_Qle in K. lia. }
  destruct (Z.sqrt_spec m M0) as [S1 S2]. assert (S0 := Z.sqrt_nonneg m). set (s := Z.sqrt m) in *. clearbody s.
  assert (SB : s <= 1000) by nia. assert (T : m + 1 <= s * s + 2 * s + 1) by lia.
  rewrite Zle_Qle in S0. rewrite Zle_Qle in SB. rewrite Zle_Qle in S1. rewrite Zle_Qle in T. rewrite inject_Z_mult in S1. 
  assert (T2 : (inject_Z (m + 1) <= inject_Z s * inject_Z s + 2 * inject_Z s + 1)%Q) by (rewrite !inject_Z_plus, !inject_Z_mult in *; exact T).
  change (inject_Z 0) with 0%Q in S0. change (inject_Z 1000) with (1000 # 1)%Q in SB. set (z := inject_Z s) in *. clearbody z. clear T M0 M1.
  split; [lra|]. apply Qabs_Qle_condition. split; lra.
Qed.
(** The hypotheses of C81_defined and C81_values are met: three shares, two materials. *)
Example C81_witness : exists text ms, convert (fun p => if Qle_bool p 0 then 0 else 7 # 10)%Q
    [mk_block 0 0 10 10 (1 # 200); mk_block 10 0 10 10 (49 # 100); mk_block 20 0 10 10 (495 # 1000)] = Some (text, ms) /\
  Forall (fun b => 0 <= b_ratio b)%Q [mk_block 0 0 10 10 (1 # 200); mk_block 10 0 10 10 (49 # 100); mk_block 20 0 10 10 (495 # 1000)] /\
  map m_name ms = [gds_name 0; gds_name 50].
Proof.
  set (bs := [mk_block 0 0 10 10 (1 # 200); mk_block 10 0 10 10 (49 # 100); mk_block 20 0 10 10 (495 # 1000)]). set (root := (fun p => if Qle_bool p 0 then 0 else 7 # 10)%Q).
  assert (U : unique_indices bs = [1; 50]) by reflexivity.
  destruct (material_of root 1) as [m|] eqn:M; [|discriminate M]. destruct (material_of root 50) as [n|] eqn:N; [|discriminate N].
  exists (blocks_text 1 bs), [m; n]. split; [unfold convert; rewrite U; cbn [materials_of]; rewrite M, N; reflexivity|]. split; [repeat constructor; cbn; lra|].
  destruct (material_spec _ _ _ M) as (_ & N1 & _). destruct (material_spec _ _ _ N) as (_ & N2 & _). cbn [map]. rewrite N1, N2. reflexivity.
Qed.
Print Assumptions C81_witness.
(** A box of 4 by 4, covered up to 3 in both directions: 13 regions at two levels. *)
Definition overlap_q (r : region) : Q := 
  let clip a b := if Qle_bool b 3 then (b - a)%Q else if Qle_bool 3 a then 0%Q else (3 - a)%Q in
  (clip (r_min_x r) (r_max_x r) * clip (r_min_y r) (r_max_y r))%Q.
Lemma overlap_additive : additive overlap_q.
Proof.
  intros x0 y0 x1 y1 x y [X1 X2] [Y1 Y2]. unfold overlap_q. cbn [r_min_x r_min_y r_max_x r_max_y]. cbv zeta.
  assert (C : forall a m b, (a < m)%Q -> (m < b)%Q -> 
     ((if Qle_bool b 3 then b - a else if Qle_bool 3 a then 0 else 3 - a) == (if Qle_bool m 3 then m - a else if Qle_bool 3 a then 0 else 3 - a) + (if Qle_bool b 3 then b - m else if Qle_bool 3 m then 0 else 3 - m))%Q).
  { intros a m b A B. assert (F : forall u v, Qle_bool u v = false -> (v < u)%Q) by (intros u v K; destruct (Qlt_le_dec v u) as [L|L]; [exact L|apply Qle_bool_iff in L; congruence]).
    destruct (Qle_bool b 3) eqn:E1; destruct (Qle_bool m 3) eqn:E2; destruct (Qle_bool 3 a) eqn:E3; destruct (Qle_bool 3 m) eqn:E4;
      repeat match goal with H : Qle_bool _ _ = true |- _ => apply Qle_bool_iff in H | H : Qle_bool _ _ = false |- _ => apply F in H end; lra. }
  rewrite (C x0 x x1 X1 X2), (C y0 y y1 Y1 Y2). ring.
Qed.
Example C82_witness : proper (mk_region 0 0 4 4) /\ additive overlap_q /\
  List.length (fst (subdivide overlap_q (98 # 100) (2 # 100) 100 2 (mk_region 0 0 4 4) 1)) = 13%nat.
Proof. split; [split; reflexivity|]. split; [exact overlap_additive|]. vm_compute. reflexivity. Qed.
Print Assumptions C82_tiles.
Print Assumptions C82_numbers.
Print Assumptions C82_leaves.
Print Assumptions C82_overlap.
Print Assumptions C82_witness.
