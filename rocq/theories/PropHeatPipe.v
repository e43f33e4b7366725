(** * C83: a map the emulator writes, drawn by draw_temp_map.py. *)
From Coq Require Import ZArith QArith Qabs Qround Qfield Bool String List Lia Lqa.
From Verif Require Import Base Dims Vtk VtkSpec OutTextSpec HeatMap HeatMapSpec PropHeatMap.
Import ListNotations.
Local Open Scope list_scope.
Local Open Scope Z_scope.

(** The axis files (their contents: C67) hold the centres of the cells up to their two
    decimals. *)
Lemma says_centres : forall centre n t size, axis_says centre n t -> (forall i, 0 <= i < n -> (centre i == (inject_Z i + (1 # 2)) * size)%Q) ->
  exists xs, data t = Some (map (fun x => [x]) xs) /\ Z.of_nat (List.length xs) = n /\ centres size (1 # 200) xs.
Proof.
  intros centre n t size (xs & D & L & P) C. exists xs. split; [exact D|]. split; [exact L|]. intros j x J.
  assert (B : 0 <= Z.of_nat j < n) by (assert (j < List.length xs)%nat by (apply nth_error_Some; congruence); lia).
  destruct (P (Z.of_nat j) B) as (y & Y & N). rewrite Nat2Z.id in Y. assert (y = x) by congruence. subst y. unfold near in N. rewrite (C _ B) in N. exact N.
Qed.
Theorem C83_axes : forall d tx ty, 0 < d_ncols d < two32 -> d_ncols d <> 2 -> 0 < d_nrows d < two32 ->
  (d_first d == d_last d)%Q -> (d_first d == d_wall d)%Q -> (d_first d == d_chan d)%Q ->
  axis_says (get_cell_center_x d) (d_ncols d) tx -> axis_says (get_cell_center_y d) (d_nrows d) ty ->
  exists xs ys, data tx = Some (map (fun x => [x]) xs) /\ data ty = Some (map (fun x => [x]) ys) /\
    Z.of_nat (List.length xs) = d_ncols d /\ Z.of_nat (List.length ys) = d_nrows d /\
    centres (d_chan d) (1 # 200) xs /\ centres (d_width d) (1 # 200) ys.
Proof.
  intros d tx ty NC N2 NR FL FW FC X Y.
  destruct (says_centres _ _ _ (d_chan d) X) as (xs & DX & LX & CX).
  - intros i I. unfold get_cell_center_x, last_column, qz. rewrite (u32_id (d_ncols d - 1)) by lia.
    destruct (Z.eqb_spec i 0) as [->|I0]; [rewrite FC; field|].
    destruct (Z.eqb_spec i (d_ncols d - 1)) as [E|NE].
    + rewrite (u32_id (i - 2)) by lia. rewrite <- FL, <- FW, FC. replace (i - 2) with (i + - 2) by ring. rewrite inject_Z_plus. change (inject_Z (- 2)) with (- (2))%Q. field.
    + rewrite (u32_id (i - 1)) by lia. rewrite <- FW, FC. replace (i - 1) with (i + - 1) by ring. rewrite inject_Z_plus. change (inject_Z (- 1)) with (- (1))%Q. field.
  - destruct (says_centres _ _ _ (d_width d) Y) as (ys & DY & LY & CY).
    + intros i I. unfold get_cell_center_y, qz. field.
    + exists xs, ys. auto 10.
Qed.
Print Assumptions C83_axes.


Lemma blocks_concat : forall rows : list (list Q), concat rows = concat (concat (blocks rows)).
Proof.
  induction rows as [|x r IH]; [reflexivity|]. cbn [concat]. rewrite IH. destruct x as [|q x]; [reflexivity|].
  cbn [blocks]. destruct (blocks r) as [|b bs]; cbn [concat]; [cbn; reflexivity|]. rewrite <- app_comm_cons. cbn [concat]. reflexivity.
Qed.
Lemma concat_nth : forall (b : list (list Q)) n i j row x, Forall (fun r => List.length r = n) b ->
  nth_error b i = Some row -> nth_error row j = Some x -> nth_error (concat b) (i * n + j) = Some x.
Proof.
  induction b as [|r b IH]; intros n i j row x F I J; [destruct i; discriminate I|]. inversion F as [|r' b' L F']; subst r' b'. cbn [concat].
  destruct i as [|i]; cbn in I.
  - injection I as ->. rewrite nth_error_app1; [exact J|]. cbn. apply nth_error_Some. congruence.
  - rewrite nth_error_app2 by (rewrite L; cbn; lia). replace (S i * n + j - List.length r)%nat with (i * n + j)%nat by (rewrite L; cbn; lia). exact (IH n i j row x F' I J).
Qed.
Lemma concat_len : forall (b : list (list Q)) n, Forall (fun r => List.length r = n) b -> List.length (concat b) = (List.length b * n)%nat.
Proof. induction 1 as [|r b L F IH]; [reflexivity|]. cbn [concat List.length]. rewrite app_length, IH, L. reflexivity. Qed.
Lemma map_rows : forall d v b, map_says d v b -> Forall (fun r => List.length r = Z.to_nat (d_ncols d)) b /\ List.length b = Z.to_nat (d_nrows d).
Proof. intros d v b (L & F & _). split; [|lia]. apply Forall_forall. intros r R. rewrite Forall_forall in F. specialize (F r R). lia. Qed.

(** One map in the file: every cell of the layer is drawn at its place in the chip, with
    the printed temperature [t] deciding the colour. *)
Theorem C83_emulated : forall d xs ys rows b v n lo hi l, 0 < d_ncols d -> 0 < d_nrows d ->
  Z.of_nat (List.length xs) = d_ncols d -> Z.of_nat (List.length ys) = d_nrows d ->
  centres (d_chan d) (1 # 200) xs -> centres (d_width d) (1 # 200) ys ->
  blocks rows = [b] -> map_says d v b -> draw_uniform xs ys rows n lo hi = Some l ->
  Z.of_nat (List.length l) = d_nrows d * d_ncols d /\
  forall i j t, 0 <= i < d_nrows d -> 0 <= j < d_ncols d -> nth_error v (Z.to_nat (i * d_ncols d + j)) = Some t ->
    exists r k p, nth_error l (Z.to_nat (i * d_ncols d + j)) = Some (r, k) /\ nth_error (concat rows) (Z.to_nat (i * d_ncols d + j)) = Some p /\
      near (1 # 2000) p t /\ drawn_at (d_chan d) (d_width d) (1 # 200) (Z.to_nat i) (Z.to_nat j) r.
Proof.
  intros d xs ys rows b v n lo hi l NC NR LX LY CX CY B MS H. destruct (map_rows _ _ _ MS) as (FR & LB). destruct MS as (_ & _ & P).
  assert (CR : concat rows = concat b) by (rewrite blocks_concat, B; cbn; rewrite app_nil_r; reflexivity).
  destruct (C83_place xs ys rows n lo hi l _ _ _ H CX CY) as (L & D). rewrite CR in L. rewrite (concat_len _ _ FR), LB in L.
  split; [nia|]. intros i j t I J T. destruct (P i j t I J T) as (row & x & R & X & N).
  assert (E : Z.to_nat (i * d_ncols d + j) = (Z.to_nat i * Z.to_nat (d_ncols d) + Z.to_nat j)%nat) by nia.
  assert (LT : (Z.to_nat (i * d_ncols d + j) < List.length l)%nat) by (rewrite L; nia).
  destruct (nth_error l (Z.to_nat (i * d_ncols d + j))) as [[r k]|] eqn:K; [|apply nth_error_None in K; lia].
  exists r, k, x. split; [reflexivity|]. split; [rewrite CR, E; exact (concat_nth b _ _ _ row x FR R X)|]. split; [exact N|].
  assert (Q1 := D _ _ _ K). replace (List.length xs) with (Z.to_nat (d_ncols d)) in Q1 by lia. rewrite E in Q1.
  rewrite Nat.div_add_l, Nat.div_small, Nat.add_0_r in Q1 by lia. rewrite Nat.add_comm, Nat.mod_add, Nat.mod_small in Q1 by lia. exact Q1.
Qed.
Print Assumptions C83_emulated.
(** More than one map, as an emulation of several slots writes: nothing is drawn. *)
Theorem C83_slots_refuted : forall d xs ys rows b1 b2 bs v1 v2 n lo hi, 0 < d_ncols d -> 0 < d_nrows d ->
  Z.of_nat (List.length xs) = d_ncols d -> Z.of_nat (List.length ys) = d_nrows d ->
  blocks rows = b1 :: b2 :: bs -> map_says d v1 b1 -> map_says d v2 b2 -> draw_uniform xs ys rows n lo hi = None.
Proof.
  intros d xs ys rows b1 b2 bs v1 v2 n lo hi NC NR LX LY B M1 M2. destruct (map_rows _ _ _ M1) as (F1 & L1). destruct (map_rows _ _ _ M2) as (F2 & L2).
  apply C83_too_many. rewrite blocks_concat, B. cbn [concat]. rewrite !concat_app, !app_length, (concat_len _ _ F1), (concat_len _ _ F2), L1, L2.
  replace (List.length xs) with (Z.to_nat (d_ncols d)) by lia. replace (List.length ys) with (Z.to_nat (d_nrows d)) by lia. nia.
Qed.
Print Assumptions C83_slots_refuted.
(** The hypotheses are met: three columns and two rows of 10 um, a map as the emulator
    writes it, an empty line at its end. *)
Example C83_emulated_witness :
  let d := mkDims 10 10 10 10 10 [10%Q] 1 2 3 6 30 20 in
  let rows := [[300; 310; 320]; [330; 340; 350]; []]%Q in
  axis_says (get_cell_center_x d) 3 (" 5.00" ++ endl ++ "15.00" ++ endl ++ "25.00" ++ endl)%string /\
  blocks rows = [[[300; 310; 320]; [330; 340; 350]]]%Q /\
  map_says d [300; 310; 320; 330; 340; 350]%Q [[300; 310; 320]; [330; 340; 350]]%Q /\
  option_map (map snd) (draw_uniform [5; 15; 25]%Q [5; 15]%Q rows 10 None None) = Some [0; 2; 4; 5; 7; 9].
Proof.
  cbv zeta. split; [|split; [reflexivity|split; [|vm_compute; reflexivity]]].
  - exists [500 # 100; 1500 # 100; 2500 # 100]%Q. split; [vm_compute; reflexivity|]. split; [reflexivity|]. intros i I.
    assert (C : i = 0 \/ i = 1 \/ i = 2) by lia. destruct C as [->|[->| ->]]; eexists; (split; [reflexivity|]); vm_compute; discriminate.
  - split; [reflexivity|]. split; [repeat constructor|]. intros i j v I J V. cbn [d_nrows d_ncols] in *.
    assert (CI : i = 0 \/ i = 1) by lia. assert (CJ : j = 0 \/ j = 1 \/ j = 2) by lia.
    destruct CI as [->| ->]; destruct CJ as [->|[->| ->]]; injection V as <-; eexists; eexists; (split; [reflexivity|]); (split; [reflexivity|]); vm_compute; discriminate.
Qed.
