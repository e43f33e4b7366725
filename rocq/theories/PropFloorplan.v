(** * Properties C13, C14, C15, C34, C35, C45: floorplans on the uniform grid *)
From Coq Require Import ZArith List Bool QArith Lia Lqa.
From Verif Require Import Base QSum Dims DimsSpec DimsProofs Queue QueueProofs Floorplan FloorplanSpec
     FloorplanProofs FlpMatrixProofs TempProofs.
Import ListNotations.
Local Open Scope Z_scope.

(** The grids the theorems below speak about are those the parser accepts (with
    positive sizes, at least one layer, row and column). *)
Theorem C13_accepted_grids : forall L W cl cw s heights sc d,
    parse_dims L W cl cw s heights sc = Ok (Some d) -> 0 <= sc -> heights <> [] ->
    1 <= d_nrows d -> 1 <= d_ncols d -> positive_sizes L W cl cw s -> good_grid d.
Proof. exact parsed_good_grid. Qed.
Print Assumptions C13_accepted_grids.

(** C13.  [placed] excludes rectangles reaching beyond the cells and, on the
    last column, beyond the wall length (see the refutations). *)
Theorem C13_align_exact_partial : forall d a fuel, good_grid d -> placed d a ->
    d_nrows d + d_ncols d <= Z.of_nat fuel ->
    exists b, align_to_grid fuel a d = Ok b /\
      ic_x b = ic_x a /\ ic_y b = ic_y a /\ ic_len b = ic_len a /\ ic_wid b = ic_wid a /\
      0 <= ic_sw_row b <= ic_ne_row b /\ ic_ne_row b < d_nrows d /\
      0 <= ic_sw_col b <= ic_ne_col b /\ ic_ne_col b < d_ncols d /\
      forall r c, 0 <= r < d_nrows d -> 0 <= c < d_ncols d ->
        (overlaps d a r c <-> ic_sw_row b <= r <= ic_ne_row b /\ ic_sw_col b <= c <= ic_ne_col b).
Proof.
  intros d a fuel G P F. destruct (align_spec d a fuel G P F) as (b & E & E1 & E2 & E3 & E4 & I).
  exists b. split; [exact E|]. repeat (split; [assumption|]).
  pose proof (icc_c d b I). pose proof (icc_r d b I). repeat (split; [lia|]).
  intros r c Hr Hc. rewrite <- (overlaps_iff d b r c G I Hr Hc). unfold overlaps.
  rewrite E1, E2, E3, E4. reflexivity.
Qed.
Print Assumptions C13_align_exact_partial.

(** C13 is false as stated.  (1) With 4RM lengths where the last column is
    wider than a wall, a rectangle inside the chip is given a column that does
    not exist. *)
Theorem C13_wide_last_column_refuted : exists d a,
    parse_dims 240 100 20 50 (MC4RM 25 35 30 40) [1%Q] 0 = Ok (Some d) /\
    positive_sizes 240 100 20 50 (MC4RM 25 35 30 40) /\
    (qsum (column_lengths d (Z.to_nat (d_ncols d))) == 240)%Q /\
    parse_rectangle 10 d 0 0 240 100 = Ok (Some a) /\ ic_ne_col a = d_ncols d.
Proof.
  eexists. eexists. split; [vm_compute; reflexivity|]. repeat split; vm_compute; reflexivity.
Qed.
Print Assumptions C13_wide_last_column_refuted.

(** (2) A rectangle that exceeds the chip by less than the tolerance is accepted
    and given a column that does not exist; (3) so is a rectangle inside a chip
    whose length is not a multiple of the cell length. *)
Theorem C13_tolerance_refuted : exists d a,
    parse_dims 20 10 5 5 (Uniform 5) [1%Q] 0 = Ok (Some d) /\
    parse_rectangle 10 d 0 0 (20 + (1 # 10000000)) 10 = Ok (Some a) /\ ic_ne_col a = d_ncols d.
Proof. eexists. eexists. split; [vm_compute; reflexivity|]. split; vm_compute; reflexivity. Qed.
Theorem C13_uncovered_chip_refuted : exists d a,
    parse_dims 10 10 3 5 (Uniform 3) [1%Q] 0 = Ok (Some d) /\
    parse_rectangle 10 d 0 0 10 10 = Ok (Some a) /\ ic_ne_col a = d_ncols d.
Proof. eexists. eexists. split; [vm_compute; reflexivity|]. split; vm_compute; reflexivity. Qed.

(** C14, weights: they sum to one, are not negative and address cells of the layer. *)
Theorem C14_weights_partial : forall d e, good_grid d -> good_element d e ->
    (qsum (map snd (fill_element d e)) == 1)%Q /\
    forall k w, In (k, w) (fill_element d e) -> 0 <= k < d_nrows d * d_ncols d /\ (0 <= w)%Q.
Proof.
  intros d e G E. pose proof (good_element_el d e G E) as GE. split; [apply element_sum; auto|].
  intros k w H. apply (element_rows d e (k, w) G GE H).
Qed.
Print Assumptions C14_weights_partial.

(** C14, distribution: the source of every cell grows by
    sum over elements of power * (covered area) / (element area), and the total
    by the total power. *)
Theorem C14_power_conserved_partial : forall d els f x b,
    good_grid d -> Forall (good_element d) els -> coefficients els < two32 ->
    fill_floorplan els d = Ok f ->
    Z.of_nat (length x) = d_nrows d * d_ncols d -> length b = length els ->
    exists x', flpmatrix_multiply (f_matrix f) x b = Ok x' /\ length x' = length x /\
      (forall r c, 0 <= r < d_nrows d -> 0 <= c < d_ncols d ->
         (nth (Z.to_nat (r * d_ncols d + c)) x' 0 ==
          nth (Z.to_nat (r * d_ncols d + c)) x 0 +
          qsum (map (fun pe => fst pe * covered_by d (snd pe) r c / area_of (snd pe)) (combine b els)))%Q) /\
      (qsum x' == qsum x + qsum b)%Q.
Proof.
  intros d els f x b G H. apply multiply_ok; auto.
  eapply Forall_impl; [|exact H]. intros e He. apply good_element_el; auto.
Qed.
Print Assumptions C14_power_conserved_partial.

(** C14 and C15 are false for the rectangles excluded by [placed]: part of the
    power is sent outside the layer. *)
Theorem C14_power_leaves_layer_refuted : exists d a,
    parse_dims 240 100 20 50 (MC4RM 25 35 30 40) [1%Q] 0 = Ok (Some d) /\
    parse_rectangle 10 d 0 0 240 100 = Ok (Some a) /\
    exists k w, In (k, w) (fill_element d (make_element [] [a] queue_init)) /\
                d_nrows d * d_ncols d <= k /\ (0 < w)%Q.
Proof.
  eexists. eexists. split; [vm_compute; reflexivity|]. split; [vm_compute; reflexivity|].
  exists 14. eexists. split; [vm_compute; do 15 right; left; reflexivity|].
  split; [vm_compute; discriminate|reflexivity].
Qed.
Print Assumptions C14_power_leaves_layer_refuted.

(** C15 *)
Theorem C15_matrix_fits_partial : forall d els,
    good_grid d -> Forall (good_element d) els -> coefficients els < two32 ->
    exists f, fill_floorplan els d = Ok f /\
      let m := f_matrix f in
      Z.of_nat (length (fm_rows m)) = fm_nnz m /\ length (fm_vals m) = length (fm_rows m) /\
      length (fm_colptr m) = S (length els) /\
      nth 0 (fm_colptr m) 0 = 0 /\ nth (length els) (fm_colptr m) 0 = fm_nnz m /\
      (forall i j, (i <= j <= length els)%nat -> nth i (fm_colptr m) 0 <= nth j (fm_colptr m) 0) /\
      Forall (fun k => 0 <= k < fm_nrows m) (fm_rows m) /\ fm_nrows m = d_nrows d * d_ncols d.
Proof.
  intros d els G H Hc.
  assert (Forall (good_el d) els) as HE.
  { eapply Forall_impl; [|exact H]. intros e He. apply good_element_el; auto. }
  destruct (fill_floorplan_ok d els G HE Hc) as (f & E & Em & _).
  exists f. split; [exact E|]. cbv zeta. rewrite Em. cbn [fm_rows fm_vals fm_nnz fm_colptr fm_nrows].
  pose proof (coefficients_spec d els HE) as Cs.
  assert (0 + Z.of_nat (length (concat (map (fill_element d) els))) < two32) as Hb by lia.
  rewrite !map_length.
  split; [lia|]. split; [reflexivity|].
  split; [cbn [length]; rewrite column_pointers_length, map_length; reflexivity|].
  split; [reflexivity|].
  split.
  { rewrite column_pointers_nth by (rewrite ?map_length; lia).
    rewrite firstn_all2 by (rewrite map_length; lia). lia. }
  split.
  { intros i j Hij. rewrite !column_pointers_nth by (rewrite ?map_length; lia).
    rewrite <- (firstn_skipn i (firstn j (map (fill_element d) els))).
    rewrite firstn_firstn, Nat.min_l by lia. rewrite concat_app, app_length. lia. }
  split; [|reflexivity].
  apply Forall_forall. intros k Hk. apply in_map_iff in Hk. destruct Hk as (y & <- & Hy).
  apply in_concat in Hy. destruct Hy as (col & Hcol & Hy). apply in_map_iff in Hcol. destruct Hcol as (e & <- & He).
  rewrite Forall_forall in HE. apply (element_rows d e y G (HE e He) Hy).
Qed.
Print Assumptions C15_matrix_fits_partial.

(** C34 *)
Theorem C34_element_extremes : forall d e t, good_grid d -> good_element d e ->
    d_nrows d * d_ncols d <= Z.of_nat (length t) ->
    exists hi lo, flpel_max d e t = Ok hi /\ flpel_min d e t = Ok lo /\
      (exists g, flpel_gradient d e t = Ok g /\ (g == hi - lo)%Q) /\
      (forall r c, cell_of d e r c -> (lo <= temp d t r c <= hi)%Q) /\
      (exists r c, cell_of d e r c /\ temp d t r c = hi) /\
      (exists r c, cell_of d e r c /\ temp d t r c = lo).
Proof.
  intros d e t G E Ht. apply flpel_extremes; auto; [apply good_element_el; auto|].
  destruct E as (id & ics & q & -> & Hn & _). exact Hn.
Qed.
Print Assumptions C34_element_extremes.

(** C35 for elements of one rectangle: the mean over exactly the cells of the element. *)
Theorem C35_average_single_partial : forall d e a t, good_grid d -> good_element d e -> fe_ics e = [a] ->
    d_nrows d * d_ncols d <= Z.of_nat (length t) ->
    exists m cells, flpel_avg d e t = Ok m /\
      NoDup cells /\ cells <> [] /\ (forall r c, In (r, c) cells <-> cell_of d e r c) /\
      (m == qsum (map (fun rc => temp d t (fst rc) (snd rc)) cells) / qz (Z.of_nat (length cells)))%Q.
Proof.
  intros d e a t G E Ha Ht. pose proof (good_element_el d e G E) as GE.
  pose proof (ge_ics d e GE) as Hi. rewrite Ha in Hi. inversion Hi as [|? ? I _]; subst.
  destruct (icel_avg_ok d a t G I Ht) as (m & Em & Hm).
  assert (fe_nic e = 1) as Hn.
  { destruct E as (id & ics & q & -> & _). cbn [make_element fe_ics fe_nic] in *. rewrite Ha. reflexivity. }
  unfold flpel_avg. rewrite Ha. cbn [map_out]. rewrite Em. cbn [bind].
  eexists. exists (rect_cells a). split; [reflexivity|].
  split; [apply list_prod_NoDup; apply zrange_NoDup|].
  split.
  { intros En. pose proof (sw_cell d a G I) as S. apply (rect_cells_in d a _ _ G I) in S. rewrite En in S. exact S. }
  split.
  { intros r c. rewrite (rect_cells_in d a r c G I). unfold rect_cell, cell_of. rewrite Ha. split.
    - intros (H1 & H2 & O). split; [exact H1|]. split; [exact H2|]. exists a. split; [left; reflexivity|exact O].
    - intros (H1 & H2 & b & [<-|[]] & O). auto. }
  rewrite Hn. cbn [fold_left]. rewrite Hm. change (qz 1) with 1%Q. field.
  intros Q0. assert (Z.of_nat (length (rect_cells a)) = 0) as Z0.
  { unfold qz, Qeq in Q0. cbn [inject_Z Qnum Qden] in Q0. lia. }
  pose proof (sw_cell d a G I) as S. apply (rect_cells_in d a _ _ G I) in S.
  destruct (rect_cells a); [destruct S|cbn in Z0; lia].
Qed.
Print Assumptions C35_average_single_partial.

Ltac good_rects n :=
  repeat (apply Forall_cons;
          [split; [vm_compute; repeat split; (reflexivity || discriminate)
                  |exists n; vm_compute; reflexivity]|]);
  apply Forall_nil.

(** C35 is false for elements made of rectangles of different sizes: here the
    element has four cells, three at 300 and one at 400, and the reported
    average is 350 instead of 325. *)
Theorem C35_average_refuted : exists d e,
    parse_dims 20 10 5 5 (Uniform 5) [1%Q] 0 = Ok (Some d) /\
    parse_element 10 d [] [(0, 0, 15, 5); (15, 5, 5, 5)]%Q (queue_build queue_init 10) = Ok (Some e) /\
    good_element d e /\
    (exists m, flpel_avg d e [300; 300; 300; 0; 0; 0; 0; 400]%Q = Ok m /\ (m == 350)%Q) /\
    (forall r c, cell_of d e r c <-> In (r, c) [(0,0); (0,1); (0,2); (1,3)]).
Proof.
  eexists. eexists. split; [vm_compute; reflexivity|]. split; [vm_compute; reflexivity|].
  set (d := mkDims _ _ _ _ _ _ _ _ _ _ _ _).
  assert (good_grid d) as G.
  { unfold good_grid, d. cbn. unfold two32. repeat split; try lia; try reflexivity. left. repeat split; reflexivity. }
  assert (forall x, (x = mkIcel 0 0 15 5 0 0 0 2 \/ x = mkIcel 15 5 5 5 1 3 1 3) -> in_cells d x) as IC.
  { intros x [-> | ->]; constructor; cbn; repeat split; try lia; vm_compute; try reflexivity; discriminate. }
  split; [|split].
  - eexists. exists [mkIcel 0 0 15 5 0 0 0 2; mkIcel 15 5 5 5 1 3 1 3], (queue_build queue_init 10).
    split; [reflexivity|]. split; [discriminate|].
    good_rects 10%nat.
  - eexists. split; [vm_compute; reflexivity|]. reflexivity.
  - intros r c. unfold cell_of. cbn [fe_ics]. split.
    + intros (Hr & Hc & a & Ha & O).
      assert (a = mkIcel 0 0 15 5 0 0 0 2 \/ a = mkIcel 15 5 5 5 1 3 1 3) as Ha2.
      { destruct Ha as [<-|[<-|[]]]; [left|right]; reflexivity. }
      apply (overlaps_iff d a r c G (IC a Ha2) Hr Hc) in O.
      destruct Ha2 as [-> | ->]; cbn [ic_sw_row ic_sw_col ic_ne_row ic_ne_col] in O.
      * assert (r = 0) as -> by lia.
        assert (c = 0 \/ c = 1 \/ c = 2) as [-> |[-> | ->]] by lia; cbn; tauto.
      * assert (r = 1) as -> by lia. assert (c = 3) as -> by lia. cbn; tauto.
    + intros H.
      assert (exists a, In a [mkIcel 0 0 15 5 0 0 0 2; mkIcel 15 5 5 5 1 3 1 3] /\
                        ic_sw_row a <= r <= ic_ne_row a /\ ic_sw_col a <= c <= ic_ne_col a /\
                        0 <= r < 2 /\ 0 <= c < 4) as (a & Ha & R1 & R2 & R3 & R4).
      { destruct H as [H|[H|[H|[H|[]]]]]; injection H as <- <-;
          [exists (mkIcel 0 0 15 5 0 0 0 2)|exists (mkIcel 0 0 15 5 0 0 0 2)|exists (mkIcel 0 0 15 5 0 0 0 2)|exists (mkIcel 15 5 5 5 1 3 1 3)];
          cbn; repeat split; try lia; tauto. }
      split; [exact R3|]. split; [exact R4|]. exists a. split; [exact Ha|].
      apply overlaps_iff; auto. apply IC. destruct Ha as [<-|[<-|[]]]; tauto.
Qed.
Print Assumptions C35_average_refuted.

(** C45 *)
Theorem C45_intersection_exact : forall a b,
    (0 < ic_len a /\ 0 < ic_wid a /\ 0 < ic_len b /\ 0 < ic_wid b)%Q ->
    (check_intersection a b = true <->
     rectangles_meet a b /\
     (EPSILON < (ic_x b + ic_len b - ic_x a) * (ic_x a + ic_len a - ic_x b))%Q /\
     (EPSILON < (ic_y b + ic_wid b - ic_y a) * (ic_y a + ic_wid a - ic_y b))%Q).
Proof. exact check_intersection_iff. Qed.
Print Assumptions C45_intersection_exact.
Theorem C45_intersection_symmetric : forall a b, check_intersection a b = check_intersection b a.
Proof. exact check_intersection_sym. Qed.
Theorem C45_location_exact : forall a d,
    check_location a d = true <->
    (ic_x a < 0 \/ d_chip_length d + EPSILON < ic_x a + ic_len a \/
     ic_y a < 0 \/ d_chip_width d + EPSILON < ic_y a + ic_wid a)%Q.
Proof. exact check_location_iff. Qed.
Print Assumptions C45_location_exact.

(** The title claim is false of the parser: the test is not called, and two
    overlapping rectangles are accepted. *)
Theorem C45_parser_accepts_overlap_refuted : exists d e a b,
    parse_dims 20 10 5 5 (Uniform 5) [1%Q] 0 = Ok (Some d) /\
    parse_element 10 d [] [(0, 0, 15, 5); (5, 0, 15, 5)]%Q (queue_build queue_init 10) = Ok (Some e) /\
    fe_ics e = [a; b] /\ check_intersection a b = true.
Proof.
  eexists. eexists. eexists. eexists. split; [vm_compute; reflexivity|]. split; [vm_compute; reflexivity|].
  split; reflexivity.
Qed.
Print Assumptions C45_parser_accepts_overlap_refuted.

(** Witnesses: an element of two rectangles on a 4RM grid whose last column is
    narrow, cutting cells. *)
Example C14_witness : exists d e,
    parse_dims 230 100 20 50 (MC4RM 25 25 30 40) [1%Q] 0 = Ok (Some d) /\
    parse_element 20 d [] [(10, 10, 50, 50); (100, 0, 130, 100)]%Q (queue_build queue_init 10) = Ok (Some e) /\
    good_grid d /\ good_element d e /\ coefficients [e] < two32 /\
    (exists f, fill_floorplan [e] d = Ok f /\ fm_nnz (f_matrix f) = 12).
Proof.
  eexists. eexists. split; [vm_compute; reflexivity|]. split; [vm_compute; reflexivity|].
  set (d := mkDims _ _ _ _ _ _ _ _ _ _ _ _).
  assert (good_grid d) as G.
  { unfold good_grid, d. cbn. unfold two32. repeat split; try lia; try reflexivity. right. exists 2. lia. }
  split; [exact G|]. split; [|split; [vm_compute; reflexivity|]].
  - exists []. exists [mkIcel 10 10 50 50 0 0 1 1; mkIcel 100 0 130 100 0 3 1 6], (queue_build queue_init 10).
    split; [vm_compute; reflexivity|]. split; [discriminate|].
    good_rects 20%nat.
  - eexists. split; [vm_compute; reflexivity|]. reflexivity.
Qed.
