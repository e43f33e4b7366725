(** * C40, C41, C42, C56: cells and connections of the non-uniform grid *)
From Coq Require Import ZArith List Bool QArith Qminmax Lia Lqa Permutation.
From Verif Require Import Base QSum DList Dims DimsSpec DimsProofs Floorplan FloorplanProofs Stack NonUniform NuParallel NuSpec NuGeomProofs NuContactProofs NuCountProofs NuPositionProofs NuRangeProofs NuConnProofs NuPairProofs NuGridProofs NuTouchProofs NuTileProofs PropNonUniform.
Import ListNotations.
Local Open Scope Z_scope.

(** ** Deciding the geometry hypotheses of a concrete stack *)
Definition apart_b (u v : Q) : bool := Qeq_bool u v || Qle_bool (u + (1#500)) v || Qle_bool (v + (1#500)) u.
Definition resolved_b (a b : rect) : bool :=
  apart_b (r_x0 a) (r_x1 b) && apart_b (r_x1 a) (r_x0 b) && apart_b (r_y0 a) (r_y1 b) && apart_b (r_y1 a) (r_y0 b).
Definition proper_b (r : rect) : bool := Qlt_bool (r_x0 r) (r_x1 r) && Qlt_bool (r_y0 r) (r_y1 r).
Definition disjoint_b (a b : rect) : bool :=
  Qle_bool (r_x1 b) (r_x0 a) || Qle_bool (r_x1 a) (r_x0 b) || Qle_bool (r_y1 b) (r_y0 a) || Qle_bool (r_y1 a) (r_y0 b).
Definition geometry_b (g : list nlayer) : bool :=
  let rs := grid_rects g in
  let all := zrange 0 (Z.of_nat (length (grid_cells g)) - 1) in
  forallb (fun i => proper_b (rect_at rs i)) all &&
  forallb (fun i => forallb (fun j => resolved_b (rect_at rs i) (rect_at rs j)) all) all &&
  forallb (fun l => let ks := zrange (first_cell g l) (first_cell g (Datatypes.S l) - 1) in
    forallb (fun i => forallb (fun j => (i =? j) || disjoint_b (rect_at rs i) (rect_at rs j)) ks) ks) (seq 0 (length g)).
Lemma apart_b_sound : forall u v, apart_b u v = true -> apart u v.
Proof.
  intros u v H. unfold apart_b in H. apply orb_true_iff in H. destruct H as [H|H]; [apply orb_true_iff in H; destruct H as [H|H]|].
  - left. apply Qeq_bool_iff. exact H.
  - right. left. apply Qle_bool_iff. exact H.
  - right. right. apply Qle_bool_iff. exact H.
Qed.
Lemma Qlt_bool_iff' : forall a b, Qlt_bool a b = true <-> (a < b)%Q.
Proof. intros a b. unfold Qlt_bool. rewrite negb_true_iff. rewrite <- not_true_iff_false, Qle_bool_iff. split; intros H; [apply Qnot_le_lt; exact H|apply Qlt_not_le; exact H]. Qed.
Lemma geometry_sound : forall g, geometry_b g = true -> good_geometry g.
Proof.
  intros g H. unfold geometry_b in H. apply andb_true_iff in H. destruct H as (H & H3). apply andb_true_iff in H. destruct H as (H1 & H2). rewrite forallb_forall in H1, H2, H3.
  assert (P : forall i, 0 <= i < Z.of_nat (length (grid_cells g)) -> proper (rect_at (grid_rects g) i)).
  { intros i I. specialize (H1 i ltac:(apply in_zrange; lia)). unfold proper_b in H1. apply andb_true_iff in H1. rewrite !Qlt_bool_iff' in H1. exact H1. }
  split; [exact P|]. split.
  - intros i j I J. specialize (H2 i ltac:(apply in_zrange; lia)). rewrite forallb_forall in H2. specialize (H2 j ltac:(apply in_zrange; lia)). unfold resolved_b in H2. rewrite !andb_true_iff in H2. destruct H2 as (((A & B) & C) & D). repeat split; apply apart_b_sound; assumption.
  - intros l i j (LI & I) (_ & J) N. pose proof (in_layer_range g l i (conj LI I)) as RI. pose proof (in_layer_range g l j (conj LI J)) as RJ. specialize (H3 l ltac:(apply in_seq; lia)). cbv zeta in H3. rewrite forallb_forall in H3. specialize (H3 i ltac:(apply in_zrange; lia)). rewrite forallb_forall in H3. specialize (H3 j ltac:(apply in_zrange; lia)).
    apply orb_true_iff in H3. destruct H3 as [H3|H3]; [apply Z.eqb_eq in H3; contradiction|]. apply disjoint_iff; [apply P; exact RI|apply P; exact RJ|].
    unfold disjoint_b in H3. rewrite !orb_true_iff, !Qle_bool_iff in H3. unfold meets. lra.
Qed.
Lemma demo_geometry : good_geometry (grid demo_dims demo_top demo_stack).
Proof. apply geometry_sound. vm_compute. reflexivity. Qed.

(** ** C40 *)
(** Two cells of adjacent layers: connected iff their footprints overlap, with the
    area of the intersection. *)
Theorem C40_area : forall layer i j a b, proper a -> proper b -> resolved_pair a b ->
    ((exists x y, inside a x y /\ inside b x y) ->
       exists v, between_pair layer i j a b = [mkConn i j (layer - 1) layer v 0] /\
                 (v == (Qmin (r_x1 a) (r_x1 b) - Qmax (r_x0 a) (r_x0 b)) * (Qmin (r_y1 a) (r_y1 b) - Qmax (r_y0 a) (r_y0 b)))%Q /\ (0 < v)%Q) /\
    (disjoint a b -> between_pair layer i j a b = []).
Proof. exact between_spec. Qed.
Print Assumptions C40_area.

(** Two cells of a layer: the contact length is never less than the true one, and
    it is the true one exactly when neither side lies strictly inside the other.
    Missing for C40: the nested sides, see C40_contact_refuted. *)
Theorem C40_contact_partial : forall type layer i j a b, along_x type = true -> along_y type = true ->
    proper a -> proper b -> disjoint a b -> resolved_pair a b ->
    (forall l, side_x a b l -> exists v, in_layer_pair type layer i j a b = [mkConn i j layer layer v 1] /\ (l <= v)%Q /\
       (v == l <-> ~ nested (r_y0 a) (r_y1 a) (r_y0 b) (r_y1 b))%Q) /\
    (forall l, side_y a b l -> exists v, in_layer_pair type layer i j a b = [mkConn i j layer layer v 2] /\ (l <= v)%Q /\
       (v == l <-> ~ nested (r_x0 a) (r_x1 a) (r_x0 b) (r_x1 b))%Q) /\
    ((forall l, ~ side_x a b l) -> (forall l, ~ side_y a b l) -> in_layer_pair type layer i j a b = []).
Proof.
  intros type layer i j a b AX AY PA PB D R. destruct (in_layer_spec type layer i j a b PA PB D R) as (SX & SY & SN).
  assert (NX : no_x type = false) by (unfold along_x, no_x in *; lia). assert (NY : no_y type = false) by (unfold along_y, no_y in *; lia).
  rewrite NX in SX. rewrite NY in SY. repeat split; assumption.
Qed.
Print Assumptions C40_contact_partial.

(** In the demo stack: a cell with a side of 300 next to three cells with sides
    of 100; the connection to the middle one gets a contact length of 200. *)
Theorem C40_contact_refuted : exists n es' st rs c,
    nu_grid demo_dims demo_top 7 demo_stack = Ok (n, es', st) /\ all_regions demo_dims st = Ok rs /\ In c (sequential rs) /\
    k_dir c = 1 /\ (k_value c == 200)%Q /\
    side_x (rect_at (map c_rect (ns_cells st)) (k_node1 c)) (rect_at (map c_rect (ns_cells st)) (k_node2 c)) 100.
Proof.
  destruct demo_ok as (OK & SC & POS & B). destruct (grid_spec demo_dims demo_top 7 demo_stack OK SC) as (st & P & ST).
  destruct (sequential_spec demo_dims demo_top demo_stack _ st OK ST (bottom_types demo_dims demo_top demo_stack B POS)) as (rs & R & E).
  rewrite (st_rects _ _ _ _ ST) in E.
  exists (Z.of_nat (length (grid_cells (grid demo_dims demo_top demo_stack)))). eexists. exists st, rs, (nth 1 (all_conns demo_dims demo_top demo_stack (grid_rects (grid demo_dims demo_top demo_stack))) (mkConn 0 0 0 0 0 0)).
  split; [exact P|]. split; [exact R|]. split; [rewrite E; apply nth_In; vm_compute; lia|].
  rewrite (st_rects _ _ _ _ ST). split; [vm_compute; reflexivity|]. split; [vm_compute; reflexivity|]. unfold side_x. split; [left; vm_compute; reflexivity|]. split; [reflexivity|vm_compute; reflexivity].
Qed.
Print Assumptions C40_contact_refuted.

(** ** C56 *)
(** In the list read after any schedule: for i < j there is a connection of i and
    j exactly when the cells touch; it is unique; its direction and its value are
    those of the contact. *)
Theorem C56_connected_iff_touching : forall d top past es,
    nu_stack_ok d top es -> Forall some_cells es -> Forall (fun e => 0 < nu_nlayers e) es -> bottom_solid es ->
    let g := grid d top es in good_geometry g ->
    exists n es' st rs, nu_grid d top past es = Ok (n, es', st) /\ all_regions d st = Ok rs /\
    map c_rect (ns_cells st) = grid_rects g /\
    forall mem, par_run rs lstart mem -> exists cs, walk_forward (ls_heap mem) (ls_reg mem 0) = Ok cs /\
      NoDup (map nodes cs) /\
      (forall c, In c cs -> 0 <= k_node1 c < k_node2 c /\ k_node2 c < n) /\
      (forall i j, i < j -> ((exists c, In c cs /\ nodes c = (i, j)) <->
          (exists len, touch_x g i j len) \/ (exists len, touch_y g i j len) \/ touch_z g i j)) /\
      (forall c, In c cs -> let i := k_node1 c in let j := k_node2 c in
          k_dir c = 1 /\ (exists len, touch_x g i j len /\ (len <= k_value c)%Q) \/
          k_dir c = 2 /\ (exists len, touch_y g i j len /\ (len <= k_value c)%Q) \/
          k_dir c = 0 /\ touch_z g i j /\ (k_value c == common_x (rect_at (grid_rects g) i) (rect_at (grid_rects g) j) * common_y (rect_at (grid_rects g) i) (rect_at (grid_rects g) j))%Q).
Proof.
  intros d top past es OK SC POS B g GEO. destruct (grid_spec d top past es OK SC) as (st & P & ST).
  destruct (sequential_spec d top es _ st OK ST (bottom_types d top es B POS)) as (rs & R & E). pose proof (st_rects _ _ _ _ ST) as RE. rewrite RE in E. fold g in RE, E.
  do 2 eexists. exists st, rs. split; [exact P|]. split; [exact R|]. split; [exact RE|]. intros mem RUN. destruct (run_lists rs mem RUN) as (cs & W & _ & PE). rewrite E in PE. exists cs. split; [exact W|].
  assert (IFF : forall c, In c cs <-> In c (all_conns d top es (grid_rects g))) by (intros c; split; apply Permutation_in; [exact PE|symmetry; exact PE]).
  split; [|split; [|split]].
  - apply (Permutation_NoDup (l := map nodes (all_conns d top es (grid_rects g)))); [apply Permutation_map; symmetry; exact PE|apply all_conns_NoDup].
  - intros c I. apply IFF in I. pose proof (conn_range d top es (grid_rects g) c I) as C. fold g in C |- *. lia.
  - intros i j L. pose proof (connected_iff d top es GEO i j L) as CI. fold g in CI. rewrite <- CI. clear CI. split; intros (c & I & H); exists c; (split; [apply IFF; exact I|]); unfold nodes in *; [injection H as -> ->; auto|destruct H as (-> & ->); reflexivity].
  - intros c I. apply IFF in I. destruct (touch_spec d top es GEO c I) as (_ & H). cbv zeta in H |- *. fold g in H. destruct H as [(len & D & T & V & _)|[(len & D & T & V & _)|(D & T & V)]]; [left; eauto|right; left; eauto|right; right; auto].
Qed.
Print Assumptions C56_connected_iff_touching.
Example C56_witness : good_geometry (grid demo_dims demo_top demo_stack) /\ touch_z (grid demo_dims demo_top demo_stack) 4 8 /\ ~ touch_z (grid demo_dims demo_top demo_stack) 4 9.
Proof.
  split; [exact demo_geometry|]. split.
  - exists 1%nat, 2%nat. split; [split; [cbn; lia|left; split; reflexivity]|]. split; [split; [cbn; lia|vm_compute; intuition discriminate]|]. split; [split; [cbn; lia|vm_compute; intuition discriminate]|].
    exists 0%Q, 0%Q. unfold inside. repeat split; vm_compute; try discriminate; reflexivity.
  - intros (a & b & _ & _ & _ & x & y & ((I1 & I2) & _) & ((J1 & J2) & _)).
    assert (E1 : (r_x1 (rect_at (grid_rects (grid demo_dims demo_top demo_stack)) 4) == 100)%Q) by (vm_compute; reflexivity).
    assert (E2 : (r_x0 (rect_at (grid_rects (grid demo_dims demo_top demo_stack)) 9) == 150)%Q) by (vm_compute; reflexivity).
    rewrite E1 in I2. rewrite E2 in J1. lra.
Qed.

(** ** C41 *)
(** The cells are those of the grid, numbered from the bottom layer, as many as
    announced; the record of each layer is the number of cells up to its end. *)
Theorem C41_cells : forall d top past es, nu_stack_ok d top es -> Forall some_cells es ->
    let g := grid d top es in
    exists n es' st, nu_grid d top past es = Ok (n, es', st) /\
      n = Z.of_nat (length (ns_cells st)) /\
      ns_cells st = number (d_heights d ++ [past]) 0 g /\
      (forall l, (l < length g)%nat ->
         nth_error (ns_records st) l = Some (first_cell g (S l)) /\ nth_error (ns_types st) l = Some (fst (nth l g (0, []))) /\
         (forall i, 0 <= i < n -> (exists c, nth_error (ns_cells st) (Z.to_nat i) = Some c /\ c_layer c = Z.of_nat l) <-> first_cell g l <= i < first_cell g (S l))).
Proof.
  intros d top past es OK SC g. destruct (grid_spec d top past es OK SC) as (st & P & ST). fold g in P, ST. pose proof ST as (C & R & T & _ & _ & LN).
  do 2 eexists. exists st. split; [exact P|]. split; [rewrite C, number_length; reflexivity|]. split; [exact C|]. intros l L. split; [|split].
  - rewrite R, nth_error_app1 by (rewrite map_length, seq_length; exact L). rewrite nth_error_map. rewrite (nth_error_nth' _ 0%nat) by (rewrite seq_length; exact L). rewrite seq_nth by exact L. reflexivity.
  - rewrite T, nth_error_app1 by (rewrite map_length; exact L). rewrite nth_error_map, (nth_error_nth' g (0, []) L). reflexivity.
  - intros i I.
    assert (K : forall k, in_layer g k i -> exists c, nth_error (ns_cells st) (Z.to_nat i) = Some c /\ c_layer c = Z.of_nat k).
    { intros k (K1 & K2). pose proof (layer_slice (d_heights d ++ [past]) g k K1) as SL. rewrite <- C in SL.
      assert (N : (Z.to_nat (i - first_cell g k) < length (snd (nth k g (0%Z, []))))%nat).
      { apply (f_equal (@length _)) in SL. rewrite map_length in SL. rewrite <- SL. unfold slice. rewrite firstn_length, skipn_length. rewrite C, number_length.
        pose proof (first_cell_mono g 0 k ltac:(lia)) as M0. change (first_cell g 0) with 0 in M0. lia. }
      destruct (nth_error (snd (nth k g (0, []))) (Z.to_nat (i - first_cell g k))) as [x|] eqn:NX; [|apply nth_error_None in NX; lia].
      exists (cell_of (d_heights d ++ [past]) k x). split; [|reflexivity].
      assert (NS : nth_error (slice (ns_cells st) (first_cell g k) (first_cell g (S k) - 1)) (Z.to_nat (i - first_cell g k)) = Some (cell_of (d_heights d ++ [past]) k x)) by (rewrite SL, nth_error_map, NX; reflexivity).
      unfold slice in NS. pose proof (first_cell_mono g 0 k ltac:(lia)) as M0. change (first_cell g 0) with 0 in M0. clear SL.
      rewrite <- NS. symmetry. transitivity (nth_error (skipn (Z.to_nat (first_cell g k)) (ns_cells st)) (Z.to_nat (i - first_cell g k))).
      - set (m := Z.to_nat (first_cell g (S k) - 1 - first_cell g k + 1)). assert (Z.to_nat (i - first_cell g k) < m)%nat as LT by (unfold m; lia). clearbody m. revert LT. generalize (skipn (Z.to_nat (first_cell g k)) (ns_cells st)) as ys. generalize (Z.to_nat (i - first_cell g k)) as p. clear. intros p ys. revert p m. induction ys as [|y ys IH]; intros p m LT; destruct m; try lia; destruct p; cbn; auto. apply IH. lia.
      - replace (Z.to_nat i) with (Z.to_nat (first_cell g k) + Z.to_nat (i - first_cell g k))%nat by lia. generalize (Z.to_nat (first_cell g k)) as q, (Z.to_nat (i - first_cell g k)) as p. generalize (ns_cells st) as ys. clear. intros ys q. revert ys. induction q as [|q IH]; intros ys p; [reflexivity|]. destruct ys as [|y ys]; [destruct p; reflexivity|]. cbn. apply IH. }
    split.
    + intros (c & N & CL). destruct (in_layer_exists g i I) as (k & KI). destruct (K k KI) as (c' & N' & CL'). assert (k = l) by (assert (c' = c) by congruence; subst; lia). subst k. apply KI.
    + intros H. apply K. split; assumption.
Qed.
Print Assumptions C41_cells.

(** Each element of the floorplan of a die: the cells numbered from Index_start to
    Index_end are its own, in the source layer of the die. *)
Theorem C41_ranges : forall d top past es above x below, nu_stack_ok d top es -> Forall some_cells es -> es = above ++ NuDie x :: below ->
    0 <= nd_offset x -> forall l, nth_error (rev (nd_layers x)) (Z.to_nat (nd_offset x)) = Some l ->
    exists n es' st x', nu_grid d top past es = Ok (n, es', st) /\ nth_error es' (length above) = Some (NuDie x') /\ length (nd_els x') = length (nd_els x) /\ nd_offset x' = nd_offset x /\
    forall j e, nth_error (nd_els x) j = Some e ->
      exists e', nth_error (nd_els x') j = Some e' /\ ne_others e' = ne_others e /\
        ni_start (ne_first e') = first_cell (grid d top es) (Z.to_nat (total_layers below + nd_offset x)) + Z.of_nat (length (flat_map (element_cells x true l) (firstn j (nd_els x)))) /\
        ni_end (ne_first e') = ni_start (ne_first e') + Z.of_nat (length (element_cells x true l e)) - 1 /\ ni_end (ne_first e') < n /\
        slice (ns_cells st) (ni_start (ne_first e')) (ni_end (ne_first e')) =
        map (cell_of (d_heights d ++ [past]) (Z.to_nat (total_layers below + nd_offset x))) (element_cells x true l e).
Proof.
  intros d top past es above x below OK SC EQ OFF l HL. destruct (grid_spec d top past es OK SC) as (st & P & ST).
  rewrite <- grid_fill in ST.
  assert (EF : map fill es = map fill above ++ NuDie (with_els x (map (fill_el x) (nd_els x))) :: map fill below) by (rewrite EQ, map_app; reflexivity).
  assert (SO : Forall sources_ok (map fill es)) by (apply Forall_map; eapply Forall_impl; [|exact SC]; exact sources_fill).
  destruct (range_spec d top past (map fill es) (map fill above) _ (map fill below) st (ok_fill d top es OK) SO EF ST OFF l HL) as (x' & N' & L' & O' & RG).
  do 2 eexists. exists st, x'. split; [exact P|]. rewrite map_length in N'. split; [exact N'|]. cbn [with_els nd_els] in L', RG. rewrite map_length in L'. split; [exact L'|]. split; [exact O'|].
  intros j e HE. destruct (RG j (fill_el x e)) as (e' & E' & OT & S0 & SE & SN & SL); [rewrite nth_error_map, HE; reflexivity|]. exists e'. split; [exact E'|]. split; [exact OT|]. split.
  { rewrite S0, total_fill, grid_fill. cbn [with_els nd_offset nd_els]. f_equal. f_equal. f_equal. rewrite firstn_map. rewrite !flat_map_concat_map, map_map. f_equal. apply map_ext. intros a. exact (element_cells_fill x (map (fill_el x) (nd_els x)) true l a). }
  pose proof (element_cells_fill x (map (fill_el x) (nd_els x)) true l e) as EC. rewrite EC in SE. split; [exact SE|]. split. { destruct ST as (C & _). rewrite C, number_length, grid_fill in SN. exact SN. } rewrite SL. rewrite total_fill. cbn [nd_offset]. f_equal. exact (element_cells_fill x (map (fill_el x) (nd_els x)) true l e).
Qed.
Print Assumptions C41_ranges.

(** Without a top heat sink the counting dereferences a null pointer. *)
Theorem C41_no_top_sink_refuted : forall d past es, nu_grid d None past es = UB.
Proof. reflexivity. Qed.

Example C41_witness : exists n es' st x', nu_grid demo_dims demo_top 7 demo_stack = Ok (n, es', st) /\ n = 12 /\ nth_error es' 1 = Some (NuDie x') /\
    map (fun e => (ni_start (ne_first e), ni_end (ne_first e))) (nd_els x') = [(4, 4); (5, 7)] /\
    0 <= nd_offset demo_die /\ nth_error (rev (nd_layers demo_die)) (Z.to_nat (nd_offset demo_die)) = Some demo_layer.
Proof. do 4 eexists. split; [vm_compute; reflexivity|]. repeat split; try reflexivity. discriminate. Qed.

(** ** C42 *)
(** The cells in the range of an element tile its rectangle. *)
Theorem C42_element : forall d top past es above x below, nu_stack_ok d top es -> Forall some_cells es -> es = above ++ NuDie x :: below ->
    0 <= nd_offset x < Z.of_nat (length (nd_layers x)) ->
    exists n es' st x', nu_grid d top past es = Ok (n, es', st) /\ nth_error es' (length above) = Some (NuDie x') /\
    forall j e, nth_error (nd_els x) j = Some e -> (0 < ni_len (ne_first e) -> 0 < ni_wid (ne_first e) ->
      exists e', nth_error (nd_els x') j = Some e' /\
        tiles (map c_rect (slice (ns_cells st) (ni_start (ne_first e')) (ni_end (ne_first e')))) (rect_of (ne_first e)))%Q.
Proof.
  intros d top past es above x below OK SC EQ OFF.
  destruct (nth_error (rev (nd_layers x)) (Z.to_nat (nd_offset x))) as [l|] eqn:HL; [|apply nth_error_None in HL; rewrite rev_length in HL; lia].
  destruct (C41_ranges d top past es above x below OK SC EQ ltac:(lia) l HL) as (n & es' & st & x' & P & N & _ & _ & R). exists n, es', st, x'. split; [exact P|]. split; [exact N|].
  intros j e HE LE WI. destruct (R j e HE) as (e' & E' & _ & _ & _ & _ & SL). exists e'. split; [exact E'|]. rewrite SL, rects_of_cells. unfold element_cells. rewrite map_map. cbn [g_rect]. rewrite map_id.
  rewrite EQ in SC. apply Forall_app in SC. destruct SC as (_ & SC). inversion SC as [|? ? SX _]; subst. cbn [some_cells] in SX. rewrite Forall_forall in SX. destruct (SX e (nth_error_In _ _ HE)) as (A & B). apply element_tiles; assumption.
Qed.
Print Assumptions C42_element.

(** Every layer of a die whose elements (their first rectangles) tile the chip is
    tiled by its cells. *)
Theorem C42_die : forall d top past es above x below, nu_stack_ok d top es -> Forall some_cells es -> es = above ++ NuDie x :: below ->
    Forall (fun e => 0 < ni_len (ne_first e) /\ 0 < ni_wid (ne_first e))%Q (nd_els x) ->
    forall R, tiles (map (fun e => rect_of (ne_first e)) (nd_els x)) R ->
    exists n es' st, nu_grid d top past es = Ok (n, es', st) /\
    forall k, 0 <= k < Z.of_nat (length (nd_layers x)) ->
      tiles (map c_rect (filter (fun c => c_layer c =? total_layers below + k) (ns_cells st))) R.
Proof.
  intros d top past es above x below OK SC EQ PS R T. destruct (grid_spec d top past es OK SC) as (st & P & ST). do 2 eexists. exists st. split; [exact P|]. intros k K.
  pose proof OK as (G & _). assert (TB : 0 <= total_layers below). { rewrite EQ in G. apply Forall_app in G. destruct G as (_ & G). inversion G as [|? ? _ GB]; subst. pose proof (layers_length d (rev below) ltac:(apply Forall_rev; exact GB)) as LB. rewrite total_layers_rev in LB. lia. }
  replace (total_layers below + k) with (Z.of_nat (Z.to_nat (total_layers below + k))) by lia. rewrite (layer_cells _ _ _ _ _ ST), rects_of_cells. rewrite EQ in G |- *. rewrite layer_at by assumption. cbn [kind_layers].
  destruct (nth_error (rev (nd_layers x)) (Z.to_nat k)) as [l|] eqn:HL; [|apply nth_error_None in HL; rewrite rev_length in HL; lia].
  destruct (die_layers_split x (rev (nd_layers x)) 0 (Z.to_nat k) l HL) as (g1 & g2 & E & L1). rewrite E. rewrite app_nth2 by lia. replace (Z.to_nat k - length g1)%nat with 0%nat by lia. cbn [nth snd].
  set (src := _ =? _). replace (map g_rect (flat_map (element_cells x src l) (nd_els x))) with (flat_map (element_rects x) (nd_els x)).
  - apply (tiles_flat (fun e => rect_of (ne_first e))); [exact T|]. intros e I. rewrite Forall_forall in PS. destruct (PS e I).
    rewrite EQ in SC. apply Forall_app in SC. destruct SC as (_ & SC). inversion SC as [|? ? SX _]; subst. cbn [some_cells] in SX. rewrite Forall_forall in SX. destruct (SX e I) as (A & B). apply element_tiles; assumption.
  - clearbody src. clear. generalize (nd_els x) as els. intros els. induction els as [|e els IH]; [reflexivity|]. cbn [flat_map]. rewrite map_app. f_equal; [|apply IH]. unfold element_cells. rewrite map_map. cbn [g_rect]. rewrite map_id. reflexivity.
Qed.
Print Assumptions C42_die.

(** The cells of a layer of the stack, of each layer of a channel and of the
    spreader tile the chip. The columns of 4RM grids always have the length of
    the chip; those of the others do when the chip length is a multiple of the
    cell length (C12): missing otherwise, see C42_channel_refuted. *)
Definition column_fit (L cl : Q) (s : chan_spec) : Prop :=
  match s with MC4RM _ _ _ _ => True | Uniform _ => exists n, (L == qz n * cl)%Q end.
Definition chip_cells (s : chan_spec) (L cl : Q) (e : nu_kind) : Prop :=
  match e with NuDie _ => False | NuLayer dx dy => 0 < dx /\ 0 < dy | NuChannel _ => column_fit L cl s end.
Theorem C42_layers_partial : forall L W cl cw s heights sc d top past es above e below,
    parse_dims L W cl cw s heights sc = Ok (Some d) -> 0 <= sc -> positive_sizes L W cl cw s -> 1 <= d_ncols d -> 1 <= d_nrows d ->
    nu_stack_ok d top es -> Forall some_cells es -> es = above ++ e :: below -> chip_cells s L cl e ->
    exists n es' st, nu_grid d top past es = Ok (n, es', st) /\
    forall k, 0 <= k < nu_nlayers e ->
      tiles (map c_rect (filter (fun c => c_layer c =? total_layers below + k) (ns_cells st))) (mkRect 0 0 (d_chip_length d) (d_chip_width d)).
Proof.
  intros L W cl cw s heights sc d top past es above e below PD SCP PSZ NC NR OK SC EQ CC. destruct (grid_spec d top past es OK SC) as (st & P & ST). do 2 eexists. exists st. split; [exact P|]. intros k K.
  destruct (parse_positive _ _ _ _ _ _ _ _ PD SCP PSZ) as (F & LA & WA & CH & CL & CW).
  pose proof OK as (G & _). assert (TB : 0 <= total_layers below). { rewrite EQ in G. apply Forall_app in G. destruct G as (_ & G). inversion G as [|? ? _ GB]; subst. pose proof (layers_length d (rev below) ltac:(apply Forall_rev; exact GB)) as LB. rewrite total_layers_rev in LB. lia. }
  replace (total_layers below + k) with (Z.of_nat (Z.to_nat (total_layers below + k))) by lia. rewrite (layer_cells _ _ _ _ _ ST), rects_of_cells. rewrite EQ in G |- *. rewrite layer_at by assumption.
  destruct e as [x|dx dy|m]; [destruct CC| |].
  - cbn [nu_nlayers] in K. replace k with 0 by lia. cbn [kind_layers Z.to_nat nth snd]. unfold plain_cells. rewrite map_map. cbn [g_rect]. rewrite map_id.
    assert (T : tiles (cut 0 0 (d_chip_length d) (d_chip_width d) (dx, dy)) (mkRect 0 0 (0 + d_chip_length d) (0 + d_chip_width d))) by (apply cut_tiles; [destruct CC; lia|destruct CC; lia|exact CL|exact CW]).
    destruct T as (T1 & T2). split.
    + intros x y ((A & B) & (C & D)). apply T1. unfold inside in *. cbn [r_x0 r_x1 r_y0 r_y1] in *. lra.
    + intros c x y I IN. specialize (T2 c x y I IN). unfold inside in *. cbn [r_x0 r_x1 r_y0 r_y1] in *. lra.
  - assert (FIT : columns_fit d). { pose proof (chip_length_tiled _ _ _ _ _ _ _ _ PD SCP NC PSZ) as T. unfold columns_fit. destruct s as [c|f l w c]; cbv zeta in T; [apply T; exact CC|exact T]. }
    pose proof (channel_tiles d (parse_regular _ _ _ _ _ _ _ _ PD SCP NC) NR FIT F LA WA CH CW) as T. unfold chip in T.
    assert (K4 : k = 0 \/ k = 1 \/ k = 2 \/ k = 3) by (destruct m; cbn [nu_nlayers channel_layers] in K; lia).
    assert (M0 : m <> CM_NONE) by (apply Forall_app in G; destruct G as (_ & G); inversion G as [|? ? GE _]; exact GE).
    destruct m; try (exfalso; apply M0; reflexivity); cbn [nu_nlayers channel_layers] in K; destruct K4 as [->|[->|[->| ->]]]; try lia; cbn [kind_layers nth snd]; try apply T; cbn [Z.to_nat Pos.to_nat Pos.iter_op Nat.add nth snd]; apply T.
Qed.
Print Assumptions C42_layers_partial.

Theorem C42_spreader : forall L W cl cw s heights sc d sp h m past es,
    parse_dims L W cl cw s heights sc = Ok (Some d) -> 0 <= sc -> positive_sizes L W cl cw s -> 1 <= d_ncols d -> 1 <= d_nrows d ->
    let top := Some (SinkPluggable sp h m) in nu_stack_ok d top es -> Forall some_cells es ->
    exists n es' st, nu_grid d top past es = Ok (n, es', st) /\
      tiles (map c_rect (filter (fun c => c_layer c =? total_layers es) (ns_cells st))) (mkRect 0 0 (d_chip_length d) (d_chip_width d)).
Proof.
  intros L W cl cw s heights sc d sp h m past es PD SCP PSZ NC NR top OK SC. destruct (grid_spec d top past es OK SC) as (st & P & ST). do 2 eexists. exists st. split; [exact P|].
  destruct (parse_positive _ _ _ _ _ _ _ _ PD SCP PSZ) as (F & LA & WA & CH & CL & CW). pose proof OK as (G & _).
  pose proof (layers_length d (rev es) ltac:(apply Forall_rev; exact G)) as LB. rewrite total_layers_rev in LB.
  replace (total_layers es) with (Z.of_nat (Z.to_nat (total_layers es))) by lia. rewrite (layer_cells _ _ _ _ _ ST), rects_of_cells. unfold grid. rewrite app_nth2 by lia. replace (Z.to_nat (total_layers es) - _)%nat with 0%nat by lia.
  cbn [spreader_layer is_pluggable top nth snd]. unfold plain_cells. rewrite map_map. cbn [g_rect]. rewrite map_id.
  assert (T : tiles (cut 0 0 (d_chip_length d) (d_chip_width d) (d_ncols d, d_nrows d)) (mkRect 0 0 (0 + d_chip_length d) (0 + d_chip_width d))) by (apply cut_tiles; [lia|lia|exact CL|exact CW]).
  destruct T as (T1 & T2). split.
  - intros x y ((A & B) & (C & D)). apply T1. unfold inside in *. cbn [r_x0 r_x1 r_y0 r_y1] in *. lra.
  - intros c x y I IN. specialize (T2 c x y I IN). unfold inside in *. cbn [r_x0 r_x1 r_y0 r_y1] in *. lra.
Qed.
Print Assumptions C42_spreader.

(** Witnesses: the demo stack meets the hypotheses of C42_element, C42_die and
    C42_layers_partial; a channel and a spreader. *)
Example C42_witness : positive_sizes 300 300 100 100 (Uniform 100) /\ chip_cells (Uniform 100) 300 100 (NuLayer 2 2) /\
    tiles (map (fun e => rect_of (ne_first e)) (nd_els demo_die)) (mkRect 0 0 300 300).
Proof.
  split; [repeat split|]. split; [split; reflexivity|]. split.
  - intros x y ((A & B) & (C & D)). cbn [r_x0 r_x1 r_y0 r_y1] in *. destruct (Qlt_le_dec x 100) as [Q1|Q1].
    + exists 0%nat. eexists. split; [reflexivity|]. split; [unfold inside; cbn; lra|]. intros k' c' E I. destruct k' as [|[|k']]; [reflexivity| |destruct k'; discriminate E]. cbn in E. injection E as <-. unfold inside in I. cbn in I. lra.
    + exists 1%nat. eexists. split; [reflexivity|]. split; [unfold inside; cbn; lra|]. intros k' c' E I. destruct k' as [|[|k']]; [|reflexivity|destruct k'; discriminate E]. cbn in E. injection E as <-. unfold inside in I. cbn in I. lra.
  - intros c x y [<-|[<-|[]]] I; unfold inside in *; cbn in *; lra.
Qed.
Definition chan_dims : dims := mkDims 25 35 30 40 50 [10; 20; 30]%Q 3 2 7 42 240 100.
Definition chan_stack : list nu_kind := [NuLayer 2 2; NuChannel CM_MC_4RM; NuLayer 1 1].
Definition chan_top : option top_sink := Some (SinkPluggable (mkSpreader 2 7 0 0 1 1) 5 demo_mat).
Example C42_channel_witness : parse_dims 240 100 20 50 (MC4RM 25 35 30 40) [10; 20; 30]%Q 0 = Ok (Some chan_dims) /\
    positive_sizes 240 100 20 50 (MC4RM 25 35 30 40) /\ nu_stack_ok chan_dims chan_top chan_stack /\ Forall some_cells chan_stack /\
    chip_cells (MC4RM 25 35 30 40) 240 20 (NuChannel CM_MC_4RM) /\ length (grid_cells (grid chan_dims chan_top chan_stack)) = 33%nat.
Proof.
  split; [vm_compute; reflexivity|]. split; [repeat split|]. split.
  - split; [repeat constructor; try discriminate; vm_compute; try reflexivity; try discriminate|]. split; [discriminate|]. split; [unfold good_factors, two32; cbn; lia|]. split; [reflexivity|]. split; [reflexivity|]. split; [vm_compute; reflexivity|]. vm_compute. reflexivity.
  - split; [repeat constructor|]. split; [exact Logic.I|]. vm_compute. reflexivity.
Qed.

(** An element with two rectangles: the second one gets no cells. *)
Definition two_rects : nu_die := mkNuDie [demo_layer; demo_layer] 1 1 1 [mkNuEl icel_a [icel_b]].
Theorem C42_second_rectangle_refuted : exists n es' st, nu_grid demo_dims demo_top 7 [NuLayer 2 2; NuDie two_rects] = Ok (n, es', st) /\
    forall c, In c (ns_cells st) -> c_layer c = 1 -> ~ inside (c_rect c) 200 150.
Proof.
  do 3 eexists. split; [vm_compute; reflexivity|]. intros c I E. cbn in I. repeat destruct I as [<-|I]; try discriminate E; [|destruct I].
  unfold inside. cbn. intros ((_ & A) & _). revert A. apply Qle_not_lt. vm_compute. discriminate.
Qed.
Print Assumptions C42_second_rectangle_refuted.

(** A 2RM channel on a chip whose length is not a multiple of the cell length: a
    strip of the chip is in no cell. *)
Theorem C42_channel_refuted : exists d n es' st, parse_dims 350 100 100 100 (Uniform 100) [10; 10; 10; 10; 10; 10]%Q 0 = Ok (Some d) /\
    nu_grid d demo_top 7 [NuLayer 1 1; NuChannel CM_MC_2RM; NuLayer 1 1] = Ok (n, es', st) /\
    forall c, In c (ns_cells st) -> c_layer c = 1 -> ~ inside (c_rect c) 220 50.
Proof.
  do 4 eexists. split; [vm_compute; reflexivity|]. split; [vm_compute; reflexivity|]. intros c I E. cbn in I. repeat destruct I as [<-|I]; try discriminate E; [| | |destruct I]; unfold inside; cbn; intros ((A & B) & _); revert A B; unfold Qle, Qlt; cbn; lia.
Qed.
Print Assumptions C42_channel_refuted.
