(** * C39 and C57: the matrix of the non-uniform grid *)
From Coq Require Import ZArith List Bool QArith Permutation Lia Lqa.
From Verif Require Import Base QSum DList Dims DimsProofs Floorplan FloorplanSpec FloorplanProofs Stack StackSpec PowerGrid Emulate Conduct Matrix MatrixSpec CellProofs NonUniform NuParallel NuParProofs NuSpec NuGeomProofs NuCountProofs NuPositionProofs NuRangeProofs NuConnProofs NuPairProofs NuGridProofs NuTileProofs NuTouchProofs
  NuMatrix NuMatrixSpec NuMatrixProofs NuTableProofs NuCoeffProofs NuLeaveProofs PropNonUniform PropNuGrid PropMatrix MatrixWitness.
Import ListNotations.
Local Open Scope Z_scope.

(** ** C39 *)
(** The same matrix for every order of the connections, and a matrix for one order
    if there is one for another. *)
Theorem C39_any_order : forall g d an cells cs cs' m, good_conns (Z.of_nat (length cells)) cs -> Permutation cs cs' ->
    nu_matrix g d an cells cs m ->
    (exists m', nu_matrix g d an cells cs' m') /\ forall m', nu_matrix g d an cells cs' m' -> same_matrix m m'.
Proof.
  intros g d an cells cs cs' m GC P M. split; [exact (matrix_order_exists g d an cells cs cs' m GC P M)|]. intros m' M'. exact (matrix_any_order g d an cells cs cs' m m' GC P M M').
Qed.
Print Assumptions C39_any_order.

Lemma number_layer : forall hs g k c, In c (number hs k g) -> Z.of_nat k <= c_layer c < Z.of_nat (k + length g).
Proof.
  intros hs g. induction g as [|L g IH]; intros k c I; [destruct I|]. cbn [number] in I. apply in_app_or in I. cbn [length]. destruct I as [I|I].
  - apply in_map_iff in I. destruct I as (x & <- & _). cbn [cell_of c_layer]. lia.
  - specialize (IH (Datatypes.S k) c I). lia.
Qed.
Lemma cells_in_stack : forall d top es hs N st g, nu_stack_ok d top es -> st_at hs N (grid d top es) st -> tg_top g = top -> Forall (in_stack g d) (ns_cells st).
Proof.
  intros d top es hs N st g OK (C & _) T. rewrite Forall_forall. intros c I. rewrite C in I. apply number_layer in I. destruct OK as (GK & _ & _ & NL & _).
  unfold grid in I. rewrite app_length in I. pose proof (layers_length d (rev es) ltac:(apply Forall_rev; exact GK)) as LL. rewrite total_layers_rev in LL.
  assert (LS : length (spreader_layer d top) = if is_pluggable top then 1%nat else 0%nat) by (unfold spreader_layer; destruct (is_pluggable top); reflexivity).
  unfold in_stack. rewrite NL. destruct (is_pluggable top) eqn:P; rewrite LS in I.
  - split; [lia|]. intros _. rewrite T. destruct top as [[|]|]; try discriminate. unfold has_spreader. eauto.
  - split; lia.
Qed.

(** The matrix of a stack does not depend on the threads: some matrix is the one
    obtained after every execution of the search of the connections. *)
Theorem C39_any_schedule : forall d top past es g an,
    nu_stack_ok d top es -> Forall some_cells es -> Forall (fun e => 0 < nu_nlayers e) es -> bottom_solid es ->
    good_tgrid d g -> tg_top g = top ->
    exists n es' st rs, nu_grid d top past es = Ok (n, es', st) /\ all_regions d st = Ok rs /\
      (0 < n -> 2 * Z.of_nat (length (sequential rs)) + n < two32 -> exists m, csc n m /\
       forall mem, par_run rs lstart mem -> exists cs, walk_forward (ls_heap mem) (ls_reg mem 0) = Ok cs /\
         (exists m', nu_matrix g d an (ns_cells st) cs m') /\
         forall m', nu_matrix g d an (ns_cells st) cs m' -> same_matrix m m').
Proof.
  intros d top past es g an OK SC POS B GT TE. destruct (grid_spec d top past es OK SC) as (st & P & ST).
  destruct (sequential_spec d top es _ st OK ST (bottom_types d top es B POS)) as (rs & R & E). pose proof (st_rects _ _ _ _ ST) as RE. rewrite RE in E.
  do 2 eexists. exists st, rs. split; [exact P|]. split; [exact R|]. intros NP FIT. pose proof ST as (CE & _).
  assert (LEN : Z.of_nat (length (ns_cells st)) = Z.of_nat (length (grid_cells (grid d top es)))).
  { assert (X : length (map c_rect (ns_cells st)) = length (grid_rects (grid d top es))) by (rewrite RE; reflexivity). unfold grid_rects in X. rewrite !map_length in X. lia. }
  assert (GC : good_conns (Z.of_nat (length (ns_cells st))) (sequential rs)).
  { rewrite LEN. constructor; [exact NP| | |exact FIT].
    - rewrite E. apply (all_conns_NoDup d top es).
    - rewrite E. intros c I. exact (conn_range d top es _ c I). }
  destruct (matrix_defined g d GT an (ns_cells st) (sequential rs) (cells_in_stack _ _ _ _ _ _ g OK ST TE) GC) as (m & M). exists m. split; [rewrite <- LEN; exact (matrix_csc _ _ _ _ _ _ GC M)|].
  intros mem RUN. destruct (run_lists rs mem RUN) as (cs & W & _ & PE). exists cs. split; [exact W|]. exact (C39_any_order g d an (ns_cells st) (sequential rs) cs m GC (Permutation_sym PE) M).
Qed.
Print Assumptions C39_any_schedule.

(** Witness: the demonstration stack, with an ambient top sink. *)
Definition demo_grid : tgrid := mkTgrid [LT_SOLID; LT_SOURCE; LT_SOLID_AMBIENT] [demo_layer; demo_layer; demo_layer] None demo_top None.
Lemma demo_grid_good : good_tgrid demo_dims demo_grid.
Proof.
  constructor; try (cbn; lia); try discriminate; try (intros _; reflexivity).
  - unfold good_grid, demo_dims. cbn. unfold two32. repeat split; try lia; try reflexivity. left. repeat split; reflexivity.
  - constructor; cbn; unfold two32; lia.
  - split; [intros (s & h & m & E); discriminate E|discriminate].
  - intros H. exfalso. apply H. reflexivity.
  - intros l L. cbn in L. left. assert (l = 0 \/ l = 1 \/ l = 2) as [-> |[-> | ->]] by lia; cbn; repeat split; try discriminate; intros; try lia. exists 1%Q, 300%Q. reflexivity.
Qed.
Example C39_witness : nu_stack_ok demo_dims demo_top demo_stack /\ good_tgrid demo_dims demo_grid /\ tg_top demo_grid = demo_top /\
    0 < Z.of_nat (length (grid_cells (grid demo_dims demo_top demo_stack))) /\
    Z.of_nat (length (all_conns demo_dims demo_top demo_stack (grid_rects (grid demo_dims demo_top demo_stack)))) = 28.
Proof. split; [apply demo_ok|]. split; [exact demo_grid_good|]. split; [reflexivity|]. split; vm_compute; reflexivity. Qed.

(** ** C57 *)
(** A network: the cells and the connections the program found, in any order. *)
Record network (g : tgrid) (d : dims) (an : analysis) (cells : list cell) (cs : list conn) (m : sysmatrix) : Prop := {
  nw_grid : good_tgrid d g;
  nw_physical : physical g d;
  nw_cells : forall c, In c cells -> in_stack g d c /\ one_material g c /\ positive_cell g c;
  nw_conns : good_conns (Z.of_nat (length cells)) cs;
  nw_matrix : nu_matrix g d an cells cs m
}.
Definition cell0 : cell := mkCell 0 (mkRect 0 0 0 0) 0 0 false material0.
Definition at_cell (cells : list cell) (i : Z) : cell := nth (Z.to_nat i) cells cell0.
Lemma arr_at : forall cells i c, arr_get cells i = Ok c -> at_cell cells i = c /\ In c cells.
Proof.
  intros cells i c. unfold arr_get, at_cell. destruct ((0 <=? i) && (i <? Z.of_nat (length cells))); [|discriminate]. destruct (nth_error cells (Z.to_nat i)) as [x|] eqn:N; [|discriminate]. intros [= <-].
  split; [exact (nth_error_nth _ _ _ N)|exact (nth_error_In _ _ N)].
Qed.

(** What leaves a cell through its connections arrives in the others: every column
    sums to what the cell stores, loses to the air and sends out with the coolant. *)
Theorem C57_columns : forall g d an cells cs m, network g d an cells cs m -> forall j, 0 <= j < Z.of_nat (length cells) ->
    (qsum (map (fun i => coefficient m i j) (zrange 0 (Z.of_nat (length cells) - 1))) == leaves g d an (at_cell cells j))%Q.
Proof.
  intros g d an cells cs m [G PH C GC M] j J. destruct (column_sums g d an cells cs m GC M j J) as (c & base & A & D & E). destruct (arr_at _ _ _ A) as (-> & I). destruct (C c I) as (C1 & C2 & C3). rewrite E. exact (diagonal_spec g d G PH an c base C1 C2 C3 D).
Qed.
Print Assumptions C57_columns.

(** Energy: for every solution of the system the right-hand side, all cells
    together, is what the cells store, lose and send out. *)
Lemma qsum_swap : forall (f : Z -> Z -> Q) l l', (qsum (map (fun i => qsum (map (fun j => f i j) l')) l) == qsum (map (fun j => qsum (map (fun i => f i j) l)) l'))%Q.
Proof.
  intros f l l'. induction l as [|i l IH].
  - cbn [map]. symmetry. apply qsum_zero. reflexivity.
  - cbn [map]. rewrite qsum_cons, IH. symmetry. rewrite <- qsum_plus. apply qsum_ext. intros j _. cbn [map]. rewrite qsum_cons. reflexivity.
Qed.
Theorem C57_energy : forall g d an cells cs m b x, network g d an cells cs m -> let n := Z.of_nat (length cells) in solution m n b x ->
    (qsum (map (qat b) (zrange 0 (n - 1))) == qsum (map (fun j => leaves g d an (at_cell cells j) * qat x j) (zrange 0 (n - 1))))%Q.
Proof.
  intros g d an cells cs m b x N n (_ & S). rewrite (qsum_ext (qat b) (row_times m n x)) by (intros i I; apply in_zrange in I; symmetry; apply S; lia).
  unfold row_times. rewrite qsum_swap. apply qsum_ext. intros j J. apply in_zrange in J. pose proof (C57_columns _ _ _ _ _ _ N j ltac:(unfold n in *; lia)) as CC. fold n in CC. rewrite qsum_scale_r, CC. reflexivity.
Qed.
Print Assumptions C57_energy.

(** Solids: the connection of two solid cells is two blocks in series, the same
    both ways. *)
Theorem C57_solids : forall g d an cells cs m k, network g d an cells cs m -> In k cs ->
    let i := k_node1 k in let j := k_node2 k in let a := at_cell cells i in let b := at_cell cells j in
    solid_cell g d a -> solid_cell g d b -> (0 < k_value k)%Q ->
    (k_dir k = 1 -> c_layer a = c_layer b ->
       exchange m i j (in_series (k_value k * cell_height d a) (c_length a / 2) (mt_kx (cell_material g a)) (c_length b / 2) (mt_kx (cell_material g b)))) /\
    (k_dir k = 2 -> c_layer a = c_layer b ->
       exchange m i j (in_series (k_value k * cell_height d a) (c_width a / 2) (mt_ky (cell_material g a)) (c_width b / 2) (mt_ky (cell_material g b)))) /\
    (k_dir k = 0 ->
       exchange m i j (in_series (k_value k) (reach g d a) (mt_kz (cell_material g a)) (reach g d b) (mt_kz (cell_material g b)))).
Proof.
  intros g d an cells cs m k [G PH C GC M] I i j a b SA SB V. destruct (coefficient_connected g d an cells cs m GC M k I) as (a' & b' & x & s & A & B & X & E1 & E2).
  destruct (arr_at _ _ _ A) as (EA & IA). destruct (arr_at _ _ _ B) as (EB & IB). fold i in EA. fold j in EB. fold a in EA. fold b in EB. subst a' b'.
  destruct (C a IA) as (_ & OA & PA). destruct (C b IB) as (_ & OB & PB). fold i j in E1, E2. unfold exchange. split; [|split].
  - intros D L. destruct (conduct_x g d G PH k a b x s SA SB OA OB PA PB L D V X) as (ES & EX). rewrite E2, E1, ES, EX. split; ring.
  - intros D L. destruct (conduct_y g d G PH k a b x s SA SB OA OB PA PB L D V X) as (ES & EX). rewrite E2, E1, ES, EX. split; ring.
  - intros D. destruct (conduct_z g d G PH k a b x s SA SB OA OB PA PB D V X) as (ES & EX). rewrite E2, E1, ES, EX. split; ring.
Qed.
Print Assumptions C57_solids.

(** Coolant: of two coolant cells one after the other along the flow, the second
    receives half the heat capacity rate of each. *)
Theorem C57_coolant : forall g d an cells cs m k, network g d an cells cs m -> In k cs -> k_dir k = 2 ->
    let i := k_node1 k in let j := k_node2 k in let a := at_cell cells i in let b := at_cell cells j in
    coolant_cell g d a -> coolant_cell g d b ->
    exists ch, tg_channel g = Some ch /\ let rate := half_rate ch (cell_height d a) (k_value k) in
      ((r_y0 (c_rect a) < r_y0 (c_rect b))%Q -> (coefficient m j i == - rate)%Q /\ (coefficient m i j == rate)%Q) /\
      ((r_y0 (c_rect b) < r_y0 (c_rect a))%Q -> (coefficient m j i == rate)%Q /\ (coefficient m i j == - rate)%Q).
Proof.
  intros g d an cells cs m k [G PH C GC M] I D i j a b SA SB. destruct (coefficient_connected g d an cells cs m GC M k I) as (a' & b' & x & s & A & B & X & E1 & E2).
  destruct (arr_at _ _ _ A) as (EA & IA). destruct (arr_at _ _ _ B) as (EB & IB). fold i in EA. fold j in EB. fold a in EA. fold b in EB. subst a' b'. fold i j in E1, E2.
  destruct (conduct_flow g d G k a b x s SA SB D X) as (ch & CH & ES & EX). exists ch. split; [exact CH|]. cbv zeta. rewrite E1, E2, ES, EX. split; intros O.
  - destruct (Qlt_bool (r_y0 (c_rect b)) (r_y0 (c_rect a))) eqn:Q; [apply Qlt_bool_iff' in Q; exfalso; lra|]. split; ring.
  - destruct (Qlt_bool (r_y0 (c_rect b)) (r_y0 (c_rect a))) eqn:Q; [split; ring|]. apply Qlt_bool_iff' in O. congruence.
Qed.
Print Assumptions C57_coolant.

(** Cells that do not touch do not exchange heat, after any schedule. *)
Theorem C57_apart : forall d top past es g an,
    nu_stack_ok d top es -> Forall some_cells es -> Forall (fun e => 0 < nu_nlayers e) es -> bottom_solid es -> good_geometry (grid d top es) ->
    exists n es' st rs, nu_grid d top past es = Ok (n, es', st) /\ all_regions d st = Ok rs /\
      (0 < n -> 2 * Z.of_nat (length (sequential rs)) + n < two32 ->
       forall mem, par_run rs lstart mem -> exists cs, walk_forward (ls_heap mem) (ls_reg mem 0) = Ok cs /\
       forall m, nu_matrix g d an (ns_cells st) cs m -> forall i j, 0 <= i < j -> j < n ->
         ~ (exists len, touch_x (grid d top es) i j len) -> ~ (exists len, touch_y (grid d top es) i j len) -> ~ touch_z (grid d top es) i j ->
         (coefficient m i j == 0)%Q /\ (coefficient m j i == 0)%Q).
Proof.
  intros d top past es g an OK SC POS B GEO. destruct (C56_connected_iff_touching d top past es OK SC POS B GEO) as (n & es' & st & rs & P & R & RE & H).
  exists n, es', st, rs. split; [exact P|]. split; [exact R|]. intros NP FIT mem RUN. destruct (H mem RUN) as (cs & W & ND & RG & IFF & _). exists cs. split; [exact W|]. intros m M i j I J NX NY NZ.
  destruct (run_lists rs mem RUN) as (cs' & W' & _ & PE). rewrite W in W'. injection W' as <-.
  assert (LEN : Z.of_nat (length (ns_cells st)) = n) by (destruct (C41_cells d top past es OK SC) as (n' & es2 & st' & P' & L & _); rewrite P in P'; injection P' as <- <- <-; symmetry; exact L).
  assert (GC : good_conns (Z.of_nat (length (ns_cells st))) cs).
  { rewrite LEN. constructor; [exact NP|exact ND|exact RG|]. apply Permutation_length in PE. lia. }
  assert (NO : forall c, In c cs -> nodes c <> (i, j) /\ nodes c <> (j, i)).
  { intros c IC. split; intros E.
    - assert (X : exists c, In c cs /\ nodes c = (i, j)) by (exists c; auto). apply IFF in X; [|lia]. intuition.
    - specialize (RG c IC). unfold nodes in E. injection E as E1 E2. lia. }
  split; apply (coefficient_unconnected g d an (ns_cells st) cs m GC M); try lia; intros c IC; destruct (NO c IC) as (N1 & N2); auto.
Qed.
Print Assumptions C57_apart.

(** Witness: the demonstration stack again; its cells 0 and 1 are 100 and 200
    long, 10 high and touch along 100: 1000 / (50 + 100). *)
Definition demo_cells : list cell := number (d_heights demo_dims ++ [7%Q]) 0 (grid demo_dims demo_top demo_stack).
Definition demo_conns : list conn := all_conns demo_dims demo_top demo_stack (grid_rects (grid demo_dims demo_top demo_stack)).
Definition demo_an (t : analysis_type) : analysis := mkAnalysis t (1#10) 10 0 300.
Lemma demo_conns_good : good_conns (Z.of_nat (length demo_cells)) demo_conns.
Proof.
  constructor.
  - vm_compute. reflexivity.
  - apply (all_conns_NoDup demo_dims demo_top demo_stack).
  - intros c I. exact (conn_range demo_dims demo_top demo_stack _ c I).
  - vm_compute. reflexivity.
Qed.
Lemma demo_physical : physical demo_grid demo_dims.
Proof.
  constructor.
  - repeat constructor.
  - repeat constructor; reflexivity.
  - discriminate.
  - intros h a [= <- _]. reflexivity.
  - discriminate.
  - discriminate.
Qed.
Definition cell_b (c : cell) : bool :=
  (0 <=? c_layer c) && (c_layer c <? 3) && match ly_layout (cell_layer demo_grid c) with [] => true | _ => false end &&
  Qlt_bool 0 (c_length c) && Qlt_bool 0 (c_width c) && Qlt_bool 0 (mt_vhc (c_mat c)) && Qlt_bool 0 (mt_kx (c_mat c)) && Qlt_bool 0 (mt_ky (c_mat c)) && Qlt_bool 0 (mt_kz (c_mat c))
  || (c_layer c =? 2) && Qlt_bool 0 (c_length c) && Qlt_bool 0 (c_width c).
Lemma demo_cells_ok : forall c, In c demo_cells -> in_stack demo_grid demo_dims c /\ one_material demo_grid c /\ positive_cell demo_grid c.
Proof.
  assert (H : forallb cell_b demo_cells = true) by (vm_compute; reflexivity). intros c I. rewrite forallb_forall in H. specialize (H c I). unfold cell_b in H. apply orb_true_iff in H. destruct H as [H|H].
  - repeat (apply andb_true_iff in H; let X := fresh "X" in destruct H as (H & X)). apply Z.leb_le in H. apply Z.ltb_lt in X6. apply Qlt_bool_iff' in X, X0, X1, X2, X3, X4. unfold in_stack, one_material, positive_cell, physical_material. cbn [d_nlayers demo_dims].
    destruct (ly_layout (cell_layer demo_grid c)); [|discriminate]. repeat split; auto; lia.
  - repeat (apply andb_true_iff in H; let X := fresh "X" in destruct H as (H & X)). apply Z.eqb_eq in H. apply Qlt_bool_iff' in X, X0. unfold in_stack, one_material, positive_cell, cell_layer. rewrite H. cbn. repeat split; auto; try lia; discriminate.
Qed.
Example C57_witness : forall t, exists m, network demo_grid demo_dims (demo_an t) demo_cells demo_conns m /\ exchange m 0 1 (1000 # 150).
Proof.
  intros t. destruct (matrix_defined demo_grid demo_dims demo_grid_good (demo_an t) demo_cells demo_conns) as (m & M); [|exact demo_conns_good|].
  - rewrite Forall_forall. intros c I. apply demo_cells_ok, I.
  - exists m. assert (N : network demo_grid demo_dims (demo_an t) demo_cells demo_conns m) by (constructor; [exact demo_grid_good|exact demo_physical|exact demo_cells_ok|exact demo_conns_good|exact M]). split; [exact N|].
    assert (X : exists k, In k demo_conns /\ ((k_node1 k =? 0) && (k_node2 k =? 1) && (k_dir k =? 1) && Qeq_bool (k_value k) 100) = true) by (apply existsb_exists; vm_compute; reflexivity).
    destruct X as (k & I & H). apply andb_true_iff in H. destruct H as (H & H4). apply andb_true_iff in H. destruct H as (H & H3). apply andb_true_iff in H. destruct H as (H1 & H2).
    apply Z.eqb_eq in H1, H2, H3. apply Qeq_bool_eq in H4. pose proof (C57_solids _ _ _ _ _ _ k N I) as S. rewrite H1, H2 in S. cbv zeta in S.
    destruct S as (S & _); [vm_compute; intuition discriminate|vm_compute; intuition discriminate|rewrite H4; reflexivity|].
    specialize (S H3 ltac:(vm_compute; reflexivity)). destruct S as (S1 & S2).
    assert (E : (in_series (k_value k * cell_height demo_dims (at_cell demo_cells 0)) (c_length (at_cell demo_cells 0) / 2) (mt_kx (cell_material demo_grid (at_cell demo_cells 0))) (c_length (at_cell demo_cells 1) / 2) (mt_kx (cell_material demo_grid (at_cell demo_cells 1))) == 1000 # 150)%Q).
    { unfold in_series. rewrite H4. vm_compute. reflexivity. }
    unfold exchange. rewrite S1, S2, E. split; reflexivity.
Qed.

(** Refuted for the side walls of two-resistor channels: along the flow they
    conduct as if their cells were as wide as they are long. Here the cells are 10
    long and 5 wide, half their volume is wall. *)
Definition wall_a : cell := mkCell 2 (mkRect 0 0 10 5) 3 1 false material0.
Definition wall_b : cell := mkCell 2 (mkRect 0 5 10 10) 3 1 false material0.
Theorem C57_walls_refuted : exists x, nu_conductance g2rm d2rm (mkConn 0 1 2 2 10 2) wall_b wall_a = Ok (x, 1%Q) /\
    good_tgrid d2rm g2rm /\ type_of g2rm 2 = LT_VWALL_CHANNEL /\ side_y (c_rect wall_a) (c_rect wall_b) 10 /\
    let ky := mt_ky (cell_material g2rm wall_a) in let solid := (1 - ch_porosity ch2rm)%Q in
    (x == - (solid * in_series (10 * 1) (5 / 2) ky (5 / 2) ky) / 2)%Q /\ (0 < solid * ky)%Q.
Proof.
  eexists. split; [vm_compute; reflexivity|]. split; [exact g2rm_good|]. split; [reflexivity|]. split; [vm_compute; intuition (discriminate || reflexivity)|]. split; vm_compute; reflexivity.
Qed.
Print Assumptions C57_walls_refuted.

(** Refuted for layers with a layout of materials: every cell has the material the
    layout gives to the lower left corner of the chip. Here the right half of the
    bottom layer is four times as heavy; the cell on the right, 200 x 300 x 10,
    stores as the left half. *)
Definition heavy : material := mkMaterial 4 1 1 1.
Definition two_materials : layer := mkLayer 10 demo_mat [([mkIcel 100 0 200 300 0 1 2 2], heavy)].
Definition layout_grid : tgrid := mkTgrid [LT_SOLID; LT_SOURCE; LT_SOLID_AMBIENT] [two_materials; demo_layer; demo_layer] None demo_top None.
Definition right_cell : cell := mkCell 0 (mkRect 100 0 300 300) 0 10 false demo_mat.
Lemma layout_grid_good : good_tgrid demo_dims layout_grid.
Proof.
  destruct demo_grid_good. constructor; auto. intros l L. specialize (gt_shape l L). destruct gt_shape as [H|(b & j & ch & C & _)]; [left; exact H|discriminate C].
Qed.
Theorem C57_layout_refuted : exists x, good_tgrid demo_dims layout_grid /\ nu_capacity layout_grid demo_dims right_cell = Ok x /\ (x == 1 * (200 * 300 * 10))%Q /\
    forall r c, 0 <= r < 3 -> 1 <= c < 3 -> material_at demo_dims two_materials r c = heavy.
Proof.
  eexists. split; [exact layout_grid_good|]. split; [vm_compute; reflexivity|]. split; [reflexivity|]. intros r c R C.
  assert (r = 0 \/ r = 1 \/ r = 2) as [-> |[-> | ->]] by lia; assert (c = 1 \/ c = 2) as [-> | ->] by lia; vm_compute; reflexivity.
Qed.
Print Assumptions C57_layout_refuted.
