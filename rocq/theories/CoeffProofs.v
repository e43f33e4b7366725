(** * Values of the coefficients: proofs *)
From Coq Require Import ZArith List Bool QArith Qfield Lia Lqa.
From Verif Require Import Base QSum Dims DimsSpec DimsProofs Floorplan FloorplanSpec FloorplanProofs Stack StackSpec PowerGrid Emulate EmulateSpec.
From Verif Require Import Conduct Matrix NetProofs MatrixSpec CellProofs NodeProofs LinkProofs SignProofs CscProofs EnumProofs BalanceSpec BalanceProofs CoeffSpec.
Import ListNotations.
Local Open Scope Z_scope.

(** ** Materials *)
Lemma found_split : forall {A} (f : A -> bool) l x, find f l = Some x ->
    exists pre post, l = pre ++ x :: post /\ Forall (fun y => f y = false) pre /\ f x = true.
Proof.
  intros A f l x. induction l as [|a l IH]; cbn [find]; intro H; [discriminate|]. destruct (f a) eqn:E.
  - assert (a = x) by congruence. subst a. exists [], l. auto.
  - destruct (IH H) as (pre & post & -> & F & X). exists (a :: pre), post. split; [reflexivity|]. split; [constructor; assumption|assumption].
Qed.
Lemma found_none : forall {A} (f : A -> bool) l, find f l = None -> Forall (fun y => f y = false) l.
Proof.
  intros A f l. induction l as [|a l IH]; cbn [find]; intro H; [constructor|]. destruct (f a) eqn:E; [discriminate|]. constructor; auto.
Qed.

Lemma dx_length : forall d c, (dx d c == get_cell_length d c)%Q.
Proof. intros. unfold dx, east, west. ring. Qed.
Lemma dy_width : forall d r, (dy d r == get_cell_width d r)%Q.
Proof. intros. unfold dy, north, south. ring. Qed.

Lemma has_center_iff : forall d r c a, good_grid d -> d_ncols d <> 2 -> 0 <= r < d_nrows d -> 0 <= c < d_ncols d ->
    (ic_has_center (get_cell_center_x d c) (get_cell_center_y d r) a = true <-> holds_middle d r c a).
Proof.
  intros d r c a G N R C. pose proof (good_regular d G) as RG. pose proof G as (R2 & _).
  pose proof (center_mid d c RG C N) as X.
  assert (Y : (get_cell_center_y d r == get_cell_location_y d r + get_cell_width d r / 2)%Q).
  { unfold get_cell_center_y, get_cell_location_y, get_cell_width, last_row. rewrite u32_id by lia.
    destruct (Z.ltb_spec (d_nrows d - 1) r); [lia|]. field. }
  assert (X' : (get_cell_center_x d c == (west d c + east d c) / 2)%Q) by (rewrite X; unfold west, east; field).
  assert (Y' : (get_cell_center_y d r == (south d r + north d r) / 2)%Q) by (rewrite Y; unfold south, north; field).
  unfold ic_has_center, holds_middle. cbv zeta. rewrite !andb_true_iff, !Qle_bool_iff, !Qlt_bool_iff. rewrite X', Y'. tauto.
Qed.
Lemma layout_holds : forall d r c e, good_grid d -> d_ncols d <> 2 -> 0 <= r < d_nrows d -> 0 <= c < d_ncols d ->
    (existsb (ic_has_center (get_cell_center_x d c) (get_cell_center_y d r)) (fst e) = true <-> element_holds d r c e).
Proof.
  intros d r c e G N R C. rewrite existsb_exists. unfold element_holds. split; intros (a & I & H); exists a; (split; [exact I|]); apply (has_center_iff d r c a G N R C); exact H.
Qed.
(** Grids of two columns put the centre of the second one elsewhere (C12): there
    the layers must have no layout. *)
Definition centred (d : dims) (ly : layer) : Prop := d_ncols d <> 2 \/ ly_layout ly = [].
Lemma made_of_material : forall d ly r c m, good_grid d -> centred d ly -> 0 <= r < d_nrows d -> 0 <= c < d_ncols d ->
    made_of d ly r c m -> m = material_at d ly r c.
Proof.
  intros d ly r c m G [N|N] R C H.
  2:{ unfold material_at. rewrite N. cbn [find]. destruct H as [(pre & e & post & E & _)|(_ & H)]; [|exact H].
      rewrite N in E. destruct pre; discriminate. }
  unfold material_at. destruct (find _ (ly_layout ly)) as [e'|] eqn:F.
  - apply found_split in F. destruct F as (pre' & post' & E' & P' & X'). apply (layout_holds d r c e' G N R C) in X'.
    destruct H as [(pre & e & post & E & P & X & ->)|(P & _)].
    + f_equal. rewrite E' in E. clear E'. revert pre E P P'. induction pre' as [|y pre' IH]; intros pre E P P'.
      * destruct pre as [|z pre]; cbn [app] in E; [congruence|]. injection E as -> _. inversion P; subst. contradiction.
      * destruct pre as [|z pre]; cbn [app] in E.
        -- injection E as -> _. inversion P' as [|? ? F' _]; subst. apply (layout_holds d r c e G N R C) in X. congruence.
        -- injection E as -> E. inversion P; inversion P'; subst. apply (IH pre); assumption.
    + exfalso. rewrite Forall_forall in P. apply (P e'); [|exact X']. rewrite E'. apply in_or_app. right. left. reflexivity.
  - apply found_none in F. destruct H as [(pre & e & post & E & P & X & ->)|(_ & ->)]; [|reflexivity].
    exfalso. rewrite Forall_forall in F. assert (In e (ly_layout ly)) as I by (rewrite E; apply in_or_app; right; left; reflexivity).
    apply F in I. apply (layout_holds d r c e G N R C) in X. congruence.
Qed.
Lemma made_of_exists : forall d ly r c, good_grid d -> centred d ly -> 0 <= r < d_nrows d -> 0 <= c < d_ncols d ->
    made_of d ly r c (material_at d ly r c).
Proof.
  intros d ly r c G N R C. unfold material_at. destruct (find _ (ly_layout ly)) as [e'|] eqn:F.
  - destruct N as [N|N]; [|rewrite N in F; discriminate].
    apply found_split in F. destruct F as (pre' & post' & E' & P' & X'). left. exists pre', e', post'. split; [exact E'|].
    split; [|split; [apply (layout_holds d r c e' G N R C); exact X'|reflexivity]].
    eapply Forall_impl; [|exact P']. intros y Hy H. apply (layout_holds d r c y G N R C) in H. congruence.
  - right. split; [|reflexivity]. destruct N as [N|N]; [|rewrite N; constructor].
    apply found_none in F. eapply Forall_impl; [|exact F]. intros y Hy H. apply (layout_holds d r c y G N R C) in H. congruence.
Qed.

(** ** Series of resistances *)
Lemma parallel_through : forall x y a b, (0 < x -> 0 < y -> a == 1 / x -> b == 1 / y -> parallel x y == through a b)%Q.
Proof.
  intros x y a b X Y A B. unfold parallel, through. rewrite A, B. field. repeat split; intro E; lra.
Qed.

Lemma Qnz : forall x, (0 < x -> ~ x == 0)%Q.
Proof. intros x H E. rewrite E in H. discriminate. Qed.

Section Values.
  Variables (g : tgrid) (d : dims) (an : analysis).
  Hypothesis (G : good_tgrid d g) (P : physical g d).
  Hypothesis CT : forall l, 0 <= l < d_nlayers d -> centred d (layer_at g l).

  Lemma mat_eq : forall l r c m, in_grid d l r c -> made_of d (layer_at g l) r c m -> m = material_at d (layer_of g l) r c.
  Proof.
    intros l r c m (L & R & C) H. apply made_of_material; auto. apply (gt_grid d g G).
  Qed.
  Lemma dx_pos : forall c, 0 <= c < d_ncols d -> (0 < dx d c)%Q.
  Proof. intros c C. rewrite dx_length. apply (cell_length_pos g d G c C). Qed.
  Lemma dy_pos : forall r, 0 <= r < d_nrows d -> (0 < dy d r)%Q.
  Proof. intros r R. rewrite dy_width. apply (cell_width_pos g d G r R). Qed.
  Lemma dz_pos : forall l, 0 <= l < d_nlayers d -> (0 < dz d l)%Q.
  Proof. intros l L. apply (height_pos g d G P l L). Qed.
  Lemma mat_pos : forall l r c m, in_grid d l r c -> made_of d (layer_at g l) r c m -> physical_material m.
  Proof. intros l r c m I H. rewrite (mat_eq l r c m I H). apply (material_pos g d G P). apply I. Qed.

  Lemma chan_4rm : forall l, 0 <= l < d_nlayers d -> type_of g l = LT_CHANNEL_4RM ->
      tg_channel g = Some (channel_of g) /\ (0 < co_htc_side (channel_of g) /\ 0 < co_htc_top (channel_of g) /\ 0 < co_htc_bottom (channel_of g))%Q /\
      0 < l < d_nlayers d - 1.
  Proof.
    intros l L T. destruct (place_4rm g d G l L T) as (ch & E & M & B). unfold channel_of. rewrite E. split; [reflexivity|].
    destruct (ph_channel g d P ch E) as (_ & H). rewrite M in H. auto.
  Qed.

  Ltac nz := repeat split; apply Qnz; auto.
  Lemma side_val : forall l r c m, in_grid d l r c -> flat g l -> made_of d (layer_at g l) r c m ->
      (side g d l r c m == 1 / val (conductance_ew g d l r c))%Q.
  Proof.
    intros l r c m I F M. pose proof I as (L & R & C). pose proof (mat_pos l r c m I M) as (_ & KX & _). pose proof (mat_eq l r c m I M) as EM.
    pose proof (dx_pos c C) as DX. pose proof (dy_pos r R) as DY. pose proof (dz_pos l L) as DZ.
    unfold conductance_ew. rewrite (at_layer_in g d G) by exact L. rewrite <- EM. change (height d l) with (dz d l).
    unfold side, flows, is_channel_column. pose proof (dx_length d c) as XL. pose proof (dy_width d r) as YW.
    assert (X : forall h, (0 < h -> slab (dx d c / 2) (mt_kx m) (dy d r * h) == 1 / (mt_kx m * get_cell_width d r * h / (get_cell_length d c / 2)))%Q).
    { intros h H. unfold slab. rewrite <- XL, <- YW. field. nz. }
    destruct F as [S|T].
    - destruct (type_of g l); try discriminate S; cbn [val]; apply X; exact DZ.
    - destruct (chan_4rm l L T) as (E & (H1 & H2 & H3) & _). rewrite T. unfold with_channel. rewrite E. destruct (Z.odd c); cbn [val]; [|apply X; exact DZ].
      unfold film. rewrite <- YW. field. nz.
  Qed.

  Lemma along_val : forall sg l r c m, in_grid d l r c -> flat g l -> flows g l c = false -> made_of d (layer_at g l) r c m ->
      (along d l r c m == 1 / val (conductance_ns sg g d l r c))%Q.
  Proof.
    intros sg l r c m I F W M. pose proof I as (L & R & C). pose proof (mat_pos l r c m I M) as (_ & _ & KY & _). pose proof (mat_eq l r c m I M) as EM.
    pose proof (dx_pos c C) as DX. pose proof (dy_pos r R) as DY. pose proof (dz_pos l L) as DZ.
    unfold conductance_ns. rewrite (at_layer_in g d G) by exact L. rewrite <- EM. change (height d l) with (dz d l).
    unfold flows in W. unfold is_channel_column, along. pose proof (dx_length d c) as XL. pose proof (dy_width d r) as YW.
    assert (X : forall h, (0 < h -> slab (dy d r / 2) (mt_ky m) (dx d c * h) == 1 / (mt_ky m * get_cell_length d c * h / (get_cell_width d r / 2)))%Q).
    { intros h H. unfold slab. rewrite <- XL, <- YW. field. nz. }
    destruct F as [S|T].
    - destruct (type_of g l); try discriminate S; cbn [val]; apply X; exact DZ.
    - rewrite T in *. rewrite W. cbn [val]. apply X. exact DZ.
  Qed.
  Lemma upper_val : forall l r c m, in_grid d l r c -> flat g l -> l < d_nlayers d - 1 -> made_of d (layer_at g l) r c m ->
      (upper g d l r c m == 1 / val (get_conductance_top g d l r c))%Q.
  Proof.
    intros l r c m I F LL M. pose proof I as (L & R & C). pose proof (mat_pos l r c m I M) as (_ & _ & _ & KZ). pose proof (mat_eq l r c m I M) as EM.
    pose proof (dx_pos c C) as DX. pose proof (dy_pos r R) as DY. pose proof (dz_pos l L) as DZ.
    unfold get_conductance_top. rewrite (at_layer_in g d G) by exact L. rewrite (last_layer_eq g d G). rewrite <- EM. change (height d l) with (dz d l).
    unfold upper, flows, is_channel_column, up_distance. pose proof (dx_length d c) as XL. pose proof (dy_width d r) as YW.
    assert (NE : (l =? d_nlayers d - 1) = false) by (apply Z.eqb_neq; lia). rewrite NE.
    assert (X : forall h, (0 < h -> slab h (mt_kz m) (dx d c * dy d r) == 1 / (mt_kz m * (get_cell_length d c * get_cell_width d r) / h))%Q).
    { intros h H. unfold slab. rewrite <- XL, <- YW. field. nz. }
    assert (H2 : (0 < dz d l / 2)%Q) by (apply Qlt_shift_div_l; [reflexivity|lra]).
    destruct F as [S|T].
    - destruct (solid_facts g d G l L S) as (A & B & E).
      destruct (type_of g l); try discriminate S; cbn [to_pcb negb andb].
      1,2: rewrite ?andb_true_r; destruct (l =? 0); cbn [val]; apply X; assumption.
      1,4: destruct (A eq_refl); lia. 1,3: specialize (B eq_refl); lia.
      all: rewrite ?andb_false_r; cbn [val]; apply X; assumption.
    - destruct (chan_4rm l L T) as (E & (W1 & W2 & W3) & B). rewrite T. unfold with_channel. rewrite E.
      assert (N0 : (l =? 0) = false) by (apply Z.eqb_neq; lia). rewrite N0. cbn [andb].
      destruct (Z.odd c); cbn [val]; [|apply X; exact H2]. unfold film. rewrite <- XL, <- YW. field. nz.
  Qed.
  Lemma lower_val : forall l r c m, in_grid d l r c -> flat g l -> 0 < l -> made_of d (layer_at g l) r c m ->
      (lower g d l r c m == 1 / val (get_conductance_bottom g d l r c))%Q.
  Proof.
    intros l r c m I F LL M. pose proof I as (L & R & C). pose proof (mat_pos l r c m I M) as (_ & _ & _ & KZ). pose proof (mat_eq l r c m I M) as EM.
    pose proof (dx_pos c C) as DX. pose proof (dy_pos r R) as DY. pose proof (dz_pos l L) as DZ.
    unfold get_conductance_bottom. rewrite (at_layer_in g d G) by exact L. rewrite (last_layer_eq g d G). rewrite <- EM. change (height d l) with (dz d l).
    unfold lower, flows, is_channel_column, down_distance. pose proof (dx_length d c) as XL. pose proof (dy_width d r) as YW.
    assert (NE : (l =? 0) = false) by (apply Z.eqb_neq; lia). rewrite NE.
    assert (X : forall h, (0 < h -> slab h (mt_kz m) (dx d c * dy d r) == 1 / (mt_kz m * (get_cell_length d c * get_cell_width d r) / h))%Q).
    { intros h H. unfold slab. rewrite <- XL, <- YW. field. nz. }
    assert (H2 : (0 < dz d l / 2)%Q) by (apply Qlt_shift_div_l; [reflexivity|lra]).
    destruct F as [S|T].
    - destruct (solid_facts g d G l L S) as (A & B & E).
      destruct (type_of g l); try discriminate S; cbn [to_ambient to_spreader orb negb andb].
      1,2: rewrite ?andb_true_r; destruct (l =? d_nlayers d - 1); cbn [val]; apply X; assumption.
      3,6: destruct (E eq_refl); lia.
      all: rewrite ?andb_false_r; cbn [val]; apply X; assumption.
    - destruct (chan_4rm l L T) as (E & (W1 & W2 & W3) & B). rewrite T. unfold with_channel. rewrite E.
      assert (N0 : (l =? d_nlayers d - 1) = false) by (apply Z.eqb_neq; lia). rewrite N0. cbn [andb].
      destruct (Z.odd c); cbn [val]; [|apply X; exact H2]. unfold film. rewrite <- XL, <- YW. field. nz.
  Qed.

  Variable m : sysmatrix.
  Hypothesis FM : filled g d an m.

  Lemma link_joined : forall a b x, valid g d b -> In (a, Cond x) (all_links (links_of g d an b)) -> joined m (idx g d a) (idx g d b) x.
  Proof.
    intros a b x B H. destruct FM as (m0 & H1 & H2 & H3). destruct (fill_stored g d an m0 m G H1 H2 H3) as (rt & vt & -> & _). split.
    - rewrite (coeff_link g d an G rt vt a b (Cond x) B H). reflexivity.
    - rewrite (coeff_back g d an G rt vt P b a (Cond x) B H). reflexivity.
  Qed.
  Lemma joined_eq : forall i j x y, (x == y)%Q -> joined m i j x -> joined m i j y.
  Proof. intros i j x y E (A & B). split; [rewrite A|rewrite B]; rewrite E; reflexivity. Qed.
  Lemma joined_sym : forall i j x, joined m i j x -> joined m j i x.
  Proof. intros i j x (A & B). split; assumption. Qed.

  Lemma negb_neq : forall a b, a <> b -> negb (a =? b) = true.
  Proof. intros a b H. apply negb_true_iff. apply Z.eqb_neq. exact H. Qed.
  Lemma flat_links : forall l r c, flat g l ->
      links_of g d an (Cell l r c) = if flows g l c then liquid4_links g d an l r c else solid_links g d an l r c.
  Proof.
    intros l r c F. unfold links_of, flows. destruct F as [S| ->]; [|reflexivity]. destruct (type_of g l); try discriminate S; reflexivity.
  Qed.
  Ltac at_list := repeat first [ apply in_or_app; left; solve [at_list] | apply in_or_app; right | left; reflexivity | right ].

  Lemma ew_joined : forall l r c m1 m2, in_grid d l r c -> c + 1 < d_ncols d -> flat g l ->
      made_of d (layer_at g l) r c m1 -> made_of d (layer_at g l) r (c + 1) m2 ->
      joined m (cell_index d l r c) (cell_index d l r (c + 1)) (through (side g d l r c m1) (side g d l r (c + 1) m2)).
  Proof.
    intros l r c m1 m2 I C1 F M1 M2. pose proof I as (L & R & C).
    assert (I2 : in_grid d l r (c + 1)) by (split; [exact L|split; [exact R|lia]]).
    apply joined_sym. apply (joined_eq _ _ (parallel (val (conductance_ew g d l r c)) (val (conductance_ew g d l r (c + 1))))).
    - assert (F' : is_solid (type_of g l) = true \/ type_of g l = LT_CHANNEL_4RM) by exact F.
      apply parallel_through; [apply (ew_pos g d G P l r c L R C F')|apply (ew_pos g d G P l r (c + 1) L R (proj2 (proj2 I2)) F')| |]; apply side_val; assumption.
    - apply (link_joined (Cell l r (c + 1)) (Cell l r c)); [exact I|]. rewrite flat_links by exact F. unfold all_links.
      assert (W : pw (negb (c =? d_ncols d - 1)) = pw (A := node * flow) true) by (rewrite negb_neq by lia; reflexivity).
      destruct (flows g l c); cbn [liquid4_links solid_links k_before k_after]; rewrite W; apply in_or_app; right; left; reflexivity.
  Qed.
  Lemma ns_joined : forall l r c m1 m2, in_grid d l r c -> r + 1 < d_nrows d -> flat g l -> flows g l c = false ->
      made_of d (layer_at g l) r c m1 -> made_of d (layer_at g l) (r + 1) c m2 ->
      joined m (cell_index d l r c) (cell_index d l (r + 1) c) (through (along d l r c m1) (along d l (r + 1) c m2)).
  Proof.
    intros l r c m1 m2 I R1 F W M1 M2. pose proof I as (L & R & C).
    assert (I2 : in_grid d l (r + 1) c) by (split; [exact L|split; [lia|exact C]]).
    apply joined_sym. apply (joined_eq _ _ (parallel (val (get_conductance_north g d l r c)) (val (get_conductance_south g d l (r + 1) c)))).
    - assert (F' : is_solid (type_of g l) = true \/ type_of g l = LT_CHANNEL_4RM /\ Z.odd c = false).
      { destruct F as [S|T]; [left; exact S|right]. split; [exact T|]. unfold flows in W. rewrite T in W. exact W. }
      apply parallel_through; [apply (ns_pos g d G P l r c L R C _ F')|apply (ns_pos g d G P l (r + 1) c L (proj1 (proj2 I2)) C _ F')| |]; apply along_val; assumption.
    - apply (link_joined (Cell l (r + 1) c) (Cell l r c)); [exact I|]. rewrite flat_links by exact F. rewrite W. unfold all_links.
      assert (W' : pw (negb (r =? d_nrows d - 1)) = pw (A := node * flow) true) by (rewrite negb_neq by lia; reflexivity).
      cbn [solid_links k_before k_after]. rewrite W'. apply in_or_app; right. apply in_or_app; right. left. reflexivity.
  Qed.
  Lemma tb_joined : forall l r c m1 m2, in_grid d l r c -> l + 1 < d_nlayers d -> flat g l -> flat g (l + 1) ->
      made_of d (layer_at g l) r c m1 -> made_of d (layer_at g (l + 1)) r c m2 ->
      joined m (cell_index d l r c) (cell_index d (l + 1) r c) (through (upper g d l r c m1) (lower g d (l + 1) r c m2)).
  Proof.
    intros l r c m1 m2 I L1 F F2 M1 M2. pose proof I as (L & R & C).
    assert (I2 : in_grid d (l + 1) r c) by (split; [lia|split; assumption]).
    assert (NW : forall k, flat g k -> type_of g k <> LT_TOP_WALL /\ type_of g k <> LT_BOTTOM_WALL).
    { intros k [S| ->]; [|split; discriminate]. destruct (type_of g k); try discriminate S; split; discriminate. }
    assert (PT : (0 < val (get_conductance_top g d l r c))%Q).
    { destruct (NW l F). apply (top_pos g d G P l r c L R C); auto. left. lia. }
    assert (PB : (0 < val (get_conductance_bottom g d (l + 1) r c))%Q).
    { destruct (NW (l + 1) F2). apply (bottom_pos g d G P (l + 1) r c (proj1 I2) R C); auto. left. lia. }
    apply joined_sym. apply (joined_eq _ _ (parallel (val (get_conductance_top g d l r c)) (val (get_conductance_bottom g d (l + 1) r c)))).
    - apply parallel_through; [exact PT|exact PB|apply upper_val|apply lower_val]; auto; lia.
    - apply (link_joined (Cell (l + 1) r c) (Cell l r c)); [exact I|]. rewrite flat_links by exact F. unfold all_links.
      assert (W : pw (negb (l =? d_nlayers d - 1)) = pw (A := node * flow) true) by (rewrite negb_neq by lia; reflexivity).
      assert (GE : guarded (cT g d l r c) (cB g d (l + 1) r c) = parallel (val (get_conductance_top g d l r c)) (val (get_conductance_bottom g d (l + 1) r c))).
      { unfold guarded, cT, cB. destruct (Qeq_bool _ 0) eqn:Q; [|reflexivity]. apply Qeq_bool_eq in Q. rewrite Q in PB. discriminate. }
      destruct (flows g l c); cbn [liquid4_links solid_links k_before k_after]; rewrite W, ?GE; apply in_or_app; right; apply in_or_app; right; apply in_or_app; right.
      + left. reflexivity.
      + apply in_or_app; left. left. reflexivity.
  Qed.

  (** ** Channels of four layers *)
  Section Block.
    Variable b : Z.
    Hypothesis B : 0 <= b < d_nlayers d.
    Hypothesis TB : type_of g b = LT_BOTTOM_WALL.

    Lemma block_facts : let ch := channel_of g in four g d ch b /\ (0 < co_vhc ch /\ 0 < ch_porosity ch /\ 0 < wall_part ch)%Q /\
        (0 < htc_up ch /\ 0 < htc_down ch)%Q.
    Proof.
      destruct (place_bottom g d G b B TB) as (ch & F). pose proof F as (E & N1 & N2 & _).
      assert (channel_of g = ch) as -> by (unfold channel_of; rewrite E; reflexivity). cbv zeta.
      destruct (gt_grid d g G) as (GR & GC & _).
      destruct (four_phys g d P b 0 0 B ltac:(lia) ltac:(lia) ch b F) as (V & W). split; [exact F|]. split; [exact V|]. unfold htc_up, htc_down. destruct (ch_model ch); tauto.
    Qed.
    Lemma wall_top_val : forall r c mt, 0 <= r < d_nrows d -> 0 <= c < d_ncols d -> made_of d (layer_at g (b + 1)) r c mt ->
        (val (get_conductance_top g d (b + 1) r c) == 1 / slab (dz d (b + 1) / 2) (mt_kz mt) (wall_part (channel_of g) * (dx d c * dy d r)) /\
         val (get_conductance_bottom g d (b + 1) r c) == 1 / slab (dz d (b + 1) / 2) (mt_kz mt) (wall_part (channel_of g) * (dx d c * dy d r)))%Q.
    Proof.
      intros r c mt R C M. destruct block_facts as (F & (V1 & V2 & V3) & _). pose proof F as (E & N1 & N2 & B1 & B2 & T0 & T1 & T2 & T3 & _).
      assert (I : in_grid d (b + 1) r c) by (split; [lia|split; assumption]).
      pose proof (mat_pos _ r c mt I M) as (_ & _ & _ & KZ). pose proof (mat_eq _ r c mt I M) as EM.
      pose proof (dx_pos c C) as DX. pose proof (dy_pos r R) as DY. pose proof (dz_pos (b + 1) ltac:(lia)) as DZ.
      unfold get_conductance_top, get_conductance_bottom. rewrite !(at_layer_in g d G) by lia. rewrite <- EM. change (height d (b + 1)) with (dz d (b + 1)).
      rewrite T1. pose proof (dx_length d c) as XL. pose proof (dy_width d r) as YW. unfold with_channel. rewrite E.
      unfold wall_of. unfold wall_part in *. destruct (ch_model (channel_of g)); cbn [val]; unfold slab; rewrite <- XL, <- YW; split; field; nz.
    Qed.
    Lemma wall_ns_val : forall sg r c mt, 0 <= r < d_nrows d -> 0 <= c < d_ncols d -> made_of d (layer_at g (b + 1)) r c mt ->
        ch_model (channel_of g) = CM_MC_2RM ->
        (slab (dy d r / 2) (mt_ky mt) (wall_part (channel_of g) * (dx d c * dz d (b + 1))) == 1 / val (conductance_ns sg g d (b + 1) r c) /\
         0 < val (conductance_ns sg g d (b + 1) r c))%Q.
    Proof.
      intros sg r c mt R C M MM. destruct block_facts as (F & (V1 & V2 & V3) & _). pose proof F as (E & N1 & N2 & B1 & B2 & T0 & T1 & T2 & T3 & _).
      assert (I : in_grid d (b + 1) r c) by (split; [lia|split; assumption]).
      pose proof (mat_pos _ r c mt I M) as (_ & _ & KY & KZ). pose proof (mat_eq _ r c mt I M) as EM.
      pose proof (dx_pos c C) as DX. pose proof (dy_pos r R) as DY. pose proof (dz_pos (b + 1) ltac:(lia)) as DZ.
      unfold conductance_ns. rewrite !(at_layer_in g d G) by lia. rewrite <- EM. change (height d (b + 1)) with (dz d (b + 1)).
      rewrite T1, MM. cbn [wall_of]. pose proof (dx_length d c) as XL. pose proof (dy_width d r) as YW. unfold with_channel. rewrite E.
      unfold wall_part in *. cbn [val]. unfold slab. split; [rewrite <- XL, <- YW; field; nz|].
      rewrite <- XL, <- YW. repeat first [assumption | apply Qdiv_pos | apply Qmul_pos | apply Qhalf_pos | reflexivity].
    Qed.
    Lemma cool_val : forall r c, 0 <= r < d_nrows d -> 0 <= c < d_ncols d ->
        (val (get_conductance_top g d (b + 2) r c) == htc_up (channel_of g) * (dx d c * dy d r) /\
         val (get_conductance_bottom g d (b + 2) r c) == htc_down (channel_of g) * (dx d c * dy d r))%Q.
    Proof.
      intros r c R C. destruct block_facts as (F & _). pose proof F as (E & N1 & N2 & B1 & B2 & T0 & T1 & T2 & T3 & _).
      unfold get_conductance_top, get_conductance_bottom. rewrite !(at_layer_in g d G) by lia.
      rewrite T2. pose proof (dx_length d c) as XL. pose proof (dy_width d r) as YW. unfold with_channel. rewrite E.
      unfold cool_of, htc_up, htc_down. destruct (ch_model (channel_of g)); try congruence; cbn [val]; rewrite XL, YW; split; reflexivity.
    Qed.

    Lemma links_at : forall r c,
        links_of g d an (Cell b r c) = bottom_links g d an b r c /\
        links_of g d an (Cell (b + 1) r c) = vwall_links g d an (b + 1) r c /\
        links_of g d an (Cell (b + 3) r c) = top_links g d an (b + 3) r c.
    Proof.
      intros r c. destruct block_facts as (F & _). pose proof F as (E & N1 & N2 & B1 & B2 & T0 & T1 & T2 & T3 & _). unfold links_of.
      rewrite T0, T1, T3. unfold wall_of. destruct (ch_model (channel_of g)); repeat split.
    Qed.
    Lemma block_joined : forall r c mt, 0 <= r < d_nrows d -> 0 <= c < d_ncols d -> made_of d (layer_at g (b + 1)) r c mt ->
        let ch := channel_of g in let area := (dx d c * dy d r)%Q in
        let w := (1 / slab (dz d (b + 1) / 2) (mt_kz mt) (wall_part ch * area))%Q in
        joined m (cell_index d b r c) (cell_index d (b + 1) r c) w /\
        joined m (cell_index d (b + 1) r c) (cell_index d (b + 3) r c) w /\
        joined m (cell_index d b r c) (cell_index d (b + 2) r c) (htc_down ch * area) /\
        joined m (cell_index d (b + 2) r c) (cell_index d (b + 3) r c) (htc_up ch * area).
    Proof.
      intros r c mt R C M ch area w. destruct block_facts as (F & _). pose proof F as (E & N1 & N2 & B1 & B2 & T0 & T1 & T2 & T3 & _).
      destruct (links_at r c) as (L0 & L1 & L3). destruct (wall_top_val r c mt R C M) as (W1 & W2). destruct (cool_val r c R C) as (K1 & K2).
      assert (V : forall k, b <= k <= b + 3 -> valid g d (Cell k r c)) by (intros k Hk; split; [lia|split; assumption]).
      split; [|split; [|split]].
      - apply joined_sym. eapply joined_eq; [exact W1|]. apply (link_joined (Cell (b + 1) r c) (Cell b r c)); [apply V; lia|]. rewrite L0. right. left. reflexivity.
      - eapply joined_eq; [exact W1|]. apply (link_joined (Cell (b + 1) r c) (Cell (b + 3) r c)); [apply V; lia|]. rewrite L3. left.
        unfold cT. replace (b + 3 - 2) with (b + 1) by lia. reflexivity.
      - apply joined_sym. eapply joined_eq; [exact K2|]. apply (link_joined (Cell (b + 2) r c) (Cell b r c)); [apply V; lia|]. rewrite L0. right. right. left. reflexivity.
      - eapply joined_eq; [exact K1|]. apply (link_joined (Cell (b + 2) r c) (Cell (b + 3) r c)); [apply V; lia|]. rewrite L3. right. left.
        unfold cT. replace (b + 3 - 1) with (b + 2) by lia. reflexivity.
    Qed.
    Lemma block_around : forall r c m1 m2, 0 <= r < d_nrows d -> 0 <= c < d_ncols d ->
        made_of d (layer_at g (b - 1)) r c m1 -> made_of d (layer_at g (b + 4)) r c m2 ->
        (is_solid (type_of g (b - 1)) = true -> joined m (cell_index d (b - 1) r c) (cell_index d b r c) (1 / upper g d (b - 1) r c m1)) /\
        (is_solid (type_of g (b + 4)) = true -> joined m (cell_index d (b + 3) r c) (cell_index d (b + 4) r c) (1 / lower g d (b + 4) r c m2)).
    Proof.
      intros r c m1 m2 R C M1 M2. destruct block_facts as (F & _). pose proof F as (E & N1 & N2 & B1 & B2 & T0 & T1 & T2 & T3 & _).
      destruct (links_at r c) as (L0 & L1 & L3).
      assert (V : forall k, b - 1 <= k <= b + 4 -> in_grid d k r c) by (intros k Hk; split; [lia|split; assumption]).
      assert (INV : forall x y : Q, (0 < y -> x == 1 / y -> y == 1 / x)%Q).
      { intros x y Y H. rewrite H. field. nz. }
      split; intro S.
      - eapply joined_eq; [|apply (link_joined (Cell (b - 1) r c) (Cell b r c)); [apply V; lia|rewrite L0; left; reflexivity]].
        apply INV; [|apply upper_val; auto; [apply V; lia|left; exact S|lia]].
        apply (top_pos g d G P (b - 1) r c ltac:(lia) R C); [| |left; lia]; intro Q; rewrite Q in S; discriminate.
      - apply joined_sym. eapply joined_eq; [|apply (link_joined (Cell (b + 4) r c) (Cell (b + 3) r c)); [apply V; lia|rewrite L3; right; right; left]].
        2:{ replace (b + 3 + 1) with (b + 4) by lia. reflexivity. }
        apply INV; [|apply lower_val; auto; [apply V; lia|left; exact S|lia]].
        apply (bottom_pos g d G P (b + 4) r c ltac:(lia) R C); [| |left; lia]; intro Q; rewrite Q in S; discriminate.
    Qed.
    Lemma block_ns : forall r c mt, 0 <= r -> r + 1 < d_nrows d -> 0 <= c < d_ncols d -> made_of d (layer_at g (b + 1)) r c mt ->
        ch_model (channel_of g) = CM_MC_2RM ->
        let x := slab (dy d r / 2) (mt_ky mt) (wall_part (channel_of g) * (dx d c * dz d (b + 1))) in
        joined m (cell_index d (b + 1) r c) (cell_index d (b + 1) (r + 1) c) (through x x).
    Proof.
      intros r c mt R R1 C M MM x. destruct block_facts as (F & _). pose proof F as (E & N1 & N2 & B1 & B2 & T0 & T1 & T2 & T3 & _).
      destruct (links_at r c) as (L0 & L1 & L3).
      destruct (wall_ns_val 1 r c mt ltac:(lia) C M MM) as (A1 & A2). destruct (wall_ns_val (-1) r c mt ltac:(lia) C M MM) as (A3 & A4).
      apply joined_sym. eapply joined_eq; [apply (parallel_through _ _ x x A2 A4); assumption|].
      apply (link_joined (Cell (b + 1) (r + 1) c) (Cell (b + 1) r c)); [split; [lia|split; lia]|]. rewrite L1. unfold vwall_links, all_links. cbn [k_before k_after].
      assert (CH : chan_2rm g = true) by (unfold chan_2rm; rewrite E, MM; reflexivity). rewrite CH, (negb_neq r (d_nrows d - 1)) by lia.
      apply in_or_app. right. left. reflexivity.
    Qed.
  End Block.
End Values.
