(** * Values of the coefficients: coolant, capacities, sinks and spreader *)
From Coq Require Import ZArith List Bool QArith Qfield Lia Lqa.
From Verif Require Import Base QSum Dims DimsSpec DimsProofs Floorplan FloorplanSpec FloorplanProofs Stack StackSpec PowerGrid Emulate EmulateSpec.
From Verif Require Import Conduct Matrix NetProofs MatrixSpec CellProofs NodeProofs LinkProofs SignProofs CscProofs EnumProofs BalanceSpec BalanceProofs VectorProofs CoeffSpec CoeffProofs.
Import ListNotations.
Local Open Scope Z_scope.

Section More.
  Variables (g : tgrid) (d : dims) (an : analysis).
  Hypothesis (G : good_tgrid d g) (P : physical g d).
  Ltac nz := repeat split; apply Qnz; auto.

  (** ** Coolant *)
  Lemma coolant_channel : forall l, 0 <= l < d_nlayers d -> is_coolant (type_of g l) = true ->
      tg_channel g = Some (channel_of g) /\ ch_model (channel_of g) <> CM_NONE.
  Proof.
    intros l L C. unfold channel_of. destruct (layer_type_eq_4rm (type_of g l)) as [E|E].
    - destruct (place_4rm g d G l L E) as (ch & T & M & _). rewrite T. split; [reflexivity|]. congruence.
    - destruct (place_cool g d G l L C E) as (ch & (T & F & F2 & _) & _). rewrite T. split; [reflexivity|]. assumption.
  Qed.
  Lemma coolant_wet : forall l r c, coolant_at g l c = wet g (Cell l r c).
  Proof. reflexivity. Qed.

  Lemma share_value : forall l r c, in_grid d l r c -> physical_flow g -> coolant_at g l c = true ->
      (cN g d l r c == co_vhc (channel_of g) * flow_share d (channel_of g) l c / 2)%Q.
  Proof.
    intros l r c (L & R & C) PF W. rewrite (coolant_wet l r c) in W. pose proof W as W'. unfold wet in W'. apply andb_true_iff in W'. destruct W' as (CO & _).
    destruct (coolant_channel l L CO) as (E & NN). destruct (wet_convection g d G (channel_of g) l r c L E) as (_ & K). rewrite <- (K W).
    specialize (PF _ E). unfold convection, get_convective_term, flow_share.
    pose proof (dx_length d c) as XL.
    assert (NZ : forall n, 0 < n -> (~ qz n == 0)%Q) by (intros n H Q; unfold qz, Qeq in Q; cbn in Q; lia).
    destruct (ch_model (channel_of g)); try congruence.
    - destruct PF as (_ & N). specialize (NZ _ N). field. exact NZ.
    - destruct PF as (_ & N & N2). specialize (NZ _ N). rewrite XL. field. split; [apply Qnz; exact N2|exact NZ].
    - rewrite (get_height g d G) by exact L. cbn [bind]. change (height d l) with (dz d l). rewrite XL. unfold dz. field.
    - rewrite (get_height g d G) by exact L. cbn [bind]. change (height d l) with (dz d l). rewrite XL. unfold dz. field.
  Qed.

  Lemma south_value : forall l r c, 0 <= l < d_nlayers d -> coolant_at g l c = true -> (cS g d l r c == - cN g d l r c)%Q.
  Proof.
    intros l r c L W. unfold coolant_at in W. apply andb_true_iff in W. destruct W as (CO & W). destruct (coolant_channel l L CO) as (E & NN).
    unfold cS, cN, get_conductance_south, get_conductance_north, conductance_ns. rewrite !(at_layer_in g d G) by exact L.
    unfold with_channel, is_channel_column. rewrite E. rewrite (convective_ok g d G) by exact L. cbn [bind].
    destruct (type_of g l); try discriminate CO; rewrite ?W; cbn [val]; ring.
  Qed.

  (** ** Capacities *)
  Lemma block_channel : forall l, 0 <= l < d_nlayers d -> is_solid (type_of g l) = false -> tg_channel g = Some (channel_of g).
  Proof.
    intros l L S0. assert (K : exists ch, tg_channel g = Some ch); [|destruct K as (ch & E); unfold channel_of; rewrite E; reflexivity].
    destruct (gt_shape d g G l L) as [(X & _)|(b & j & I)]; [congruence|]. destruct (block_type g d b j l I) as (ch & E & _). eauto.
  Qed.

  Hypothesis CT : forall l, 0 <= l < d_nlayers d -> centred d (layer_at g l).
  Lemma capacity_value : forall l r c m, in_grid d l r c -> made_of d (layer_at g l) r c m ->
      (cell_cap g d l r c == capacity g d l r c m)%Q.
  Proof.
    intros l r c m I M. pose proof I as (L & R & C). pose proof (mat_eq g d G CT l r c m I M) as EM. pose proof (typed g d G l L) as NT.
    unfold cell_cap, get_capacity. rewrite (at_layer_in g d G) by exact L. rewrite <- EM. change (height d l) with (dz d l).
    pose proof (dx_length d c) as XL. pose proof (dy_width d r) as YW. unfold capacity, volume, wall_part, is_channel_column. cbv zeta.
    pose proof (block_channel l L) as BC. unfold with_channel.
    destruct (type_of g l); try congruence; try (rewrite BC by reflexivity); cbn [val];
      try (destruct (Z.odd c); cbn [val]); rewrite ?XL, ?YW; try reflexivity; ring.
  Qed.
  Lemma capacity_at : forall caps l r c m, cells_capacities g d = Ok caps -> in_grid d l r c -> made_of d (layer_at g l) r c m ->
      (qat caps (cell_index d l r c) == capacity g d l r c m)%Q.
  Proof.
    intros caps l r c m H I M. rewrite (capacities_eq g d G) in H. assert (caps = map (ncap g d) (nodes g d)) as -> by congruence.
    change (cell_index d l r c) with (idx g d (Cell l r c)). rewrite (qat_nodes g d G) by exact I. apply capacity_value; assumption.
  Qed.
  Lemma spreader_capacity_at : forall caps s h mt r c, cells_capacities g d = Ok caps -> tg_top g = Some (SinkPluggable s h mt) ->
      0 <= r < s_nrows s -> 0 <= c < s_ncols s ->
      (qat caps (spreader_index d s r c) == mt_vhc mt * (s_cell_length s * s_cell_width s * h))%Q.
  Proof.
    intros caps s h mt r c H T R C. rewrite (capacities_eq g d G) in H. assert (caps = map (ncap g d) (nodes g d)) as -> by congruence.
    assert (E : spr g = s /\ sp_h g = h /\ sp_m g = mt) by (unfold spr, sp_h, sp_m; rewrite T; auto). destruct E as (E1 & E2 & E3).
    assert (EI : spreader_index d s r c = idx g d (Spr r c)) by (unfold spreader_index, idx; rewrite E1; reflexivity).
    rewrite EI, (qat_nodes g d G).
    - unfold ncap, spreader_capacity. rewrite E1, E2, E3. ring.
    - split; [exists s, h, mt; exact T|]. rewrite E1. auto.
  Qed.

  (** ** Sinks *)
  Lemma top_sink_at : forall v h a r c m, top_tcs g d = Ok v -> tg_top g = Some (SinkTop h a) -> 0 <= r < d_nrows d -> 0 <= c < d_ncols d ->
      made_of d (layer_at g (d_nlayers d - 1)) r c m ->
      (qat v (r * d_ncols d + c) == through (slab (dz d (d_nlayers d - 1) / 2) (mt_kz m) (dx d c * dy d r)) (film h (dx d c * dy d r)))%Q.
  Proof.
    intros v h a r c m H T R C M. pose proof (gt_one d g G) as N1. set (l := d_nlayers d - 1) in *.
    assert (I : in_grid d l r c) by (split; [lia|auto]). pose proof (proj1 I) as L.
    pose proof (mat_pos g d G P CT l r c m I M) as (_ & _ & _ & KZ). pose proof (mat_eq g d G CT l r c m I M) as EM.
    pose proof (dx_pos g d G c C) as DX. pose proof (dy_pos g d G r R) as DY. pose proof (dz_pos g d G P l L) as DZ.
    assert (HA : has_ambient (tg_top g)) by (exists h, a; exact T).
    unfold qat. rewrite (top_tcs_at g d G v H HA r c R C). fold l.
    pose proof (gt_ambient d g G HA) as TA. fold l in TA. pose proof (ph_top g d P h a T) as HP.
    unfold cT, get_conductance_top. rewrite (at_layer_in g d G) by exact L. rewrite <- EM. change (height d l) with (dz d l).
    pose proof (dx_length d c) as XL. pose proof (dy_width d r) as YW. unfold with_top. rewrite T.
    assert (X : (2 * mt_kz m * h * (get_cell_length d c * get_cell_width d r) / (dz d l * h + 2 * mt_kz m) ==
                through (slab (dz d l / 2) (mt_kz m) (dx d c * dy d r)) (film h (dx d c * dy d r)))%Q).
    { unfold through, slab, film. rewrite <- XL, <- YW. field. 
      assert (0 < dz d l * h)%Q by (apply Qmul_pos; assumption).
      repeat split; apply Qnz; auto; lra. }
    destruct (type_of g l); try discriminate TA; cbn [val]; exact X.
  Qed.
  Lemma bottom_sink_at : forall v k r c m, bottom_tcs g d = Ok v -> tg_bottom g = Some k -> 0 <= r < d_nrows d -> 0 <= c < d_ncols d ->
      made_of d (layer_at g 0) r c m ->
      (qat v (r * d_ncols d + c) == through (slab (dz d 0 / 2) (mt_kz m) (dx d c * dy d r)) (film (bs_htc k) (dx d c * dy d r)))%Q.
  Proof.
    intros v k r c m H T R C M. pose proof (gt_one d g G) as N1.
    assert (I : in_grid d 0 r c) by (split; [lia|auto]). pose proof (proj1 I) as L.
    pose proof (mat_pos g d G P CT 0 r c m I M) as (_ & _ & _ & KZ). pose proof (mat_eq g d G CT 0 r c m I M) as EM.
    pose proof (dx_pos g d G c C) as DX. pose proof (dy_pos g d G r R) as DY. pose proof (dz_pos g d G P 0 L) as DZ.
    assert (HA : tg_bottom g <> None) by congruence.
    unfold qat. rewrite (bottom_tcs_at g d G v H HA r c R C).
    pose proof (gt_pcb d g G HA) as TA. pose proof (ph_bottom g d P k T) as HP. set (h := bs_htc k) in *.
    unfold cB, get_conductance_bottom. rewrite (at_layer_in g d G) by exact L. rewrite <- EM. change (height d 0) with (dz d 0).
    pose proof (dx_length d c) as XL. pose proof (dy_width d r) as YW. unfold with_bottom. rewrite T. fold h.
    assert (X : (2 * mt_kz m * h * (get_cell_length d c * get_cell_width d r) / (dz d 0 * h + 2 * mt_kz m) ==
                through (slab (dz d 0 / 2) (mt_kz m) (dx d c * dy d r)) (film h (dx d c * dy d r)))%Q).
    { unfold through, slab, film. rewrite <- XL, <- YW. field. 
      assert (0 < dz d 0 * h)%Q by (apply Qmul_pos; assumption).
      repeat split; apply Qnz; auto; lra. }
    destruct (type_of g 0); try discriminate TA; cbn [val]; exact X.
  Qed.

  (** ** Convection and spreader in the matrix *)
  Variable m : sysmatrix.
  Hypothesis FM : filled g d an m.

  Lemma flow_links : forall l r c, coolant_at g l c = true ->
      links_of g d an (Cell l r c) = liquid4_links g d an l r c \/ links_of g d an (Cell l r c) = liquid2_links g d an l r c.
  Proof.
    intros l r c W. unfold coolant_at in W. apply andb_true_iff in W. destruct W as (CO & W). unfold links_of.
    destruct (type_of g l); try discriminate CO; rewrite ?W; auto.
  Qed.
  Lemma conv_at : forall l r c, in_grid d l r c -> r + 1 < d_nrows d -> physical_flow g -> coolant_at g l c = true ->
      let carried := (co_vhc (channel_of g) * flow_share d (channel_of g) l c)%Q in
      (coefficient m (cell_index d l (r + 1) c) (cell_index d l r c) == - (carried / 2))%Q /\
      (coefficient m (cell_index d l r c) (cell_index d l (r + 1) c) == carried / 2)%Q.
  Proof.
    intros l r c I R1 PF W carried. pose proof I as (L & R & C).
    assert (I2 : in_grid d l (r + 1) c) by (split; [exact L|split; [lia|exact C]]).
    destruct FM as (m0 & H1 & H2 & H3). destruct (fill_stored g d an m0 m G H1 H2 H3) as (rt & vt & -> & _).
    change (cell_index d l (r + 1) c) with (idx g d (Cell l (r + 1) c)). change (cell_index d l r c) with (idx g d (Cell l r c)).
    split.
    - assert (X : In (Cell l (r + 1) c, Conv (cS g d l r c)) (all_links (links_of g d an (Cell l r c)))).
      { assert (W' : pw (negb (r =? d_nrows d - 1)) = pw (A := node * flow) true) by (rewrite negb_neq by lia; reflexivity).
        destruct (flow_links l r c W) as [E|E]; rewrite E; unfold all_links; cbn [liquid4_links liquid2_links k_before k_after]; rewrite W'; apply in_or_app; right.
        - apply in_or_app; right. left. reflexivity.
        - left. reflexivity. }
      rewrite (coeff_link g d an G rt vt _ (Cell l r c) _ I X). cbn [fval]. rewrite (south_value l r c L W), (share_value l r c I PF W). reflexivity.
    - assert (X : In (Cell l (r + 1 - 1) c, Conv (cN g d l (r + 1) c)) (all_links (links_of g d an (Cell l (r + 1) c)))).
      { assert (W' : pw (negb (r + 1 =? 0)) = pw (A := node * flow) true) by (rewrite negb_neq by lia; reflexivity).
        destruct (flow_links l (r + 1) c W) as [E|E]; rewrite E; unfold all_links; cbn [liquid4_links liquid2_links k_before k_after]; rewrite W'; apply in_or_app; left.
        - apply in_or_app; right. left. reflexivity.
        - right. left. reflexivity. }
      replace (r + 1 - 1) with r in X by lia.
      rewrite (coeff_link g d an G rt vt _ (Cell l (r + 1) c) _ I2 X). cbn [fval]. rewrite (share_value l (r + 1) c I2 PF W). reflexivity.
  Qed.

  Variables (s : spreader) (h : Q) (mt : material).
  Hypothesis T : tg_top g = Some (SinkPluggable s h mt).
  Lemma spr_eq : spr g = s /\ sp_h g = h /\ sp_m g = mt.
  Proof. unfold spr, sp_h, sp_m. rewrite T. auto. Qed.
  Lemma spr_idx : forall r c, spreader_index d s r c = idx g d (Spr r c).
  Proof. intros r c. destruct spr_eq as (E1 & _). unfold spreader_index, idx. rewrite E1. reflexivity. Qed.
  Lemma spr_valid : forall r c, 0 <= r < s_nrows s -> 0 <= c < s_ncols s -> valid g d (Spr r c).
  Proof. intros r c R C. destruct spr_eq as (E1 & _). split; [exists s, h, mt; exact T|]. rewrite E1. auto. Qed.
  Lemma spr_facts : (0 < s_cell_length s /\ 0 < s_cell_width s /\ 0 < h)%Q /\ physical_material mt.
  Proof. destruct (ph_spreader g d P s h mt T) as ((A & B & C) & D). auto. Qed.
  Lemma spr_ew : forall r c, 0 <= r < s_nrows s -> 0 <= c -> c + 1 < s_ncols s ->
      let x := slab (s_cell_length s / 2) (mt_kx mt) (s_cell_width s * h) in
      joined m (spreader_index d s r c) (spreader_index d s r (c + 1)) (through x x).
  Proof.
    intros r c R C C1 x. destruct spr_eq as (E1 & E2 & E3). destruct spr_facts as ((A1 & A2 & A3) & (_ & B1 & B2 & B3)).
    apply joined_sym. rewrite !spr_idx. apply (joined_eq m _ _ (lew g)).
    - unfold lew. assert (V : (spreader_east_west s h mt == 1 / x)%Q) by (unfold spreader_east_west, x, slab; field; nz).
      assert (V0 : (0 < spreader_east_west s h mt)%Q) by (unfold spreader_east_west; repeat first [assumption | apply Qdiv_pos | apply Qmul_pos | apply Qhalf_pos | reflexivity]).
      rewrite E1, E2, E3. apply parallel_through; try exact V0; rewrite V; unfold x, slab; field; nz.
    - apply (link_joined g d an G P m FM (Spr r (c + 1)) (Spr r c)); [apply spr_valid; lia|].
      unfold links_of, spreader_links, all_links. cbn [k_before k_after]. rewrite E1, (negb_neq c (s_ncols s - 1)) by lia. apply in_or_app; right. left. reflexivity.
  Qed.
  Lemma spr_ns : forall r c, 0 <= r -> r + 1 < s_nrows s -> 0 <= c < s_ncols s ->
      let x := slab (s_cell_width s / 2) (mt_ky mt) (s_cell_length s * h) in
      joined m (spreader_index d s r c) (spreader_index d s (r + 1) c) (through x x).
  Proof.
    intros r c R R1 C x. destruct spr_eq as (E1 & E2 & E3). destruct spr_facts as ((A1 & A2 & A3) & (_ & B1 & B2 & B3)).
    apply joined_sym. rewrite !spr_idx. apply (joined_eq m _ _ (lns g)).
    - unfold lns. assert (V : (spreader_north_south s h mt == 1 / x)%Q) by (unfold spreader_north_south, x, slab; field; nz).
      assert (V0 : (0 < spreader_north_south s h mt)%Q) by (unfold spreader_north_south; repeat first [assumption | apply Qdiv_pos | apply Qmul_pos | apply Qhalf_pos | reflexivity]).
      rewrite E1, E2, E3. apply parallel_through; try exact V0; rewrite V; unfold x, slab; field; nz.
    - apply (link_joined g d an G P m FM (Spr (r + 1) c) (Spr r c)); [apply spr_valid; lia|].
      unfold links_of, spreader_links, all_links. cbn [k_before k_after]. rewrite E1, (negb_neq r (s_nrows s - 1)) by lia. apply in_or_app; right. apply in_or_app; right. left. reflexivity.
  Qed.
  (** Cell (r,c) of the last layer and the spreader cell above it. *)
  Lemma spr_layer : forall r c mm, 0 <= r < d_nrows d -> 0 <= c < d_ncols d -> made_of d (layer_at g (d_nlayers d - 1)) r c mm ->
      joined m (cell_index d (d_nlayers d - 1) r c) (spreader_index d s (r + s_border_rows s) (c + s_border_cols s))
             (through (slab (if d_nlayers d =? 1 then dz d (d_nlayers d - 1) else dz d (d_nlayers d - 1) / 2) (mt_kz mm) (dx d c * dy d r))
                      (slab (h / 2) (mt_kz mt) (s_cell_length s * s_cell_width s))).
  Proof.
    intros r c mm R C M. destruct spr_eq as (E1 & E2 & E3). destruct spr_facts as ((A1 & A2 & A3) & (_ & B1 & B2 & B3)).
    pose proof (gt_one d g G) as N1. set (l := d_nlayers d - 1) in *.
    assert (I : in_grid d l r c) by (split; [lia|auto]). pose proof (proj1 I) as L.
    pose proof (mat_pos g d G P CT l r c mm I M) as (_ & _ & _ & KZ). pose proof (mat_eq g d G CT l r c mm I M) as EM.
    pose proof (dx_pos g d G c C) as DX. pose proof (dy_pos g d G r R) as DY. pose proof (dz_pos g d G P l L) as DZ.
    assert (TS : to_spreader (type_of g l) = true) by (apply (gt_linked d g G); exists s, h, mt; exact T).
    apply joined_sym. rewrite spr_idx. change (cell_index d l r c) with (idx g d (Cell l r c)).
    set (y := slab (h / 2) (mt_kz mt) (s_cell_length s * s_cell_width s)).
    set (x := slab (if d_nlayers d =? 1 then dz d l else dz d l / 2) (mt_kz mm) (dx d c * dy d r)).
    assert (VY : (y == 1 / spreader_top_bottom s h mt)%Q) by (unfold spreader_top_bottom, y, slab; field; nz).
    assert (VY0 : (0 < spreader_top_bottom s h mt)%Q) by (unfold spreader_top_bottom; repeat first [assumption | apply Qdiv_pos | apply Qmul_pos | apply Qhalf_pos | reflexivity]).
    assert (NW : type_of g l <> LT_TOP_WALL /\ type_of g l <> LT_BOTTOM_WALL /\ is_solid (type_of g l) = true).
    { destruct (type_of g l); try discriminate TS; repeat split; discriminate. }
    destruct NW as (NW1 & NW2 & SO).
    assert (VX0 : (0 < cT g d l r c)%Q).
    { unfold cT. apply (top_pos g d G P l r c L R C NW1 NW2). right. right. exact TS. }
    assert (VX : (x == 1 / cT g d l r c)%Q).
    { unfold cT, get_conductance_top. rewrite (at_layer_in g d G) by exact L. rewrite (last_layer_eq g d G). rewrite <- EM. change (height d l) with (dz d l).
      pose proof (dx_length d c) as XL. pose proof (dy_width d r) as YW. unfold x.
      assert (EB : (d_nlayers d =? 1) = (l =? 0)) by (unfold l; apply Bool.eq_iff_eq_true; rewrite !Z.eqb_eq; lia). rewrite EB.
      assert (X : forall k, (0 < k -> slab k (mt_kz mm) (dx d c * dy d r) == 1 / (mt_kz mm * (get_cell_length d c * get_cell_width d r) / k))%Q).
      { intros k H. unfold slab. rewrite <- XL, <- YW. field. nz. }
      fold l. rewrite Z.eqb_refl. cbn [negb].
      assert (H2 : (0 < dz d l / 2)%Q) by (apply Qlt_shift_div_l; [reflexivity|lra]).
      destruct (type_of g l); try discriminate TS; destruct (l =? 0); cbn [val]; apply X; assumption. }
    apply (joined_eq m _ _ (parallel (tb g) (cT g d l r c))).
    - unfold tb. rewrite E1, E2, E3. rewrite (parallel_through _ _ y x VY0 VX0).
      + unfold through. rewrite (Qplus_comm y x). reflexivity.
      + rewrite VY. field. nz.
      + rewrite VX. field. nz.
    - apply (link_joined g d an G P m FM (Spr (r + s_border_rows s) (c + s_border_cols s)) (Cell l r c)); [exact I|].
      assert (LK : links_of g d an (Cell l r c) = solid_links g d an l r c).
      { unfold links_of. destruct (type_of g l); try discriminate TS; reflexivity. }
      rewrite LK. unfold all_links, solid_links. cbn [k_before k_after]. rewrite TS, E1. apply in_or_app; right. do 3 (apply in_or_app; right). left. reflexivity.
  Qed.
End More.
