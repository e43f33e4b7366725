(** * C53: the coefficients of the system are the conductances, flows and
      capacities of the described stack *)
From Coq Require Import ZArith List Bool QArith Qfield Lia Lqa.
From Verif Require Import Base QSum Dims DimsSpec DimsProofs Floorplan FloorplanSpec FloorplanProofs Stack StackSpec PowerGrid Emulate EmulateSpec.
From Verif Require Import Conduct Matrix NetProofs MatrixSpec CellProofs NodeProofs LinkProofs SignProofs CscProofs EnumProofs BalanceSpec BalanceProofs VectorProofs CoeffSpec CoeffProofs CoeffMore.
From Verif Require Import PropStack SimWitness MatrixWitness PropMatrix.
From Verif Require Import CoeffSpec CoeffMore.
Import ListNotations.
Local Open Scope Z_scope.

(** [m] is the matrix filled for the stack [g] on the grid [d]: physical
    parameters, and no layout of materials on a grid of two columns (whose
    centres are wrong, see C12_two_columns_center_refuted). *)
Record built (g : tgrid) (d : dims) (an : analysis) (m : sysmatrix) : Prop := {
  bt_grid : good_tgrid d g;
  bt_physical : physical g d;
  bt_layouts : forall l, 0 <= l < d_nlayers d -> d_ncols d <> 2 \/ ly_layout (layer_at g l) = [];
  bt_filled : filled g d an m
}.
Definition cell_of (d : dims) (l r c : Z) : Prop := 0 <= l < d_nlayers d /\ 0 <= r < d_nrows d /\ 0 <= c < d_ncols d.

(** Neighbours in x, y and z exchange heat through the two half cells in series:
    slabs of their materials, or the film of the coolant in a 4RM channel. *)
Theorem C53_lateral : forall g d an m, built g d an m -> forall l r c m1 m2, cell_of d l r c -> c + 1 < d_ncols d -> flat g l ->
    made_of d (layer_at g l) r c m1 -> made_of d (layer_at g l) r (c + 1) m2 ->
    joined m (cell_index d l r c) (cell_index d l r (c + 1)) (through (side g d l r c m1) (side g d l r (c + 1) m2)).
Proof. intros g d an m [G P CT FM] l r c m1 m2 I. apply (ew_joined g d an G P CT m FM); assumption. Qed.
Theorem C53_along : forall g d an m, built g d an m -> forall l r c m1 m2, cell_of d l r c -> r + 1 < d_nrows d -> flat g l -> flows g l c = false ->
    made_of d (layer_at g l) r c m1 -> made_of d (layer_at g l) (r + 1) c m2 ->
    joined m (cell_index d l r c) (cell_index d l (r + 1) c) (through (along d l r c m1) (along d l (r + 1) c m2)).
Proof. intros g d an m [G P CT FM] l r c m1 m2 I. apply (ns_joined g d an G P CT m FM); assumption. Qed.
Theorem C53_vertical : forall g d an m, built g d an m -> forall l r c m1 m2, cell_of d l r c -> l + 1 < d_nlayers d -> flat g l -> flat g (l + 1) ->
    made_of d (layer_at g l) r c m1 -> made_of d (layer_at g (l + 1)) r c m2 ->
    joined m (cell_index d l r c) (cell_index d (l + 1) r c) (through (upper g d l r c m1) (lower g d (l + 1) r c m2)).
Proof. intros g d an m [G P CT FM] l r c m1 m2 I. apply (tb_joined g d an G P CT m FM); assumption. Qed.
(** Every cell has a material. *)
Theorem C53_material : forall g d an m, built g d an m -> forall l r c, cell_of d l r c -> exists mt, made_of d (layer_at g l) r c mt.
Proof. intros g d an m [G P CT FM] l r c (L & R & C). eexists. apply made_of_exists; auto; [apply (gt_grid d g G)|exact (CT l L)]. Qed.
Print Assumptions C53_lateral. Print Assumptions C53_along. Print Assumptions C53_vertical. Print Assumptions C53_material.

(** Four-layer channels (2RM and pin fins), bottom wall in layer [b]: the walls
    conduct through the solid part of each half of the channel height and meet
    the coolant through its films; the solid layers around reach the walls
    directly; with 2RM the side walls conduct along the channel. *)
Theorem C53_channel : forall g d an m, built g d an m -> forall b r c mt, cell_of d b r c -> type_of g b = LT_BOTTOM_WALL ->
    made_of d (layer_at g (b + 1)) r c mt ->
    let ch := channel_of g in let area := (dx d c * dy d r)%Q in
    let w := (1 / slab (dz d (b + 1) / 2) (mt_kz mt) (wall_part ch * area))%Q in
    joined m (cell_index d b r c) (cell_index d (b + 1) r c) w /\
    joined m (cell_index d (b + 1) r c) (cell_index d (b + 3) r c) w /\
    joined m (cell_index d b r c) (cell_index d (b + 2) r c) (htc_down ch * area) /\
    joined m (cell_index d (b + 2) r c) (cell_index d (b + 3) r c) (htc_up ch * area).
Proof. intros g d an m [G P CT FM] b r c mt (L & R & C) T M. apply (block_joined g d an G P CT m FM b L T r c mt R C M). Qed.
Theorem C53_around_channel : forall g d an m, built g d an m -> forall b r c m1 m2, cell_of d b r c -> type_of g b = LT_BOTTOM_WALL ->
    made_of d (layer_at g (b - 1)) r c m1 -> made_of d (layer_at g (b + 4)) r c m2 ->
    (is_solid (type_of g (b - 1)) = true -> joined m (cell_index d (b - 1) r c) (cell_index d b r c) (1 / upper g d (b - 1) r c m1)) /\
    (is_solid (type_of g (b + 4)) = true -> joined m (cell_index d (b + 3) r c) (cell_index d (b + 4) r c) (1 / lower g d (b + 4) r c m2)).
Proof. intros g d an m [G P CT FM] b r c m1 m2 (L & R & C) T M1 M2. apply (block_around g d an G P CT m FM b L T r c m1 m2 R C M1 M2). Qed.
Theorem C53_side_walls : forall g d an m, built g d an m -> forall b r c mt, cell_of d b r c -> r + 1 < d_nrows d -> type_of g b = LT_BOTTOM_WALL ->
    made_of d (layer_at g (b + 1)) r c mt -> ch_model (channel_of g) = CM_MC_2RM ->
    let x := slab (dy d r / 2) (mt_ky mt) (wall_part (channel_of g) * (dx d c * dz d (b + 1))) in
    joined m (cell_index d (b + 1) r c) (cell_index d (b + 1) (r + 1) c) (through x x).
Proof. intros g d an m [G P CT FM] b r c mt (L & R & C) R1 T M MM. apply (block_ns g d an G P CT m FM b L T r c mt ltac:(lia) R1 C M MM). Qed.
Print Assumptions C53_channel. Print Assumptions C53_around_channel. Print Assumptions C53_side_walls.

(** Coolant: the heat carried per degree by the share of the flow that crosses
    the column, at the mean of the temperatures of the two cells. *)
Theorem C53_coolant : forall g d an m, built g d an m -> physical_flow g -> forall l r c, cell_of d l r c -> r + 1 < d_nrows d ->
    coolant_at g l c = true ->
    let carried := (co_vhc (channel_of g) * flow_share d (channel_of g) l c)%Q in
    (coefficient m (cell_index d l (r + 1) c) (cell_index d l r c) == - (carried / 2))%Q /\
    (coefficient m (cell_index d l r c) (cell_index d l (r + 1) c) == carried / 2)%Q.
Proof. intros g d an m [G P CT FM] PF l r c I R1 W. apply (conv_at g d an G m FM l r c I R1 PF W). Qed.
Print Assumptions C53_coolant.

(** The shares add up to the declared flow (in um^3/s): exactly with the 4RM
    channels; with 2RM channels up to the rounding of the number of channels. *)
Definition all_columns (g : tgrid) (d : dims) (l : Z) : Q :=
  qsum (map (fun c => if coolant_at g l c then flow_share d (channel_of g) l c else 0%Q) (zrange 0 (d_ncols d - 1))).
Definition per_second (ml_per_minute : Q) : Q := (ml_per_minute * (1000000 * 1000000) / 60)%Q.

Lemma odd_columns : forall x k, (qsum (map (fun c => if Z.odd c then x else 0%Q) (zrange 0 (2 * Z.of_nat k))) == qz (Z.of_nat k) * x)%Q.
Proof.
  intros x k. induction k as [|k IH].
  - change (zrange 0 (2 * Z.of_nat 0)) with [0]. cbn [map qsum fold_right Z.odd]. change (qz (Z.of_nat 0)) with 0%Q. ring.
  - rewrite (zrange_split 0 (2 * Z.of_nat k) (2 * Z.of_nat (S k))) by lia. rewrite map_app, qsum_app, IH.
    rewrite zrange_cons by lia. rewrite (zrange_cons (2 * Z.of_nat k + 1 + 1)) by lia.
    replace (zrange (2 * Z.of_nat k + 1 + 1 + 1) (2 * Z.of_nat (S k))) with (@nil Z).
    2:{ symmetry. apply length_zero_iff_nil. apply Nat2Z.inj. rewrite zrange_length. lia. }
    cbn [map qsum fold_right]. replace (Z.odd (2 * Z.of_nat k + 1)) with true by (rewrite Z.odd_add, Z.odd_mul; reflexivity).
    replace (Z.odd (2 * Z.of_nat k + 1 + 1)) with false by (rewrite !Z.odd_add, Z.odd_mul; reflexivity).
    rewrite Nat2Z.inj_succ. unfold Z.succ. rewrite qz_plus. change (qz 1) with 1%Q. ring.
Qed.

Theorem C53_flow_4rm : forall g d l height wall flow hs ht hb vhc tin ch L k,
    good_tgrid d g -> 0 <= l < d_nlayers d -> type_of g l = LT_CHANNEL_4RM ->
    d_ncols d = 2 * k + 3 -> 0 <= k ->
    declare_channel (Decl4RM height wall flow hs ht hb vhc tin) L (d_ncols d) = Ok ch -> tg_channel g = Some ch ->
    (all_columns g d l == per_second flow)%Q.
Proof.
  intros g d l h w fl hs ht hb vhc tin ch L k G LL T NC K DC TC. unfold all_columns, coolant_at. rewrite T. cbn [is_coolant andb].
  unfold channel_of. rewrite TC. cbn in DC. assert (E := f_equal (fun o => match o with Ok a => a | _ => ch end) DC). cbn in E. clear DC.
  destruct (gt_grid d g G) as (_ & GC & _).
  assert (EN : u32 (d_ncols d - 1) / 2 = k + 1) by (rewrite u32_id by lia; rewrite NC; replace (2 * k + 3 - 1) with ((k + 1) * 2) by lia; apply Z.div_mul; lia).
  rewrite EN in E. rewrite <- E. unfold flow_share. cbn [ch_model co_flow_rate ch_nchannels].
  rewrite NC. replace (2 * k + 3 - 1) with (2 * Z.of_nat (Z.to_nat (k + 1))) by lia. rewrite odd_columns. rewrite Z2Nat.id by lia.
  unfold per_second, flow_rate_um3sec. rewrite qz_plus. change (qz 1) with 1%Q.
  change (inject_Z 1000000000000) with (1000000 * 1000000)%Q. change (inject_Z 60) with 60%Q. field.
  intro Q0. assert (0 <= qz k)%Q by (unfold qz, Qle; cbn; lia). lra.
Qed.
Print Assumptions C53_flow_4rm.

(** Total length of the columns. *)
Definition chip_span (d : dims) : Q := qsum (map (dx d) (zrange 0 (d_ncols d - 1))).
Theorem C53_flow_2rm : forall g d l height len wl wall flow hs ht hb vhc tin ch L,
    0 <= l < d_nlayers d -> type_of g l = LT_CHANNEL_2RM -> (0 < len /\ 0 < wl)%Q ->
    declare_channel (Decl2RM height len wl wall flow hs ht hb vhc tin) L (d_ncols d) = Ok ch -> tg_channel g = Some ch ->
    0 < ch_nchannels ch ->
    (all_columns g d l == per_second flow * ((chip_span d / (wl + len)) / qz (ch_nchannels ch)))%Q /\
    ((chip_span d == qz (ch_nchannels ch) * (wl + len)) -> all_columns g d l == per_second flow)%Q.
Proof.
  intros g d l h len wl w fl hs ht hb vhc tin ch L LL T (P1 & P2) DC TC NP. unfold all_columns, coolant_at. rewrite T. cbn [is_coolant andb].
  unfold channel_of. rewrite TC. cbn in DC. destruct (to_u32 _) as [n| |]; cbn in DC; try discriminate.
  assert (E := f_equal (fun o => match o with Ok a => a | _ => ch end) DC). cbn in E. clear DC. rewrite <- E in *. clear E TC.
  unfold flow_share. cbn [ch_model co_flow_rate ch_nchannels ch_porosity ch_length] in *.
  assert (NZ : (~ qz n == 0)%Q) by (intro Q0; unfold qz, Qeq in Q0; cbn in Q0; lia).
  assert (NW : (~ wl + len == 0)%Q) by lra. assert (NLN : (~ len == 0)%Q) by lra.
  assert (MAIN : (qsum (map (fun c => flow_rate_um3sec fl / qz n * (len / (wl + len) * dx d c / len)) (zrange 0 (d_ncols d - 1))) ==
          per_second fl * ((chip_span d / (wl + len)) / qz n))%Q).
  { unfold chip_span. set (zs := zrange 0 (d_ncols d - 1)).
    rewrite (qsum_ext _ (fun c => (flow_rate_um3sec fl / qz n / (wl + len)) * dx d c)%Q).
    2:{ intros c _. field. auto. }
    rewrite qsum_scale.
    unfold per_second, flow_rate_um3sec. change (inject_Z 1000000000000) with (1000000 * 1000000)%Q. change (inject_Z 60) with 60%Q. field. auto. }
  split; [exact MAIN|]. intro EQ. rewrite MAIN, EQ. field. auto.
Qed.
Print Assumptions C53_flow_2rm.

(** Heat capacities: material times volume, of the solid or of the coolant. *)
Theorem C53_capacity : forall g d an m, built g d an m -> forall caps, cells_capacities g d = Ok caps ->
    (forall l r c mt, cell_of d l r c -> made_of d (layer_at g l) r c mt -> (qat caps (cell_index d l r c) == capacity g d l r c mt)%Q) /\
    (forall s h mt r c, tg_top g = Some (SinkPluggable s h mt) -> 0 <= r < s_nrows s -> 0 <= c < s_ncols s ->
       (qat caps (spreader_index d s r c) == mt_vhc mt * (s_cell_length s * s_cell_width s * h))%Q).
Proof.
  intros g d an m [G P CT FM] caps H. split.
  - intros l r c mt I M. apply (capacity_at g d G CT caps l r c mt H I M).
  - intros s h mt r c T R C. apply (spreader_capacity_at g d G caps s h mt r c H T R C).
Qed.
(** Sinks: half of the height of the outer layer, then the film. *)
Theorem C53_sinks : forall g d an m, built g d an m -> forall r c mt, 0 <= r < d_nrows d -> 0 <= c < d_ncols d ->
    (forall v h a, top_tcs g d = Ok v -> tg_top g = Some (SinkTop h a) -> made_of d (layer_at g (d_nlayers d - 1)) r c mt ->
       (qat v (r * d_ncols d + c) == through (slab (dz d (d_nlayers d - 1) / 2) (mt_kz mt) (dx d c * dy d r)) (film h (dx d c * dy d r)))%Q) /\
    (forall v k, bottom_tcs g d = Ok v -> tg_bottom g = Some k -> made_of d (layer_at g 0) r c mt ->
       (qat v (r * d_ncols d + c) == through (slab (dz d 0 / 2) (mt_kz mt) (dx d c * dy d r)) (film (bs_htc k) (dx d c * dy d r)))%Q).
Proof.
  intros g d an m [G P CT FM] r c mt R C. split.
  - intros v h a H T M. apply (top_sink_at g d G P CT v h a r c mt H T R C M).
  - intros v k H T M. apply (bottom_sink_at g d G P CT v k r c mt H T R C M).
Qed.
(** Spreader. *)
Theorem C53_spreader : forall g d an m, built g d an m -> forall s h mt, tg_top g = Some (SinkPluggable s h mt) ->
    (forall r c, 0 <= r < s_nrows s -> 0 <= c -> c + 1 < s_ncols s ->
       let x := slab (s_cell_length s / 2) (mt_kx mt) (s_cell_width s * h) in
       joined m (spreader_index d s r c) (spreader_index d s r (c + 1)) (through x x)) /\
    (forall r c, 0 <= r -> r + 1 < s_nrows s -> 0 <= c < s_ncols s ->
       let x := slab (s_cell_width s / 2) (mt_ky mt) (s_cell_length s * h) in
       joined m (spreader_index d s r c) (spreader_index d s (r + 1) c) (through x x)) /\
    (forall r c mm, 0 <= r < d_nrows d -> 0 <= c < d_ncols d -> made_of d (layer_at g (d_nlayers d - 1)) r c mm ->
       joined m (cell_index d (d_nlayers d - 1) r c) (spreader_index d s (r + s_border_rows s) (c + s_border_cols s))
              (through (slab (if d_nlayers d =? 1 then dz d (d_nlayers d - 1) else dz d (d_nlayers d - 1) / 2) (mt_kz mm) (dx d c * dy d r))
                       (slab (h / 2) (mt_kz mt) (s_cell_length s * s_cell_width s)))).
Proof.
  intros g d an m [G P CT FM] s h mt T. split; [|split].
  - intros r c R C C1. apply (spr_ew g d an G P m FM s h mt T); assumption.
  - intros r c R R1 C. apply (spr_ns g d an G P m FM s h mt T); assumption.
  - intros r c mm R C M. apply (spr_layer g d an G P CT m FM s h mt T r c mm R C M).
Qed.
Print Assumptions C53_capacity. Print Assumptions C53_sinks. Print Assumptions C53_spreader.

(** Nodes are not always at the middle of the cell: in a stack without bottom
    sink the conductance from the first layer upwards is computed with its whole
    height. *)
Lemma cool_built : built gcool (dcool 2) (wan 1 0) (mcool 2).
Proof.
  constructor.
  - apply gcool_good. auto.
  - apply gcool_physical. auto.
  - intros l L. right. cbn in L. assert (l = 0 \/ l = 1 \/ l = 2) as [-> |[-> | ->]] by lia; reflexivity.
  - exact (as_matrix _ _ _ (scool_assembled 2 (repeat 0%Q 18) (repeat 300%Q 18) (or_intror eq_refl))).
Qed.
Theorem C53_half_height_refuted : exists g d an m r c m1 m2, built g d an m /\ cell_of d 0 r c /\ 1 < d_nlayers d /\ flat g 0 /\ flat g 1 /\
    flows g 1 c = false /\ made_of d (layer_at g 0) r c m1 /\ made_of d (layer_at g 1) r c m2 /\
    ~ joined m (cell_index d 0 r c) (cell_index d 1 r c)
             (through (slab (dz d 0 / 2) (mt_kz m1) (dx d c * dy d r)) (slab (dz d 1 / 2) (mt_kz m2) (dx d c * dy d r))).
Proof.
  exists gcool, (dcool 2), (wan 1 0), (mcool 2), 0, 0, wmat, wmat. split; [apply cool_built|]. split; [vm_compute; repeat split; discriminate|].
  split; [reflexivity|]. split; [left; reflexivity|]. split; [right; reflexivity|]. split; [reflexivity|].
  split; [right; split; [constructor|reflexivity]|]. split; [right; split; [constructor|reflexivity]|].
  intros (A & _). vm_compute in A. discriminate.
Qed.
Print Assumptions C53_half_height_refuted.

Example C53_witness : exists g d an m, built g d an m /\ physical_flow g /\
    (exists l r c, cell_of d l r c /\ r + 1 < d_nrows d /\ coolant_at g l c = true /\
       ~ (co_vhc (channel_of g) * flow_share d (channel_of g) l c == 0)%Q) /\
    (exists l r c mt, cell_of d l r c /\ c + 1 < d_ncols d /\ flat g l /\ flows g l c = false /\ flows g l (c + 1) = true /\ made_of d (layer_at g l) r c mt).
Proof.
  exists gcool, (dcool 2), (wan 1 0), (mcool 2). split; [apply cool_built|]. split; [apply gcool_flow|]. split.
  - exists 1, 0, 1. split; [vm_compute; repeat split; discriminate|]. split; [reflexivity|]. split; [reflexivity|]. vm_compute. discriminate.
  - exists 1, 0, 0, wmat. split; [vm_compute; repeat split; discriminate|]. split; [reflexivity|]. split; [right; reflexivity|]. split; [reflexivity|]. split; [reflexivity|].
    right. split; [constructor|reflexivity].
Qed.
Example C53_flow_witness : exists d k ch, d_ncols d = 2 * k + 3 /\ declare_channel (Decl4RM 3 wmat (3 # 1000000000000) 1 2 3 4 300) 30 (d_ncols d) = Ok ch /\
    tg_channel gcool = Some ch /\ type_of gcool 1 = LT_CHANNEL_4RM /\ good_tgrid d gcool.
Proof. exists (dcool 2), 0, chcool. split; [reflexivity|]. split; [vm_compute; reflexivity|]. split; [reflexivity|]. split; [reflexivity|]. apply gcool_good. auto. Qed.
