(** * Specification vocabulary: the system of equations of a stack *)
From Coq Require Import ZArith List Bool QArith.
From Verif Require Import Base QSum Dims DimsSpec DimsProofs Floorplan FloorplanSpec Stack StackSpec PowerGrid Emulate EmulateSpec Conduct Matrix.
Import ListNotations.
Local Open Scope Z_scope.

(** ** What a compressed-column matrix denotes *)
Definition zat (v : list Z) (i : Z) : Z := nth (Z.to_nat i) v 0.
Definition qat (v : list Q) (i : Z) : Q := nth (Z.to_nat i) v 0%Q.

(** Coefficient of row [i] and column [j]: the sum of the values stored in
    column [j] with row index [i]. *)
Definition coefficient (m : sysmatrix) (i j : Z) : Q :=
  qsum (map (fun k => if zat (sm_rows m) k =? i then qat (sm_vals m) k else 0%Q)
            (zrange (zat (sm_ptr m) j) (zat (sm_ptr m) (j + 1) - 1))).
(** Row [i] of the product with [x], and solutions of the system, [n] unknowns. *)
Definition row_times (m : sysmatrix) (n : Z) (x : list Q) (i : Z) : Q :=
  qsum (map (fun j => (coefficient m i j * qat x j)%Q) (zrange 0 (n - 1))).
Definition solution (m : sysmatrix) (n : Z) (b x : list Q) : Prop :=
  Z.of_nat (length x) = n /\ forall i, 0 <= i < n -> (row_times m n x i == qat b i)%Q.

(** Well-formed storage of [n] columns: pointers start at 0 and never decrease;
    within a column the row indexes are in range and strictly increasing, and
    the diagonal is present. *)
Record csc (n : Z) (m : sysmatrix) : Prop := {
  csc_ptr : Z.of_nat (length (sm_ptr m)) = n + 1;
  csc_first : zat (sm_ptr m) 0 = 0;
  csc_mono : forall j, 0 <= j < n -> zat (sm_ptr m) j < zat (sm_ptr m) (j + 1);
  csc_last : zat (sm_ptr m) n <= Z.of_nat (length (sm_rows m));
  csc_vals : length (sm_vals m) = length (sm_rows m);
  csc_range : forall k, 0 <= k < zat (sm_ptr m) n -> 0 <= zat (sm_rows m) k < n;
  csc_sorted : forall j k, 0 <= j < n -> zat (sm_ptr m) j <= k -> k + 1 < zat (sm_ptr m) (j + 1) ->
      zat (sm_rows m) k < zat (sm_rows m) (k + 1);
  csc_diag : forall j, 0 <= j < n ->
      exists k, zat (sm_ptr m) j <= k < zat (sm_ptr m) (j + 1) /\ zat (sm_rows m) k = j
}.

(** ** Thermal grids that C24 lets through *)
Definition type_of (g : tgrid) (l : Z) : layer_type := nth (Z.to_nat l) (tg_types g) LT_NONE.
Definition is_solid (t : layer_type) : bool := is_source t || is_passive_solid t.

(** Layer [l] is number [j] from the bottom of the layers of a channel that
    starts at layer [b], above the first and below the last layer; these layers
    are made of one material. *)
Definition in_channel (g : tgrid) (d : dims) (b : Z) (j : nat) (l : Z) : Prop :=
  exists ch, tg_channel g = Some ch /\ l = b + Z.of_nat j /\ 0 < b /\
    b + Z.of_nat (length (expected_channel_types (ch_model ch))) < d_nlayers d /\
    (j < length (expected_channel_types (ch_model ch)))%nat /\
    forall i t, nth_error (expected_channel_types (ch_model ch)) i = Some t -> type_of g (b + Z.of_nat i) = t /\
      ly_layout (nth (Z.to_nat (b + Z.of_nat i)) (tg_layers g) layer0) = [].

Definition good_type (g : tgrid) (d : dims) (l : Z) : Prop :=
  (is_solid (type_of g l) = true /\
   (to_ambient (type_of g l) = true -> l = d_nlayers d - 1 /\ has_ambient (tg_top g)) /\
   (to_spreader (type_of g l) = true -> l = d_nlayers d - 1) /\
   (to_pcb (type_of g l) = true -> l = 0 /\ tg_bottom g <> None)) \/
  exists b j, in_channel g d b j l.

Record good_tgrid (d : dims) (g : tgrid) : Prop := {
  gt_grid : good_grid d;
  gt_accepted : accepted d;
  gt_one : 1 <= d_nlayers d;
  gt_types : Z.of_nat (length (tg_types g)) = d_nlayers d;
  gt_layers : Z.of_nat (length (tg_layers g)) = d_nlayers d;
  gt_spreader : forall s h m, tg_top g = Some (SinkPluggable s h m) -> good_spreader d s;
  gt_linked : has_spreader (tg_top g) <-> to_spreader (type_of g (d_nlayers d - 1)) = true;
  gt_ambient : has_ambient (tg_top g) -> to_ambient (type_of g (d_nlayers d - 1)) = true;
  gt_pcb : tg_bottom g <> None -> to_pcb (type_of g 0) = true;
  gt_shape : forall l, 0 <= l < d_nlayers d -> good_type g d l
}.

(** Number of unknowns. *)
Definition unknowns (g : tgrid) (d : dims) : Z := chip_cells d + spreader_cells (tg_top g).

(** No coolant. *)
Definition solid_stack (g : tgrid) (d : dims) : Prop :=
  forall l, 0 <= l < d_nlayers d -> is_solid (type_of g l) = true.

(** ** Physical parameters: everything that is divided by or must insulate or
    conduct is positive. *)
Definition physical_material (m : material) : Prop :=
  (0 < mt_vhc m /\ 0 < mt_kx m /\ 0 < mt_ky m /\ 0 < mt_kz m)%Q.
Definition physical_layer (ly : layer) : Prop :=
  physical_material (ly_mat ly) /\ Forall (fun e => physical_material (snd e)) (ly_layout ly).
Definition physical_channel (ch : channel) : Prop :=
  (0 < co_vhc ch)%Q /\
  match ch_model ch with
  | CM_MC_4RM => (0 < co_htc_side ch /\ 0 < co_htc_top ch /\ 0 < co_htc_bottom ch)%Q
  | CM_MC_2RM => (0 < co_htc_top ch /\ 0 < co_htc_bottom ch /\ 0 < ch_porosity ch /\ ch_porosity ch < 1)%Q
  | CM_PF_INLINE | CM_PF_STAGGERED => (0 < ch_htc_pf ch /\ 0 < ch_porosity ch /\ ch_porosity ch < 1)%Q
  | CM_NONE => True
  end.
Record physical (g : tgrid) (d : dims) : Prop := {
  ph_heights : Forall (fun h => 0 < h)%Q (d_heights d);
  ph_layers : Forall physical_layer (tg_layers g);
  ph_channel : forall ch, tg_channel g = Some ch -> physical_channel ch;
  ph_top : forall h a, tg_top g = Some (SinkTop h a) -> (0 < h)%Q;
  ph_bottom : forall s, tg_bottom g = Some s -> (0 < bs_htc s)%Q;
  ph_spreader : forall s h m, tg_top g = Some (SinkPluggable s h m) ->
      (0 < h /\ 0 < s_cell_length s /\ 0 < s_cell_width s)%Q /\ physical_material m
}.
