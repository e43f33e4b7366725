(** * Specification vocabulary: the heat network of the non-uniform grid *)
From Coq Require Import ZArith List Bool QArith.
From Verif Require Import Base QSum Dims Floorplan Stack StackSpec PowerGrid Emulate Conduct Matrix MatrixSpec NonUniform.
Import ListNotations.
Local Open Scope Z_scope.

(** Two matrices with the same pointers, the same rows and equal values. *)
Definition same_matrix (m m' : sysmatrix) : Prop := sm_ptr m = sm_ptr m' /\ sm_rows m = sm_rows m' /\ Forall2 Qeq (sm_vals m) (sm_vals m').

(** Connections between different cells, each pair of cells at most once, and few
    enough for the 32-bit counters. *)
Record good_conns (n : Z) (cs : list conn) : Prop := {
  gc_some : 0 < n;
  gc_once : NoDup (map (fun c => (k_node1 c, k_node2 c)) cs);
  gc_range : forall c, In c cs -> 0 <= k_node1 c < k_node2 c /\ k_node2 c < n;
  gc_fits : 2 * Z.of_nat (length cs) + n < two32
}.

(** Cells of the layers of the stack, or of the spreader of a pluggable sink. *)
Definition in_stack (g : tgrid) (d : dims) (c : cell) : Prop :=
  0 <= c_layer c <= d_nlayers d /\ (c_layer c = d_nlayers d -> has_spreader (tg_top g)).

(** A cell of solid: of a layer or of a wall of a four-resistor channel. *)
Definition solid_cell (g : tgrid) (d : dims) (c : cell) : Prop :=
  0 <= c_layer c < d_nlayers d /\ c_channel c = false /\
  (is_solid (type_of g (c_layer c)) = true \/ type_of g (c_layer c) = LT_CHANNEL_4RM).

(** The material of a cell: in source layers that of its element (C42). The
    layers are made of one material. *)
Definition cell_layer (g : tgrid) (c : cell) : layer := nth (Z.to_nat (c_layer c)) (tg_layers g) layer0.
Definition cell_material (g : tgrid) (c : cell) : material :=
  if is_source (type_of g (c_layer c)) then c_mat c else ly_mat (cell_layer g c).
Definition one_material (g : tgrid) (c : cell) : Prop := ly_layout (cell_layer g c) = [].
Definition cell_height (d : dims) (c : cell) : Q := nth (Z.to_nat (c_layer c)) (d_heights d) 0%Q.

(** Distance from the node of a cell to its upper or lower face: half the height;
    the node of a plain layer at an end of the stack lies on the outer face. *)
Definition at_end (d : dims) (c : cell) : bool := (c_layer c =? 0) || (c_layer c =? d_nlayers d - 1).
Definition reach (g : tgrid) (d : dims) (c : cell) : Q :=
  match type_of g (c_layer c) with
  | LT_SOLID | LT_SOURCE => if at_end d c then cell_height d c else (cell_height d c / 2)%Q
  | LT_SOLID_SPREADER | LT_SOURCE_SPREADER => if c_layer c =? 0 then cell_height d c else (cell_height d c / 2)%Q
  | _ => (cell_height d c / 2)%Q
  end.

(** Two blocks in series: face, and for each its depth and conductivity. *)
Definition in_series (face da ka db kb : Q) : Q := (face / (da / ka + db / kb))%Q.

(** The coefficients of two cells that exchange heat with conductance [x]. *)
Definition exchange (m : sysmatrix) (i j : Z) (x : Q) : Prop := (coefficient m i j == - x)%Q /\ (coefficient m j i == - x)%Q.

(** A cell of coolant, and half the heat capacity rate of the coolant through it:
    one channel of the four-resistor model; the share of the width [len] of the
    two-resistor channels; the Darcy velocity through the pin fins. *)
Definition coolant_type (t : layer_type) : bool :=
  match t with LT_CHANNEL_4RM | LT_CHANNEL_2RM | LT_PINFINS_INLINE | LT_PINFINS_STAGGERED => true | _ => false end.
Definition coolant_cell (g : tgrid) (d : dims) (c : cell) : Prop :=
  0 <= c_layer c < d_nlayers d /\ c_channel c = true /\ coolant_type (type_of g (c_layer c)) = true.
Definition half_rate (ch : channel) (h len : Q) : Q :=
  match ch_model ch with
  | CM_MC_4RM => (co_vhc ch * co_flow_rate ch / qz (ch_nchannels ch) / 2)%Q
  | CM_MC_2RM => (co_vhc ch * co_flow_rate ch * ch_porosity ch * len / ch_length ch / qz (ch_nchannels ch) / 2)%Q
  | CM_PF_INLINE | CM_PF_STAGGERED => (co_vhc ch * co_darcy ch * (len * h) / 2)%Q
  | CM_NONE => 0%Q
  end.

(** Heat stored in a cell per kelvin. *)
Definition cell_volume (d : dims) (c : cell) : Q := (c_length c * c_width c * cell_height d c)%Q.
Definition heat_capacity (g : tgrid) (d : dims) (c : cell) : Q :=
  if d_nlayers d <=? c_layer c then
    match tg_top g with Some (SinkPluggable s h m) => (mt_vhc m * (s_cell_length s * s_cell_width s * h))%Q | _ => 0%Q end
  else match type_of g (c_layer c), tg_channel g with
  | (LT_TOP_WALL | LT_BOTTOM_WALL | LT_NONE), _ => 0%Q
  | LT_CHANNEL_4RM, Some ch => ((if c_channel c then co_vhc ch else mt_vhc (cell_material g c)) * cell_volume d c)%Q
  | (LT_CHANNEL_2RM | LT_PINFINS_INLINE | LT_PINFINS_STAGGERED), Some ch => (co_vhc ch * (ch_porosity ch * cell_volume d c))%Q
  | (LT_VWALL_CHANNEL | LT_VWALL_PINFINS), Some ch => (mt_vhc (cell_material g c) * ((1 - ch_porosity ch) * cell_volume d c))%Q
  | _, _ => (mt_vhc (cell_material g c) * cell_volume d c)%Q
  end.

(** Conductance of a cell to the ambient: half its height, then the sink. *)
Definition to_air (g : tgrid) (d : dims) (c : cell) : Q :=
  if d_nlayers d <=? c_layer c then 0%Q
  else if to_ambient (type_of g (c_layer c)) then
    match tg_top g with
    | Some (SinkTop htc _) => (c_length c * c_width c / (cell_height d c / 2 / mt_kz (cell_material g c) + 1 / htc))%Q
    | _ => 0%Q
    end
  else 0%Q.

(** Heat per kelvin the coolant carries out of the chip: the cells of coolant that
    end on the side y = chip width. *)
Definition carried_out (g : tgrid) (d : dims) (c : cell) : Q :=
  if d_nlayers d <=? c_layer c then 0%Q
  else if coolant_type (type_of g (c_layer c)) && (c_channel c && Qeq_bool (r_y1 (c_rect c)) (d_chip_width d)) then
    match tg_channel g with Some ch => (2 * half_rate ch (cell_height d c) (c_length c))%Q | None => 0%Q end
  else 0%Q.

(** What leaves a cell per kelvin: storage during a step, air, coolant. *)
Definition stored_rate (g : tgrid) (d : dims) (an : analysis) (c : cell) : Q :=
  match an_type an with AT_TRANSIENT => (heat_capacity g d c / an_step an)%Q | _ => 0%Q end.
Definition leaves (g : tgrid) (d : dims) (an : analysis) (c : cell) : Q := (stored_rate g d an c + to_air g d c + carried_out g d c)%Q.

(** Positive dimensions. *)
Definition positive_cell (g : tgrid) (c : cell) : Prop :=
  (0 < c_length c)%Q /\ (0 < c_width c)%Q /\ (is_source (type_of g (c_layer c)) = true -> physical_material (c_mat c)).
