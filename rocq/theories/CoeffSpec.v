(** * Specification vocabulary: sizes, materials and thermal resistances *)
From Coq Require Import ZArith List Bool QArith.
From Verif Require Import Base Dims Floorplan FloorplanSpec Stack StackSpec EmulateSpec Matrix MatrixSpec.
Import ListNotations.
Local Open Scope Z_scope.

(** Extents of a cell. *)
Definition dx (d : dims) (c : Z) : Q := (east d c - west d c)%Q.
Definition dy (d : dims) (r : Z) : Q := (north d r - south d r)%Q.
Definition dz (d : dims) (l : Z) : Q := nth (Z.to_nat l) (d_heights d) 0%Q.

(** The rectangle contains the middle of the cell. *)
Definition holds_middle (d : dims) (r c : Z) (a : icel) : Prop :=
  let x := ((west d c + east d c) / 2)%Q in let y := ((south d r + north d r) / 2)%Q in
  (ic_x a <= x /\ x < ic_x a + ic_len a /\ ic_y a <= y /\ y < ic_y a + ic_wid a)%Q.
Definition element_holds (d : dims) (r c : Z) (e : list icel * material) : Prop := exists a, In a (fst e) /\ holds_middle d r c a.
(** [m] is the material of cell (r,c) of a layer: that of the first element of
    its layout that holds the middle of the cell, else the one of the layer. *)
Definition made_of (d : dims) (ly : layer) (r c : Z) (m : material) : Prop :=
  (exists pre e post, ly_layout ly = pre ++ e :: post /\ Forall (fun x => ~ element_holds d r c x) pre /\ element_holds d r c e /\ m = snd e) \/
  (Forall (fun x => ~ element_holds d r c x) (ly_layout ly) /\ m = ly_mat ly).
Definition layer_at (g : tgrid) (l : Z) : layer := nth (Z.to_nat l) (tg_layers g) layer0.

(** Thermal resistance of a slab, of a film on a surface, and the conductance of
    two resistances in series. *)
Definition slab (thickness k area : Q) : Q := (thickness / (k * area))%Q.
Definition film (htc area : Q) : Q := (1 / (htc * area))%Q.
Definition through (r1 r2 : Q) : Q := (1 / (r1 + r2))%Q.

(** The cells of column [c] of layer [l] hold coolant (one-layer channels). *)
Definition flows (g : tgrid) (l c : Z) : bool := match type_of g l with LT_CHANNEL_4RM => Z.odd c | _ => false end.
Definition flat (g : tgrid) (l : Z) : Prop := is_solid (type_of g l) = true \/ type_of g l = LT_CHANNEL_4RM.

(** Distance from the node of a solid cell to its upper and lower faces: half of
    the height, but the whole height in the first and the last layer when there
    is no heat sink on that side. *)
Definition up_distance (g : tgrid) (d : dims) (l : Z) : Q :=
  if (l =? 0) && negb (to_pcb (type_of g l)) then dz d l else (dz d l / 2)%Q.
Definition down_distance (g : tgrid) (d : dims) (l : Z) : Q :=
  if (l =? d_nlayers d - 1) && negb (to_ambient (type_of g l) || to_spreader (type_of g l)) then dz d l else (dz d l / 2)%Q.

(** The channel of the stack (any value when it has none). *)
Definition channel_of (g : tgrid) : channel :=
  match tg_channel g with Some ch => ch | None => mkChannel CM_NONE 0 0 0 0 0 0 (mkMaterial 0 0 0 0) 0 0 0 0 0 0 0 0 end.

(** Resistances from the node of a cell, made of [m], to its faces. *)
Definition side (g : tgrid) (d : dims) (l r c : Z) (m : material) : Q :=
  if flows g l c then film (co_htc_side (channel_of g)) (dy d r * dz d l) else slab (dx d c / 2) (mt_kx m) (dy d r * dz d l).
Definition along (d : dims) (l r c : Z) (m : material) : Q := slab (dy d r / 2) (mt_ky m) (dx d c * dz d l).
Definition upper (g : tgrid) (d : dims) (l r c : Z) (m : material) : Q :=
  if flows g l c then film (co_htc_top (channel_of g)) (dx d c * dy d r) else slab (up_distance g d l) (mt_kz m) (dx d c * dy d r).
Definition lower (g : tgrid) (d : dims) (l r c : Z) (m : material) : Q :=
  if flows g l c then film (co_htc_bottom (channel_of g)) (dx d c * dy d r) else slab (down_distance g d l) (mt_kz m) (dx d c * dy d r).

(** Index of the unknown of a cell. *)
Definition cell_index (d : dims) (l r c : Z) : Z := (l * d_nrows d + r) * d_ncols d + c.
(** Both coefficients between two unknowns are [- x]. *)
Definition joined (m : sysmatrix) (i j : Z) (x : Q) : Prop := (coefficient m i j == - x)%Q /\ (coefficient m j i == - x)%Q.

(** ** Channels of four layers: bottom wall, virtual side wall, coolant, top wall *)
(** Heat transfer coefficients between the coolant and its two walls. *)
Definition htc_up (ch : channel) : Q := match ch_model ch with CM_MC_2RM => co_htc_top ch | _ => ch_htc_pf ch end.
Definition htc_down (ch : channel) : Q := match ch_model ch with CM_MC_2RM => co_htc_bottom ch | _ => ch_htc_pf ch end.
(** Part of a horizontal section occupied by the walls. *)
Definition wall_part (ch : channel) : Q := (1 - ch_porosity ch)%Q.

(** ** Coolant *)
(** Volume of coolant that crosses column [c] of layer [l] per unit of time: an
    equal share per channel; the share of the channels that fit in the column;
    Darcy velocity times section. *)
Definition flow_share (d : dims) (ch : channel) (l c : Z) : Q :=
  match ch_model ch with
  | CM_MC_4RM => (co_flow_rate ch / qz (ch_nchannels ch))%Q
  | CM_MC_2RM => (co_flow_rate ch / qz (ch_nchannels ch) * (ch_porosity ch * dx d c / ch_length ch))%Q
  | _ => (co_darcy ch * (dx d c * dz d l))%Q
  end.
(** Coolant cells. *)
Definition coolant_at (g : tgrid) (l c : Z) : bool := is_coolant (type_of g l) && match type_of g l with LT_CHANNEL_4RM => Z.odd c | _ => true end.

(** ** Heat capacity of a cell made of [m] *)
Definition volume (d : dims) (l r c : Z) : Q := (dx d c * dy d r * dz d l)%Q.
Definition capacity (g : tgrid) (d : dims) (l r c : Z) (m : material) : Q :=
  let ch := channel_of g in
  match type_of g l with
  | LT_CHANNEL_4RM => ((if Z.odd c then co_vhc ch else mt_vhc m) * volume d l r c)%Q
  | LT_CHANNEL_2RM | LT_PINFINS_INLINE | LT_PINFINS_STAGGERED => (co_vhc ch * (ch_porosity ch * volume d l r c))%Q
  | LT_VWALL_CHANNEL | LT_VWALL_PINFINS => (mt_vhc m * (wall_part ch * volume d l r c))%Q
  | LT_TOP_WALL | LT_BOTTOM_WALL => 0%Q
  | _ => (mt_vhc m * volume d l r c)%Q
  end.

(** ** Spreader: unknown of its cell (r,c) *)
Definition spreader_index (d : dims) (s : spreader) (r c : Z) : Z := d_nlayers d * d_nrows d * d_ncols d + r * s_ncols s + c.
