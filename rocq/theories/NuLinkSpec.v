(** * Specification vocabulary: thermal resistances of the cells of the
      non-uniform grid *)
From Coq Require Import ZArith List Bool QArith.
From Verif Require Import Base Dims Floorplan Stack PowerGrid Emulate Conduct Matrix MatrixSpec NonUniform NuMatrixSpec.
Import ListNotations.
Local Open Scope Z_scope.

(** Cells without material: the walls above and below the coolant of the
    two-resistor and pin-fin channels are surfaces. *)
Definition surface (g : tgrid) (d : dims) (c : cell) : bool :=
  if d_nlayers d <=? c_layer c then false
  else match type_of g (c_layer c) with LT_TOP_WALL | LT_BOTTOM_WALL | LT_NONE => true | _ => false end.

(** Resistance, times area, between the node of a cell and its upper ([up]) or
    lower face: half the height of the spreader; nothing for a surface; the film
    of the coolant; half the height of a side wall, that takes the part of the
    area that is not coolant; the depth of a solid. *)
Definition resistance_z (g : tgrid) (d : dims) (c : cell) (up : bool) : Q :=
  if d_nlayers d <=? c_layer c then match tg_top g with Some (SinkPluggable _ h m) => (h / 2 / mt_kz m)%Q | _ => 0%Q end
  else match type_of g (c_layer c), tg_channel g with
  | (LT_TOP_WALL | LT_BOTTOM_WALL | LT_NONE), _ => 0%Q
  | LT_CHANNEL_4RM, Some ch =>
    if c_channel c then (1 / (if up then co_htc_top ch else co_htc_bottom ch))%Q else (cell_height d c / 2 / mt_kz (cell_material g c))%Q
  | LT_CHANNEL_2RM, Some ch => (1 / (if up then co_htc_top ch else co_htc_bottom ch))%Q
  | (LT_PINFINS_INLINE | LT_PINFINS_STAGGERED), Some ch => (1 / ch_htc_pf ch)%Q
  | (LT_VWALL_CHANNEL | LT_VWALL_PINFINS), Some ch => (cell_height d c / 2 / mt_kz (cell_material g c) / (1 - ch_porosity ch))%Q
  | _, _ => (reach g d c / mt_kz (cell_material g c))%Q
  end.

(** Along x, layers with connections along x: half the length of a solid, the
    film on the side of a four-resistor channel. *)
Definition resistance_x (g : tgrid) (d : dims) (c : cell) : Q :=
  match c_channel c, tg_channel g with
  | true, Some ch => (1 / co_htc_side ch)%Q
  | _, _ => (c_length c / 2 / mt_kx (cell_material g c))%Q
  end.
Definition conducts_x (g : tgrid) (d : dims) (c : cell) : Prop :=
  0 <= c_layer c < d_nlayers d /\
  (is_solid (type_of g (c_layer c)) = true /\ c_channel c = false \/ type_of g (c_layer c) = LT_CHANNEL_4RM).
