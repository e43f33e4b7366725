(** * Specification vocabulary: stacks of solids on the non-uniform grid *)
From Coq Require Import ZArith List Bool QArith.
From Verif Require Import Base QSum Dims Queue Floorplan Stack StackSpec PowerGrid Emulate Conduct Matrix MatrixSpec NonUniform NuSpec NuMatrix NuMatrixSpec NuSource NuSourceSpec PropNuMatrix.
Import ListNotations.
Local Open Scope Z_scope.

(** Connections with a contact, sideways within a layer. *)
Definition sound_conns (cells : list cell) (cs : list conn) : Prop :=
  forall k, In k cs -> (0 < k_value k)%Q /\
    (k_dir k = 0 \/ (k_dir k = 1 \/ k_dir k = 2) /\ c_layer (at_cell cells (k_node1 k)) = c_layer (at_cell cells (k_node2 k))).

(** Only solids, and air at temperature [a] above: no coolant, no board, no
    pluggable sink. *)
Record solid_network (g : tgrid) (d : dims) (an : analysis) (cells : list cell) (cs : list conn) (m : sysmatrix) (a : Q) : Prop := {
  sl_network : network g d an cells cs m;
  sl_cells : forall c, In c cells -> solid_cell g d c;
  sl_conns : sound_conns cells cs;
  sl_channel : tg_channel g = None;
  sl_bottom : tg_bottom g = None;
  sl_top : exists h, tg_top g = Some (SinkTop h a)
}.

(** Cells from which a path of connections leads to the top layer. *)
Inductive cooled (d : dims) (cells : list cell) (cs : list conn) : Z -> Prop :=
| Cooled_top : forall i, 0 <= i < Z.of_nat (length cells) -> c_layer (at_cell cells i) = d_nlayers d - 1 -> cooled d cells cs i
| Cooled_up : forall k, In k cs -> cooled d cells cs (k_node2 k) -> cooled d cells cs (k_node1 k)
| Cooled_down : forall k, In k cs -> cooled d cells cs (k_node1 k) -> cooled d cells cs (k_node2 k).

(** All layers cover the same area: no gaps between the elements of a floorplan
    under or over other cells. *)
Definition same_cover (G : list nlayer) : Prop :=
  forall l l' i x y, (l' < length G)%nat -> in_layer G l i -> inside (rect_at (grid_rects G) i) x y ->
    exists j, in_layer G l' j /\ inside (rect_at (grid_rects G) j) x y.

(** A stack without channels. *)
Definition no_channel (e : nu_kind) : Prop := match e with NuChannel _ => False | _ => True end.

(** The elements of two power grids are cut into the same cells. *)
Definition same_cut (pg pg' : npgrid) : Prop :=
  forall l, map (fun e => (so_dx e, so_dy e)) (flp_at pg l) = map (fun e => (so_dx e, so_dy e)) (flp_at pg' l).
