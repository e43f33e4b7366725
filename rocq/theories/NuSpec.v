(** * Specification vocabulary for the non-uniform grid *)
From Coq Require Import ZArith List Bool QArith Qminmax.
From Verif Require Import Base Dims Floorplan Stack NonUniform.
Import ListNotations.
Local Open Scope Z_scope.

(** ** Rectangles *)
(** A point of the plane inside a rectangle (left and lower sides included). *)
Definition inside (r : rect) (x y : Q) : Prop := (r_x0 r <= x < r_x1 r /\ r_y0 r <= y < r_y1 r)%Q.

(** A rectangle with a positive area. *)
Definition proper (r : rect) : Prop := (r_x0 r < r_x1 r /\ r_y0 r < r_y1 r)%Q.

(** Cells that cover [r] without overlapping: every point of [r] is in exactly
    one of them, and none has a point outside [r]. *)
Definition tiles (cs : list rect) (r : rect) : Prop :=
  (forall x y, inside r x y -> exists k c, nth_error cs k = Some c /\ inside c x y /\
     forall k' c', nth_error cs k' = Some c' -> inside c' x y -> k' = k) /\
  (forall c x y, In c cs -> inside c x y -> inside r x y).

(** Length of the common part of two intervals (negative: they are apart). *)
Definition common (a0 a1 b0 b1 : Q) : Q := (Qmin a1 b1 - Qmax a0 b0)%Q.
Definition common_x (a b : rect) : Q := common (r_x0 a) (r_x1 a) (r_x0 b) (r_x1 b).
Definition common_y (a b : rect) : Q := common (r_y0 a) (r_y1 a) (r_y0 b) (r_y1 b).

(** Two cells side by side along x (one ends in x where the other begins) with
    a common side of length [l]; the same along y. *)
Definition side_x (a b : rect) (l : Q) : Prop :=
  ((r_x1 a == r_x0 b \/ r_x1 b == r_x0 a) /\ 0 < l /\ l == common_y a b)%Q.
Definition side_y (a b : rect) (l : Q) : Prop :=
  ((r_y1 a == r_y0 b \/ r_y1 b == r_y0 a) /\ 0 < l /\ l == common_x a b)%Q.

(** One interval strictly inside the other. *)
Definition nested (a0 a1 b0 b1 : Q) : Prop := (a0 < b0 /\ b1 < a1 \/ b0 < a0 /\ a1 < b1)%Q.

(** Coordinates of the two rectangles are equal or differ by 2 nm or more (lengths
    are in micrometres): the code compares with EPSILON = 1e-6. *)
Definition apart (u v : Q) : Prop := (u == v \/ u + (1#500) <= v \/ v + (1#500) <= u)%Q.
Definition resolved_pair (a b : rect) : Prop :=
  apart (r_x0 a) (r_x1 b) /\ apart (r_x1 a) (r_x0 b) /\ apart (r_y0 a) (r_y1 b) /\ apart (r_y1 a) (r_y0 b).

(** No point in both. *)
Definition disjoint (a b : rect) : Prop := forall x y, inside a x y -> inside b x y -> False.

(** ** Layers *)
(** What is stored for a cell, apart from its place in the stack: its rectangle,
    whether it is a cell of coolant, and its material. *)
Record gcell := mkG { g_rect : rect; g_channel : bool; g_mat : material }.
Definition rect_of (i : nu_icel) : rect := mkRect (ni_x i) (ni_y i) (ni_x i + ni_len i) (ni_y i + ni_wid i).
Definition chip (d : dims) : rect := mkRect 0 0 (d_chip_length d) (d_chip_width d).

(** The discretisation used for an element: its own if it gives both factors,
    else that of the die. *)
Definition discretisation (x : nu_die) (e : nu_el) : Z * Z :=
  let i := ne_first e in if (ni_dx i =? 0) || (ni_dy i =? 0) then (nd_dx x, nd_dy x) else (ni_dx i, ni_dy i).

(** A rectangle cut into fst xy columns and snd xy rows, row by row. *)
Definition cut (x y len wid : Q) (xy : Z * Z) : list rect :=
  map (sub_rect x y len wid (fst xy) (snd xy)) (zrange 0 (fst xy * snd xy - 1)).

(** Cells of an element of a floorplan. *)
Definition element_rects (x : nu_die) (e : nu_el) : list rect :=
  let i := ne_first e in cut (ni_x i) (ni_y i) (ni_len i) (ni_wid i) (discretisation x e).

(** Material of the cells of an element: in the source layer that of the element
    if it has one, else that of the layer. *)
Definition element_material (source : bool) (l : layer) (e : nu_el) : material :=
  if source then match ni_mat (ne_first e) with Some m => m | None => ly_mat l end else ly_mat l.
Definition element_cells (x : nu_die) (source : bool) (l : layer) (e : nu_el) : list gcell :=
  map (fun r => mkG r false (element_material source l e)) (element_rects x e).

(** One layer of the grid: its type (0: solid; 1, 2, 3: layers of 2RM and pin-fin
    channels; 4: spreader) and its cells. *)
Notation nlayer := (Z * list gcell)%type.
Definition layer_rects (l : nlayer) : list rect := map g_rect (snd l).
Fixpoint die_layers (x : nu_die) (index : Z) (ls : list layer) : list nlayer :=
  match ls with
  | [] => []
  | l :: t => (0, flat_map (element_cells x (index =? nd_offset x) l) (nd_els x)) :: die_layers x (index + 1) t
  end.
Definition plain_cells (rs : list rect) : list gcell := map (fun r => mkG r false material0) rs.

(** A layer of a channel: in the 4RM model the coolant is in the odd columns. *)
Definition channel_cells (d : dims) (coolant : Z -> bool) : list gcell :=
  map (fun k => mkG (channel_rect d k) (coolant (k mod d_ncols d)) material0) (zrange 0 (d_ncols d * d_nrows d - 1)).
Definition kind_layers (d : dims) (e : nu_kind) : list nlayer :=
  match e with
  | NuDie x => die_layers x 0 (rev (nd_layers x))
  | NuLayer dx dy => [(0, plain_cells (cut 0 0 (d_chip_length d) (d_chip_width d) (dx, dy)))]
  | NuChannel m =>
    let solid := channel_cells d (fun _ => false) in
    let fluid := channel_cells d (fun _ => true) in
    match m with
    | CM_MC_4RM => [(0, channel_cells d (fun c => Z.odd c && negb (c =? d_ncols d - 1)))]
    | CM_MC_2RM => [(1, solid); (2, solid); (2, fluid); (1, solid)]
    | CM_PF_INLINE | CM_PF_STAGGERED => [(1, solid); (3, solid); (2, fluid); (1, solid)]
    | CM_NONE => []
    end
  end.
Definition is_pluggable (top : option top_sink) : bool :=
  match top with Some (SinkPluggable _ _ _) => true | _ => false end.
Definition spreader_layer (d : dims) (top : option top_sink) : list nlayer :=
  if is_pluggable top then [(4, plain_cells (cut 0 0 (d_chip_length d) (d_chip_width d) (d_ncols d, d_nrows d)))] else [].

(** The grid, from the bottom layer; the stack is given top-most first. *)
Definition grid (d : dims) (top : option top_sink) (es : list nu_kind) : list nlayer :=
  flat_map (kind_layers d) (rev es) ++ spreader_layer d top.

Definition grid_cells (g : list nlayer) : list gcell := flat_map snd g.

(** Number of the first cell of each layer. *)
Definition first_cell (g : list nlayer) (l : nat) : Z := Z.of_nat (length (grid_cells (firstn l g))).

(** The cells in the order of their numbers: layer after layer from the bottom,
    each with the number of its layer, the height of its bottom side and that of
    the layer. *)
Definition zsum (hs : list Q) (l : nat) : Q := fold_left Qplus (firstn l hs) 0%Q.
Definition cell_of (hs : list Q) (l : nat) (g : gcell) : cell :=
  mkCell (Z.of_nat l) (g_rect g) (zsum hs l) (nth l hs 0%Q) (g_channel g) (g_mat g).
Fixpoint number (hs : list Q) (l : nat) (g : list nlayer) : list cell :=
  match g with [] => [] | L :: t => map (cell_of hs l) (snd L) ++ number hs (S l) t end.

(** Non-negative discretisations, a count that fits into 32 bits, and a stack
    whose heights are known. *)
Definition good_factors (dx dy : Z) : Prop := 0 <= dx < two32 /\ 0 <= dy < two32.
Definition good_kind (e : nu_kind) : Prop :=
  match e with
  | NuDie x => good_factors (nd_dx x) (nd_dy x) /\ Forall (fun e => good_factors (ni_dx (ne_first e)) (ni_dy (ne_first e))) (nd_els x)
  | NuLayer dx dy => good_factors dx dy
  | NuChannel m => m <> CM_NONE
  end.
Definition total_layers (es : list nu_kind) : Z := fold_right (fun e n => nu_nlayers e + n) 0 es.
Definition nu_stack_ok (d : dims) (top : option top_sink) (es : list nu_kind) : Prop :=
  Forall good_kind es /\ top <> None /\ good_factors (d_ncols d) (d_nrows d) /\
  d_nlayers d = total_layers es /\ Z.of_nat (length (d_heights d)) = total_layers es /\ total_layers es < two32 - 1 /\
  Z.of_nat (length (grid_cells (grid d top es))) < two32.

(** The elements of the dies are cut into one cell at least. *)
Definition some_cells (e : nu_kind) : Prop :=
  match e with
  | NuDie x => Forall (fun e => 0 < fst (discretisation x e) /\ 0 < snd (discretisation x e)) (nd_els x)
  | _ => True
  end.

(** Cells number a to b. *)
Definition slice {A} (cs : list A) (a b : Z) : list A := firstn (Z.to_nat (b - a + 1)) (skipn (Z.to_nat a) cs).

(** ** Connections *)
(** Type of a layer of the grid, and its cells: those numbered from first_cell g l
    to first_cell g (l + 1) - 1. *)
Definition type_at (g : list nlayer) (l : nat) : Z := nth l (map fst g) 0.
Definition in_layer (g : list nlayer) (l : nat) (i : Z) : Prop := (l < length g)%nat /\ first_cell g l <= i < first_cell g (S l).

(** The walls of the channels and the coolant between the two walls above and
    below (2RM, pin fins) are two layers of the grid that stand side by side. *)
Definition side_by_side (g : list nlayer) (l : nat) : bool :=
  ((type_at g l =? 2) || (type_at g l =? 3)) && (type_at g (S l) =? 2).

(** Layer [b] lies on layer [a]. *)
Definition on_top (g : list nlayer) (a b : nat) : Prop :=
  (b < length g)%nat /\
  (b = S a /\ side_by_side g a = false \/ b = S (S a) /\ (side_by_side g a = true \/ side_by_side g (S a) = true)).

Definition grid_rects (g : list nlayer) : list rect := map g_rect (grid_cells g).
Definition nodes (c : conn) : Z * Z := (k_node1 c, k_node2 c).
Definition is_channel (e : nu_kind) : bool := match e with NuChannel _ => true | _ => false end.

(** The stack file parser refuses a channel as the bottom-most element
    (stack_description_parser.y 1340-1360). *)
Definition bottom_solid (es : list nu_kind) : Prop := match rev es with e :: _ => is_channel e = false | [] => False end.

(** Stacks whose cells have a positive area, with coordinates that differ by 2 nm
    or more when they differ, and do not overlap inside a layer. *)
Definition good_geometry (g : list nlayer) : Prop :=
  let at_ := rect_at (grid_rects g) in
  let n := Z.of_nat (length (grid_cells g)) in
  (forall i, 0 <= i < n -> proper (at_ i)) /\
  (forall i j, 0 <= i < n -> 0 <= j < n -> resolved_pair (at_ i) (at_ j)) /\
  (forall l i j, in_layer g l i -> in_layer g l j -> i <> j -> disjoint (at_ i) (at_ j)).

(** In the layers of 2RM and pin-fin channels no heat is exchanged along x, and
    along y only in the walls and in the coolant of 2RM and in the coolant of
    pin fins (types 0 and 4: everywhere). *)
Definition along_x (type : Z) : bool := (type =? 0) || (type =? 4).
Definition along_y (type : Z) : bool := (type =? 0) || (type =? 4) || (type =? 2).

(** Two cells that touch: side by side in a layer, or one on the other. *)
Definition touch_x (g : list nlayer) (i j : Z) (len : Q) : Prop :=
  exists l, in_layer g l i /\ in_layer g l j /\ along_x (type_at g l) = true /\ side_x (rect_at (grid_rects g) i) (rect_at (grid_rects g) j) len.
Definition touch_y (g : list nlayer) (i j : Z) (len : Q) : Prop :=
  exists l, in_layer g l i /\ in_layer g l j /\ along_y (type_at g l) = true /\ side_y (rect_at (grid_rects g) i) (rect_at (grid_rects g) j) len.
Definition touch_z (g : list nlayer) (i j : Z) : Prop :=
  exists a b, on_top g a b /\ in_layer g a i /\ in_layer g b j /\
    exists x y, inside (rect_at (grid_rects g) i) x y /\ inside (rect_at (grid_rects g) j) x y.
