(** * Vocabulary: two grids of rectangular cells in one plane, and the heat flowing
      between their cells *)
From Coq Require Import ZArith List Bool QArith Qminmax.
From Verif Require Import Base Dims Floorplan QSum NonUniform NuSpec GridMap.
Import ListNotations.
Local Open Scope Z_scope.

Definition sound (g : pgrid) : Prop := (0 < gr_x g /\ 0 < gr_y g)%Q /\ 1 <= gr_nr g /\ 1 <= gr_nc g.
Definition of_grid (g : pgrid) (r c : Z) : Prop := 0 <= r < gr_nr g /\ 0 <= c < gr_nc g.

(** The cell in row [r] and column [c]: rows are counted from the bottom, or from
    the top when [upwards] is false. *)
Definition cell_rect (upwards : bool) (g : pgrid) (r c : Z) : rect :=
  let w := (gr_x g / qz (gr_nc g))%Q in
  let h := (gr_y g / qz (gr_nr g))%Q in
  let from_bottom := if upwards then r else gr_nr g - 1 - r in
  mkRect (gr_x0 g + qz c * w) (gr_y0 g + qz from_bottom * h) (gr_x0 g + qz (c + 1) * w) (gr_y0 g + qz (from_bottom + 1) * h).
Definition whole (g : pgrid) : rect := mkRect (gr_x0 g) (gr_y0 g) (gr_x0 g + gr_x g) (gr_y0 g + gr_y g).

(** Area of the intersection of two rectangles. *)
Definition overlap (a b : rect) : Q :=
  (Qmax 0 (Qmin (r_x1 a) (r_x1 b) - Qmax (r_x0 a) (r_x0 b)) * Qmax 0 (Qmin (r_y1 a) (r_y1 b) - Qmax (r_y0 a) (r_y0 b)))%Q.
Definition meet (a b : rect) : Prop := exists x y, inside a x y /\ inside b x y.
Definition within (a b : rect) : Prop := (r_x0 b <= r_x0 a /\ r_x1 a <= r_x1 b /\ r_y0 b <= r_y0 a /\ r_y1 a <= r_y1 b)%Q.
Definition rect_area (a : rect) : Q := ((r_x1 a - r_x0 a) * (r_y1 a - r_y0 a))%Q.

(** Sum over all cells of a grid. *)
Definition over_grid (g : pgrid) (f : Z -> Z -> Q) : Q :=
  qsum (map (fun r => qsum (map (f r) (zrange 0 (gr_nc g - 1)))) (zrange 0 (gr_nr g - 1))).
(** Value of a cell in a vector stored row after row. *)
Definition cell_value (g : pgrid) (v : list Q) (r c : Z) : Q := nth (Z.to_nat (r * gr_nc g + c)) v 0%Q.

(** Heat per unit of time from the cell (r, c) of [a], at temperatures [ta], to all
    cells of [b] at temperatures [tb], through [k] per unit of area. *)
Definition outflow (k : Q) (a b : pgrid) (ta tb : list Q) (r c : Z) : Q :=
  over_grid b (fun r' c' => k * overlap (cell_rect true a r c) (cell_rect true b r' c') * (cell_value a ta r c - cell_value b tb r' c'))%Q.
