(** * Specification vocabulary: geometry of cells and rectangles *)
From Coq Require Import ZArith List QArith Qminmax.
From Verif Require Import Base QSum Dims DimsSpec Floorplan.
Import ListNotations.
Local Open Scope Z_scope.

(** Edges of the cell in column [c] / row [r]. *)
Definition west (d : dims) (c : Z) : Q := get_cell_location_x d c.
Definition east (d : dims) (c : Z) : Q := (get_cell_location_x d c + get_cell_length d c)%Q.
Definition south (d : dims) (r : Z) : Q := get_cell_location_y d r.
Definition north (d : dims) (r : Z) : Q := (get_cell_location_y d r + get_cell_width d r)%Q.

(** The open rectangle of the cell meets the open rectangle [a]. *)
Definition overlaps (d : dims) (a : icel) (r c : Z) : Prop :=
  (west d c < ic_x a + ic_len a /\ ic_x a < east d c /\
   south d r < ic_y a + ic_wid a /\ ic_y a < north d r)%Q.

(** Length of the intersection of the intervals [a,b] and [x,y]. *)
Definition common (a b x y : Q) : Q := Qmax 0 (Qmin b y - Qmax a x).

(** Area of the part of cell (r,c) covered by the rectangle. *)
Definition covered (d : dims) (a : icel) (r c : Z) : Q :=
  (common (west d c) (east d c) (ic_x a) (ic_x a + ic_len a) *
   common (south d r) (north d r) (ic_y a) (ic_y a + ic_wid a))%Q.

(** The rectangle has a positive size and lies inside the grid of cells; on its
    last column it does not reach further than a column of the wall length. *)
Definition placed (d : dims) (a : icel) : Prop :=
  (0 <= ic_x a /\ 0 < ic_len a /\
   ic_x a + ic_len a <= west d (d_ncols d - 1) + get_cell_length d (d_ncols d - 1) /\
   ic_x a + ic_len a <= west d (d_ncols d - 1) + d_wall d /\
   0 <= ic_y a /\ 0 < ic_wid a /\ ic_y a + ic_wid a <= north d (d_nrows d - 1))%Q.

(** The grid: positive sizes, at least one row and one column. *)
Definition good_grid (d : dims) : Prop :=
  1 <= d_nrows d < two32 /\ 1 <= d_ncols d < two32 /\ d_nrows d * d_ncols d < two32 /\
  (0 < d_first d /\ 0 < d_last d /\ 0 < d_wall d /\ 0 < d_chan d /\ 0 < d_width d)%Q /\
  ((d_first d == d_last d)%Q /\ (d_first d == d_wall d)%Q /\ (d_first d == d_chan d)%Q \/
   exists k, 0 <= k /\ d_ncols d = 2 * k + 3).

(** The rectangle as the floorplan parser records it. *)
Definition recorded (d : dims) (a : icel) : Prop :=
  exists fuel, parse_rectangle fuel d (ic_x a) (ic_y a) (ic_len a) (ic_wid a) = Ok (Some a).

(** A floorplan element made of recorded rectangles, inside the grid. *)
Definition good_element (d : dims) (e : flpel) : Prop :=
  exists id ics q, e = make_element id ics q /\ ics <> [] /\
                   Forall (fun a => placed d a /\ recorded d a) ics.

(** Area of the part of cell (r,c) covered by the element, counted once per
    rectangle. *)
Definition covered_by (d : dims) (e : flpel) (r c : Z) : Q :=
  qsum (map (fun a => covered d a r c) (fe_ics e)).

(** Total area of the rectangles of the element. *)
Definition area_of (e : flpel) : Q :=
  qsum (map (fun a => (ic_len a * ic_wid a)%Q) (fe_ics e)).

(** All cells of a layer. *)
Definition layer_cells (d : dims) : list (Z * Z) :=
  list_prod (zrange 0 (d_nrows d - 1)) (zrange 0 (d_ncols d - 1)).

(** Number of coefficients of the floorplan matrix. *)
Definition coefficients (els : list flpel) : Z :=
  fold_right Z.add 0
    (map (fun a => (ic_ne_row a - ic_sw_row a + 1) * (ic_ne_col a - ic_sw_col a + 1))
         (flat_map fe_ics els)).

(** Open rectangles that meet. *)
Definition rectangles_meet (a b : icel) : Prop :=
  (ic_x a < ic_x b + ic_len b /\ ic_x b < ic_x a + ic_len a /\
   ic_y a < ic_y b + ic_wid b /\ ic_y b < ic_y a + ic_wid a)%Q.

(** Cell (r,c) of the layer belongs to the element. *)
Definition cell_of (d : dims) (e : flpel) (r c : Z) : Prop :=
  0 <= r < d_nrows d /\ 0 <= c < d_ncols d /\ exists a, In a (fe_ics e) /\ overlaps d a r c.

(** Temperature of cell (r,c) in the slice [t] of one layer. *)
Definition temp (d : dims) (t : list Q) (r c : Z) : Q := nth (Z.to_nat (r * d_ncols d + c)) t 0%Q.
