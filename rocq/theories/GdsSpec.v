(** * Specification for C81 and C82: materials of a floorplan made from a GDS layout, and
      what a division into regions is. *)
From Coq Require Import ZArith QArith Bool List String.
From Verif Require Import Base Flex Vtk VtkSpec FlpText FlpTextSpec Gds.
Import ListNotations.
Local Open Scope list_scope.
Local Open Scope Z_scope.

(** The number of the material for a share: 0 below one hundredth; otherwise one more than
    the full hundredths, but at most 100. *)
Definition material_number (r : Q) (k : Z) : Prop :=
  ((r < 1 # 100)%Q /\ k = 0) \/
  (((1 # 100) <= r /\ r < 1 /\ inject_Z (k - 1) <= 100 * r /\ 100 * r < inject_Z k)%Q) \/
  ((1 <= r)%Q /\ k = 100).
(** "GDS_mat17" *)
Definition gds_name (k : Z) : chars := str "GDS_mat" ++ str (dec k).
Definition element_name (i : Z) : chars := str "Element" ++ str (dec i).
Definition defined (name : chars) (ms : list material) : Prop := exists m, In m ms /\ m_name m = name.
(** A mixture: [p] of the polygons, the rest substrate. *)
Definition mixture (p polygon substrate : Q) : Q := (p * polygon + (1 - p) * substrate)%Q.
(** The declaration of the i-th block with material [k]: cut in 1 by 1 cells, no power. *)
Definition declares_block (i : Z) (b : block) (d : flpdecl) : Prop :=
  fd_id d = name_codes (element_name i) /\
  (exists x y l w, fd_rects d = [(x, y, l, w)] /\ near (1 # 2000000000000) x (b_x b) /\ near (1 # 2000000000000) y (b_y b) /\
                   near (1 # 2000000000000) l (b_w b) /\ near (1 # 2000000000000) w (b_h b)) /\
  (exists k, material_number (b_ratio b) k /\ fd_material d = Some (name_codes (gds_name k))) /\
  (exists nx ny, fd_discr d = Some (nx, ny) /\ (nx == 1)%Q /\ (ny == 1)%Q) /\
  (exists p, fd_powers d = Some [p] /\ near (1 # 2000000000000) p 0).

(** The point is in the region, its left and lower border included. *)
Definition point_in (x y : Q) (r : region) : Prop :=
  (r_min_x r <= x /\ x < r_max_x r /\ r_min_y r <= y /\ y < r_max_y r)%Q.
(** Exactly one of the regions has the point. *)
Definition in_one (x y : Q) (l : list region) : Prop :=
  exists l1 r l2, l = l1 ++ r :: l2 /\ point_in x y r /\ Forall (fun s => ~ point_in x y s) (l1 ++ l2).
Definition proper (r : region) : Prop := (r_min_x r < r_max_x r /\ r_min_y r < r_max_y r)%Q.
(** [s] is [r] halved [d] times in both directions. *)
Definition halved (d : nat) (r s : region) : Prop :=
  (r_max_x s - r_min_x s == (r_max_x r - r_min_x r) / inject_Z (2 ^ Z.of_nat d))%Q /\
  (r_max_y s - r_min_y s == (r_max_y r - r_min_y r) / inject_Z (2 ^ Z.of_nat d))%Q.
(** The area covered by polygons in a region is that in its four quarters. *)
Definition additive (overlap : region -> Q) : Prop := forall x0 y0 x1 y1 x y,
  (x0 < x < x1)%Q -> (y0 < y < y1)%Q ->
  (overlap (mk_region x0 y0 x1 y1) == overlap (mk_region x0 y0 x y) + overlap (mk_region x y0 x1 y)
     + overlap (mk_region x0 y x y1) + overlap (mk_region x y x1 y1))%Q.
Fixpoint total (l : list Q) : Q := match l with [] => 0%Q | x :: r => (x + total r)%Q end.
