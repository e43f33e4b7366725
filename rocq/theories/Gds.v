(** * Model of the generation of floorplans from GDS layouts,
      /repo/utils/floorplan_gds/create_floorplan_material.py and read_gds.py (the
      subdivision, lines 112-139).

    [float] is Q; printed numbers are those of the exact value. Parameters: the blocks the
    regular expression finds in the text (lines 60-64), the square root of the library, and
    for the subdivision the share of a box that the polygons cover (lines 116-121).
    A definition of material.txt is here the name and the values that are printed (lines
    109-114); the text is in GdsText.v. *)
From Coq Require Import ZArith QArith Qround Bool List String Ascii.
From Verif Require Import Base Flex Vtk FlpText Gradient.
Import ListNotations.
Local Open Scope string_scope.
Local Open Scope list_scope.
Local Open Scope Z_scope.

(** A block of the text: position, size, ratio (read_rectangles, lines 60-64). *)
Record block := mk_block { b_x : Q; b_y : Q; b_w : Q; b_h : Q; b_ratio : Q }.

(** Constants, create_floorplan_material.py 21-30. *)
Definition k_Polygon : Q := 385 # 1.
Definition Cp_Polygon : Q := 3449600 # 1.
Definition k_Substrate : Q := 3 # 2.
Definition Cp_Substrate : Q := 1540000 # 1.
Definition Num_of_material : Z := 100.

(** The index of the material, lines 71-75. *)
Definition raw_index (r : Q) : Z := Qfloor (r * inject_Z Num_of_material) + 1.
Definition ratio_index (r : Q) : Z :=
  let i := raw_index r in
  let i := if i =? 1 then 0 else i in
  if i >? Num_of_material then Num_of_material else i.
(** material_name, lines 77-78 and 109-110. *)
Definition material_name (k : Z) : chars := str "GDS_mat" ++ str (int_text k).

(** write_floorplan, create_floorplan_material.py 66-85; magnify is 1 (line 34), the
    discretization 1 by 1, the power 0 (lines 36-38). *)
Definition f12 (x : Q) : chars := str (fixed 12 x).
Definition block_text (i : Z) (b : block) : chars :=
  str "Element" ++ str (int_text i) ++ str " :" ++ line_end
  ++ str "  position    " ++ f12 (b_x b) ++ str ", " ++ f12 (b_y b) ++ str " ;" ++ line_end
  ++ str "  dimension   " ++ f12 (b_w b) ++ str ", " ++ f12 (b_h b) ++ str " ;" ++ line_end
  ++ str "  material " ++ material_name (ratio_index (b_ratio b)) ++ str ";" ++ line_end
  ++ str "  discretization " ++ str (int_text 1) ++ str ", " ++ str (int_text 1) ++ str " ;" ++ line_end
  ++ str "  power values " ++ f12 0 ++ str " ;" ++ line_end ++ line_end.
Fixpoint blocks_text (i : Z) (bs : list block) : chars :=
  match bs with [] => [] | b :: r => block_text i b ++ blocks_text (i + 1) r end.

(** The set and its sorted list, lines 91-92. *)
Fixpoint insert (x : Z) (l : list Z) : list Z :=
  match l with
  | [] => [x]
  | y :: r => if x =? y then y :: r else if x <? y then x :: y :: r else y :: insert x r
  end.
Definition unique_indices (bs : list block) : list Z :=
  filter (fun i => i <=? Num_of_material) (fold_right insert [] (map (fun b => raw_index (b_ratio b)) bs)).

(** A definition of material.txt: name, the three conductivities, heat capacity. *)
Record material := mk_material { m_name : chars; m_kx : Q; m_ky : Q; m_kz : Q; m_vhc : Q }.
Section Root.
(** math.sqrt of a number that is not negative. *)
Variable root : Q -> Q.
(** write_materials, create_floorplan_material.py 87-114, one definition: lines 96-110.
    A negative base index stops it: ValueError of math.sqrt (line 98). *)
Definition material_of (idx : Z) : option material :=
  let base_idx := if idx =? 1 then 0 else idx in
  if base_idx <? 0 then None
  else
    let p := (inject_Z base_idx / inject_Z Num_of_material)%Q in
    let s := root p in
    let num := (s * k_Polygon * k_Substrate)%Q in
    let den := ((1 - s) * k_Polygon + s * k_Substrate)%Q in
    let kx := (((1 - s) * k_Substrate + num / den) / 1000000)%Q in
    let ky := kx in
    let kz := ((p * k_Polygon + (1 - p) * k_Substrate) / 1000000)%Q in
    let vhc := ((p * Cp_Polygon + (1 - p) * Cp_Substrate) / inject_Z (10 ^ 18))%Q in
    Some (mk_material (material_name base_idx) kx ky kz vhc).
Fixpoint materials_of (l : list Z) : option (list material) :=
  match l with
  | [] => Some []
  | i :: r => match material_of i, materials_of r with Some m, Some ms => Some (m :: ms) | _, _ => None end
  end.
(** main, create_floorplan_material.py 116-137: floorplan.txt and the definitions of
    material.txt; None: the tool ends with an error (in write_materials the floorplan
    is already there). *)
Definition convert (bs : list block) : option (chars * list material) :=
  match bs with
  | [] => None
  | _ => match materials_of (unique_indices bs) with Some ms => Some (blocks_text 1 bs, ms) | None => None end
  end.
End Root.

(** A region: lower left and upper right corner (box of line 113). *)
Record region := mk_region { r_min_x : Q; r_min_y : Q; r_max_x : Q; r_max_y : Q }.
Definition r_area (r : region) : Q := ((r_max_x r - r_min_x r) * (r_max_y r - r_min_y r))%Q.
Section Divide.
(** total_overlap_area of a region (line 120), and the limits (line 112). *)
Variable overlap : region -> Q.
Variables threshold1 threshold2 max_grid_area : Q.
(** area_ratio, read_gds.py 121. *)
Definition area_ratio (r : region) : Q := if Qle_bool (r_area r) 0 then 0%Q else (overlap r / r_area r)%Q.
(** subdivide_region, read_gds.py 112-139, with [more] = max_iterations - iteration (a
    region is written when it is 0, line 124); the result is the regions written, each
    with its number, and the next number. Each region also has its ratio. *)
Fixpoint subdivide (more : nat) (r : region) (index : Z) : list (Z * region * Q) * Z :=
  let leaf := ([(index, r, area_ratio r)], index + 1) in
  match more with
  | O => leaf
  | S more =>
      if (Qle_bool (area_ratio r) threshold2 || Qle_bool threshold1 (area_ratio r)) && Qle_bool (r_area r) max_grid_area then leaf
      else
        let mid_x := ((r_min_x r + r_max_x r) / 2)%Q in
        let mid_y := ((r_min_y r + r_max_y r) / 2)%Q in
        let (l1, i1) := subdivide more (mk_region (r_min_x r) (r_min_y r) mid_x mid_y) index in
        let (l2, i2) := subdivide more (mk_region mid_x (r_min_y r) (r_max_x r) mid_y) i1 in
        let (l3, i3) := subdivide more (mk_region (r_min_x r) mid_y mid_x (r_max_y r)) i2 in
        let (l4, i4) := subdivide more (mk_region mid_x mid_y (r_max_x r) (r_max_y r)) i3 in
        (l1 ++ l2 ++ l3 ++ l4, i4)
  end.
End Divide.
