(** * Model of /repo/sources/dimensions.c (uniform grid), of the dimension rules
      of /repo/bison/stack_description_parser.y 1070-1150 and of the spreader
      grid of /repo/sources/heat_sink.c 280-317.

    Lengths are exact rationals (the code uses double: rounding is not
    modelled); indexes are [Z] with explicit 32-bit wrap-around. *)
From Coq Require Import ZArith List Bool QArith Qround.
From Verif Require Import Base.
Import ListNotations.
Local Open Scope Z_scope.

(** CellDimensions_t / GridDimensions_t / ChipDimensions_t,
    include/dimensions.h 60-190 (Heights kept as the list itself: NHeights is
    its length). *)
Record dims := mkDims {
  d_first : Q; d_last : Q; d_wall : Q; d_chan : Q; d_width : Q;
  d_heights : list Q;
  d_nlayers : Z; d_nrows : Z; d_ncols : Z; d_ncells : Z;
  d_chip_length : Q; d_chip_width : Q
}.

(** last_row / last_column / last_layer, dimensions.c 445-476. *)
Definition last_row (d : dims) : Z := u32 (d_nrows d - 1).
Definition last_column (d : dims) : Z := u32 (d_ncols d - 1).
Definition last_layer (d : dims) : Z := u32 (d_nlayers d - 1).

(** get_cell_length, dimensions.c 480-513. *)
Definition get_cell_length (d : dims) (c : Z) : Q :=
  if last_column d <? c then 0%Q
  else if c =? 0 then d_first d
  else if c =? last_column d then d_last d
  else if Z.odd c then d_chan d
  else d_wall d.

(** get_cell_width, dimensions.c 517-534. *)
Definition get_cell_width (d : dims) (r : Z) : Q :=
  if last_row d <? r then 0%Q else d_width d.

(** get_cell_height, dimensions.c 538-562: the guard lets layer_index equal to
    NHeights through, which reads one element past the vector. *)
Definition get_cell_height (d : dims) (l : Z) : outcome Q :=
  if Z.of_nat (length (d_heights d)) <? l then Ok 0%Q else arr_get (d_heights d) l.

Definition qz (z : Z) : Q := inject_Z z.

(** get_cell_center_x, dimensions.c 566-588: [column_index - 2] and
    [column_index - 1] are unsigned subtractions. *)
Definition get_cell_center_x (d : dims) (c : Z) : Q :=
  if c =? 0 then (d_first d / 2)%Q
  else if c =? last_column d then
    (d_first d + d_chan d / 2 * qz c + d_wall d / 2 * qz (u32 (c - 2)) + d_last d / 2)%Q
  else (d_first d + d_chan d / 2 * qz c + d_wall d / 2 * qz (u32 (c - 1)))%Q.

(** get_cell_center_y, dimensions.c 592-600. *)
Definition get_cell_center_y (d : dims) (r : Z) : Q :=
  (d_width d / 2 + d_width d * qz r)%Q.

(** get_cell_location_x, dimensions.c 604-619. *)
Definition get_cell_location_x (d : dims) (c : Z) : Q :=
  if c =? 0 then 0%Q
  else (d_first d + d_chan d * qz (c / 2) + d_wall d * qz (u32 (c - 1) / 2))%Q.

(** get_cell_location_y, dimensions.c 623-630. *)
Definition get_cell_location_y (d : dims) (r : Z) : Q := (d_width d * qz r)%Q.

(** get_layer_area, dimensions.c 669-672. *)
Definition get_layer_area (d : dims) : Z := u32 (d_nrows d * d_ncols d).

(** get_cell_offset_in_layer, dimensions.c 676-684. *)
Definition offset_in_layer (d : dims) (r c : Z) : Z := u32 (u32 (r * d_ncols d) + c).

(** get_cell_offset_in_stack, dimensions.c 688-698. *)
Definition offset_in_stack (d : dims) (l r c : Z) : Z :=
  u32 (u32 (l * get_layer_area d) + offset_in_layer d r c).

(** ** Dimension section of the stack description *)
Inductive chan_spec :=
| Uniform (cell_length : Q)                      (* no channel, 2RM, pin fins *)
| MC4RM (first last wall chan : Q).              (* 4RM micro channels *)

(** Conversion of a double to uint32_t: truncation; undefined if the value
    does not fit (C11 6.3.1.4). *)
Definition to_u32 (x : Q) : outcome Z :=
  if (0 <=? Qfloor x) && (Qfloor x <? two32) then Ok (Qfloor x) else UB.

(** (int) ratio, for the integrality test of line 1117. *)
Definition trunc_int (x : Q) : Z := if Qle_bool 0 x then Qfloor x else - Qfloor (- x).

(** stack_description_parser.y 1086-1142; [None]: parse error (YYABORT). *)
Definition parse_columns (chip_length cell_length : Q) (s : chan_spec) : outcome (option (Q * Q * Q * Q * Z)) :=
  do n <- to_u32 (chip_length / cell_length) ;
  match s with
  | Uniform _ => Ok (Some (cell_length, cell_length, cell_length, cell_length, n))
  | MC4RM first last wall chan =>
    let ratio := ((chip_length - first - last - chan) / (chan + wall))%Q in
    if Qeq_bool (ratio - qz (trunc_int ratio)) 0 then
      do n4 <- to_u32 (2 * ratio + 3)%Q ;
      if Z.even n4 then Ok None
      else if n4 <? 3 then Ok None
      else Ok (Some (first, last, wall, chan, n4))
    else Ok None
  end.

(** Dimensions after the dimension section and, for [heights], after the stack
    section (1250-1350). NCells is the checked 64-bit product. *)
Definition parse_dims (chip_length chip_width cell_length cell_width : Q) (s : chan_spec)
           (heights : list Q) (spreader_cells : Z) : outcome (option dims) :=
  do rows <- to_u32 (chip_width / cell_width) ;
  do cols <- parse_columns chip_length cell_length s ;
  match cols with
  | None => Ok None
  | Some (first, last, wall, chan, ncols) =>
    let nlayers := Z.of_nat (length heights) in
    let ncells := nlayers * rows * ncols + spreader_cells in
    if 2147483647 <? ncells then Ok None
    else Ok (Some (mkDims first last wall chan cell_width heights nlayers rows ncols
                          ncells chip_length chip_width))
  end.

(** ** Heat spreader grid *)
Record spreader := mkSpreader {
  s_nrows : Z; s_ncols : Z; s_border_rows : Z; s_border_cols : Z;
  s_cell_length : Q; s_cell_width : Q
}.

(** initialize_heat_spreader, heat_sink.c 280-317 (plugin loading not modelled). *)
Definition initialize_heat_spreader (d : dims) (length width : Q) : outcome (option spreader) :=
  let cl := (d_chip_length d / qz (d_ncols d))%Q in
  let bl := ((length - d_chip_length d) / 2 / cl)%Q in
  if negb (Qle_bool 0 bl) then Ok None
  else
    do bcols <- to_u32 bl ;
    let cw := (d_chip_width d / qz (d_nrows d))%Q in
    let bw := ((width - d_chip_width d) / 2 / cw)%Q in
    if negb (Qle_bool 0 bw) then Ok None
    else
      do brows <- to_u32 bw ;
      Ok (Some (mkSpreader (u32 (u32 (2 * brows) + d_nrows d)) (u32 (u32 (2 * bcols) + d_ncols d))
                           brows bcols cl cw)).

(** get_spreader_cell_offset, dimensions.c 723-745 (uniform grid). *)
Definition spreader_offset (d : dims) (s : spreader) (r c : Z) : Z :=
  u32 (u32 (u32 (u32 (d_nlayers d * d_nrows d) * d_ncols d) + u32 (r * s_ncols s)) + c).

(** get_spreader_cell_offset_from_layer_coordinates, dimensions.c 749-762. *)
Definition spreader_offset_from_layer (d : dims) (s : spreader) (r c : Z) : Z :=
  spreader_offset d s (u32 (r + s_border_rows s)) (u32 (c + s_border_cols s)).

(** has_layer_underneath, dimensions.c 766-783. *)
Definition has_layer_underneath (d : dims) (s : spreader) (r c : Z) : bool :=
  (s_border_rows s <=? r) && (r <? u32 (s_border_rows s + d_nrows d)) &&
  (s_border_cols s <=? c) && (c <? u32 (s_border_cols s + d_ncols d)).

(** get_layer_cell_offset_from_spreader_coordinates, dimensions.c 785-801; the
    assert is [UB]. *)
Definition layer_offset_from_spreader (d : dims) (s : spreader) (l r c : Z) : outcome Z :=
  if has_layer_underneath d s r c
  then Ok (offset_in_stack d l (u32 (r - s_border_rows s)) (u32 (c - s_border_cols s)))
  else UB.

(** get_spreader_cell_offset on a non-uniform grid, dimensions.c 733-736: row
    and column are ignored. *)
Definition spreader_offset_nonuniform (ncells : Z) (s : spreader) (r c : Z) : Z :=
  u32 (ncells - u32 (s_ncols s * s_nrows s)).

(** compute_number_of_connections, dimensions.c 324-434. *)
Inductive channel_model := CM_NONE | CM_MC_4RM | CM_MC_2RM | CM_PF_INLINE | CM_PF_STAGGERED.

Definition number_of_connections (nlayers nrows ncolumns num_channels : Z) (cm : channel_model)
           (sp : option (Z * Z)) : Z :=
  let nlc := u32 (num_channels * 4) in
  let nle := u32 (nlayers - nlc) in
  let base :=
    match cm with
    | CM_NONE | CM_MC_4RM =>
      u32 (nlayers * nrows * ncolumns
           + 2 * (nlayers - 1) * nrows * ncolumns
           + 2 * nlayers * (nrows - 1) * ncolumns
           + 2 * nlayers * nrows * (ncolumns - 1))
    | _ =>
      let tmp := match cm with CM_MC_2RM => 4 | _ => 2 end in
      u32 (nle * nrows * ncolumns
           + 2 * nle * nrows * ncolumns
           + 2 * nle * (nrows - 1) * ncolumns
           + 2 * nle * nrows * (ncolumns - 1)
           + nlc * nrows * ncolumns
           + 2 * (nlc + num_channels) * nrows * ncolumns
           + tmp * num_channels * (nrows - 1) * ncolumns)
    end in
  match sp with
  | None => base
  | Some (sr, sc) =>
    u32 (u32 (base + (sr * sc + 2 * (sr - 1) * sc + 2 * sr * (sc - 1))) + 2 * nrows * ncolumns)
  end.
