(** * Model of the non-uniform grid: update_number_of_cells, get_cell_position,
      get_minkowski_difference, get_overlap_area, get_connections_in_layer and
      get_connections_between_layer (/repo/sources/thermal_data.c 70-1030).

    Lengths are exact rationals (the code uses double: rounding is not
    modelled). The OpenMP regions are given here as lists of iterations with
    their bodies; NuParallel.v gives their executions. *)
From Coq Require Import ZArith List Bool QArith Qabs.
From Verif Require Import Base Dims Floorplan Stack.
Import ListNotations.
Local Open Scope Z_scope.

(** struct ICElement, include/ic_element.h 55-120: the fields used by the
    non-uniform grid (rectangle, discretisation, 0 = not given, material,
    Index_start, Index_end). *)
Record nu_icel := mkNuIcel {
  ni_x : Q; ni_y : Q; ni_len : Q; ni_wid : Q;
  ni_dx : Z; ni_dy : Z; ni_mat : option material; ni_start : Z; ni_end : Z
}.

(** struct FloorplanElement: its list of rectangles, never empty
    (floorplan_parser.y 225-300). *)
Record nu_el := mkNuEl { ne_first : nu_icel; ne_others : list nu_icel }.

(** struct Die: layers (top-most first), layers below the source, default
    discretisation, elements of the floorplan. *)
Record nu_die := mkNuDie { nd_layers : list layer; nd_offset : Z; nd_dx : Z; nd_dy : Z; nd_els : list nu_el }.

(** struct StackElement: SEType and Pointer. A stack is top-most first. *)
Inductive nu_kind :=
| NuDie (d : nu_die)
| NuLayer (dx dy : Z)
| NuChannel (m : channel_model).

(** StackElement_t.NLayers, stack_description_parser.y 1360-1720. *)
Definition nu_nlayers (e : nu_kind) : Z :=
  match e with
  | NuDie d => Z.of_nat (length (nd_layers d))
  | NuLayer _ _ => 1
  | NuChannel m => channel_layers m
  end.

(** thermal_data.c 93-107 and 194-206: the discretisation of the first
    rectangle, or that of the die when one of the two factors is 0. *)
Definition resolved (dx dy : Z) (i : nu_icel) : Z * Z :=
  if negb (ni_dx i =? 0) && negb (ni_dy i =? 0) then (ni_dx i, ni_dy i) else (dx, dy).

Definition set_discr (i : nu_icel) (xy : Z * Z) : nu_icel :=
  mkNuIcel (ni_x i) (ni_y i) (ni_len i) (ni_wid i) (fst xy) (snd xy) (ni_mat i) (ni_start i) (ni_end i).
Definition set_range (i : nu_icel) (a b : Z) : nu_icel :=
  mkNuIcel (ni_x i) (ni_y i) (ni_len i) (ni_wid i) (ni_dx i) (ni_dy i) (ni_mat i) a b.

(** thermal_data.c 89-108: number of cells of the elements of a die; the
    default discretisation is written into the elements that use it. *)
Fixpoint count_elements (dx dy : Z) (els : list nu_el) (acc : Z) : list nu_el * Z :=
  match els with
  | [] => ([], acc)
  | e :: t =>
    let xy := resolved dx dy (ne_first e) in
    let r := count_elements dx dy t (u32 (acc + u32 (fst xy * snd xy))) in
    (mkNuEl (set_discr (ne_first e) xy) (ne_others e) :: fst r, snd r)
  end.

(** One turn of the loop of update_number_of_cells, 78-136. *)
Definition count_element (d : dims) (e : nu_kind) (acc : Z) : nu_kind * Z :=
  match e with
  | NuDie x =>
    let r := count_elements (nd_dx x) (nd_dy x) (nd_els x) 0 in
    (NuDie (mkNuDie (nd_layers x) (nd_offset x) (nd_dx x) (nd_dy x) (fst r)),
     u32 (acc + u32 (snd r * nu_nlayers e)))
  | NuLayer dx dy => (e, u32 (acc + u32 (dx * dy)))
  | NuChannel m => (e, u32 (acc + u32 (u32 (nu_nlayers e * d_nrows d) * d_ncols d)))
  end.

Fixpoint count_stack (d : dims) (es : list nu_kind) (acc : Z) : list nu_kind * Z :=
  match es with
  | [] => ([], acc)
  | e :: t => let a := count_element d e acc in
              let r := count_stack d t (snd a) in
              (fst a :: fst r, snd r)
  end.

(** First->Data.TopSink->SinkModel, thermal_data.c 146 and 665: TopSink is NULL
    when the stack file declares no top heat sink. *)
Definition spreader_present (top : option top_sink) : outcome bool :=
  match top with None => UB | Some (SinkTop _ _) => Ok false | Some (SinkPluggable _ _ _) => Ok true end.

(** update_number_of_cells, thermal_data.c 70-148. *)
Definition update_number_of_cells (d : dims) (top : option top_sink) (es : list nu_kind) : outcome (list nu_kind * Z) :=
  let r := count_stack d es 0 in
  do sp <- spreader_present top ;
  Ok (fst r, if sp then u32 (snd r + u32 (d_nrows d * d_ncols d)) else snd r).

(** A row of position_info: left_x, left_y, right_x, right_y. *)
Record rect := mkRect { r_x0 : Q; r_y0 : Q; r_x1 : Q; r_y1 : Q }.

(** struct Non_uniform_cell, include/non_uniform_cell.h 56-71, with the row of
    position_info it is made from: length and width are its differences. The
    material is that of material_init (all zero) except in dies. *)
Record cell := mkCell { c_layer : Z; c_rect : rect; c_z : Q; c_height : Q; c_channel : bool; c_mat : material }.
Definition c_length (c : cell) : Q := (r_x1 (c_rect c) - r_x0 (c_rect c))%Q.
Definition c_width (c : cell) : Q := (r_y1 (c_rect c) - r_y0 (c_rect c))%Q.
Definition material0 : material := mkMaterial 0 0 0 0.

(** thermal_data.c 221-230 (elements), 293-302 (layers), 683-692 (spreader):
    sub-rectangle number k of a rectangle cut into dx columns and dy rows. *)
Definition sub_rect (x y len wid : Q) (dx dy k : Z) : rect :=
  let px := k mod dx in
  let py := k / dx in
  mkRect (x + len / qz dx * qz px) (y + wid / qz dy * qz py)
         (x + len / qz dx * qz (px + 1)) (y + wid / qz dy * qz (py + 1)).

(** The sub_element loops: for (k = 0; k < n; k++). *)
Definition indexes (n : Z) : list Z := zrange 0 (n - 1).

(** thermal_data.c 361-409, 447-495, 562-612: cell of column k % NColumns and row
    k / NColumns of a layer of a channel. *)
Definition channel_rect (d : dims) (k : Z) : rect :=
  let c := k mod d_ncols d in
  let r := k / d_ncols d in
  let y0 := (0 + d_chip_width d / qz (d_nrows d) * qz r)%Q in
  let y1 := (0 + d_chip_width d / qz (d_nrows d) * qz (r + 1))%Q in
  if c =? 0 then mkRect 0 y0 (d_first d) y1
  else if c =? u32 (d_ncols d - 1) then mkRect (d_chip_length d - d_last d) y0 (d_chip_length d) y1
  else if negb (c mod 2 =? 0) then
    let x0 := (d_first d + qz ((c - 1) / 2) * (d_wall d + d_chan d))%Q in
    mkRect x0 y0 (x0 + d_chan d) y1
  else
    let x0 := (d_first d + d_chan d + qz ((c - 2) / 2) * (d_wall d + d_chan d))%Q in
    mkRect x0 y0 (x0 + d_wall d) y1.

(** State of get_cell_position: Cell_list (with position_info), the arrays
    layer_cell_record and layer_type_record, current_layer (height_tmp points
    to Heights + current_layer), current_height. cell_num_non_uniform is the
    length of the list. *)
Record nstate := mkNs { ns_cells : list cell; ns_records : list Z; ns_types : list Z; ns_layer : Z; ns_z : Q }.

(** End of a layer: its cells are stored (position_info and Cell_pointer have
    room for NCells entries), the records are written, the height is added. *)
Definition push_layer (ncells : Z) (st : nstate) (cs : list cell) (type : Z) (h : Q) : outcome nstate :=
  let cells := ns_cells st ++ cs in
  if Z.of_nat (length cells) <=? ncells then
    do rs <- arr_set (ns_records st) (ns_layer st) (Z.of_nat (length cells)) ;
    do ts <- arr_set (ns_types st) (ns_layer st) type ;
    Ok (mkNs cells rs ts (u32 (ns_layer st + 1)) (ns_z st + h)%Q)
  else UB.

(** Elements of a die in one of its layers, 182-275: [src] tells whether this is
    the source layer, [base] is the index of the first cell. *)
Fixpoint position_elements (dx dy : Z) (src : bool) (mk : rect -> material -> cell) (lmat : material) (base : Z)
         (els : list nu_el) : list cell * list nu_el :=
  match els with
  | [] => ([], [])
  | e :: t =>
    let i := ne_first e in
    let xy := if (ni_dx i =? 0) || (ni_dy i =? 0) then (dx, dy) else (ni_dx i, ni_dy i) in
    let n := u32 (fst xy * snd xy) in
    let m := if src then match ni_mat i with Some m => m | None => lmat end else lmat in
    let cs := map (fun k => mk (sub_rect (ni_x i) (ni_y i) (ni_len i) (ni_wid i) (fst xy) (snd xy) k) m) (indexes n) in
    let after := u32 (base + n) in
    let e' := if src then mkNuEl (set_range i (u32 (after - n)) (u32 (after - 1))) (ne_others e) else e in
    let r := position_elements dx dy src mk lmat after t in
    (cs ++ fst r, e' :: snd r)
  end.

(** Layers of a die from the bottom one, 170-280. *)
Fixpoint position_die (d : dims) (ncells : Z) (x : nu_die) (ls : list layer) (index : Z) (els : list nu_el) (st : nstate)
  : outcome (list nu_el * nstate) :=
  match ls with
  | [] => Ok (els, st)
  | l :: t =>
    do h <- arr_get (d_heights d) (ns_layer st) ;
    let mk := fun r m => mkCell (ns_layer st) r (ns_z st) h false m in
    let r := position_elements (nd_dx x) (nd_dy x) (index =? nd_offset x) mk (ly_mat l)
               (Z.of_nat (length (ns_cells st))) els in
    do st' <- push_layer ncells st (fst r) 0 h ;
    position_die d ncells x t (index + 1) (snd r) st'
  end.

(** layer_type_record of layer [i] of a channel, 423-427, 510-521, 634. *)
Definition channel_layer_type (m : channel_model) (i : Z) : Z :=
  match m with
  | CM_MC_2RM => if (i =? 0) || (i =? 3) then 1 else 2
  | CM_PF_INLINE | CM_PF_STAGGERED => if (i =? 0) || (i =? 3) then 1 else if i =? 1 then 3 else 2
  | _ => 0
  end.

(** isChannel: 352-355, 438-441 (the third layer), 566-611 (4RM: odd columns
    other than the last one). *)
Definition is_channel_cell (d : dims) (m : channel_model) (i k : Z) : bool :=
  match m with
  | CM_MC_2RM | CM_PF_INLINE | CM_PF_STAGGERED => i =? 2
  | _ => let c := k mod d_ncols d in
         negb (c =? 0) && negb (c =? u32 (d_ncols d - 1)) && negb (c mod 2 =? 0)
  end.

(** Layers of a channel, 337-640 (the three branches differ in the types and in
    isChannel only). *)
Fixpoint position_channel (d : dims) (ncells : Z) (m : channel_model) (n : nat) (index : Z) (st : nstate) : outcome nstate :=
  match n with
  | O => Ok st
  | S n' =>
    do h <- arr_get (d_heights d) (ns_layer st) ;
    let cs := map (fun k => mkCell (ns_layer st) (channel_rect d k) (ns_z st) h (is_channel_cell d m index k) material0)
                  (indexes (u32 (d_ncols d * d_nrows d))) in
    do st' <- push_layer ncells st cs (channel_layer_type m index) h ;
    position_channel d ncells m n' (index + 1) st'
  end.

(** One stack element, 160-655. *)
Definition position_element (d : dims) (ncells : Z) (e : nu_kind) (st : nstate) : outcome (nu_kind * nstate) :=
  match e with
  | NuDie x =>
    do r <- position_die d ncells x (rev (nd_layers x)) 0 (nd_els x) st ;
    Ok (NuDie (mkNuDie (nd_layers x) (nd_offset x) (nd_dx x) (nd_dy x) (fst r)), snd r)
  | NuLayer dx dy =>
    do h <- arr_get (d_heights d) (ns_layer st) ;
    let cs := map (fun k => mkCell (ns_layer st) (sub_rect 0 0 (d_chip_length d) (d_chip_width d) dx dy k) (ns_z st) h false material0)
                  (indexes (u32 (dx * dy))) in
    do st' <- push_layer ncells st cs 0 h ;
    Ok (e, st')
  | NuChannel m =>
    do st' <- position_channel d ncells m (Z.to_nat (channel_layers m)) 0 st ;
    Ok (e, st')
  end.

(** The stack from the bottom-most element: the list is given bottom-most first. *)
Fixpoint position_stack (d : dims) (ncells : Z) (es : list nu_kind) (st : nstate) : outcome (list nu_kind * nstate) :=
  match es with
  | [] => Ok ([], st)
  | e :: t =>
    do a <- position_element d ncells e st ;
    do r <- position_stack d ncells t (snd a) ;
    Ok (fst a :: fst r, snd r)
  end.

(** get_cell_position, thermal_data.c 155-709, on the zeroed arrays of 1049-1071.
    [past] stands for the value read one element past Cell.Heights for the height
    of the spreader cells (line 699): the read itself is out of bounds, the value
    is only stored in the cells (simplification: not counted as [UB]).
    print_conductance_map_non_uniform (660) only prints: left out. *)
Definition get_cell_position (d : dims) (top : option top_sink) (past : Q) (ncells : Z) (es : list nu_kind)
  : outcome (list nu_kind * nstate) :=
  let zeros := repeat 0 (Z.to_nat (d_nlayers d + 1)) in
  do r <- position_stack d ncells (rev es) (mkNs [] zeros zeros 0 0%Q) ;
  do sp <- spreader_present top ;
  if sp then
    let st := snd r in
    let cs := map (fun k => mkCell (ns_layer st) (sub_rect 0 0 (d_chip_length d) (d_chip_width d) (d_ncols d) (d_nrows d) k)
                                   (ns_z st) past false material0)
                  (indexes (u32 (d_ncols d * d_nrows d))) in
    do st' <- push_layer ncells st cs 4 past ;
    Ok (rev (fst r), st')
  else Ok (rev (fst r), snd r).

(** thermal_data.c 1049-1081: the number of cells, the stack with its elements
    completed, the state. *)
Definition nu_grid (d : dims) (top : option top_sink) (past : Q) (es : list nu_kind) : outcome (Z * list nu_kind * nstate) :=
  do r <- update_number_of_cells d top es ;
  do s <- get_cell_position d top past (snd r) (fst r) ;
  Ok (snd r, fst s, snd s).

(** ** Connections *)
(** struct Connection, include/connection.h 55-75. *)
Record conn := mkConn { k_node1 : Z; k_node2 : Z; k_layer1 : Z; k_layer2 : Z; k_value : Q; k_dir : Z }.

(** get_minkowski_difference, thermal_data.c 713-720. *)
Record mdiff := mkMdiff { m0 : Q; m1 : Q; m2 : Q; m3 : Q }.
Definition minkowski (a b : rect) : mdiff :=
  mkMdiff (r_x0 a - r_x1 b) (r_y0 a - r_y1 b) (r_x1 a - r_x0 b) (r_y1 a - r_y0 b).

Definition qle_min (a b : Q) : Q := if Qle_bool a b then a else b.

(** get_overlap_area, thermal_data.c 724-746 (the message left out). *)
Definition overlap_area (m : mdiff) (a b : rect) : Q :=
  let length := qle_min (Qabs (m0 m)) (Qabs (m2 m)) in
  let width := qle_min (Qabs (m1 m)) (Qabs (m3 m)) in
  let node_length := qle_min (r_x1 a - r_x0 a) (r_x1 b - r_x0 b) in
  let node_width := qle_min (r_y1 a - r_y0 a) (r_y1 b - r_y0 b) in
  (qle_min length node_length * qle_min width node_width)%Q.

(** Body of the inner loop of get_connections_in_layer, thermal_data.c 786-823:
    what is inserted for the cells i_x and i_y. *)
Definition in_layer_pair (type layer i j : Z) (a b : rect) : list conn :=
  let m := minkowski a b in
  if (Qlt_bool (Qabs (m0 m)) EPSILON || Qlt_bool (Qabs (m1 m)) EPSILON
      || Qlt_bool (Qabs (m2 m)) EPSILON || Qlt_bool (Qabs (m3 m)) EPSILON)
     && Qlt_bool (m0 m * m2 m + m1 m * m3 m) (- EPSILON)
  then
    if Qlt_bool (Qabs (m0 m * m2 m)) EPSILON then
      if (type =? 1) || (type =? 2) || (type =? 3) then []
      else [mkConn i j layer layer (qle_min (Qabs (m1 m)) (Qabs (m3 m))) 1]
    else if Qlt_bool (Qabs (m1 m * m3 m)) EPSILON then
      if (type =? 1) || (type =? 3) then []
      else [mkConn i j layer layer (qle_min (Qabs (m0 m)) (Qabs (m2 m))) 2]
    else [mkConn i j layer layer 0 0]
  else [].

(** Body of the inner loops of get_connections_between_layer, 891-915, 939-963,
    988-1011. *)
Definition between_pair (layer i j : Z) (a b : rect) : list conn :=
  let m := minkowski a b in
  if Qlt_bool EPSILON (Qabs (m0 m * m2 m)) && Qlt_bool EPSILON (Qabs (m1 m * m3 m))
     && Qlt_bool (m0 m * m2 m) (- EPSILON) && Qlt_bool (m1 m * m3 m) (- EPSILON)
  then [mkConn i j (layer - 1) layer (overlap_area m a b) 0]
  else [].

(** An OpenMP "for" region: its iterations and what each of them inserts into
    the list of the thread that runs it. *)
Record region := mkRegion { rg_from : Z; rg_to : Z; rg_body : Z -> list conn }.
Definition rg_iterations (r : region) : list Z := zrange (rg_from r) (rg_to r - 1).

(** position_info[i] (PropNonUniform.v proves that the indexes used are in range). *)
Definition rect0 : rect := mkRect 0 0 0 0.
Definition rect_at (ps : list rect) (i : Z) : rect := nth (Z.to_nat i) ps rect0.

(** The region of one layer, 776-835: cells from [a] to [b] - 1. *)
Definition in_layer_region (ps : list rect) (layer type a b : Z) : region :=
  mkRegion a b (fun i => flat_map (fun j => in_layer_pair type layer i j (rect_at ps i) (rect_at ps j)) (zrange (i + 1) (b - 1))).

(** The regions of get_connections_in_layer, 766-836, from layer [index] on. *)
Fixpoint in_layer_regions (nlayers : Z) (records types : list Z) (ps : list rect) (n : nat) (index start : Z)
  : outcome (list region) :=
  match n with
  | O => Ok []
  | S n' =>
    do stop <- arr_get records index ;
    do type <- arr_get types index ;
    if (index =? nlayers) && negb (type =? 4) then in_layer_regions nlayers records types ps n' (index + 1) start
    else
      do r <- in_layer_regions nlayers records types ps n' (index + 1) stop ;
      Ok (in_layer_region ps index type start stop :: r)
  end.

(** The region between two ranges of cells. *)
Definition between_region (ps : list rect) (layer a b a' b' : Z) : region :=
  mkRegion a b (fun i => flat_map (fun j => between_pair layer i j (rect_at ps i) (rect_at ps j)) (zrange a' (b' - 1))).

(** The regions of get_connections_between_layer, 869-1021, from layer [index]
    on; [start] is botom_layer_start_index. *)
Fixpoint between_regions (nlayers : Z) (records types : list Z) (ps : list rect) (n : nat) (index start : Z)
  : outcome (list region) :=
  match n with
  | O => Ok []
  | S n' =>
    do bt <- arr_get types (u32 (index - 1)) ;
    do tp <- arr_get types index ;
    if (index =? nlayers) && negb (tp =? 4) then between_regions nlayers records types ps n' (index + 1) start
    else if ((bt =? 2) && (tp =? 2)) || ((bt =? 3) && (tp =? 2)) then
      do r3 <- arr_get records (u32 (index - 3)) ;
      do r2 <- arr_get records (u32 (index - 2)) ;
      do r1 <- arr_get records (u32 (index - 1)) ;
      do r0 <- arr_get records index ;
      do rn <- arr_get records (index + 1) ;
      do r <- between_regions nlayers records types ps n' (index + 1) r1 ;
      Ok (between_region ps index r3 r2 r1 r0 :: between_region ps index r2 r1 r0 rn :: r)
    else
      do r1 <- arr_get records (u32 (index - 1)) ;
      do r0 <- arr_get records index ;
      do r <- between_regions nlayers records types ps n' (index + 1) r1 ;
      Ok (between_region ps index start r1 r1 r0 :: r)
  end.

(** Both functions on the result of get_cell_position, 1082-1085. *)
Definition all_regions (d : dims) (st : nstate) : outcome (list region) :=
  let ps := map c_rect (ns_cells st) in
  do a <- in_layer_regions (d_nlayers d) (ns_records st) (ns_types st) ps (Z.to_nat (d_nlayers d + 1)) 0 0 ;
  do b <- between_regions (d_nlayers d) (ns_records st) (ns_types st) ps (Z.to_nat (d_nlayers d)) 1 0 ;
  Ok (a ++ b).

(** What one thread alone inserts, in the order of the loops. *)
Definition sequential (rs : list region) : list conn :=
  flat_map (fun r => flat_map (rg_body r) (rg_iterations r)) rs.

(** dimensions->Grid.NConnections, 1093: CellIndex_t arithmetic. *)
Definition nu_connections (size ncells : Z) : Z := u32 (u32 (2 * size) + ncells).
