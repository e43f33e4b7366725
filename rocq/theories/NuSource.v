(** * Model of the power grid of the non-uniform grid: power_grid_build and
      power_grid_fill (/repo/sources/power_grid.c 64-200, 340-560),
      update_source_vector (574-805) and update_channel_sources (974-1044), branch
      NonUniform; fill_system_vector (thermal_data.c 1289-1295).

    The layer types, the sinks and the channel are those of the thermal grid
    (power_grid_fill writes the same types as thermal_grid_fill, C24). *)
From Coq Require Import ZArith List Bool QArith.
From Verif Require Import Base Dims Queue Floorplan Stack PowerGrid Emulate Conduct Matrix NonUniform NuMatrix.
Import ListNotations.
Local Open Scope Z_scope.

(** A FloorplanElement as update_source_vector sees it: Discr_X and Discr_Y of its
    first rectangle, and PowerValues. *)
Record nu_source := mkNuSource { so_dx : Z; so_dy : Z; so_powers : queue }.

(** The power grid: thermal grid, Cell_list, FloorplansProfile, Sources,
    CellsCapacities, HeatSinkTopTcs and HeatSinkBottomTcs. *)
Record npgrid := mkNpgrid {
  np_grid : tgrid; np_cells : list cell; np_flps : list (option (list nu_source));
  np_sources : list Q; np_caps : list Q; np_top_tcs : list Q; np_bottom_tcs : list Q
}.

(** Length of the run of cells of layer [l] a list begins with: the loops
    "cell_node != NULL && layer_info == ..." *)
Fixpoint run_of (l : Z) (cs : list cell) : nat :=
  match cs with c :: t => if c_layer c =? l then S (run_of l t) else O | [] => O end.

(** power_grid.c 102-146: the two vectors of zeros, as long as the last and the
    first run of the list (Cell_list.Last is dereferenced). *)
Definition tcs_zeros (cs : list cell) : outcome (list Q) :=
  match cs with [] => UB | c :: _ => Ok (repeat 0%Q (run_of (c_layer c) cs)) end.

(** "*tmp += x ; tmp++", power_grid.c 410-445 and 520-545. *)
Fixpoint add_tcs (tcs xs : list Q) : outcome (list Q) :=
  match xs with
  | [] => Ok tcs
  | x :: xs' => match tcs with [] => UB | t :: tcs' => do r <- add_tcs tcs' xs' ; Ok ((t + x)%Q :: r) end
  end.

(** power_grid.c 410-450: conductance to the ambient of a cell of the top layer. *)
Definition top_tc (g : tgrid) (d : dims) (source : bool) (c : cell) : outcome Q :=
  nu_layer g d (c_layer c) (fun _ m h => with_top g (fun htc =>
    let k := mt_kz (if source then c_mat c else m) in
    Ok (2 * k * htc * c_length c * c_width c / (h * htc + 2 * k))%Q)).

(** power_grid.c 377-460 (SinkModel TDICE_HEATSINK_TOP): Cell_list.Last gives the
    layer of the cells. *)
Definition nu_top_tcs (g : tgrid) (d : dims) (cells : list cell) : outcome (list Q) :=
  do z <- tcs_zeros (rev cells) ;
  match tg_top g with
  | Some (SinkTop _ _) =>
    do t <- arr_get (tg_types g) (d_nlayers d - 1) ;
    let l := match rev cells with c :: _ => c_layer c | [] => 0 end in
    let top := filter (fun c => c_layer c =? l) cells in
    match t with
    | LT_SOLID_AMBIENT => do xs <- map_out (top_tc g d false) top ; add_tcs z xs
    | LT_SOURCE_AMBIENT => do xs <- map_out (top_tc g d true) top ; add_tcs z xs
    | _ => Ok z
    end
  | _ => Ok z
  end.

(** power_grid.c 487-547: the coefficient of the sink is not used. *)
Definition bottom_tc (g : tgrid) (d : dims) (source : bool) (c : cell) : outcome Q :=
  nu_layer g d (c_layer c) (fun _ m h =>
    Ok (mt_kz (if source then c_mat c else m) * c_length c * c_width c / (h / 2))%Q).
Definition nu_bottom_tcs (g : tgrid) (d : dims) (cells : list cell) : outcome (list Q) :=
  do z <- tcs_zeros cells ;
  match tg_bottom g with
  | Some _ =>
    do t <- arr_get (tg_types g) 0 ;
    let bot := firstn (length z) cells in
    match t with
    | LT_SOLID_PCB => do xs <- map_out (bottom_tc g d false) bot ; add_tcs z xs
    | LT_SOURCE_PCB => do xs <- map_out (bottom_tc g d true) bot ; add_tcs z xs
    | _ => Ok z
    end
  | None => Ok z
  end.

(** power_grid.c 343-360 and 482-485: capacities of the cells of the chip up to the
    first cell of the spreader, then NRows x NColumns of the sink; CellsCapacities
    has NCells elements. *)
Fixpoint chip_cells_of (d : dims) (cs : list cell) : list cell :=
  match cs with c :: t => if d_nlayers d <=? c_layer c then [] else c :: chip_cells_of d t | [] => [] end.
Definition nu_caps (g : tgrid) (d : dims) (cells : list cell) (ncells : Z) : outcome (list Q) :=
  do cs <- map_out (nu_capacity g d) (chip_cells_of d cells) ;
  let sp := match tg_top g with
            | Some (SinkPluggable s h m) => repeat (spreader_capacity s h m) (Z.to_nat (s_nrows s * s_ncols s))
            | _ => [] end in
  arr_set_all (repeat 0%Q (Z.to_nat ncells)) 0 (cs ++ sp).

(** power_grid_build and power_grid_fill; [flps] is the profile they write. *)
Definition nu_power_grid (g : tgrid) (d : dims) (cells : list cell) (ncells : Z) (flps : list (option (list nu_source))) : outcome npgrid :=
  do ttc <- nu_top_tcs g d cells ;
  do bt <- nu_bottom_tcs g d cells ;
  do caps <- nu_caps g d cells ncells ;
  Ok (mkNpgrid g cells flps (repeat 0%Q (Z.to_nat ncells)) caps ttc bt).

(** "for (i = 0; i < cell_per_element; i++) *(sources_temp)++ += x", 623-627: what
    is written and what lies beyond. *)
Fixpoint add_shares (n : nat) (x : Q) (s : list Q) : outcome (list Q * list Q) :=
  match n with
  | O => Ok ([], s)
  | S n' => match s with [] => UB | y :: s' => do r <- add_shares n' x s' ; Ok ((y + x)%Q :: fst r, snd r) end
  end.

(** The loop over the elements, 608-630, 670-695, 728-752: [s] begins at the first
    cell of the layer. Bpowers [index] is written and read back: the value itself. *)
Fixpoint nu_fill_elements (els : list nu_source) (s : list Q) : outcome (error_t * list nu_source * list Q) :=
  match els with
  | [] => Ok (TDICE_SUCCESS, [], s)
  | e :: t =>
    if queue_is_empty (so_powers e) then Ok (TDICE_FAILURE, els, s)
    else
      let n := u32 (so_dx e * so_dy e) in
      do vq <- queue_get (so_powers e) ;
      do w <- add_shares (Z.to_nat n) (fst vq / qz n)%Q s ;
      do r <- nu_fill_elements t (snd w) ;
      let '(err, t', s') := r in
      Ok (err, mkNuSource (so_dx e) (so_dy e) (snd vq) :: t', fst w ++ s')
  end.

(** One case of the switch, 600-795: [cs] and [s] are the cells and the sources
    from the first cell of layer [l] on. The loop over the ambient goes to the end
    of the list of the cells. *)
Definition nu_update_layer (pg : npgrid) (d : dims) (l : Z) (t : layer_type) (fo : option (list nu_source)) (cs : list cell) (s : list Q)
  : outcome (error_t * option (list nu_source) * list Q) :=
  let g := np_grid pg in
  let flp s1 :=
    match fo with
    | None => UB
    | Some els => do r <- nu_fill_elements els s1 ; let '(e, els', s') := r in Ok (e, Some els', s')
    end in
  let ambient_top := match tg_top g with None => UB | Some k => add_ambient (length cs) (top_ambient k) (np_top_tcs pg) s end in
  let ambient_bottom := match tg_bottom g with None => UB | Some k => add_ambient (run_of l cs) (bs_ambient k) (np_bottom_tcs pg) s end in
  match t with
  | LT_SOURCE | LT_SOURCE_SPREADER => flp s
  | LT_SOLID_AMBIENT => do s1 <- ambient_top ; Ok (TDICE_SUCCESS, fo, s1)
  | LT_SOURCE_AMBIENT => do s1 <- ambient_top ; flp s1
  | LT_SOLID_PCB => do s1 <- ambient_bottom ; Ok (TDICE_SUCCESS, fo, s1)
  | LT_SOURCE_PCB => do s1 <- ambient_bottom ; flp s1
  | LT_CHANNEL_4RM | LT_CHANNEL_2RM | LT_PINFINS_INLINE | LT_PINFINS_STAGGERED =>
    match tg_channel g with
    | None => UB
    | Some ch => do s1 <- set_inlets ch d l (zrange 0 (last_column d)) s ; Ok (TDICE_SUCCESS, fo, s1)
    end
  | LT_SOLID | LT_SOLID_SPREADER | LT_VWALL_CHANNEL | LT_VWALL_PINFINS | LT_TOP_WALL | LT_BOTTOM_WALL => Ok (TDICE_SUCCESS, fo, s)
  | LT_NONE => Ok (TDICE_FAILURE, fo, s)
  end.

(** The loop over the layers, 597-812. *)
Fixpoint nu_update_layers (pg : npgrid) (d : dims) (l : Z) (ts : list layer_type) (fs : list (option (list nu_source))) (cs : list cell) (s : list Q)
  : outcome (error_t * list (option (list nu_source)) * list Q) :=
  match ts, fs with
  | t :: ts', f :: fs' =>
    do r <- nu_update_layer pg d l t f cs s ;
    let '(e, f', s1) := r in
    match e with
    | TDICE_FAILURE => Ok (TDICE_FAILURE, f' :: fs', s1)
    | TDICE_SUCCESS =>
      let n := run_of l cs in
      do r2 <- nu_update_layers pg d (l + 1) ts' fs' (skipn n cs) (skipn n s1) ;
      let '(e2, fs2, s2) := r2 in
      Ok (e2, f' :: fs2, firstn n s1 ++ s2)
    end
  | _, _ => Ok (TDICE_SUCCESS, fs, s)
  end.

(** update_source_vector, 574-812: the NCells sources are set to zero first. *)
Definition nu_update_sources (pg : npgrid) (d : dims) : outcome (error_t * npgrid) :=
  let s0 := map (fun _ => 0%Q) (np_sources pg) in
  do r <- nu_update_layers pg d 0 (tg_types (np_grid pg)) (np_flps pg) (np_cells pg) s0 ;
  let '(e, fs, s) := r in
  Ok (e, mkNpgrid (np_grid pg) (np_cells pg) fs s (np_caps pg) (np_top_tcs pg) (np_bottom_tcs pg)).

(** update_channel_sources, 974-1044, has no branch for the non-uniform grid: the
    source pointer advances by get_layer_area. *)
Fixpoint nu_channel_layers (g : tgrid) (d : dims) (l at_ : Z) (ts : list layer_type) (s : list Q) : outcome (list Q) :=
  match ts with
  | [] => Ok s
  | t :: ts' =>
    match t with
    | LT_NONE => Ok s
    | LT_CHANNEL_4RM | LT_CHANNEL_2RM | LT_PINFINS_INLINE | LT_PINFINS_STAGGERED =>
      match tg_channel g with
      | None => UB
      | Some ch =>
        do s1 <- fold_out (fun s c => if is_channel_column (ch_model ch) c then
                                        do x <- get_convective_term ch d l 0 c ; arr_set s (at_ + c) (2 * x * co_tin ch)%Q
                                      else Ok s) s (zrange 0 (last_column d)) ;
        nu_channel_layers g d (l + 1) (at_ + get_layer_area d) ts' s1
      end
    | _ => nu_channel_layers g d (l + 1) (at_ + get_layer_area d) ts' s
    end
  end.
Definition nu_update_channel (pg : npgrid) (d : dims) : outcome npgrid :=
  do s <- nu_channel_layers (np_grid pg) d 0 0 (tg_types (np_grid pg)) (np_sources pg) ;
  Ok (mkNpgrid (np_grid pg) (np_cells pg) (np_flps pg) s (np_caps pg) (np_top_tcs pg) (np_bottom_tcs pg)).

(** fill_system_vector, thermal_data.c 1289-1295, and fill_system_vector_steady,
    1370-1376: one entry for each cell of the list. *)
Definition nu_rhs (pg : npgrid) (step : Q) (temps : list Q) : outcome (list Q) :=
  map_out (fun i => do s <- arr_get (np_sources pg) i ; do c <- arr_get (np_caps pg) i ; do t <- arr_get temps i ; Ok (s + c / step * t)%Q)
          (zrange 0 (Z.of_nat (length (np_cells pg)) - 1)).
Definition nu_rhs_steady (pg : npgrid) : outcome (list Q) :=
  map_out (fun i => arr_get (np_sources pg) i) (zrange 0 (Z.of_nat (length (np_cells pg)) - 1)).
