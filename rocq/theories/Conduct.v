(** * Model of the cell parameters of /repo/sources/thermal_grid.c (uniform
      grid), of the material look-up of layer.c and material_element.c, of the
      spreader cells of heat_sink.c and of the vectors of capacities and sink
      conductances filled by power_grid.c.

    All quantities are exact rationals: rounding and the NaN or infinity of a
    division by zero are not modelled (x/0 is 0 in Q). *)
From Coq Require Import ZArith List Bool QArith.
From Verif Require Import Base QSum Dims Floorplan Stack PowerGrid Emulate.
Import ListNotations.
Local Open Scope Z_scope.

(** ic_element_has_center, ic_element.c 163-174. *)
Definition ic_has_center (x y : Q) (a : icel) : bool :=
  Qle_bool (ic_x a) x && Qle_bool (ic_y a) y &&
  Qlt_bool x (ic_x a + ic_len a)%Q && Qlt_bool y (ic_y a + ic_wid a)%Q.

(** get_material_at_location, material_element.c 161-186, in the loops of
    get_thermal_conductivity (layer.c 186-225) and get_volumetric_heat_capacity
    (layer.c 250-270): the first element of the layout that has a rectangle
    containing the centre of the cell, else the material of the layer. *)
Definition material_at (d : dims) (ly : layer) (r c : Z) : material :=
  match find (fun e => existsb (ic_has_center (get_cell_center_x d c) (get_cell_center_y d r)) (fst e))
             (ly_layout ly) with
  | Some e => snd e
  | None => ly_mat ly
  end.

(** Guard and look-ups common to get_capacity and the six get_conductance
    functions, thermal_grid.c 440-460, 970-990, 1147-1167, ...: an index above
    NLayers gives 0; NLayers itself is let through and read out of bounds. *)
Definition at_layer (g : tgrid) (d : dims) (l : Z) (k : layer_type -> layer -> Q -> outcome Q) : outcome Q :=
  if Z.of_nat (length (tg_types g)) <? l then Ok 0%Q
  else
    do t <- arr_get (tg_types g) l ;
    do ly <- arr_get (tg_layers g) l ;
    do h <- get_cell_height d l ;
    k t ly h.

(** tgrid->Channel->..., tgrid->TopHeatSink->AmbientHTC,
    tgrid->BottomHeatSink->AmbientHTC: null pointers are [UB]; a pluggable sink
    has AmbientHTC 0 (heat_sink_init, heat_sink.c 50-70). *)
Definition with_channel (g : tgrid) (k : channel -> outcome Q) : outcome Q :=
  match tg_channel g with Some ch => k ch | None => UB end.
Definition with_top (g : tgrid) (k : Q -> outcome Q) : outcome Q :=
  match tg_top g with Some (SinkTop h _) => k h | Some (SinkPluggable _ _ _) => k 0%Q | None => UB end.
Definition with_bottom (g : tgrid) (k : Q -> outcome Q) : outcome Q :=
  match tg_bottom g with Some s => k (bs_htc s) | None => UB end.

(** get_capacity, thermal_grid.c 433-530. *)
Definition get_capacity (g : tgrid) (d : dims) (l r c : Z) : outcome Q :=
  at_layer g d l (fun t ly h =>
    let vol := (get_cell_length d c * get_cell_width d r * h)%Q in
    let vhc := mt_vhc (material_at d ly r c) in
    match t with
    | LT_SOLID | LT_SOURCE | LT_SOLID_AMBIENT | LT_SOURCE_AMBIENT
    | LT_SOLID_SPREADER | LT_SOURCE_SPREADER | LT_SOLID_PCB | LT_SOURCE_PCB => Ok (vhc * vol)%Q
    | LT_CHANNEL_4RM =>
      if is_channel_column CM_MC_4RM c then with_channel g (fun ch => Ok (co_vhc ch * vol)%Q) else Ok (vhc * vol)%Q
    | LT_CHANNEL_2RM | LT_PINFINS_INLINE | LT_PINFINS_STAGGERED =>
      with_channel g (fun ch => Ok (co_vhc ch * ch_porosity ch * vol)%Q)
    | LT_VWALL_CHANNEL | LT_VWALL_PINFINS => with_channel g (fun ch => Ok (vhc * (1 - ch_porosity ch) * vol)%Q)
    | LT_TOP_WALL | LT_BOTTOM_WALL | LT_NONE => Ok 0%Q
    end).

(** get_conductance_top, thermal_grid.c 963-1137; the assert of 1040 is [UB]. *)
Definition get_conductance_top (g : tgrid) (d : dims) (l r c : Z) : outcome Q :=
  at_layer g d l (fun t ly h =>
    let kz := mt_kz (material_at d ly r c) in
    let face := (get_cell_length d c * get_cell_width d r)%Q in
    match t with
    | LT_SOLID | LT_SOURCE =>
      if l =? last_layer d then Ok 0%Q
      else if l =? 0 then Ok (kz * face / h)%Q
      else Ok (kz * face / (h / 2))%Q
    | LT_SOLID_AMBIENT | LT_SOURCE_AMBIENT =>
      with_top g (fun htc => Ok (2 * kz * htc * face / (h * htc + 2 * kz))%Q)
    | LT_SOLID_SPREADER | LT_SOURCE_SPREADER =>
      if negb (l =? last_layer d) then UB
      else if l =? 0 then Ok (kz * face / h)%Q
      else Ok (kz * face / (h / 2))%Q
    | LT_SOLID_PCB | LT_SOURCE_PCB => Ok (kz * face / (h / 2))%Q
    | LT_CHANNEL_4RM =>
      if is_channel_column CM_MC_4RM c then with_channel g (fun ch => Ok (co_htc_top ch * face)%Q)
      else Ok (kz * face / (h / 2))%Q
    | LT_CHANNEL_2RM => with_channel g (fun ch => Ok (co_htc_top ch * face)%Q)
    | LT_PINFINS_INLINE | LT_PINFINS_STAGGERED => with_channel g (fun ch => Ok (ch_htc_pf ch * face)%Q)
    | LT_VWALL_CHANNEL | LT_VWALL_PINFINS =>
      with_channel g (fun ch => Ok (kz * face / (h / 2) * (1 - ch_porosity ch))%Q)
    | LT_TOP_WALL | LT_BOTTOM_WALL | LT_NONE => Ok 0%Q
    end).

(** get_conductance_bottom, thermal_grid.c 1140-1289. *)
Definition get_conductance_bottom (g : tgrid) (d : dims) (l r c : Z) : outcome Q :=
  at_layer g d l (fun t ly h =>
    let kz := mt_kz (material_at d ly r c) in
    let face := (get_cell_length d c * get_cell_width d r)%Q in
    match t with
    | LT_SOLID | LT_SOURCE =>
      if l =? 0 then Ok 0%Q
      else if l =? last_layer d then Ok (kz * face / h)%Q
      else Ok (kz * face / (h / 2))%Q
    | LT_SOLID_AMBIENT | LT_SOURCE_AMBIENT | LT_SOLID_SPREADER | LT_SOURCE_SPREADER => Ok (kz * face / (h / 2))%Q
    | LT_SOLID_PCB | LT_SOURCE_PCB =>
      with_bottom g (fun htc => Ok (2 * kz * htc * face / (h * htc + 2 * kz))%Q)
    | LT_CHANNEL_4RM =>
      if is_channel_column CM_MC_4RM c then with_channel g (fun ch => Ok (co_htc_bottom ch * face)%Q)
      else Ok (kz * face / (h / 2))%Q
    | LT_CHANNEL_2RM => with_channel g (fun ch => Ok (co_htc_bottom ch * face)%Q)
    | LT_PINFINS_INLINE | LT_PINFINS_STAGGERED => with_channel g (fun ch => Ok (ch_htc_pf ch * face)%Q)
    | LT_VWALL_CHANNEL | LT_VWALL_PINFINS =>
      with_channel g (fun ch => Ok (kz * face / (h / 2) * (1 - ch_porosity ch))%Q)
    | LT_TOP_WALL | LT_BOTTOM_WALL | LT_NONE => Ok 0%Q
    end).

(** get_conductance_north, thermal_grid.c 1292-1385 ([sign] 1) and
    get_conductance_south, 1388-1481 ([sign] -1 for the convective term). *)
Definition conductance_ns (sign : Q) (g : tgrid) (d : dims) (l r c : Z) : outcome Q :=
  at_layer g d l (fun t ly h =>
    let ky := mt_ky (material_at d ly r c) in
    let solid := (ky * get_cell_length d c * h / (get_cell_width d r / 2))%Q in
    match t with
    | LT_SOLID | LT_SOURCE | LT_SOLID_AMBIENT | LT_SOURCE_AMBIENT
    | LT_SOLID_SPREADER | LT_SOURCE_SPREADER | LT_SOLID_PCB | LT_SOURCE_PCB => Ok solid
    | LT_CHANNEL_4RM =>
      if is_channel_column CM_MC_4RM c
      then with_channel g (fun ch => do x <- get_convective_term ch d l r c ; Ok (sign * x)%Q) else Ok solid
    | LT_CHANNEL_2RM | LT_PINFINS_INLINE | LT_PINFINS_STAGGERED =>
      with_channel g (fun ch => do x <- get_convective_term ch d l r c ; Ok (sign * x)%Q)
    | LT_VWALL_CHANNEL => with_channel g (fun ch => Ok (solid * (1 - ch_porosity ch))%Q)
    | LT_VWALL_PINFINS | LT_TOP_WALL | LT_BOTTOM_WALL | LT_NONE => Ok 0%Q
    end).
Definition get_conductance_north := conductance_ns 1.
Definition get_conductance_south := conductance_ns (-1).

(** get_conductance_east, thermal_grid.c 1484-1562, and get_conductance_west,
    1565-1643: the same text. *)
Definition conductance_ew (g : tgrid) (d : dims) (l r c : Z) : outcome Q :=
  at_layer g d l (fun t ly h =>
    let kx := mt_kx (material_at d ly r c) in
    let solid := (kx * get_cell_width d r * h / (get_cell_length d c / 2))%Q in
    match t with
    | LT_SOLID | LT_SOURCE | LT_SOLID_AMBIENT | LT_SOURCE_AMBIENT
    | LT_SOLID_SPREADER | LT_SOURCE_SPREADER | LT_SOLID_PCB | LT_SOURCE_PCB => Ok solid
    | LT_CHANNEL_4RM =>
      if is_channel_column CM_MC_4RM c
      then with_channel g (fun ch => Ok (co_htc_side ch * get_cell_width d r * h)%Q) else Ok solid
    | _ => Ok 0%Q
    end).
Definition get_conductance_east := conductance_ew.
Definition get_conductance_west := conductance_ew.

(** get_spreader_capacity and get_spreader_conductance_*, heat_sink.c 377-412:
    [s], [h], [m] are the grid, the height and the material of the spreader. *)
Definition spreader_capacity (s : spreader) (h : Q) (m : material) : Q :=
  (mt_vhc m * s_cell_length s * s_cell_width s * h)%Q.
Definition spreader_east_west (s : spreader) (h : Q) (m : material) : Q :=
  (mt_kx m * h * s_cell_width s / (s_cell_length s / 2))%Q.
Definition spreader_north_south (s : spreader) (h : Q) (m : material) : Q :=
  (mt_ky m * s_cell_length s * h / (s_cell_width s / 2))%Q.
Definition spreader_top_bottom (s : spreader) (h : Q) (m : material) : Q :=
  (mt_kz m * s_cell_length s * s_cell_width s / (h / 2))%Q.

(** ** Vectors of the power grid *)
(** Row-major loop over the cells of layer [l], first_row to last_row and
    first_column to last_column (a grid with no row or no column is not
    modelled: last_row would be 2^32-1). *)
Definition layer_coords (d : dims) : list (Z * Z) :=
  list_prod (zrange 0 (last_row d)) (zrange 0 (last_column d)).
Definition over_layer {A} (d : dims) (f : Z -> Z -> outcome A) : outcome (list A) :=
  map_out (fun rc => f (fst rc) (snd rc)) (layer_coords d).

(** CellsCapacities, power_grid.c 343-372 and 478-482 (spreader cells). *)
Definition cells_capacities (g : tgrid) (d : dims) : outcome (list Q) :=
  do ls <- map_out (fun l => over_layer d (get_capacity g d l)) (zrange 0 (last_layer d)) ;
  Ok (concat ls ++
      match tg_top g with
      | Some (SinkPluggable s h m) => repeat (spreader_capacity s h m) (Z.to_nat (s_nrows s * s_ncols s))
      | _ => []
      end).

(** HeatSinkTopTcs, power_grid.c 455-468, and HeatSinkBottomTcs, 541-552:
    vectors of NCellsLayer zeros (calloc, 147-166) to which the conductance of
    the last or of the first layer is added when the sink exists. *)
Definition top_tcs (g : tgrid) (d : dims) : outcome (list Q) :=
  match tg_top g with
  | Some (SinkTop _ _) => over_layer d (fun r c => do x <- get_conductance_top g d (last_layer d) r c ; Ok (0 + x)%Q)
  | _ => Ok (repeat 0%Q (Z.to_nat (get_layer_area d)))
  end.
Definition bottom_tcs (g : tgrid) (d : dims) : outcome (list Q) :=
  match tg_bottom g with
  | Some _ => over_layer d (fun r c => do x <- get_conductance_bottom g d 0 r c ; Ok (0 + x)%Q)
  | None => Ok (repeat 0%Q (Z.to_nat (get_layer_area d)))
  end.
