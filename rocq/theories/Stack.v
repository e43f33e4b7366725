(** * Model of the stack section of /repo/bison/stack_description_parser.y
      (die rules 860-1062, stack rules 1178-1358, element rules 1360-1720), of
      thermal_grid_build / thermal_grid_fill (/repo/sources/thermal_grid.c
      60-320) and of the layer typing of power_grid_build / power_grid_fill
      (/repo/sources/power_grid.c 62-200, 221-345, 375-500). Uniform grid.

    A stack is a list of elements in the order of the file: top-most first. *)
From Coq Require Import ZArith List Bool QArith.
From Verif Require Import Base Dims Floorplan.
Import ListNotations.
Local Open Scope Z_scope.

(** struct Material, include/material.h: volumetric heat capacity and the three
    directional conductivities (0: east-west, 1: north-south, 2: vertical). *)
Record material := mkMaterial { mt_vhc : Q; mt_kx : Q; mt_ky : Q; mt_kz : Q }.

(** struct Layer, include/layer.h: height, material, layout (list of material
    elements: rectangles made of another material). *)
Record layer := mkLayer { ly_height : Q; ly_mat : material; ly_layout : list (list icel * material) }.

(** struct Channel and its Coolant, include/channel.h, include/coolant.h.
    [ch_htc_pf] stands for the value of EFFECTIVE_HTC_PF_INLINE / _STAGGERED
    (include/macros.h 192-214) at the Darcy velocity: the macro uses pow. *)
Record channel := mkChannel {
  ch_model : channel_model; ch_nlayers : Z; ch_source_offset : Z;
  ch_height : Q; ch_length : Q; ch_porosity : Q; ch_nchannels : Z; ch_wall : material;
  co_htc_side : Q; co_htc_top : Q; co_htc_bottom : Q; co_vhc : Q; co_tin : Q;
  co_flow_rate : Q; co_darcy : Q; ch_htc_pf : Q
}.

(** struct HeatSink, include/heat_sink.h: the sink at the top is either of
    type TDICE_HEATSINK_TOP or TDICE_HEATSINK_TOP_PLUGGABLE. *)
Inductive top_sink :=
| SinkTop (htc ambient : Q)
| SinkPluggable (s : spreader) (height : Q) (mat : material).
Record bottom_sink := mkBottomSink { bs_htc : Q; bs_ambient : Q }.

(** struct Die: layers top-most first, number of layers below the source. *)
Record die := mkDie { die_layers : list layer; die_source_offset : Z; die_floorplan : floorplan }.

(** StackElement_t.SEType and Pointer. *)
Inductive stack_kind :=
| SKDie (d : die)
| SKLayer (l : layer)
| SKChannel (c : channel).

Record stkel := mkStkel { se_id : list Z; se_kind : stack_kind; se_nlayers : Z; se_offset : Z }.

(** Rule [die], parser 1035-1062: the layers above the source, the source and
    the layers below are appended to one list, in this order; the counter
    source_layer_offset counts the layers below. *)
Definition make_die (above : list layer) (source : layer) (below : list layer) (f : floorplan) : die :=
  mkDie (above ++ source :: below) (Z.of_nat (length below)) f.

(** NUM_LAYERS_CHANNEL_4RM / _2RM and SOURCE_OFFSET_CHANNEL_*, include/types.h
    365-395, parser 534-535, 589-590, 650-651. *)
Definition channel_layers (m : channel_model) : Z :=
  match m with CM_MC_4RM => 1 | _ => 4 end.
Definition channel_source_offset (m : channel_model) : Z :=
  match m with CM_MC_4RM => 0 | _ => 2 end.

(** The microchannel section, parser 498-690 ([pf_porosity] and [pf_htc] stand
    for POROSITY and EFFECTIVE_HTC_PF_*, which use pi and pow; the flow rate is
    the declared one in ml/min). *)
Inductive channel_decl :=
| Decl4RM (height : Q) (wall : material) (flow side top bottom vhc tin : Q)
| Decl2RM (height length wall_length : Q) (wall : material) (flow side top bottom vhc tin : Q)
| DeclPF (staggered : bool) (height pf_porosity : Q) (pin : material) (darcy vhc tin pf_htc : Q).

(** FLOW_RATE_FROM_MLMIN_TO_UM3SEC, include/macros.h 221. *)
Definition flow_rate_um3sec (fr : Q) : Q := (fr * inject_Z 1000000000000 / inject_Z 60)%Q.

(** The channel after the microchannel section (parser 512-690) and the
    dimensions section, which sets NChannels (parser 1137-1145; it stays 0 for
    pin fins). *)
Definition declare_channel (cd : channel_decl) (chip_length : Q) (ncols : Z) : outcome channel :=
  match cd with
  | Decl4RM h w fr hs ht hb vhc tin =>
    Ok (mkChannel CM_MC_4RM (channel_layers CM_MC_4RM) (channel_source_offset CM_MC_4RM) h 0 0
                  (u32 (ncols - 1) / 2) w hs ht hb vhc tin (flow_rate_um3sec fr) 0 0)
  | Decl2RM h len wl w fr hs ht hb vhc tin =>
    do n <- to_u32 (chip_length / (wl + len) + (1 # 2))%Q ;
    Ok (mkChannel CM_MC_2RM (channel_layers CM_MC_2RM) (channel_source_offset CM_MC_2RM) h len
                  (len / (wl + len))%Q n w hs ht hb vhc tin (flow_rate_um3sec fr) 0 0)
  | DeclPF st h por pin darcy vhc tin htc =>
    let m := if st then CM_PF_STAGGERED else CM_PF_INLINE in
    Ok (mkChannel m (channel_layers m) (channel_source_offset m) h 0 por 0 pin 0 0 0 vhc tin 0 darcy htc)
  end.

(** What the file declares for one stack element (after resolution of the
    identifiers). *)
Inductive stack_decl :=
| DeclDie (id : list Z) (above : list layer) (source : layer) (below : list layer) (f : floorplan)
| DeclLayer (id : list Z) (l : layer)
| DeclChannel (id : list Z).

(** Rules [stack_element], parser 1404-1720: NLayers of the element.  [None]:
    channel used but not declared (1533-1540). *)
Definition make_element_decl (ch : option channel) (dc : stack_decl) : option stkel :=
  match dc with
  | DeclDie id above source below f =>
    let d := make_die above source below f in
    Some (mkStkel id (SKDie d) (u32 (Z.of_nat (length (die_layers d)))) 0)
  | DeclLayer id l => Some (mkStkel id (SKLayer l) 1 0)
  | DeclChannel id =>
    match ch with
    | None => None
    | Some c => Some (mkStkel id (SKChannel c) (ch_nlayers c) 0)
    end
  end.

Definition is_channel (e : stkel) : bool := match se_kind e with SKChannel _ => true | _ => false end.
Definition is_die (e : stkel) : bool := match se_kind e with SKDie _ => true | _ => false end.

Fixpoint same_string (a b : list Z) : bool :=
  match a, b with
  | [], [] => true
  | x :: a', y :: b' => (x =? y) && same_string a' b'
  | _, _ => false
  end.

(** Rule [stack_elements], parser 1360-1400: duplicate identifiers are
    refused; the adjacency test compares the new element with the FIRST element
    of the list (stack_element_list_begin). [acc] is the list built so far. *)
Fixpoint add_elements (ch : option channel) (acc : list stkel) (ds : list stack_decl) : option (list stkel) :=
  match ds with
  | [] => Some acc
  | dc :: ds' =>
    match make_element_decl ch dc with
    | None => None
    | Some e =>
      match acc with
      | [] => add_elements ch [e] ds'
      | first :: _ =>
        if existsb (fun x => same_string (se_id x) (se_id e)) acc then None
        else if is_channel first && is_channel e then None
        else add_elements ch (acc ++ [e]) ds'
      end
    end
  end.

(** Offsets, parser 1234-1248: walk from the end of the list (bottom) up. The
    argument is the list bottom-most first. *)
Fixpoint set_offsets (es : list stkel) (index : Z) : list stkel * Z :=
  match es with
  | [] => ([], index)
  | e :: es' =>
    let e' := mkStkel (se_id e) (se_kind e) (se_nlayers e) index in
    let (r, n) := set_offsets es' (u32 (index + se_nlayers e)) in
    (e' :: r, n)
  end.

(** Heights written for one element, parser 1267-1308: a die is walked from the
    end of its layer list. *)
Definition element_heights (e : stkel) : list Q :=
  match se_kind e with
  | SKChannel c => repeat (ch_height c) (Z.to_nat (ch_nlayers c))
  | SKLayer l => [ly_height l]
  | SKDie d => rev (map ly_height (die_layers d))
  end.

(** Rule [stack], parser 1180-1325, without the cell counts (see
    [Dims.parse_dims]).  Result: the elements (top-most first) and the vector
    of heights.  [None]: parse error. The heights are written into a vector of
    NLayers elements: writing more is undefined, which the model returns as
    [UB]. *)
Definition parse_stack (ch : option channel) (ds : list stack_decl) : outcome (option (list stkel * list Q)) :=
  match add_elements ch [] ds with
  | None => Ok None
  | Some [] => Ok None (* the grammar requires one element *)
  | Some ((t :: r) as es) =>
    if negb (existsb is_die es) then Ok None
    else if is_channel (last es t) then Ok None
    else if is_channel t then Ok None
    else
      let (bottom_up, nlayers) := set_offsets (rev es) 0 in
      let heights := flat_map element_heights bottom_up in
      if Z.of_nat (length heights) =? nlayers
      then Ok (Some (rev bottom_up, heights)) else UB
  end.

(** ** Layer types, include/types.h 245-320 *)
Inductive layer_type :=
| LT_NONE | LT_SOLID | LT_SOURCE
| LT_SOLID_AMBIENT | LT_SOLID_SPREADER | LT_SOLID_PCB
| LT_SOURCE_AMBIENT | LT_SOURCE_SPREADER | LT_SOURCE_PCB
| LT_CHANNEL_4RM | LT_CHANNEL_2RM | LT_PINFINS_INLINE | LT_PINFINS_STAGGERED
| LT_VWALL_CHANNEL | LT_VWALL_PINFINS | LT_TOP_WALL | LT_BOTTOM_WALL.

(** struct ThermalGrid, include/thermal_grid.h. *)
Record tgrid := mkTgrid {
  tg_types : list layer_type; tg_layers : list layer;
  tg_channel : option channel; tg_top : option top_sink; tg_bottom : option bottom_sink
}.

(** layer_init, layer.c 46-60. *)
Definition layer0 : layer := mkLayer 0 (mkMaterial 0 0 0 0) [].

(** thermal_grid_build, thermal_grid.c 60-92. *)
Definition thermal_grid_build (nlayers : Z) : tgrid :=
  mkTgrid (repeat LT_NONE (Z.to_nat nlayers)) (repeat layer0 (Z.to_nat nlayers)) None None None.

(** [a[i], a[i+1], ... = xs]: consecutive writes. *)
Fixpoint arr_set_all {A} (a : list A) (i : Z) (xs : list A) : outcome (list A) :=
  match xs with
  | [] => Ok a
  | x :: xs' => do a' <- arr_set a i x ; arr_set_all a' (i + 1) xs'
  end.

(** The types written for a channel, thermal_grid.c 180-234 and power_grid.c
    280-318. *)
Definition channel_types (m : channel_model) : list layer_type :=
  match m with
  | CM_MC_4RM => [LT_CHANNEL_4RM]
  | CM_MC_2RM => [LT_BOTTOM_WALL; LT_VWALL_CHANNEL; LT_CHANNEL_2RM; LT_TOP_WALL]
  | CM_PF_INLINE => [LT_BOTTOM_WALL; LT_VWALL_PINFINS; LT_PINFINS_INLINE; LT_TOP_WALL]
  | CM_PF_STAGGERED => [LT_BOTTOM_WALL; LT_VWALL_PINFINS; LT_PINFINS_STAGGERED; LT_TOP_WALL]
  | CM_NONE => []
  end.

(** One iteration of the loop of thermal_grid_fill, thermal_grid.c 121-247; the
    argument [rm4] is has_4RM_layers. *)
Definition thermal_fill_element (s : tgrid * bool) (e : stkel) : outcome (tgrid * bool) :=
  let (g, rm4) := s in
  let index := se_offset e in
  match se_kind e with
  | SKDie d =>
    do t1 <- arr_set_all (tg_types g) index (repeat LT_SOLID (length (die_layers d))) ;
    do ls <- arr_set_all (tg_layers g) index (rev (die_layers d)) ;
    do t2 <- arr_set t1 (index + die_source_offset d) LT_SOURCE ;
    Ok (mkTgrid t2 ls (tg_channel g) (tg_top g) (tg_bottom g), rm4)
  | SKLayer l =>
    do t1 <- arr_set (tg_types g) index LT_SOLID ;
    do ls <- arr_set (tg_layers g) index l ;
    Ok (mkTgrid t1 ls (tg_channel g) (tg_top g) (tg_bottom g), rm4)
  | SKChannel c =>
    do ls <- arr_set_all (tg_layers g) index
               (repeat (mkLayer (ch_height c) (ch_wall c) []) (Z.to_nat (ch_nlayers c))) ;
    do t1 <- arr_set_all (tg_types g) index (channel_types (ch_model c)) ;
    Ok (mkTgrid t1 ls (Some c) (tg_top g) (tg_bottom g),
        match ch_model c with CM_MC_4RM => true | _ => rm4 end)
  end.

Fixpoint fold_out {A B} (f : A -> B -> outcome A) (s : A) (l : list B) : outcome A :=
  match l with
  | [] => Ok s
  | x :: l' => do s' <- f s x ; fold_out f s' l'
  end.

(** Retyping of the top-most layer, thermal_grid.c 253-295, power_grid.c
    377-390, 472-480. *)
Definition retype_top (top : option top_sink) (t : layer_type) : layer_type :=
  match top with
  | None => t
  | Some (SinkTop _ _) =>
    match t with LT_SOLID => LT_SOLID_AMBIENT | LT_SOURCE => LT_SOURCE_AMBIENT | _ => t end
  | Some (SinkPluggable _ _ _) =>
    match t with LT_SOLID => LT_SOLID_SPREADER | LT_SOURCE => LT_SOURCE_SPREADER | _ => t end
  end.

(** Retyping of the bottom-most layer, thermal_grid.c 297-322: the boolean is
    the "same layer" error. *)
Definition retype_bottom (bot : option bottom_sink) (t : layer_type) : layer_type * bool :=
  match bot with
  | None => (t, false)
  | Some _ =>
    match t with
    | LT_SOLID => (LT_SOLID_PCB, false)
    | LT_SOURCE => (LT_SOURCE_PCB, false)
    | LT_SOLID_AMBIENT | LT_SOURCE_AMBIENT | LT_SOLID_SPREADER | LT_SOURCE_SPREADER => (t, true)
    | _ => (t, false)
    end
  end.

(** thermal_grid_fill, thermal_grid.c 118-325.  [es]: the elements top-most
    first; the sinks are those attached to the first and last element. *)
Definition thermal_grid_fill (g : tgrid) (es : list stkel) (top : option top_sink) (bot : option bottom_sink)
  : outcome (error_t * tgrid) :=
  do r <- fold_out thermal_fill_element (g, false) (rev es) ;
  let (g1, rm4) := r in
  let n := Z.of_nat (length (tg_types g1)) in
  do g2 <- match top with
           | None => Ok (Some g1)
           | Some sk =>
             if match sk with SinkPluggable _ _ _ => rm4 | SinkTop _ _ => false end then Ok None
             else
               do t <- arr_get (tg_types g1) (n - 1) ;
               do ts <- arr_set (tg_types g1) (n - 1) (retype_top top t) ;
               Ok (Some (mkTgrid ts (tg_layers g1) (tg_channel g1) top (tg_bottom g1)))
           end ;
  match g2 with
  | None => Ok (TDICE_FAILURE, mkTgrid (tg_types g1) (tg_layers g1) (tg_channel g1) top (tg_bottom g1))
  | Some g2 =>
    match bot with
    | None => Ok (TDICE_SUCCESS, g2)
    | Some _ =>
      do t <- arr_get (tg_types g2) 0 ;
      do ts <- arr_set (tg_types g2) 0 (fst (retype_bottom bot t)) ;
      Ok (if snd (retype_bottom bot t) then TDICE_FAILURE else TDICE_SUCCESS,
          mkTgrid ts (tg_layers g2) (tg_channel g2) (tg_top g2) bot)
    end
  end.

(** ** Types and floorplans of the power grid, power_grid.c *)
(** Loop of power_grid_fill, power_grid.c 230-343, on the vectors
    LayersTypeProfile and FloorplansProfile. The floorplan of a die is held by
    value (the C vector holds a pointer to it). *)
Definition power_fill_element (s : list layer_type * list (option floorplan)) (e : stkel)
  : outcome (list layer_type * list (option floorplan)) :=
  let (ts, fs) := s in
  let index := se_offset e in
  match se_kind e with
  | SKDie d =>
    do t1 <- arr_set_all ts index (repeat LT_SOLID (length (die_layers d))) ;
    do f1 <- arr_set_all fs index (repeat None (length (die_layers d))) ;
    do t2 <- arr_set t1 (index + die_source_offset d) LT_SOURCE ;
    do f2 <- arr_set f1 (index + die_source_offset d) (Some (die_floorplan d)) ;
    Ok (t2, f2)
  | SKLayer l =>
    do t1 <- arr_set ts index LT_SOLID ;
    do f1 <- arr_set fs index None ;
    Ok (t1, f1)
  | SKChannel c =>
    do t1 <- arr_set_all ts index (channel_types (ch_model c)) ;
    Ok (t1, fs)
  end.

(** power_grid_build and the typing part of power_grid_fill, power_grid.c
    187-194, 230-343, 377-390, 472-480, 496-512. *)
Definition power_grid_types (nlayers : Z) (es : list stkel) (top : option top_sink) (bot : option bottom_sink)
  : outcome (list layer_type * list (option floorplan)) :=
  do r <- fold_out power_fill_element
            (repeat LT_NONE (Z.to_nat nlayers), repeat None (Z.to_nat nlayers)) (rev es) ;
  let (t1, fs) := r in
  do t2 <- match top with
           | None => Ok t1
           | Some _ =>
             do t <- arr_get t1 (nlayers - 1) ;
             arr_set t1 (nlayers - 1) (retype_top top t)
           end ;
  do t3 <- match bot with
           | None => Ok t2
           | Some _ =>
             do t <- arr_get t2 0 ;
             arr_set t2 0 (fst (retype_bottom bot t))
           end ;
  Ok (t3, fs).
