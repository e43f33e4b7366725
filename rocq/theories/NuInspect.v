(** * Model of the output instructions on the non-uniform grid:
      /repo/sources/inspection_point.c 580-975 and 1117-1467 (branches
      NonUniform == 1), ic_element.c 277-415, stack_element.c 229-480.

    A pointer into the stack (StackElement, FloorplanElement, Channel) is given
    as the value it points to after thermal_data_build. *)
From Coq Require Import ZArith List Bool QArith.
From Verif Require Import Base Dims Queue Floorplan Stack PowerGrid Inspect NonUniform.
Import ListNotations.
Local Open Scope Z_scope.

(** struct InspectionPoint: the fields the non-uniform branches use; [nip_offset]
    is StackElement->Offset, [nip_channel] StackElement->Pointer.Channel. *)
Record nipoint := mkNip {
  nip_type : output_type; nip_quantity : output_quantity;
  nip_offset : Z; nip_kind : nu_kind; nip_channel : option channel;
  nip_x : Q; nip_y : Q; nip_element : option nu_el
}.

(** get_source_layer_offset, stack_element.c 206-225. *)
Definition nu_source_layer (p : nipoint) : Z :=
  match nip_kind p with
  | NuDie x => u32 (nip_offset p + nd_offset x)
  | NuChannel m => u32 (nip_offset p + channel_source_offset m)
  | NuLayer _ _ => nip_offset p
  end.

(** The test of inspection_point.c 638-643 and 909-912. *)
Definition in_cell (c : cell) (x y : Q) : bool :=
  Qle_bool (r_x0 (c_rect c)) x && Qlt_bool x (r_x0 (c_rect c) + c_length c)
  && (Qle_bool (r_y0 (c_rect c)) y && Qlt_bool y (r_y0 (c_rect c) + c_width c)).

(** inspection_point.c 627-651 and get_non_uniform_inspection_cell_index, 894-920:
    cell 0 when there is none. *)
Fixpoint nu_find (cs : list cell) (l : Z) (x y : Q) (i : Z) : Z :=
  match cs with
  | [] => 0
  | c :: t => if (c_layer c =? l) && in_cell c x y then i else nu_find t l x y (u32 (i + 1))
  end.

(** First cell of a layer. inspection_point.c 811-825 leaves the number of cells
    when there is none; get_non_uniform_layer_start, 924-943, gives 0 ([remote]). *)
Fixpoint nu_layer_start (remote : bool) (cs : list cell) (l : Z) (i : Z) : Z :=
  match cs with
  | [] => if remote then 0 else i
  | c :: t => if c_layer c =? l then i else nu_layer_start remote t l (u32 (i + 1))
  end.

(** get_non_uniform_layer_cell_count, inspection_point.c 947-967. *)
Fixpoint nu_layer_count (cs : list cell) (l : Z) (n : Z) : Z :=
  match cs with
  | [] => n
  | c :: t => nu_layer_count t l (if c_layer c =? l then u32 (n + 1) else n)
  end.

(** stack_element_print_thermal_map, stack_element.c 238-268, and
    stack_element_print_power_map; TMAP and PMAP of fill_message_inspection_point,
    inspection_point.c 1283-1308, 1344-1369. *)
Fixpoint nu_layer_map (cs : list cell) (l : Z) (i : Z) (v : list Q) : outcome (list Q) :=
  match cs with
  | [] => Ok []
  | c :: t =>
    if c_layer c =? l then do x <- arr_get v i ; do xs <- nu_layer_map t l (u32 (i + 1)) v ; Ok (x :: xs)
    else nu_layer_map t l (u32 (i + 1)) v
  end.

(** get_max/min/avg_temperature_ic_element, ic_element.c 277-415, NonUniform == 1
    (Index_end below 2^32 - 1: the loop variable does not wrap). *)
Definition nu_icel_max (i : nu_icel) (t : list Q) : outcome Q :=
  do v0 <- arr_get t (ni_start i) ; do vs <- read_all t (zrange (ni_start i) (ni_end i)) ; Ok (fold_left qmax vs v0).
Definition nu_icel_min (i : nu_icel) (t : list Q) : outcome Q :=
  do v0 <- arr_get t (ni_start i) ; do vs <- read_all t (zrange (ni_start i) (ni_end i)) ; Ok (fold_left qmin vs v0).
Definition nu_icel_avg (i : nu_icel) (t : list Q) : outcome Q :=
  do vs <- read_all t (zrange (ni_start i) (ni_end i)) ; Ok (fold_left Qplus vs 0 / qz (Z.of_nat (length vs)))%Q.

(** get_max/min/avg/gradient_temperature_floorplan_element, floorplan_element.c
    192-331 (NICElements is the length of the list). *)
Definition nu_el_max (e : nu_el) (t : list Q) : outcome Q :=
  do m <- nu_icel_max (ne_first e) t ;
  do ms <- map_out (fun a => nu_icel_max a t) (ne_others e) ;
  Ok (fold_left (fun max tmp => if Qlt_bool max tmp then tmp else max) ms m).
Definition nu_el_min (e : nu_el) (t : list Q) : outcome Q :=
  do m <- nu_icel_min (ne_first e) t ;
  do ms <- map_out (fun a => nu_icel_min a t) (ne_others e) ;
  Ok (fold_left (fun min tmp => if Qlt_bool tmp min then tmp else min) ms m).
Definition nu_el_avg (e : nu_el) (t : list Q) : outcome Q :=
  do ms <- map_out (fun a => nu_icel_avg a t) (ne_first e :: ne_others e) ;
  Ok (fold_left Qplus ms 0 / qz (Z.of_nat (length (ne_first e :: ne_others e))))%Q.
Definition nu_el_gradient (e : nu_el) (t : list Q) : outcome Q :=
  do mi <- nu_icel_min (ne_first e) t ;
  do ma <- nu_icel_max (ne_first e) t ;
  do mis <- map_out (fun a => nu_icel_min a t) (ne_others e) ;
  do mas <- map_out (fun a => nu_icel_max a t) (ne_others e) ;
  Ok (fold_left qmax mas ma - fold_left qmin mis mi)%Q.
Definition nu_el_value (q : output_quantity) : option (nu_el -> list Q -> outcome Q) :=
  match q with
  | OQ_MAXIMUM => Some nu_el_max | OQ_MINIMUM => Some nu_el_min
  | OQ_AVERAGE => Some nu_el_avg | OQ_GRADIENT => Some nu_el_gradient | OQ_NONE => None
  end.

(** The switch of generate_inspection_point_output, 623-880, and ([remote]) of
    fill_message_inspection_point, 1127-1465: the numbers written for quantity [q]
    (conversion to float and text left out). The temperatures are not shifted to a
    layer for Tflp and Tflpel (672, 733, 1157, 1234). T3D: not modelled. *)
Definition nu_ip_values (remote : bool) (d : dims) (cs : list cell) (temps sources : list Q) (p : nipoint) (q : output_quantity)
  : outcome (option (list Q)) :=
  let l := nu_source_layer p in
  match nip_type p with
  | OT_TCELL => do v <- arr_get temps (nu_find cs l (nip_x p) (nip_y p) 0) ; Ok (Some [v])
  | OT_TFLP =>
    match nu_el_value q, nip_kind p with
    | None, _ => Ok None
    | Some g, NuDie x => do vs <- map_out (fun e => g e temps) (nd_els x) ; Ok (Some vs)
    | _, _ => UB
    end
  | OT_TFLPEL =>
    match nu_el_value q, nip_element p with
    | None, _ => Ok None
    | Some g, Some e => do v <- g e temps ; Ok (Some [v])
    | _, _ => UB
    end
  | OT_TMAP => do vs <- nu_layer_map cs l 0 temps ; Ok (Some vs)
  | OT_PMAP => do vs <- nu_layer_map cs l 0 sources ; Ok (Some vs)
  | OT_TCOOLANT =>
    match outlet_value q, nip_channel p with
    | None, _ => Ok None
    | Some g, Some c => do v <- g c d (skipn (Z.to_nat (nu_layer_start remote cs l 0)) temps) ; Ok (Some [v])
    | _, _ => UB
    end
  | OT_T3D | OT_NONE => Ok None
  end.
