(** * Model of /repo/sources/inspection_point.c and of the outlet temperatures of
      /repo/sources/channel.c 344-462 (uniform grid). *)
From Coq Require Import ZArith List Bool QArith.
From Verif Require Import Base Dims Queue Floorplan Stack PowerGrid.
Import ListNotations.
Local Open Scope Z_scope.

(** OutputType_t, OutputQuantity_t, OutputInstant_t, include/types.h 480-536. *)
Inductive output_type := OT_NONE | OT_TCELL | OT_TFLP | OT_TFLPEL | OT_TMAP | OT_T3D | OT_PMAP | OT_TCOOLANT.
Inductive output_quantity := OQ_NONE | OQ_AVERAGE | OQ_MAXIMUM | OQ_MINIMUM | OQ_GRADIENT.
Inductive output_instant := OI_NONE | OI_FINAL | OI_SLOT | OI_STEP.

(** struct InspectionPoint, include/inspection_point.h: the floorplan element
    and the stack element are pointers into the parsed description in C; only
    their geometry is used here. *)
Record ipoint := mkIpoint {
  ip_type : output_type; ip_quantity : output_quantity; ip_instant : output_instant;
  ip_file : list Z; ip_stkel : stkel; ip_row : Z; ip_col : Z; ip_element : option flpel
}.

(** The two loops of align_tcell, inspection_point.c 274-314: [index] is
    assigned before the test, so that the last one stays when none matches.
    [n] is the number of iterations left, [i] the current index. *)
Fixpoint align_search (loc : Z -> Q) (v : Q) (n : nat) (i : Z) : Z :=
  match n with
  | O => i
  | S n' => if Qle_bool (loc i) v && negb (Qle_bool (loc (i + 1)) v) then i
            else match n' with O => i | _ => align_search loc v n' (i + 1) end
  end.
(** align_tcell, inspection_point.c 274-314 (row and column; at least one row
    and one column; no 32-bit wrap of the loop variable). *)
Definition align_tcell (d : dims) (x y : Q) : Z * Z :=
  (align_search (get_cell_location_y d) y (Z.to_nat (last_row d + 1)) 0,
   align_search (get_cell_location_x d) x (Z.to_nat (last_column d + 1)) 0).

(** get_source_layer_offset, stack_element.c 212-225. *)
Definition get_source_layer_offset (e : stkel) : Z :=
  match se_kind e with
  | SKDie x => u32 (se_offset e + die_source_offset x)
  | SKChannel c => u32 (se_offset e + ch_source_offset c)
  | SKLayer _ => se_offset e
  end.

(** ** Outlet of a channel.  [t]: the temperatures from the first cell of the
    layer of the coolant on. *)
(** The cells of the last row whose column is a channel column, in order. *)
Definition outlet_columns (ch : channel) (d : dims) : list Z :=
  filter (is_channel_column (ch_model ch)) (zrange 0 (last_column d)).
Definition outlet_reads (ch : channel) (d : dims) (t : list Q) : outcome (Q * list Q) :=
  let off := offset_in_layer d (last_row d) 0 in
  do v0 <- arr_get t off ;
  do vs <- read_all t (map (fun c => off + c) (outlet_columns ch d)) ;
  Ok (v0, vs).
(** get_max_temperature_channel_outlet, channel.c 344-369. *)
Definition outlet_max (ch : channel) (d : dims) (t : list Q) : outcome Q :=
  do r <- outlet_reads ch d t ; Ok (fold_left qmax (snd r) (fst r)).
(** get_min_temperature_channel_outlet, channel.c 373-398. *)
Definition outlet_min (ch : channel) (d : dims) (t : list Q) : outcome Q :=
  do r <- outlet_reads ch d t ; Ok (fold_left qmin (snd r) (fst r)).
(** get_avg_temperature_channel_outlet, channel.c 402-427: the sum starts with
    the temperature of column 0. A floating-point division by zero gives inf or
    nan in C: UB here. *)
Definition outlet_avg (ch : channel) (d : dims) (t : list Q) : outcome Q :=
  do r <- outlet_reads ch d t ;
  if ch_nchannels ch =? 0 then UB else Ok (fold_left Qplus (snd r) (fst r) / qz (ch_nchannels ch))%Q.
(** get_gradient_temperature_channel_outlet, channel.c 431-462: returns max. *)
Definition outlet_gradient (ch : channel) (d : dims) (t : list Q) : outcome Q := outlet_max ch d t.

(** ** The values read by an inspection point *)
Definition flpel_value (q : output_quantity) : option (dims -> flpel -> list Q -> outcome Q) :=
  match q with
  | OQ_MAXIMUM => Some flpel_max | OQ_MINIMUM => Some flpel_min
  | OQ_AVERAGE => Some flpel_avg | OQ_GRADIENT => Some flpel_gradient | OQ_NONE => None
  end.
Definition outlet_value (q : output_quantity) : option (channel -> dims -> list Q -> outcome Q) :=
  match q with
  | OQ_MAXIMUM => Some outlet_max | OQ_MINIMUM => Some outlet_min
  | OQ_AVERAGE => Some outlet_avg | OQ_GRADIENT => Some outlet_gradient | OQ_NONE => None
  end.
(** [temperatures += offset of the first cell of the source layer]. *)
Definition from_layer (d : dims) (e : stkel) (t : list Q) : list Q :=
  skipn (Z.to_nat (offset_in_stack d (get_source_layer_offset e) 0 0)) t.
(** Row-major cells of the source layer: stack_element_print_thermal_map and
    stack_element_print_power_map, stack_element.c, and the TMAP/PMAP cases of
    fill_message_inspection_point, inspection_point.c 1293-1410. *)
Definition layer_map (d : dims) (e : stkel) (t : list Q) : outcome (list Q) :=
  read_all (from_layer d e t) (zrange 0 (d_nrows d * d_ncols d - 1)).

(** The switch of generate_inspection_point_output, inspection_point.c 594-890,
    and of fill_message_inspection_point, 1117-1467: the numbers written for the
    quantity [q]; [None] when the quantity makes no sense (message on stderr,
    nothing written).  T3D writes its own files: not modelled. *)
Definition ip_values (d : dims) (temps sources : list Q) (p : ipoint) (q : output_quantity) : outcome (option (list Q)) :=
  let e := ip_stkel p in
  match ip_type p with
  | OT_TCELL => do v <- arr_get temps (offset_in_stack d (get_source_layer_offset e) (ip_row p) (ip_col p)) ; Ok (Some [v])
  | OT_TFLP =>
    match flpel_value q, se_kind e with
    | None, _ => Ok None
    | Some g, SKDie x => do vs <- flp_all g (die_floorplan x) d (from_layer d e temps) ; Ok (Some vs)
    | _, _ => UB
    end
  | OT_TFLPEL =>
    match flpel_value q, ip_element p with
    | None, _ => Ok None
    | Some g, Some el => do v <- g d el (from_layer d e temps) ; Ok (Some [v])
    | _, _ => UB
    end
  | OT_TMAP => do vs <- layer_map d e temps ; Ok (Some vs)
  | OT_PMAP => do vs <- layer_map d e sources ; Ok (Some vs)
  | OT_TCOOLANT =>
    match outlet_value q, se_kind e with
    | None, _ => Ok None
    | Some g, SKChannel c => do v <- g c d (from_layer d e temps) ; Ok (Some [v])
    | _, _ => UB
    end
  | OT_T3D | OT_NONE => Ok None
  end.

Definition quantity_eqb (a b : output_quantity) : bool :=
  match a, b with
  | OQ_NONE, OQ_NONE | OQ_AVERAGE, OQ_AVERAGE | OQ_MAXIMUM, OQ_MAXIMUM | OQ_MINIMUM, OQ_MINIMUM | OQ_GRADIENT, OQ_GRADIENT => true
  | _, _ => false
  end.
Definition type_eqb (a b : output_type) : bool :=
  match a, b with
  | OT_NONE, OT_NONE | OT_TCELL, OT_TCELL | OT_TFLP, OT_TFLP | OT_TFLPEL, OT_TFLPEL | OT_TMAP, OT_TMAP
  | OT_T3D, OT_T3D | OT_PMAP, OT_PMAP | OT_TCOOLANT, OT_TCOOLANT => true
  | _, _ => false
  end.
(** is_inspection_point, inspection_point.c 318-357. *)
Definition is_inspection_point (p : ipoint) (t : output_type) (q : output_quantity) : bool :=
  if negb (type_eqb (ip_type p) t) then false
  else match t with
       | OT_NONE | OT_T3D => false
       | OT_TCELL | OT_TMAP | OT_PMAP => true
       | OT_TFLP | OT_TFLPEL | OT_TCOOLANT => quantity_eqb (ip_quantity p) q
       end.
