(** * The text of the output files on the uniform grid, character by character.

    Model of generate_inspection_point_header and
    generate_inspection_point_output (/repo/sources/inspection_point.c 361-590
    and 594-890), of stack_element_print_thermal_map and
    stack_element_print_power_map (/repo/sources/stack_element.c 230-286 and
    413-465), of print_axes (/repo/sources/dimensions.c 287-320), and of the
    emulator that calls them (/repo/bin/3D-ICE-Emulator.c 110-216,
    /repo/sources/output.c 158-290).

    Numbers are exact rationals (the code uses double), printed as in Vtk.v.
    Names of files are lists of character codes. *)
From Coq Require Import ZArith List Bool QArith String Ascii.
From Verif Require Import Base Dims Queue Floorplan Stack PowerGrid Emulate Inspect Emulator NonUniform Vtk.
Import ListNotations.
Local Open Scope string_scope.
Local Open Scope Z_scope.

Definition code_text (l : list Z) : string := fold_right (fun c s => String (ascii_of_nat (Z.to_nat c)) s) "" l.
Definition text_code (s : string) : list Z := map (fun c => Z.of_nat (nat_of_ascii c)) (list_ascii_of_string s).

Definition tab : string := String "009"%char "".
Definition gap : string := " " ++ tab ++ " ".
(** 3D-ICE-Emulator.c 121. *)
Definition prefix_text : string := "% ".

(** The members of struct InspectionPoint that only the header reads. *)
Record place := mkPlace { pl_x : Q; pl_y : Q; pl_ax : Q; pl_ay : Q }.

Definition quantity_text (q : output_quantity) : option string :=
  match q with
  | OQ_MAXIMUM => Some "Maximum " | OQ_MINIMUM => Some "Minimum "
  | OQ_AVERAGE => Some "Average " | OQ_GRADIENT => Some "Gradient " | OQ_NONE => None
  end.
Definition id_of_element (p : ipoint) : string := match ip_element p with Some e => code_text (fe_id e) | None => "" end.
Definition elements_of (p : ipoint) : list flpel :=
  match se_kind (ip_stkel p) with SKDie x => f_elements (die_floorplan x) | _ => [] end.

(** The switch of generate_inspection_point_header, inspection_point.c 381-575:
    [inl]: the text written; [inr]: what has been written when the quantity makes no sense. *)
Definition header_text (pl : place) (p : ipoint) : string + string :=
  let id := code_text (se_id (ip_stkel p)) in
  match ip_type p with
  | OT_TCELL => inl (
      prefix_text ++ "Cell temperature for the location [" ++ id ++ ", x=" ++ pad_left 5 (fixed 3 (pl_x pl)) ++ ",y="
        ++ pad_left 5 (fixed 3 (pl_y pl)) ++ "]" ++ endl ++
      prefix_text ++ "Nearest [column, row] indices found= [" ++ dec_int (ip_col p) ++ "," ++ dec_int (ip_row p)
        ++ "] (locations [x=" ++ pad_left 5 (fixed 3 (pl_ax pl)) ++ ",y=" ++ pad_left 5 (fixed 3 (pl_ay pl)) ++ "])" ++ endl ++
      prefix_text ++ "Time(s)" ++ gap ++ "Temperature(K)" ++ endl)
  | OT_TFLP =>
      match quantity_text (ip_quantity p) with
      | Some q => inl (
          prefix_text ++ q ++ "temperatures for the floorplan of the die " ++ id ++ endl ++
          prefix_text ++ "Time(s)" ++ gap ++ concat_map (fun e => code_text (fe_id e) ++ "(K)" ++ gap) (elements_of p) ++ endl)
      | None => inr prefix_text
      end
  | OT_TFLPEL =>
      match quantity_text (ip_quantity p) with
      | Some q => inl (
          prefix_text ++ q ++ "temperatures for the floorplan element " ++ id_of_element p ++ " of the die " ++ id ++ endl ++
          prefix_text ++ "Time(s)" ++ gap ++ id ++ "." ++ id_of_element p ++ "(K)" ++ endl)
      | None => inr prefix_text
      end
  | OT_TMAP => inl (prefix_text ++ "Thermal map for layer " ++ id
      ++ " (please find axis information in ""xaxis.txt"" and ""yaxis.txt"")" ++ endl)
  | OT_PMAP => inl (prefix_text ++ "Power map for layer " ++ id
      ++ " (please find axis information in ""xaxis.txt"" and ""yaxis.txt"")" ++ endl)
  | OT_TCOOLANT =>
      match quantity_text (ip_quantity p) with
      | Some q => inl (
          prefix_text ++ q ++ "temperatures for the outlet of the channel " ++ id ++ endl ++
          prefix_text ++ "Time(s)" ++ gap ++ "Temperature(K)" ++ endl)
      | None => inr prefix_text
      end
  | OT_T3D => inl ""
  | OT_NONE => inr ""
  end.

(** The loops over rows and columns of stack_element_print_thermal_map and
    stack_element_print_power_map, stack_element.c 264-284 and 444-463. *)
Definition cell_text (v : Q) : string := pad_left 7 (fixed 3 v) ++ "  ".
Fixpoint map_text (rows cols : nat) (vs : list Q) : string :=
  match rows with
  | O => ""
  | S r => concat_map cell_text (firstn cols vs) ++ endl ++ map_text r cols (skipn cols vs)
  end.

(** The switch of generate_inspection_point_output, inspection_point.c 619-870,
    for the numbers [ip_values] (Inspect.v): [None]: the quantity makes no
    sense. *)
Definition row_text (d : dims) (p : ipoint) (time : Q) (vs : option (list Q)) : string :=
  match ip_type p, vs with
  | OT_TCELL, Some (v :: _) => fixed 6 time ++ gap ++ pad_left 16 (fixed 12 v) ++ endl
  | OT_TFLP, Some l => pad_left 5 (fixed 3 time) ++ gap ++ concat_map (fun v => pad_left 5 (fixed 3 v) ++ gap) l ++ endl
  | OT_TFLP, None => pad_left 5 (fixed 3 time) ++ gap
  | OT_TFLPEL, Some (v :: _) | OT_TCOOLANT, Some (v :: _) => pad_left 5 (fixed 3 time) ++ gap ++ pad_left 7 (fixed 3 v) ++ endl
  | OT_TMAP, Some l | OT_PMAP, Some l => map_text (Z.to_nat (d_nrows d)) (Z.to_nat (d_ncols d)) l ++ endl
  | _, _ => ""
  end.

(** ** The files *)
Definition tfiles := list Z -> option string.
Definition tput (n : list Z) (c : string) (k : tfiles) : tfiles := fun m => if name_dec m n then Some c else k m.
(** fopen with mode "a", fprintf, fclose. *)
Definition tappend (n : list Z) (c : string) (k : tfiles) : tfiles :=
  tput n ((match k n with Some o => o | None => "" end) ++ c) k.

Definition xaxis_name : list Z := text_code "xaxis.txt".
Definition yaxis_name : list Z := text_code "yaxis.txt".
Definition axis_text (centre : Z -> Q) (n : Z) : string := concat_map (fun i => pad_left 5 (fixed 2 (centre i)) ++ endl) (zrange 0 n).

Section Text.
  Variable openable : list Z -> bool.
  Variable where_ : ipoint -> place.

  (** print_axes, dimensions.c 287-320. *)
  Definition print_axes (d : dims) (k : tfiles) : tfiles :=
    if openable xaxis_name then
      let k1 := tput xaxis_name (axis_text (get_cell_center_x d) (last_column d)) k in
      if openable yaxis_name then tput yaxis_name (axis_text (get_cell_center_y d) (last_row d)) k1 else k1
    else k.

  (** generate_inspection_point_header. The text reaches the disk with fclose,
      after print_axes. *)
  Definition t_header (d : dims) (p : ipoint) (k : tfiles) : error_t * tfiles :=
    match ip_type p with
    | OT_T3D => (TDICE_SUCCESS, k)
    | t =>
      if openable (ip_file p) then
        match header_text (where_ p) p with
        | inl s => (TDICE_SUCCESS, tput (ip_file p) s (match t with OT_TMAP | OT_PMAP => print_axes d k | _ => k end))
        | inr s => (TDICE_FAILURE, tput (ip_file p) s k)
        end
      else (TDICE_FAILURE, k)
    end.
  Fixpoint t_headers (d : dims) (ps : list ipoint) (k : tfiles) : error_t * tfiles :=
    match ps with
    | [] => (TDICE_SUCCESS, k)
    | p :: ps' =>
      let '(e, k1) := t_header d p k in
      match e with TDICE_SUCCESS => t_headers d ps' k1 | TDICE_FAILURE => (TDICE_FAILURE, k1) end
    end.
  (** generate_output_headers, output.c 187-230. *)
  Definition t_output_headers (o : output) (d : dims) (k : tfiles) : error_t * tfiles :=
    t_headers d (o_final o ++ o_slot o ++ o_step o) k.

  (** generate_inspection_point_output (T3D writes nothing on the uniform grid: C68). *)
  Definition t_output (d : dims) (temps sources : list Q) (time : Q) (p : ipoint) (k : tfiles) : outcome (error_t * tfiles) :=
    match ip_type p with
    | OT_T3D => Ok (TDICE_SUCCESS, k)
    | t =>
      if openable (ip_file p) then
        match t with
        | OT_NONE => Ok (TDICE_FAILURE, tappend (ip_file p) "" k)
        | _ =>
          do v <- ip_values d temps sources p (ip_quantity p) ;
          Ok (TDICE_SUCCESS, tappend (ip_file p) (row_text d p time v) k)
        end
      else Ok (TDICE_FAILURE, k)
    end.
  Fixpoint t_outputs (d : dims) (temps sources : list Q) (time : Q) (ps : list ipoint) (k : tfiles) : outcome (error_t * tfiles) :=
    match ps with
    | [] => Ok (TDICE_SUCCESS, k)
    | p :: ps' =>
      do r <- t_output d temps sources time p k ;
      match r with
      | (TDICE_SUCCESS, k1) => t_outputs d temps sources time ps' k1
      | (TDICE_FAILURE, k1) => Ok (TDICE_FAILURE, k1)
      end
    end.
  (** generate_output, output.c 234-290. *)
  Definition t_generate_output (o : output) (d : dims) (temps sources : list Q) (time : Q) (i : output_instant) (k : tfiles)
    : outcome (error_t * tfiles) :=
    match points o i with
    | None => Ok (TDICE_FAILURE, k)
    | Some ps => t_outputs d temps sources time ps k
    end.

  Context {M PS : Type}.
  Notation sim := (sim M PS).
  Variable emulate : dims -> sim -> outcome (simresult * sim).

  Definition t_emit (o : output) (d : dims) (i : output_instant) (s : sim) (k : tfiles) : outcome tfiles :=
    do r <- t_generate_output o d (s_temps s) (pg_sources (s_pg s)) (get_simulated_time (s_an s)) i k ;
    Ok (snd r).

  (** 3D-ICE-Emulator.c 152-205. *)
  Fixpoint t_loop (fuel : nat) (o : output) (d : dims) (s : sim) (k : tfiles) : outcome (sim * tfiles) :=
    match fuel with
    | O => NoFuel
    | S n =>
      do r <- emulate d s ;
      let '(res, s1) := r in
      do k1 <- (match res with TDICE_STEP_DONE | TDICE_SLOT_DONE => t_emit o d OI_STEP s1 k | _ => Ok k end) ;
      do k2 <- (match res with TDICE_SLOT_DONE => t_emit o d OI_SLOT s1 k1 | _ => Ok k1 end) ;
      match res with
      | TDICE_END_OF_SIMULATION | TDICE_SOLVER_ERROR => Ok (s1, k2)
      | _ => t_loop n o d s1 k2
      end
    end.

  (** 3D-ICE-Emulator.c 118-215. *)
  Definition t_emulator (fuel : nat) (o : output) (d : dims) (s : sim) (k : tfiles) : outcome (option (sim * tfiles)) :=
    match t_output_headers o d k with
    | (TDICE_FAILURE, _) => Ok None
    | (TDICE_SUCCESS, k0) =>
      do r <- t_loop fuel o d s k0 ;
      let '(s1, k1) := r in
      do k2 <- t_emit o d OI_FINAL s1 k1 ;
      Ok (Some (s1, k2))
    end.
End Text.

(** ** Maps on the non-uniform grid *)

(** stack_element_print_thermal_map and stack_element_print_power_map with
    NonUniform, stack_element.c 240-263 and 424-443: the name of the file of the
    cells is built in an array of 50 characters. *)
Definition xy_name (id : string) : outcome string := in_array 50 ("xyaxis_" ++ id ++ ".txt").
Definition xy_text (c : cell) : string :=
  pad_left 5 (fixed 2 (r_x0 (c_rect c))) ++ tab ++ pad_left 5 (fixed 2 (r_y0 (c_rect c))) ++ tab ++
  pad_left 5 (fixed 2 (c_length c)) ++ tab ++ pad_left 5 (fixed 2 (c_width c)) ++ endl.
(** The loop over Cell_list: the text of the map and that of the file of the cells. *)
Fixpoint nu_map_text (cs : list cell) (layer : Z) (i : Z) (v : list Q) : outcome (string * string) :=
  match cs with
  | [] => Ok ("", "")
  | c :: t =>
    if c_layer c =? layer then
      do x <- arr_get v i ;
      do r <- nu_map_text t layer (u32 (i + 1)) v ;
      Ok (cell_text x ++ fst r, xy_text c ++ snd r)
    else nu_map_text t layer (u32 (i + 1)) v
  end.
(** The whole output of a Tmap or Pmap point: the text appended to its file and
    the name and the text of the file of the cells. *)
Definition nu_map_output (id : string) (cs : list cell) (layer : Z) (v : list Q) : outcome (string * (string * string)) :=
  do name <- xy_name id ;
  do r <- nu_map_text cs layer 0 v ;
  Ok (fst r ++ endl ++ endl, (name, snd r)).
