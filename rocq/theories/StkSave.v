(** * Model of generate_stack_description_file,
      /repo/sources/stack_file_parser.c 104-140, and of the functions that print
      the parts of a stack description: the characters that are written. The
      prefix of the lines is empty, as there. The file can be opened. *)
From Coq Require Import ZArith List Bool QArith Qabs String Ascii.
From Verif Require Import Base Flex FlpText Vtk Inspect StkText LayText.
Import ListNotations.
Local Open Scope string_scope.
Local Open Scope list_scope.
Local Open Scope Z_scope.

(** ** printf *)
(** The number of decimal digits of [n] > 0. *)
Fixpoint count_digits (fuel : nat) (n : Z) : Z :=
  match fuel with O => 1 | S f => if n <? 10 then 1 else 1 + count_digits f (n / 10) end.
Definition ndigits (n : Z) : Z := count_digits (Z.to_nat (Z.log2 n)) n.
Definition ten (e : Z) : Q := Qpower (10 # 1) e.
(** The decimal exponent of [x] > 0. *)
Definition exp10 (x : Q) : Z :=
  let e := ndigits (Qnum x) - ndigits (Zpos (Qden x)) in
  if Qle_bool (ten e) x then e else e - 1.
(** "%.<p>e" *)
Definition scientific (p : nat) (x : Q) : string :=
  let e := if Qeq_bool x 0 then 0 else exp10 (Qabs x) in
  let m := round_even (Qabs x * ten (Z.of_nat p - e)) in
  let '(m, e) := if m =? 10 ^ Z.of_nat (S p) then (10 ^ Z.of_nat p, e + 1) else (m, e) in
  ((if Qle_bool 0 x then "" else "-") ++ dec (m / 10 ^ Z.of_nat p) ++ "." ++ pad_digits p m ""
   ++ "e" ++ (if (e <? 0)%Z then "-" else "+") ++ (if (Z.abs e <? 10)%Z then "0" else "") ++ dec (Z.abs e))%string.
(** "%.0f" *)
Definition whole (x : Q) : string := ((if Qle_bool 0 x then "" else "-") ++ dec (round_even (Qabs x)))%string.

Definition nl : chars := [newline].
Definition f1 (x : Q) : chars := str (fixed 1 x).
Definition f2 (x : Q) : chars := str (fixed 2 x).
Definition f71 (x : Q) : chars := str (pad_left 7 (fixed 1 x)).
Definition f41 (x : Q) : chars := str (pad_left 4 (fixed 1 x)).
Definition e4 (x : Q) : chars := str (scientific 4 x).
Definition id_ (i : list Z) : chars := chars_of i.
Definition quoted (p : list Z) : chars := str """" ++ chars_of p ++ str """".

(** ** What is in memory *)
Record smat := mkSmat { sm_id : list Z; sm_x : Q; sm_y : Q; sm_z : Q; sm_vhc : Q }.
(** HeatSink_t, include/heat_sink.h *)
Record splug := mkSplug {
  sp_length : Q; sp_width : Q; sp_height : Q; sp_material : smat; sp_plugin : list Z; sp_args : list Z;
  sp_cell_length : Q; sp_cell_width : Q; sp_rows : Z; sp_columns : Z; sp_row_border : Z; sp_column_border : Z }.
Inductive ssink := SConvective (htc temperature : Q) | SPluggable (p : splug).
(** Channel_t with the lengths of the cells of Dimensions_t; flow rates in
    cubic micrometres per second. [diameter]: the number DIAMETER evaluates to
    (include/macros.h 251, a square root). *)
Inductive schan :=
| S4 (height channel wall first last : Q) (material : list Z) (flow side top bottom vhc tin : Q)
| S2 (height length pitch : Q) (material : list Z) (flow top bottom vhc tin : Q)
| SPins (staggered : bool) (height diameter pitch : Q) (material : list Z) (darcy vhc tin : Q).
(** Layer_t; no layout: a null pointer *)
Record slayer := mkSlayer { sl_id : list Z; sl_height : Q; sl_material : list Z; sl_layout : option (list Z) }.
(** Die_t: the layers from the top one to the bottom one, and SourceLayerOffset *)
Record sdie := mkSdie { sd_id : list Z; sd_layers : list (Q * list Z); sd_source : Z }.
(** Dimensions_t *)
Record sdims := mkSdims { sx_length : Q; sx_width : Q; sx_cell_length : Q; sx_cell_width : Q; sx_nonuniform : bool }.
(** StackElement_t *)
Inductive selem := SLayer (id layer : list Z) | SChannel (id : list Z) | SDie (id die floorplan : list Z).
(** Analysis_t *)
Record sanalysis := mkSanalysis { sa_transient : option (Q * Q); sa_initial : Q; sa_cores : Z }.
(** StackDescription_t, Analysis_t, and the three lists of Output_t *)
Record kept := mkKept {
  k_materials : list smat; k_top : option ssink; k_bottom : option (Q * Q); k_channel : option schan;
  k_layers : list slayer; k_dies : list sdie; k_dims : sdims; k_stack : list selem;
  k_analysis : sanalysis;
  k_final : list (pointd Q (list Z) (list Z)); k_slot : list (pointd Q (list Z) (list Z)); k_step : list (pointd Q (list Z) (list Z)) }.

(** ** Printing *)
(** material_print, material.c 129-144 *)
Definition print_material (m : smat) : chars :=
  str "material " ++ id_ (sm_id m) ++ str " :" ++ nl
  ++ str "   thermal conductivity     " ++ e4 (sm_x m) ++ str "     " ++ e4 (sm_y m) ++ str "     " ++ e4 (sm_z m) ++ str " ;" ++ nl
  ++ str "   volumetric heat capacity " ++ e4 (sm_vhc m) ++ str " ;" ++ nl.
(** heat_sink_print, heat_sink.c 188-271 *)
Definition print_convective (name : string) (htc t : Q) : chars :=
  str name ++ str " heat sink :" ++ nl
  ++ str "   heat transfer coefficient " ++ e4 htc ++ str " ;" ++ nl
  ++ str "   temperature               " ++ f2 t ++ str " ;" ++ nl.
Definition print_pluggable (p : splug) : chars :=
  str "top pluggable heat sink :" ++ nl
  ++ str "   spreader length          " ++ str (whole (sp_length p)) ++ str " ;" ++ nl
  ++ str "   spreader width           " ++ str (whole (sp_width p)) ++ str " ;" ++ nl
  ++ str "   spreader height          " ++ str (whole (sp_height p)) ++ str " ;" ++ nl
  ++ print_material (sp_material p)
  ++ str "   plugin                  " ++ id_ (sp_plugin p) ++ str " ;" ++ nl
  ++ str "   plugin args             " ++ id_ (sp_args p) ++ str " ;" ++ nl
  ++ str "   cell     length          " ++ str (whole (sp_cell_length p)) ++ str " ;" ++ nl
  ++ str "   cell     width           " ++ str (whole (sp_cell_width p)) ++ str " ;" ++ nl
  ++ str "   num rows                 " ++ str (dec_int (sp_rows p)) ++ str " ;" ++ nl
  ++ str "   num columns              " ++ str (dec_int (sp_columns p)) ++ str " ;" ++ nl
  ++ str "   num rows border          " ++ str (dec_int (sp_row_border p)) ++ str " ;" ++ nl
  ++ str "   num columns border       " ++ str (dec_int (sp_column_border p)) ++ str " ;" ++ nl.
Definition print_top (s : ssink) : chars :=
  match s with SConvective h t => print_convective "top" h t | SPluggable p => print_pluggable p end.
(** FLOW_RATE_FROM_UM3SEC_TO_MLMIN, include/macros.h 231 *)
Definition to_mlmin (fr : Q) : Q := ((fr * 60) / ten 12)%Q.
(** channel_print, channel.c 134-218 *)
Definition print_channel (c : schan) : chars :=
  match c with
  | S4 height channel wall first last m flow side top bottom vhc tin =>
    str "microchannel 4rm :" ++ nl
    ++ str "   height            " ++ f71 height ++ str " ;" ++ nl
    ++ str "   channel    length " ++ f71 channel ++ str " ;" ++ nl
    ++ str "   wall       length " ++ f71 wall ++ str " ;" ++ nl
    ++ nl
    ++ str "   first wall length " ++ f71 first ++ str " ;" ++ nl
    ++ str "    last wall length " ++ f71 last ++ str " ;" ++ nl
    ++ nl
    ++ str "   wall material " ++ id_ m ++ str " ;" ++ nl
    ++ nl
    ++ str "   coolant flow rate  " ++ f2 (to_mlmin flow) ++ str " ;" ++ nl
    ++ nl
    ++ str "   coolant heat transfer coefficient side   " ++ e4 side ++ str " ," ++ nl
    ++ str "                                     top    " ++ e4 top ++ str " ," ++ nl
    ++ str "                                     bottom " ++ e4 bottom ++ str " ;" ++ nl
    ++ nl
    ++ str "   coolant volumetric heat capacity " ++ e4 vhc ++ str " ;" ++ nl
    ++ nl
    ++ str "   coolant incoming temperature  " ++ f2 tin ++ str " ;" ++ nl
  | S2 height length pitch m flow top bottom vhc tin =>
    str "microchannel 2rm :" ++ nl
    ++ str "   height            " ++ f71 height ++ str " ;" ++ nl
    ++ str "   channel    length " ++ f71 length ++ str " ;" ++ nl
    ++ str "   wall       length " ++ f71 (pitch - length)%Q ++ str " ;" ++ nl
    ++ nl
    ++ str "   wall material " ++ id_ m ++ str " ;" ++ nl
    ++ nl
    ++ str "   coolant flow rate  " ++ f2 (to_mlmin flow) ++ str " ;" ++ nl
    ++ nl
    ++ str "   coolant heat transfer coefficient top    " ++ e4 top ++ str " ," ++ nl
    ++ str "                                     bottom " ++ e4 bottom ++ str " ;" ++ nl
    ++ nl
    ++ str "   coolant volumetric heat capacity " ++ e4 vhc ++ str " ;" ++ nl
    ++ nl
    ++ str "   coolant incoming temperature  " ++ f2 tin ++ str " ;" ++ nl
  | SPins staggered height diameter pitch m darcy vhc tin =>
    str "pinfin :" ++ nl
    ++ str "   height            " ++ f71 height ++ str " ;" ++ nl
    ++ str "   pin diameter " ++ f71 diameter ++ str " ;" ++ nl
    ++ str "   pin pitch    " ++ f71 pitch ++ str " ;" ++ nl
    ++ nl
    ++ (if staggered then str "   pin distribution staggered ;" else str "   pin distribution inline ;") ++ nl
    ++ nl
    ++ str "   pin material " ++ id_ m ++ str " ;" ++ nl
    ++ nl
    ++ str "   darcy velocity  " ++ e4 darcy ++ str " ;" ++ nl
    ++ nl
    ++ str "   coolant volumetric heat capacity " ++ e4 vhc ++ str " ;" ++ nl
    ++ nl
    ++ str "   coolant incoming temperature  " ++ f2 tin ++ str " ;" ++ nl
  end.
(** layer_print, layer.c 144-161; "%s" of a null pointer is undefined. *)
Definition print_layer (l : slayer) : outcome chars :=
  match sl_layout l with
  | None => UB
  | Some p =>
    Ok (str "layer " ++ id_ (sl_id l) ++ str " :" ++ nl
        ++ str "   height " ++ f1 (sl_height l) ++ str " ;" ++ nl
        ++ str "   material " ++ id_ (sl_material l) ++ str " ;" ++ nl
        ++ str "   layout   " ++ quoted p ++ str " ;" ++ nl)
  end.
(** die_print, die.c 142-171: [counter] counts down from the number of layers. *)
Fixpoint print_die_layers (counter source : Z) (l : list (Q * list Z)) : chars :=
  match l with
  | [] => []
  | (h, m) :: r =>
    (if u32 (counter - 1) =? source then str "   source  " else str "    layer  ")
    ++ f41 h ++ str " " ++ id_ m ++ str " ;" ++ nl ++ print_die_layers (u32 (counter - 1)) source r
  end.
Definition print_die (d : sdie) : chars :=
  str "die " ++ id_ (sd_id d) ++ str " :" ++ nl ++ print_die_layers (Z.of_nat (List.length (sd_layers d))) (sd_source d) (sd_layers d).
(** dimensions_print, dimensions.c 265-284 *)
Definition print_dims (d : sdims) : chars :=
  str "dimensions : " ++ nl
  ++ str "   chip length " ++ f71 (sx_length d) ++ str " , width " ++ f71 (sx_width d) ++ str " ;" ++ nl
  ++ str "   cell length " ++ f71 (sx_cell_length d) ++ str " , width " ++ f71 (sx_cell_width d) ++ str " ;" ++ nl.
(** stack_element_print, stack_element.c 163-205 *)
Definition print_element (e : selem) : chars :=
  match e with
  | SChannel i => str "   channel  " ++ id_ i ++ str " ;" ++ nl
  | SDie i d p => str "   die      " ++ id_ i ++ str " " ++ id_ d ++ str " floorplan " ++ quoted p ++ str " ;" ++ nl
  | SLayer i l => str "   layer    " ++ id_ i ++ str " " ++ id_ l ++ str " ;" ++ nl
  end.
(** analysis_print, analysis.c 125-146 *)
Definition print_analysis (a : sanalysis) : chars :=
  str "solver : " ++ nl
  ++ match sa_transient a with
     | None => str "  steady ;" ++ nl
     | Some (step, slot) => str "  transient step " ++ f2 step ++ str ", slot " ++ f2 slot ++ str " ;" ++ nl
     end
  ++ str "  initial temperature  " ++ f2 (sa_initial a) ++ str " ;" ++ nl
  ++ str "  number of cores " ++ str (dec_int (sa_cores a)) ++ str " ;" ++ nl
  ++ nl.
(** inspection_point_print, inspection_point.c 151-250 *)
Definition print_quantity (q : output_quantity) : chars :=
  match q with OQ_MAXIMUM => str "maximum, " | OQ_MINIMUM => str "minimum, " | _ => str "average, " end.
Definition print_when (w : option output_instant) : chars :=
  match w with Some OI_SLOT => str "slot );" ++ nl | Some OI_STEP => str "step );" ++ nl | _ => str "final );" ++ nl end.
Definition print_point (p : pointd Q (list Z) (list Z)) : chars :=
  match p with
  | PT i x y f w => str "    T        (" ++ id_ i ++ str ", " ++ f1 x ++ str ", " ++ f1 y ++ str ", " ++ quoted f ++ str ", " ++ print_when w
  | PTflp i f q w => str "    Tflp     (" ++ id_ i ++ str ", " ++ quoted f ++ str ", " ++ print_quantity q ++ print_when w
  | PTflpel i e f q w => str "    Tflpel   (" ++ id_ i ++ str "." ++ id_ e ++ str ", " ++ quoted f ++ str ", " ++ print_quantity q ++ print_when w
  | PTmap i f w => str "    Tmap     (" ++ id_ i ++ str ", " ++ quoted f ++ str ", " ++ print_when w
  | PT3d f w => str "    T3D  " ++ quoted f ++ str ", " ++ print_when w
  | PPmap i f w => str "    Pmap     (" ++ id_ i ++ str ", " ++ quoted f ++ str ", " ++ print_when w
  | PTcoolant i f q w => str "    Tcoolant (" ++ id_ i ++ str ", " ++ quoted f ++ str ", " ++ print_quantity q ++ print_when w
  end.
(** The lists, list_template.c 312-326: a line after each; those of output_print
    have a prefix of four blanks. *)
Definition print_list {A} (prefix : string) (f : A -> chars) (l : list A) : chars := flat_map (fun a => f a ++ str prefix ++ nl) l.
Fixpoint print_list_ub {A} (f : A -> outcome chars) (l : list A) : outcome chars :=
  match l with [] => Ok [] | a :: r => do x <- f a ; do y <- print_list_ub f r ; Ok (x ++ nl ++ y) end.
Definition print_opt {A} (f : A -> chars) (o : option A) : chars := match o with Some a => f a ++ nl | None => [] end.
(** stack_description_print, stack_description.c 79-128; output_print, output.c
    134-158; generate_stack_description_file, stack_file_parser.c 104-140 *)
Definition generate_stack_description_file (k : kept) : outcome chars :=
  do layers <- print_list_ub print_layer (k_layers k) ;
  Ok (print_list "" print_material (k_materials k)
      ++ print_opt print_top (k_top k)
      ++ print_opt (fun b => print_convective "bottom" (fst b) (snd b)) (k_bottom k)
      ++ print_opt print_channel (k_channel k)
      ++ layers ++ nl
      ++ print_list "" print_die (k_dies k) ++ nl
      ++ print_dims (k_dims k) ++ nl
      ++ str "stack :" ++ nl ++ print_list "" print_element (k_stack k) ++ nl
      ++ nl ++ print_analysis (k_analysis k) ++ nl
      ++ str "output :" ++ nl
      ++ print_list "    " print_point (k_final k) ++ nl
      ++ print_list "    " print_point (k_slot k) ++ nl
      ++ print_list "    " print_point (k_step k) ++ nl).
