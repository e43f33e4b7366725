(** * Model of print_thermal_map_3D (/repo/sources/stack_element.c 290-409), the
      three-dimensional thermal map of the inspection points of type T3D.

    The text of the file is modelled character by character. Coordinates and
    temperatures are exact rationals (the code uses double): "%f" and "%7.3f"
    print the nearest decimal, the even one when two are as near. *)
From Coq Require Import ZArith List Bool QArith Qabs Qround String Ascii.
From Verif Require Import Base Dims Floorplan Stack Emulate Matrix Inspect NonUniform NuSource NuEmulate.
Import ListNotations.
Local Open Scope string_scope.
Local Open Scope Z_scope.

(** C strings. *)
Definition newline : ascii := "010"%char.
Definition endl : string := String newline "".

(** ** printf *)
Definition digit (n : Z) : ascii := ascii_of_nat (Z.to_nat (48 + n)).
(** "%u" and "%d" of a number that is not negative. *)
Fixpoint dec_digits (fuel : nat) (n : Z) (tail : string) : string :=
  match fuel with
  | O => tail
  | S f => let t := String (digit (n mod 10)) tail in if n / 10 =? 0 then t else dec_digits f (n / 10) t
  end.
Definition dec (n : Z) : string := dec_digits (S (Z.to_nat n)) n "".
(** "%d" of a uint32_t, read as an int32_t. *)
Definition dec_int (n : Z) : string := if n <? 2147483648 then dec n else "-" ++ dec (two32 - n).
(** Exactly [p] digits. *)
Fixpoint pad_digits (p : nat) (n : Z) (tail : string) : string :=
  match p with O => tail | S p' => pad_digits p' (n / 10) (String (digit (n mod 10)) tail) end.
Definition round_even (x : Q) : Z :=
  let m := Qfloor x in
  match ((x - inject_Z m) ?= 1 # 2)%Q with
  | Lt => m | Gt => m + 1 | Eq => if Z.even m then m else m + 1
  end.
(** "%.<p>f". *)
Definition fixed (p : nat) (x : Q) : string :=
  let r := round_even (Qabs x * inject_Z (10 ^ Z.of_nat p)) in
  (if Qle_bool 0 x then "" else "-") ++ dec (r / 10 ^ Z.of_nat p) ++ "." ++ pad_digits p r "".
(** "%<w>": blanks on the left. *)
Definition pad_left (w : nat) (s : string) : string :=
  List.fold_right String s (List.repeat " "%char (w - String.length s)).

(** ** The name of the file, 302-331 *)

(** The loop 314-322: what is left of a C string when its dots become NUL. *)
Fixpoint cut_dot (s : string) : string :=
  match s with
  | "" => ""
  | String c r => if Ascii.eqb c "."%char then "" else String c (cut_dot r)
  end.

(** [newname] is an array of 50 characters, [index] one of 10: writing more is
    undefined behaviour. *)
Definition in_array (size : nat) (s : string) : outcome string :=
  if (String.length s <? size)%nat then Ok s else UB.
Definition vtk_name (filename : string) (timestep slotlength : Z) (i : output_instant) : outcome string :=
  do newname <- in_array 50 filename ;
  do step <- match i with
             | OI_SLOT => if slotlength =? 0 then UB else Ok (timestep / slotlength)
             | _ => Ok timestep
             end ;
  match i with
  | OI_FINAL => Ok newname
  | _ =>
    do index <- in_array 10 (dec step) ;
    do a <- in_array 50 (cut_dot newname ++ index) ;
    in_array 50 (a ++ ".vtk")
  end.

(** ** The text of the file, 338-407 *)

(** A cell of Cell_list and Material.Id (None: NULL). *)
Record vcell := mkVcell { v_cell : cell; v_id : option string }.

Definition point (x y z : Q) : string := fixed 6 x ++ " " ++ fixed 6 y ++ " " ++ fixed 6 z ++ endl.
(** 347-357 *)
Definition vtk_corners (v : vcell) : string :=
  let c := v_cell v in
  let x := r_x0 (c_rect c) in let y := r_y0 (c_rect c) in let z := c_z c in
  point x y z ++
  point (x + c_length c)%Q y z ++
  point (x + c_length c)%Q (y + c_width c)%Q z ++
  point x (y + c_width c)%Q z ++
  point x y (z + c_height c)%Q ++
  point (x + c_length c)%Q y (z + c_height c)%Q ++
  point (x + c_length c)%Q (y + c_width c)%Q (z + c_height c)%Q ++
  point x (y + c_width c)%Q (z + c_height c)%Q.
(** 363-365: the sums and products are those of uint32_t. *)
Definition vtk_hexa (i : Z) : string :=
  "8 " ++ dec_int (u32 (i * 8)) ++ " " ++ dec_int (u32 (i * 8 + 1)) ++ " " ++ dec_int (u32 (i * 8 + 2)) ++ " "
  ++ dec_int (u32 (i * 8 + 3)) ++ " " ++ dec_int (u32 (i * 8 + 4)) ++ " " ++ dec_int (u32 (i * 8 + 5)) ++ " "
  ++ dec_int (u32 (i * 8 + 6)) ++ " " ++ dec_int (u32 (i * 8 + 7)) ++ endl.
(** 391-404 *)
Definition vtk_label (v : vcell) : string :=
  match v_id v with
  | Some m => if String.eqb m "UNDERFILL" || String.eqb m "AIR" then "1" else "0"
  | None => "0"
  end ++ endl.
Definition concat_map {A} (f : A -> string) (l : list A) : string := fold_right (fun x s => f x ++ s) "" l.

(** 385: *(temperatures+counter): the array must be long enough. *)
Definition vtk_temperatures (temps : list Q) (n : Z) : outcome string :=
  fold_right (fun i (r : outcome string) => do t <- arr_get temps i ; do s <- r ; Ok (pad_left 7 (fixed 3 t) ++ endl ++ s))
    (Ok "") (indexes n).

Definition vtk_text (n : Z) (cells : list vcell) (temps : list Q) : outcome string :=
  do ts <- vtk_temperatures temps n ;
  Ok ("# vtk DataFile Version 3.0" ++ endl ++
      "3D Temperature Map" ++ endl ++
      "ASCII" ++ endl ++
      "DATASET UNSTRUCTURED_GRID" ++ endl ++
      "POINTS " ++ dec_int (u32 (n * 8)) ++ " float" ++ endl ++
      concat_map vtk_corners cells ++
      "CELLS " ++ dec_int n ++ " " ++ dec_int (u32 (n * 9)) ++ endl ++
      concat_map vtk_hexa (indexes n) ++
      "CELL_TYPES " ++ dec_int n ++ endl ++
      concat_map (fun _ => "12" ++ endl) (indexes n) ++
      "CELL_DATA " ++ dec_int n ++ endl ++
      "SCALARS Temperature float 1" ++ endl ++
      "LOOKUP_TABLE default" ++ endl ++
      ts ++
      "SCALARS Labels int 1" ++ endl ++
      "LOOKUP_TABLE default" ++ endl ++
      concat_map vtk_label cells ++ endl).

(** The files of the disk. *)
Definition disk := string -> option string.
Definition write_file (name text : string) (k : disk) : disk := fun m => if String.eqb m name then Some text else k m.

(** print_thermal_map_3D, stack_element.c 290-409. [openable] says which files
    can be opened with mode "w": otherwise the code prints to a null stream. *)
Definition print_thermal_map_3D (openable : string -> bool) (nonuniform : bool) (n : Z) (cells : list vcell) (temps : list Q)
  (timestep slotlength : Z) (filename : string) (i : output_instant) (k : disk) : outcome disk :=
  if nonuniform then
    do name <- vtk_name filename timestep slotlength i ;
    if openable name then
      do text <- vtk_text n cells temps ;
      Ok (write_file name text k)
    else UB
  else Ok k.

(** ** The emulator with three-dimensional maps on the non-uniform grid:
    3D-ICE-Emulator.c 152-216 with generate_output (output.c 234-290) for the
    inspection points of type T3D (path and instant; the header of such a point
    writes nothing, inspection_point.c 370). [ncells] and [cells]: NCells and
    Cell_list of the dimensions. *)
Section T3d.
  Context {PS : Type}.
  Variable solve : sysmatrix -> list Q -> error_t * list Q.
  Variable plugin : PS -> list Q -> list Q -> bool * list Q * PS.
  Variable openable : string -> bool.
  Variable ncells : Z.
  Variable cells : list vcell.
  Variable points : list (string * output_instant).

  Definition same_instant (a b : output_instant) : bool :=
    match a, b with OI_FINAL, OI_FINAL | OI_STEP, OI_STEP | OI_SLOT, OI_SLOT => true | _, _ => false end.
  Definition t3d_output (i : output_instant) (s : nsim PS) (k : disk) : outcome disk :=
    fold_out (fun k p =>
      if same_instant (snd p) i then
        print_thermal_map_3D openable true ncells cells (n_temps s)
          (an_time (n_an s)) (an_slot_length (n_an s)) (fst p) (snd p) k
      else Ok k) k points.
  Fixpoint t3d_loop (fuel : nat) (d : dims) (s : nsim PS) (k : disk) : outcome (nsim PS * disk) :=
    match fuel with
    | O => NoFuel
    | S f =>
      do r <- nu_emulate_step solve plugin d s ;
      let '(res, s1) := r in
      do k1 <- (match res with TDICE_STEP_DONE | TDICE_SLOT_DONE => t3d_output OI_STEP s1 k | _ => Ok k end) ;
      do k2 <- (match res with TDICE_SLOT_DONE => t3d_output OI_SLOT s1 k1 | _ => Ok k1 end) ;
      match res with
      | TDICE_END_OF_SIMULATION | TDICE_SOLVER_ERROR => Ok (s1, k2)
      | _ => t3d_loop f d s1 k2
      end
    end.
  Definition t3d_run (fuel : nat) (d : dims) (s : nsim PS) (k : disk) : outcome (nsim PS * disk) :=
    do r <- t3d_loop fuel d s k ;
    let '(s1, k1) := r in
    do k2 <- t3d_output OI_FINAL s1 k1 ;
    Ok (s1, k2).
End T3d.
