(** * Model of the template heat sinks and of the loader of plugins:
      /repo/heatsink_plugin/templates/C++/heatsink.cpp, heatsink.h, entrypoint.cpp,
      /repo/heatsink_plugin/templates/python/heatsink.py,
      /repo/heatsink_plugin/loaders/python/pythonwrapper.cpp and entrypoint.cpp, the
      names in loaders/FMI/fmiwrapper.cpp 169-183, and the calls of plugins in
      /repo/sources/heat_sink.c 317-375.

    [double] and Python's numbers are Q; what the templates print is left out. *)
From Coq Require Import ZArith QArith Bool String Ascii.
From Coq Require Import List.
From Verif Require Import Base Dims Floorplan Stack PowerGrid Emulate Conduct GridMap.
Import ListNotations.
Local Open Scope Z_scope.

(** ** The C++ template *)
(** class HeatSink, heatsink.h 65-67. *)
Record heatsink := mkSink { hk_ambient : Q; hk_conductance : Q }.
(** parallel, heatsink.h 45-48. *)
Definition template_parallel (x y : Q) : Q := (x * y / (x + y))%Q.
(** HeatSink::HeatSink, heatsink.cpp 87-95, called by heatsink_init, entrypoint.cpp
    51-69: the number of cells is an unsigned int; [None] when it wraps to 0 (the
    conductance is then not a number, and heatsink_init still returns 0). The other
    arguments are only printed. *)
Definition cpp_init (nrows ncols : Z) (cell_width cell_length initial spreader_conductance step : Q) (args : string) : option heatsink :=
  let n := u32 (nrows * ncols) in
  if n =? 0 then None else Some (mkSink initial (template_parallel spreader_conductance (1 / qz n))).
(** HeatSink::simulateStep, heatsink.cpp 98-125, the loops over the cells: the flow of
    cell [n] of the spreader (row after row). *)
Definition cpp_flow (k : heatsink) (ncols : Z) (ts : list Q) (n : Z) : cpp Q :=
  cbind (cells_at ncols ts (n / ncols) (n mod ncols)) (fun t => Val (hk_conductance k * (t - hk_ambient k))%Q).
Definition cpp_step (k : heatsink) (nrows ncols : Z) (ts : list Q) : cpp (list Q) :=
  cmap (cpp_flow k ncols ts) (zrange 0 (nrows * ncols - 1)).
(** heatsink_simulate_step, entrypoint.cpp 71-84, as the plugin of Emulate.v. *)
Definition cpp_plugin (nrows ncols : Z) (k : heatsink) (ts old : list Q) : bool * list Q * heatsink :=
  match cpp_step k nrows ncols ts with
  | Val flows => if (length flows <=? length old)%nat then (false, flows ++ skipn (length flows) old, k) else (true, old, k)
  | Throw | Undef => (true, old, k)
  end.

(** ** The Python template *)
(** heatsinkInit, heatsink.py 48-62: integers do not wrap; a division by zero raises. *)
Definition py_init (nrows ncols : Z) (cell_width cell_length initial spreader_conductance step : Q) (args : string) : option heatsink :=
  let n := nrows * ncols in
  if n =? 0 then None else Some (mkSink initial (template_parallel spreader_conductance (1 / qz n))).
(** A Python object that a script may put in its list: a number, or anything else. *)
Inductive pyvalue := PyNumber (q : Q) | PyOther.
(** What calling heatsinkSimulateStep yields. *)
Inductive pyresult := PyRaised | PyNotList | PyList (l : list pyvalue).
(** heatsinkSimulateStep, heatsink.py 64-71. *)
Definition py_step (k : heatsink) (ts : list Q) : pyresult * heatsink :=
  (PyList (map (fun t => PyNumber (hk_conductance k * (t - hk_ambient k))%Q) ts), k).

(** PyFloat_AsDouble: -1 for what is not a number (the error indicator it sets is not
    read by the wrapper and is left out). *)
Definition as_double (v : pyvalue) : Q := match v with PyNumber q => q | PyOther => - (1) end.
(** PythonWrapper::simulateStep, pythonwrapper.cpp 88-116, and heatsink_simulate_step of
    loaders/python/entrypoint.cpp 71-82, for any script [script] with state [S]; [size]
    is the product of 60, an unsigned int. A buffer shorter than [size] is not modelled
    (failure). *)
Definition py_plugin {S : Type} (script : S -> list Q -> pyresult * S) (nrows ncols : Z) (st : S) (ts old : list Q) : bool * list Q * S :=
  let size := Z.to_nat (u32 (nrows * ncols)) in
  let '(r, st') := script st (firstn size ts) in
  match r with
  | PyRaised | PyNotList => (true, old, st')
  | PyList l =>
    if (length l =? size)%nat && (size <=? length old)%nat then (false, map as_double l ++ skipn size old, st')
    else (true, old, st')
  end.

(** ** Names *)
Local Open Scope string_scope.
(** std::string::find_first_of and find_last_of with one character. *)
Fixpoint find_first (c : ascii) (s : string) : option nat :=
  match s with
  | EmptyString => None
  | String a t => if Ascii.eqb a c then Some O else option_map S (find_first c t)
  end.
Fixpoint find_last (c : ascii) (s : string) : option nat :=
  match s with
  | EmptyString => None
  | String a t => match find_last c t with Some n => Some (S n) | None => if Ascii.eqb a c then Some O else None end
  end.
(** substr (0, n), the whole string when [n] is npos; substr (n). *)
Definition upto (n : option nat) (s : string) : string := match n with Some n => substring 0 n s | None => s end.
Definition from (n : nat) (s : string) : string := substring n (String.length s - n) s.
(** The first word of the arguments: fmiwrapper.cpp 171 and 179, pythonwrapper.cpp 63. *)
Definition first_word (args : string) : string := upto (find_first " "%char args) args.
(** The module that is imported, pythonwrapper.cpp 62-64. *)
Definition module_name (args : string) : string := let f := first_word args in upto (find_last "."%char f) f.
(** FmiWrapper::getName and getPath, fmiwrapper.cpp 169-183. *)
Definition fmu_name (args : string) : string :=
  let w := first_word args in match find_last "/"%char w with None => w | Some n => from (n + 1) w end.
Definition fmu_path (args : string) : string :=
  let w := first_word args in match find_last "/"%char w with None => "" | Some n => substring 0 n w end.
(** The directory of the FMU: fmi_interface.cpp 62. *)
Definition fmu_directory (args : string) : string :=
  if String.eqb (fmu_path args) "" then fmu_name args else fmu_path args ++ "/" ++ fmu_name args.

(** The file given to dlopen, heat_sink.c 317-334: [cwd] is the working directory. The
    size given to strncat is that of the buffer, not what is left of it. [UB]: the
    buffer of 2048 characters is overflowed; [Ok None]: getcwd fails. *)
Definition buffer_size : nat := 2048.
Definition plugin_path (cwd plugin : string) : outcome (option string) :=
  let added := substring 0 (buffer_size - 1) plugin in
  match plugin with
  | String a _ =>
    if Ascii.eqb a "/" then Ok (Some added)
    else if (buffer_size - 1 <? String.length cwd + 1)%nat then Ok None
    else if (buffer_size <? String.length cwd + 1 + String.length added + 1)%nat then UB
    else Ok (Some (cwd ++ "/" ++ added))
  | EmptyString => Ok (Some added)
  end.

(** initialize_pluggable_heatsink, heat_sink.c 363-375, with the init function of the
    plugin as a parameter ([None]: it does not return 0). *)
Definition initialize_pluggable {S : Type} (init : Z -> Z -> Q -> Q -> Q -> Q -> Q -> string -> option S)
    (s : spreader) (h : Q) (m : material) (a : analysis) (args : string) : option S :=
  init (s_nrows s) (s_ncols s) (s_cell_width s) (s_cell_length s) (an_initial a) (spreader_top_bottom s h m) (an_step a) args.
