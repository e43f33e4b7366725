(** * Model of the main loop of /repo/bin/3D-ICE-Emulator.c 110-215 and of
      /repo/sources/output.c 158-290 (uniform grid).

    The text written to a file is modelled as a list of lines: the header of an
    inspection point, or a row with the time and the numbers written (their
    decimal formatting is not modelled).  [openable] says which files can be
    opened, at any time of the run. *)
From Coq Require Import ZArith List Bool QArith.
From Verif Require Import Base Dims Queue Floorplan Stack PowerGrid Emulate Inspect.
Import ListNotations.
Local Open Scope Z_scope.

Inductive line := Head (p : ipoint) | Row (p : ipoint) (time : Q) (values : option (list Q)).
(** The files of the working directory. *)
Definition files := list Z -> option (list line).
Definition name_dec : forall a b : list Z, {a = b} + {a <> b} := list_eq_dec Z.eq_dec.
Definition put_file (n : list Z) (c : list line) (f : files) : files :=
  fun m => if name_dec m n then Some c else f m.
Definition get_file (f : files) (n : list Z) : list line := match f n with Some c => c | None => [] end.

(** struct Output, include/output.h. *)
Record output := mkOutput { o_final : list ipoint; o_slot : list ipoint; o_step : list ipoint }.
(** output_init, output.c. *)
Definition output_init : output := mkOutput [] [] [].

(** add_inspection_point, output.c 158-183. *)
Definition add_inspection_point (o : output) (p : ipoint) : output :=
  match ip_instant p with
  | OI_FINAL => mkOutput (o_final o ++ [p]) (o_slot o) (o_step o)
  | OI_STEP => mkOutput (o_final o) (o_slot o) (o_step o ++ [p])
  | OI_SLOT => mkOutput (o_final o) (o_slot o ++ [p]) (o_step o)
  | OI_NONE => o
  end.

(** The list selected in generate_output, output.c 247-263. *)
Definition points (o : output) (i : output_instant) : option (list ipoint) :=
  match i with
  | OI_FINAL => Some (o_final o) | OI_STEP => Some (o_step o) | OI_SLOT => Some (o_slot o) | OI_NONE => None
  end.

Section Emulator.
  Variable openable : list Z -> bool.

  (** Types whose header reads the quantity, inspection_point.c 361-590. *)
  Definition has_quantity (t : output_type) : bool :=
    match t with OT_TFLP | OT_TFLPEL | OT_TCOOLANT => true | _ => false end.

  (** generate_inspection_point_header, inspection_point.c 361-590: fopen with
      mode "w".  The axis files are not modelled. *)
  Definition point_header (p : ipoint) (f : files) : error_t * files :=
    match ip_type p with
    | OT_T3D => (TDICE_SUCCESS, f)
    | OT_NONE => if openable (ip_file p) then (TDICE_FAILURE, put_file (ip_file p) [] f) else (TDICE_FAILURE, f)
    | t =>
      if openable (ip_file p) then
        if has_quantity t && quantity_eqb (ip_quantity p) OQ_NONE then (TDICE_FAILURE, put_file (ip_file p) [] f)
        else (TDICE_SUCCESS, put_file (ip_file p) [Head p] f)
      else (TDICE_FAILURE, f)
    end.
  Fixpoint headers (ps : list ipoint) (f : files) : error_t * files :=
    match ps with
    | [] => (TDICE_SUCCESS, f)
    | p :: ps' =>
      let '(e, f1) := point_header p f in
      match e with TDICE_SUCCESS => headers ps' f1 | TDICE_FAILURE => (TDICE_FAILURE, f1) end
    end.
  (** generate_output_headers, output.c 187-230: final, slot, step. *)
  Definition generate_output_headers (o : output) (f : files) : error_t * files :=
    headers (o_final o ++ o_slot o ++ o_step o) f.

  (** generate_inspection_point_output, inspection_point.c 594-890: fopen with
      mode "a".  A quantity that makes no sense leaves a line without numbers. *)
  Definition point_output (d : dims) (temps sources : list Q) (time : Q) (p : ipoint) (f : files) : outcome (error_t * files) :=
    match ip_type p with
    | OT_T3D => Ok (TDICE_SUCCESS, f)
    | t =>
      if openable (ip_file p) then
        match t with
        | OT_NONE => Ok (TDICE_FAILURE, f)
        | _ =>
          do v <- ip_values d temps sources p (ip_quantity p) ;
          Ok (TDICE_SUCCESS, put_file (ip_file p) (get_file f (ip_file p) ++ [Row p time v]) f)
        end
      else Ok (TDICE_FAILURE, f)
    end.
  Fixpoint outputs (d : dims) (temps sources : list Q) (time : Q) (ps : list ipoint) (f : files) : outcome (error_t * files) :=
    match ps with
    | [] => Ok (TDICE_SUCCESS, f)
    | p :: ps' =>
      do r <- point_output d temps sources time p f ;
      match r with
      | (TDICE_SUCCESS, f1) => outputs d temps sources time ps' f1
      | (TDICE_FAILURE, f1) => Ok (TDICE_FAILURE, f1)
      end
    end.
  (** generate_output, output.c 234-290. *)
  Definition generate_output (o : output) (d : dims) (temps sources : list Q) (time : Q) (i : output_instant) (f : files)
    : outcome (error_t * files) :=
    match points o i with
    | None => Ok (TDICE_FAILURE, f)
    | Some ps => outputs d temps sources time ps f
    end.

  Context {M PS : Type}.
  Notation sim := (sim M PS).
  (** [emulate], 3D-ICE-Emulator.c 93-103: emulate_step or emulate_steady. *)
  Variable emulate : dims -> sim -> outcome (simresult * sim).

  (** One call of generate_output by the emulator: its result is ignored. *)
  Definition emit (o : output) (d : dims) (i : output_instant) (s : sim) (f : files) : outcome files :=
    do r <- generate_output o d (s_temps s) (pg_sources (s_pg s)) (get_simulated_time (s_an s)) i f ;
    Ok (snd r).

  (** The do-while loop, 3D-ICE-Emulator.c 152-205 (the progress bar is not
      modelled). *)
  Fixpoint emulator_loop (fuel : nat) (o : output) (d : dims) (s : sim) (f : files) : outcome (sim * files) :=
    match fuel with
    | O => NoFuel
    | S k =>
      do r <- emulate d s ;
      let '(res, s1) := r in
      do f1 <- (match res with TDICE_STEP_DONE | TDICE_SLOT_DONE => emit o d OI_STEP s1 f | _ => Ok f end) ;
      do f2 <- (match res with TDICE_SLOT_DONE => emit o d OI_SLOT s1 f1 | _ => Ok f1 end) ;
      match res with
      | TDICE_END_OF_SIMULATION | TDICE_SOLVER_ERROR => Ok (s1, f2)
      | _ => emulator_loop k o d s1 f2
      end
    end.

  (** 3D-ICE-Emulator.c 118-215: headers, loop, final output.  [None]: exit with
      failure after the headers. *)
  Definition emulator (fuel : nat) (o : output) (d : dims) (s : sim) (f : files) : outcome (option (sim * files)) :=
    match generate_output_headers o f with
    | (TDICE_FAILURE, _) => Ok None
    | (TDICE_SUCCESS, f0) =>
      do r <- emulator_loop fuel o d s f0 ;
      let '(s1, f1) := r in
      do f2 <- emit o d OI_FINAL s1 f1 ;
      Ok (Some (s1, f2))
    end.
End Emulator.
