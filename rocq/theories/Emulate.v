(** * Model of /repo/sources/analysis.c 128-173 and of the emulation functions of
      /repo/sources/thermal_data.c 1239-1600 (uniform grid).

    The solver (SuperLU) is a parameter: a function of the factorised matrix
    and of the right-hand side, which it overwrites; on failure the vector may
    hold anything.  The plugin of a pluggable heat sink is a parameter too: a
    function of its own state, of the spreader temperatures and of the vector it
    overwrites.  No assumption is made on either here. *)
From Coq Require Import ZArith List Bool QArith.
From Verif Require Import Base Dims Queue Floorplan Stack PowerGrid.
Import ListNotations.
Local Open Scope Z_scope.

(** SimResult_t, include/types.h 415-440. *)
Inductive simresult := TDICE_END_OF_SIMULATION | TDICE_WRONG_CONFIG | TDICE_SOLVER_ERROR | TDICE_STEP_DONE | TDICE_SLOT_DONE.

(** AnalysisType_t, include/types.h. *)
Inductive analysis_type := AT_NONE | AT_STEADY | AT_TRANSIENT.

(** struct Analysis, include/analysis.h. *)
Record analysis := mkAnalysis {
  an_type : analysis_type; an_step : Q; an_slot_length : Z; an_time : Z; an_initial : Q
}.

(** increase_by_step_time, analysis.c 153-156: CurrentTime is a uint32_t. *)
Definition increase_by_step_time (a : analysis) : analysis :=
  mkAnalysis (an_type a) (an_step a) (an_slot_length a) (u32 (an_time a + 1)) (an_initial a).
(** slot_completed, analysis.c 160-167: modulo by zero is undefined. *)
Definition slot_completed (a : analysis) : outcome bool :=
  if an_slot_length a =? 0 then UB else Ok (an_time a mod an_slot_length a =? 0).
(** get_simulated_time, analysis.c 145-149. *)
Definition get_simulated_time (a : analysis) : Q := (qz (an_time a) * an_step a)%Q.

Section Emulate.
  (** [M]: the factorised matrix; [PS]: state of the plugin. *)
  Context {M PS : Type}.
  Variable solve : M -> list Q -> error_t * list Q.
  Variable plugin : PS -> list Q -> list Q -> bool * list Q * PS.

  (** struct ThermalData with the analysis and the plugin state. *)
  Record sim := mkSim {
    s_temps : list Q; s_pg : pgrid; s_matrix : M; s_an : analysis; s_plugin : PS
  }.

  (** reset_thermal_state, thermal_data.c 1242-1245, and init_data, 50-66. *)
  Definition reset_thermal_state (s : sim) : sim :=
    mkSim (map (fun _ => an_initial (s_an s)) (s_temps s)) (s_pg s) (s_matrix s) (s_an s) (s_plugin s).

  (** One pass over [n] cells of [*vector++ = *sources++ + ( *capacities++ /
      step_time) * *temperatures++], thermal_data.c 1281-1300; vector and
      temperatures are the same array. *)
  Fixpoint fill_cells (n : nat) (step : Q) (sources caps temps : list Q) : outcome (list Q) :=
    match n with
    | O => Ok temps
    | S n' =>
      match sources, caps, temps with
      | x :: sources', c :: caps', t :: temps' =>
        do r <- fill_cells n' step sources' caps' temps' ; Ok ((x + c / step * t)%Q :: r)
      | _, _, _ => UB
      end
    end.

  (** Cells of the chip, and of the spreader of a pluggable sink. *)
  Definition chip_cells (d : dims) : Z := d_nlayers d * d_nrows d * d_ncols d.
  Definition spreader_cells (top : option top_sink) : Z :=
    match top with Some (SinkPluggable s _ _) => s_nrows s * s_ncols s | _ => 0 end.

  (** fill_system_vector, thermal_data.c 1249-1330: the nested loops visit each
      chip cell once, then each spreader cell (at least one row, column and
      layer; no 32-bit wrap of the loop bounds). *)
  Definition fill_system_vector (d : dims) (top : option top_sink) (step : Q) (pg : pgrid) (temps : list Q)
    : outcome (list Q) :=
    fill_cells (Z.to_nat (chip_cells d + spreader_cells top)) step (pg_sources pg) (pg_caps pg) temps.

  (** fill_system_vector_steady, thermal_data.c 1334-1373: chip cells only. *)
  Fixpoint copy_cells (n : nat) (sources temps : list Q) : outcome (list Q) :=
    match n with
    | O => Ok temps
    | S n' =>
      match sources, temps with
      | x :: sources', _ :: temps' => do r <- copy_cells n' sources' temps' ; Ok (x :: r)
      | _, _ => UB
      end
    end.

  (** pluggable_heatsink, thermal_data.c 1375-1403: the plugin receives the
      spreader slice of the temperatures and of the sources, and writes the
      latter; the code then negates them. *)
  Definition pluggable_heatsink (d : dims) (s : sim) : outcome (error_t * sim) :=
    match pg_top (s_pg s) with
    | Some (SinkPluggable sp _ _) =>
      let off := Z.to_nat (spreader_offset d sp 0 0) in
      let n := Z.to_nat (u32 (s_ncols sp * s_nrows sp)) in
      let src := pg_sources (s_pg s) in
      if (off + n <=? length src)%nat && (off + n <=? length (s_temps s))%nat then
        let '(bad, flows, ps) := plugin (s_plugin s) (firstn n (skipn off (s_temps s))) (firstn n (skipn off src)) in
        let back := fun fl => firstn off src ++ fl ++ skipn (off + n) src in
        if bad then
          Ok (TDICE_FAILURE, mkSim (s_temps s) (set_sources (s_pg s) (pg_flps (s_pg s)) (back flows)) (s_matrix s) (s_an s) ps)
        else
          Ok (TDICE_SUCCESS, mkSim (s_temps s) (set_sources (s_pg s) (pg_flps (s_pg s)) (back (map Qopp flows))) (s_matrix s) (s_an s) ps)
      else UB
    | _ => Ok (TDICE_SUCCESS, s)
    end.

  (** emulate_step, thermal_data.c 1407-1466. *)
  Definition emulate_step (d : dims) (s : sim) : outcome (simresult * sim) :=
    match an_type (s_an s) with
    | AT_TRANSIENT =>
      do boundary <- slot_completed (s_an s) ;
      do r1 <- (if boundary then update_source_vector (s_pg s) d else Ok (TDICE_SUCCESS, s_pg s)) ;
      let '(e1, pg1) := r1 in
      let s1 := mkSim (s_temps s) pg1 (s_matrix s) (s_an s) (s_plugin s) in
      match e1 with
      | TDICE_FAILURE => Ok (TDICE_END_OF_SIMULATION, s1)
      | TDICE_SUCCESS =>
        do r2 <- pluggable_heatsink d s1 ;
        let '(e2, s2) := r2 in
        match e2 with
        | TDICE_FAILURE => Ok (TDICE_SOLVER_ERROR, s2)
        | TDICE_SUCCESS =>
          do b <- fill_system_vector d (pg_top (s_pg s2)) (an_step (s_an s2)) (s_pg s2) (s_temps s2) ;
          let '(e3, x) := solve (s_matrix s2) b in
          match e3 with
          | TDICE_FAILURE => Ok (TDICE_SOLVER_ERROR, mkSim x (s_pg s2) (s_matrix s2) (s_an s2) (s_plugin s2))
          | TDICE_SUCCESS =>
            let an := increase_by_step_time (s_an s2) in
            do done <- slot_completed an ;
            Ok (if done then TDICE_SLOT_DONE else TDICE_STEP_DONE, mkSim x (s_pg s2) (s_matrix s2) an (s_plugin s2))
          end
        end
      end
    | _ => Ok (TDICE_WRONG_CONFIG, s)
    end.

  (** emulate_slot, thermal_data.c 1470-1487: repeat while STEP_DONE. *)
  Fixpoint emulate_slot (fuel : nat) (d : dims) (s : sim) : outcome (simresult * sim) :=
    match fuel with
    | O => NoFuel
    | S f =>
      do r <- emulate_step d s ;
      match r with
      | (TDICE_STEP_DONE, s') => emulate_slot f d s'
      | _ => Ok r
      end
    end.

  (** emulate_steady, thermal_data.c 1491-1548. *)
  Definition emulate_steady (d : dims) (s : sim) : outcome (simresult * sim) :=
    match an_type (s_an s) with
    | AT_STEADY =>
      match pg_top (s_pg s) with
      | Some (SinkPluggable _ _ _) => Ok (TDICE_SOLVER_ERROR, s)
      | _ =>
        do r1 <- update_source_vector (s_pg s) d ;
        let '(e1, pg1) := r1 in
        match e1 with
        | TDICE_FAILURE => Ok (TDICE_END_OF_SIMULATION, mkSim (s_temps s) pg1 (s_matrix s) (s_an s) (s_plugin s))
        | TDICE_SUCCESS =>
          do b <- copy_cells (Z.to_nat (chip_cells d)) (pg_sources pg1) (s_temps s) ;
          let '(e3, x) := solve (s_matrix s) b in
          Ok (match e3 with TDICE_FAILURE => TDICE_SOLVER_ERROR | TDICE_SUCCESS => TDICE_END_OF_SIMULATION end,
              mkSim x pg1 (s_matrix s) (s_an s) (s_plugin s))
        end
      end
    | _ => Ok (TDICE_WRONG_CONFIG, s)
    end.

  (** get_cell_temperature, thermal_data.c 1581-1602. *)
  Definition get_cell_temperature (d : dims) (s : sim) (l r c : Z) : outcome Q :=
    let id := offset_in_stack d l r c in
    if d_ncells d <=? id then Ok 0%Q else arr_get (s_temps s) id.
End Emulate.
Arguments sim : clear implicits.
