(** * Model of the simulation on the non-uniform grid: pluggable_heatsink,
      emulate_step and emulate_steady (/repo/sources/thermal_data.c 1399-1428,
      1432-1487, 1505-1557) with the non-uniform branches of fill_system_vector and
      fill_system_vector_steady (1289-1295, 1370-1374) and of
      get_spreader_cell_offset (dimensions.c 731-735).

    The solver and the plugin are parameters, as in Emulate.v. *)
From Coq Require Import ZArith List Bool QArith.
From Verif Require Import Base Dims Queue Floorplan Stack PowerGrid Emulate Conduct Matrix NonUniform NuMatrix NuSource.
Import ListNotations.
Local Open Scope Z_scope.

Section NuEmulate.
  Context {PS : Type}.
  Variable solve : sysmatrix -> list Q -> error_t * list Q.
  Variable plugin : PS -> list Q -> list Q -> bool * list Q * PS.

  (** struct ThermalData, the analysis and the plugin; NCells is the length of the
      temperatures (thermal_data.c 1050-1060). *)
  Record nsim := mkNsim { n_temps : list Q; n_pg : npgrid; n_matrix : sysmatrix; n_an : analysis; n_plugin : PS }.

  Definition put_sources (pg : npgrid) (s : list Q) : npgrid :=
    mkNpgrid (np_grid pg) (np_cells pg) (np_flps pg) s (np_caps pg) (np_top_tcs pg) (np_bottom_tcs pg).

  (** get_spreader_cell_offset, dimensions.c 731-735: unsigned subtraction. *)
  Definition nu_spreader_offset (ncells : Z) (sp : spreader) : Z := u32 (ncells - u32 (s_ncols sp * s_nrows sp)).

  (** pluggable_heatsink, thermal_data.c 1399-1428. *)
  Definition nu_pluggable (s : nsim) : outcome (error_t * nsim) :=
    match tg_top (np_grid (n_pg s)) with
    | Some (SinkPluggable sp _ _) =>
      let off := Z.to_nat (nu_spreader_offset (Z.of_nat (length (n_temps s))) sp) in
      let n := Z.to_nat (u32 (s_ncols sp * s_nrows sp)) in
      let src := np_sources (n_pg s) in
      if (off + n <=? length src)%nat && (off + n <=? length (n_temps s))%nat then
        let '(bad, flows, ps) := plugin (n_plugin s) (firstn n (skipn off (n_temps s))) (firstn n (skipn off src)) in
        let back := fun fl => firstn off src ++ fl ++ skipn (off + n) src in
        if bad then Ok (TDICE_FAILURE, mkNsim (n_temps s) (put_sources (n_pg s) (back flows)) (n_matrix s) (n_an s) ps)
        else Ok (TDICE_SUCCESS, mkNsim (n_temps s) (put_sources (n_pg s) (back (map Qopp flows))) (n_matrix s) (n_an s) ps)
      else UB
    | _ => Ok (TDICE_SUCCESS, s)
    end.

  (** emulate_step, thermal_data.c 1432-1487. *)
  Definition nu_emulate_step (d : dims) (s : nsim) : outcome (simresult * nsim) :=
    match an_type (n_an s) with
    | AT_TRANSIENT =>
      do boundary <- slot_completed (n_an s) ;
      do r1 <- (if boundary then nu_update_sources (n_pg s) d else Ok (TDICE_SUCCESS, n_pg s)) ;
      let '(e1, pg1) := r1 in
      let s1 := mkNsim (n_temps s) pg1 (n_matrix s) (n_an s) (n_plugin s) in
      match e1 with
      | TDICE_FAILURE => Ok (TDICE_END_OF_SIMULATION, s1)
      | TDICE_SUCCESS =>
        do r2 <- nu_pluggable s1 ;
        let '(e2, s2) := r2 in
        match e2 with
        | TDICE_FAILURE => Ok (TDICE_SOLVER_ERROR, s2)
        | TDICE_SUCCESS =>
          do b <- nu_rhs (n_pg s2) (an_step (n_an s2)) (n_temps s2) ;
          let '(e3, x) := solve (n_matrix s2) b in
          match e3 with
          | TDICE_FAILURE => Ok (TDICE_SOLVER_ERROR, mkNsim x (n_pg s2) (n_matrix s2) (n_an s2) (n_plugin s2))
          | TDICE_SUCCESS =>
            let an := increase_by_step_time (n_an s2) in
            do done <- slot_completed an ;
            Ok (if done then TDICE_SLOT_DONE else TDICE_STEP_DONE, mkNsim x (n_pg s2) (n_matrix s2) an (n_plugin s2))
          end
        end
      end
    | _ => Ok (TDICE_WRONG_CONFIG, s)
    end.

  (** emulate_steady, thermal_data.c 1505-1557. *)
  Definition nu_emulate_steady (d : dims) (s : nsim) : outcome (simresult * nsim) :=
    match an_type (n_an s) with
    | AT_STEADY =>
      match tg_top (np_grid (n_pg s)) with
      | Some (SinkPluggable _ _ _) => Ok (TDICE_SOLVER_ERROR, s)
      | _ =>
        do r1 <- nu_update_sources (n_pg s) d ;
        let '(e1, pg1) := r1 in
        match e1 with
        | TDICE_FAILURE => Ok (TDICE_END_OF_SIMULATION, mkNsim (n_temps s) pg1 (n_matrix s) (n_an s) (n_plugin s))
        | TDICE_SUCCESS =>
          do b <- nu_rhs_steady pg1 ;
          let '(e3, x) := solve (n_matrix s) b in
          Ok (match e3 with TDICE_FAILURE => TDICE_SOLVER_ERROR | TDICE_SUCCESS => TDICE_END_OF_SIMULATION end,
              mkNsim x pg1 (n_matrix s) (n_an s) (n_plugin s))
        end
      end
    | _ => Ok (TDICE_WRONG_CONFIG, s)
    end.
End NuEmulate.
Arguments nsim : clear implicits.
