(** * Model of update_coolant_flow_rate (/repo/sources/thermal_data.c 1561-1584) on
      the non-uniform grid *)
From Coq Require Import ZArith List Bool QArith.
From Verif Require Import Base Dims Floorplan Stack PowerGrid Emulate Conduct Matrix Flow NonUniform NuMatrix NuSource NuEmulate.
Import ListNotations.
Local Open Scope Z_scope.

(** ThermalGrid.Channel and PowerGrid.Channel are one pointer (thermal_grid.c 165,
    power_grid.c 275). *)
Definition set_channel_npgrid (pg : npgrid) (ch : channel) : npgrid :=
  mkNpgrid (set_channel_tgrid (np_grid pg) ch) (np_cells pg) (np_flps pg) (np_sources pg) (np_caps pg) (np_top_tcs pg) (np_bottom_tcs pg).

(** update_coolant_flow_rate: add_solid_column_non_uniform (system_matrix.c
    542-720) builds the table of coefficients again from the list [cs] of
    connections and fills the vectors of the matrix in place; qsort may leave any
    sorted arrangement, so the results [r] are a relation. [factor] is
    do_factorization. A missing channel is a null pointer. *)
Definition nu_update_flow {PS} (factor : sysmatrix -> error_t) (d : dims) (cs : list conn) (s : nsim PS) (fr : Q) (r : outcome (error_t * nsim PS)) : Prop :=
  match tg_channel (np_grid (n_pg s)) with
  | None => r = UB
  | Some ch =>
    let pg' := set_channel_npgrid (n_pg s) (set_flow ch (flow_rate_um3sec fr)) in
    match nu_table (np_grid pg') d (n_an s) (np_cells pg') cs (nu_connections (Z.of_nat (length cs)) (Z.of_nat (length (np_cells pg')))) with
    | UB => r = UB
    | NoFuel => r = NoFuel
    | Ok table =>
      exists sorted, qsorted table sorted /\
        r = (do m <- nu_vectors (n_matrix s) sorted ;
             match factor m with
             | TDICE_FAILURE => Ok (TDICE_FAILURE, mkNsim (n_temps s) pg' m (n_an s) (n_plugin s))
             | TDICE_SUCCESS =>
               do pg2 <- nu_update_channel pg' d ;
               Ok (TDICE_SUCCESS, mkNsim (n_temps s) pg2 m (n_an s) (n_plugin s))
             end)
    end
  end.
