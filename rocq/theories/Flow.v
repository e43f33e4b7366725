(** * Model of update_coolant_flow_rate, /repo/sources/thermal_data.c 1552-1577 *)
From Coq Require Import ZArith List Bool QArith.
From Verif Require Import Base Dims Floorplan Stack PowerGrid Emulate Conduct Matrix.
Import ListNotations.
Local Open Scope Z_scope.

(** The channel with another Coolant.FlowRate (channel.h 60-130). *)
Definition set_flow (ch : channel) (fr : Q) : channel :=
  mkChannel (ch_model ch) (ch_nlayers ch) (ch_source_offset ch) (ch_height ch) (ch_length ch) (ch_porosity ch) (ch_nchannels ch) (ch_wall ch)
            (co_htc_side ch) (co_htc_top ch) (co_htc_bottom ch) (co_vhc ch) (co_tin ch) fr (co_darcy ch) (ch_htc_pf ch).
Definition set_channel_tgrid (g : tgrid) (ch : channel) : tgrid :=
  mkTgrid (tg_types g) (tg_layers g) (Some ch) (tg_top g) (tg_bottom g).
Definition set_channel_pgrid (pg : pgrid) (ch : channel) : pgrid :=
  mkPgrid (pg_nlayers pg) (pg_ncells pg) (pg_ncells_layer pg) (pg_types pg) (pg_flps pg) (pg_top pg) (pg_bottom pg)
          (Some ch) (pg_sources pg) (pg_caps pg) (pg_top_tcs pg) (pg_bottom_tcs pg).

(** update_coolant_flow_rate, thermal_data.c 1552-1577. ThermalGrid.Channel and
    PowerGrid.Channel are the same pointer (thermal_grid.c 165, power_grid.c
    275), so the new value is seen by both; a null pointer is [UB]. The
    matrix is filled in place; [factor] is do_factorization (SuperLU). On
    failure the inlet sources keep their old values. *)
Definition update_coolant_flow_rate {PS} (factor : sysmatrix -> error_t) (d : dims) (g : tgrid) (s : sim sysmatrix PS) (fr : Q)
  : outcome (error_t * tgrid * sim sysmatrix PS) :=
  match tg_channel g with
  | None => UB
  | Some ch =>
    let ch' := set_flow ch (flow_rate_um3sec fr) in
    let g' := set_channel_tgrid g ch' in
    let pg' := set_channel_pgrid (s_pg s) ch' in
    do m <- fill_system_matrix (s_matrix s) g' (s_an s) d ;
    match factor m with
    | TDICE_FAILURE => Ok (TDICE_FAILURE, g', mkSim (s_temps s) pg' m (s_an s) (s_plugin s))
    | TDICE_SUCCESS =>
      do pg2 <- update_channel_sources pg' d ;
      Ok (TDICE_SUCCESS, g', mkSim (s_temps s) pg2 m (s_an s) (s_plugin s))
    end
  end.
