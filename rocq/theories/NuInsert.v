(** * Model of insert_power_values on the non-uniform grid
      (/repo/sources/power_grid.c 1048-1103, floorplan.c 297-324,
      floorplan_element.c 175-188).

    The code has no branch for the non-uniform grid; the model differs from
    PowerGrid.insert_power_values in the representation of the floorplans
    ([nu_source]). *)
From Coq Require Import ZArith List Bool QArith.
From Verif Require Import Base Dims Queue Floorplan Stack PowerGrid Emulate Conduct Matrix NonUniform NuMatrix NuSource NuEmulate.
Import ListNotations.
Local Open Scope Z_scope.

(** insert_power_values_floorplan and insert_power_values_floorplan_element,
    floorplan.c 297-324, floorplan_element.c 175-188: each element takes one value;
    the elements served before a failure keep theirs. *)
Fixpoint nu_insert_els (els : list nu_source) (pv : queue) : outcome (error_t * list nu_source * queue) :=
  match els with
  | [] => Ok (TDICE_SUCCESS, [], pv)
  | e :: es =>
    if queue_is_empty pv then Ok (TDICE_FAILURE, e :: es, pv)
    else
      do vq <- queue_get pv ;
      do q' <- queue_put (so_powers e) (fst vq) ;
      do r <- nu_insert_els es (snd vq) ;
      let '(err, es', pv') := r in
      Ok (err, mkNuSource (so_dx e) (so_dy e) q' :: es', pv')
  end.

(** The loop over the layers, power_grid.c 1052-1102; the floorplan of a source
    layer is dereferenced. *)
Fixpoint nu_insert_layers (ts : list layer_type) (fs : list (option (list nu_source))) (pv : queue)
  : outcome (error_t * list (option (list nu_source)) * queue) :=
  match ts, fs with
  | t :: ts', f :: fs' =>
    match t with
    | LT_SOURCE | LT_SOURCE_AMBIENT | LT_SOURCE_PCB | LT_SOURCE_SPREADER =>
      match f with
      | None => UB
      | Some els =>
        do r <- nu_insert_els els pv ;
        let '(e, els1, pv1) := r in
        match e with
        | TDICE_FAILURE => Ok (TDICE_FAILURE, Some els1 :: fs', pv1)
        | TDICE_SUCCESS =>
          do r2 <- nu_insert_layers ts' fs' pv1 ;
          let '(e2, fs2, pv2) := r2 in Ok (e2, Some els1 :: fs2, pv2)
        end
      end
    | LT_NONE => Ok (TDICE_FAILURE, fs, pv)
    | _ =>
      do r2 <- nu_insert_layers ts' fs' pv ;
      let '(e2, fs2, pv2) := r2 in Ok (e2, f :: fs2, pv2)
    end
  | _, _ => Ok (TDICE_SUCCESS, fs, pv)
  end.

Definition put_flps (pg : npgrid) (fs : list (option (list nu_source))) : npgrid :=
  mkNpgrid (np_grid pg) (np_cells pg) fs (np_sources pg) (np_caps pg) (np_top_tcs pg) (np_bottom_tcs pg).

(** insert_power_values, power_grid.c 1048-1103. *)
Definition nu_insert (pg : npgrid) (pv : queue) : outcome (error_t * npgrid * queue) :=
  do r <- nu_insert_layers (tg_types (np_grid pg)) (np_flps pg) pv ;
  let '(e, fs, pv') := r in Ok (e, put_flps pg fs, pv').

(** The server passes &tdata.PowerGrid, bin/3D-ICE-Server.c 408. *)
Definition nu_insert_powers {PS} (s : nsim PS) (pv : queue) : outcome (error_t * nsim PS * queue) :=
  do r <- nu_insert (n_pg s) pv ;
  let '(e, pg, pv') := r in Ok (e, mkNsim (n_temps s) pg (n_matrix s) (n_an s) (n_plugin s), pv').
