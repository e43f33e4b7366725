(** * Model of the source handling of /repo/sources/power_grid.c (uniform grid)
      and of get_convective_term, /repo/sources/channel.c 223-280. *)
From Coq Require Import ZArith List Bool QArith.
From Verif Require Import Base Dims Queue Floorplan Stack.
Import ListNotations.
Local Open Scope Z_scope.

(** IS_CHANNEL_COLUMN, include/macros.h 102-104. *)
Definition is_channel_column (m : channel_model) (c : Z) : bool :=
  match m with CM_MC_4RM => Z.odd c | _ => true end.

(** get_convective_term, channel.c 223-280, with CCONV_MC_4RM, CCONV_MC_2RM and
    CCONV_PF, include/macros.h 110-170. *)
Definition get_convective_term (ch : channel) (d : dims) (l r c : Z) : outcome Q :=
  match ch_model ch with
  | CM_MC_4RM => Ok (co_vhc ch * co_flow_rate ch / (qz (ch_nchannels ch) * 2))%Q
  | CM_MC_2RM =>
    Ok (co_vhc ch * co_flow_rate ch * ch_porosity ch * get_cell_length d c
        / (qz (ch_nchannels ch) * 2 * ch_length ch))%Q
  | CM_PF_INLINE | CM_PF_STAGGERED =>
    do h <- get_cell_height d l ;
    Ok (co_vhc ch * co_darcy ch * get_cell_length d c * h / 2)%Q
  | CM_NONE => Ok 0%Q
  end.

(** struct PowerGrid, include/power_grid.h 60-130. The floorplans and the
    channel are held by value (pointers to the parsed description in C). *)
Record pgrid := mkPgrid {
  pg_nlayers : Z; pg_ncells : Z; pg_ncells_layer : Z;
  pg_types : list layer_type; pg_flps : list (option floorplan);
  pg_top : option top_sink; pg_bottom : option bottom_sink; pg_channel : option channel;
  pg_sources : list Q; pg_caps : list Q; pg_top_tcs : list Q; pg_bottom_tcs : list Q
}.

Definition set_sources (pg : pgrid) (fs : list (option floorplan)) (s : list Q) : pgrid :=
  mkPgrid (pg_nlayers pg) (pg_ncells pg) (pg_ncells_layer pg) (pg_types pg) fs (pg_top pg) (pg_bottom pg)
          (pg_channel pg) s (pg_caps pg) (pg_top_tcs pg) (pg_bottom_tcs pg).

(** Ambient loops, power_grid.c 797-805, 813-821, 841-849, 857-865:
    [*tmpS++ += Ambient * *tmpT++] over NCellsLayer cells. *)
Fixpoint add_ambient (n : nat) (ambient : Q) (tcs s : list Q) : outcome (list Q) :=
  match n with
  | O => Ok s
  | S n' =>
    match tcs, s with
    | t :: tcs', x :: s' => do r <- add_ambient n' ambient tcs' s' ; Ok ((x + ambient * t)%Q :: r)
    | _, _ => UB
    end
  end.

(** Inlet loop, power_grid.c 881-899 and 994-1011: the first row of a channel
    layer; [s] starts at the first cell of the layer. *)
Fixpoint set_inlets (ch : channel) (d : dims) (l : Z) (cols : list Z) (s : list Q) : outcome (list Q) :=
  match cols with
  | [] => Ok s
  | c :: cs =>
    if is_channel_column (ch_model ch) c then
      do t <- get_convective_term ch d l 0 c ;
      do s' <- arr_set s c (2 * t * co_tin ch)%Q ;
      set_inlets ch d l cs s'
    else set_inlets ch d l cs s
  end.

(** AmbientTemperature of a heat sink (a pluggable sink has none: 0, set by
    heat_sink_init, heat_sink.c 50-70). *)
Definition top_ambient (s : top_sink) : Q := match s with SinkTop _ a => a | SinkPluggable _ _ _ => 0%Q end.

(** One case of the switch of update_source_vector, power_grid.c 776-930. [s] is
    the source vector from the first cell of layer [l] on. *)
Definition update_layer (pg : pgrid) (d : dims) (l : Z) (t : layer_type) (fo : option floorplan) (s : list Q)
  : outcome (error_t * option floorplan * list Q) :=
  let flp s1 :=
    match fo with
    | None => UB
    | Some f => do r <- fill_sources_floorplan f s1 ; let '(e, f', s') := r in Ok (e, Some f', s')
    end in
  let ambient_top := match pg_top pg with None => UB | Some k => add_ambient (Z.to_nat (pg_ncells_layer pg)) (top_ambient k) (pg_top_tcs pg) s end in
  let ambient_bottom := match pg_bottom pg with None => UB | Some k => add_ambient (Z.to_nat (pg_ncells_layer pg)) (bs_ambient k) (pg_bottom_tcs pg) s end in
  match t with
  | LT_SOURCE | LT_SOURCE_SPREADER => flp s
  | LT_SOLID_AMBIENT => do s1 <- ambient_top ; Ok (TDICE_SUCCESS, fo, s1)
  | LT_SOURCE_AMBIENT => do s1 <- ambient_top ; flp s1
  | LT_SOLID_PCB => do s1 <- ambient_bottom ; Ok (TDICE_SUCCESS, fo, s1)
  | LT_SOURCE_PCB => do s1 <- ambient_bottom ; flp s1
  | LT_CHANNEL_4RM | LT_CHANNEL_2RM | LT_PINFINS_INLINE | LT_PINFINS_STAGGERED =>
    match pg_channel pg with
    | None => UB
    | Some ch => do s1 <- set_inlets ch d l (zrange 0 (last_column d)) s ; Ok (TDICE_SUCCESS, fo, s1)
    end
  | LT_SOLID | LT_SOLID_SPREADER | LT_VWALL_CHANNEL | LT_VWALL_PINFINS | LT_TOP_WALL | LT_BOTTOM_WALL =>
    Ok (TDICE_SUCCESS, fo, s)
  | LT_NONE => Ok (TDICE_FAILURE, fo, s)
  end.

(** Loop over the layers, power_grid.c 770-930: the vectors of types and
    floorplans have NLayers elements; the source pointer advances by the layer
    area. *)
Fixpoint update_layers (pg : pgrid) (d : dims) (l : Z) (ts : list layer_type) (fs : list (option floorplan)) (s : list Q)
  : outcome (error_t * list (option floorplan) * list Q) :=
  match ts, fs with
  | t :: ts', f :: fs' =>
    do r <- update_layer pg d l t f s ;
    let '(e, f', s1) := r in
    match e with
    | TDICE_FAILURE => Ok (TDICE_FAILURE, f' :: fs', s1)
    | TDICE_SUCCESS =>
      let n := Z.to_nat (get_layer_area d) in
      do r2 <- update_layers pg d (l + 1) ts' fs' (skipn n s1) ;
      let '(e2, fs2, s2) := r2 in
      Ok (e2, f' :: fs2, firstn n s1 ++ s2)
    end
  | _, _ => Ok (TDICE_SUCCESS, fs, s)
  end.

(** update_source_vector, power_grid.c 574-970: all the sources are first set
    to zero. *)
Definition update_source_vector (pg : pgrid) (d : dims) : outcome (error_t * pgrid) :=
  let s0 := map (fun _ => 0%Q) (firstn (Z.to_nat (pg_ncells pg)) (pg_sources pg))
            ++ skipn (Z.to_nat (pg_ncells pg)) (pg_sources pg) in
  do r <- update_layers pg d 0 (pg_types pg) (pg_flps pg) s0 ;
  let '(e, fs, s) := r in
  Ok (e, set_sources pg fs s).

(** update_channel_sources, power_grid.c 974-1044. *)
Fixpoint update_channel_layers (pg : pgrid) (d : dims) (l : Z) (ts : list layer_type) (s : list Q) : outcome (list Q) :=
  match ts with
  | [] => Ok s
  | t :: ts' =>
    let n := Z.to_nat (get_layer_area d) in
    match t with
    | LT_NONE => Ok s
    | LT_CHANNEL_4RM | LT_CHANNEL_2RM | LT_PINFINS_INLINE | LT_PINFINS_STAGGERED =>
      match pg_channel pg with
      | None => UB
      | Some ch =>
        do s1 <- set_inlets ch d l (zrange 0 (last_column d)) s ;
        do s2 <- update_channel_layers pg d (l + 1) ts' (skipn n s1) ;
        Ok (firstn n s1 ++ s2)
      end
    | _ => do s2 <- update_channel_layers pg d (l + 1) ts' (skipn n s) ; Ok (firstn n s ++ s2)
    end
  end.
Definition update_channel_sources (pg : pgrid) (d : dims) : outcome pgrid :=
  do s <- update_channel_layers pg d 0 (pg_types pg) (pg_sources pg) ;
  Ok (set_sources pg (pg_flps pg) s).

(** insert_power_values, power_grid.c 1048-1103. *)
Fixpoint insert_layers (ts : list layer_type) (fs : list (option floorplan)) (pv : queue)
  : outcome (error_t * list (option floorplan) * queue) :=
  match ts, fs with
  | t :: ts', f :: fs' =>
    match t with
    | LT_SOURCE | LT_SOURCE_AMBIENT | LT_SOURCE_PCB | LT_SOURCE_SPREADER =>
      match f with
      | None => UB
      | Some f0 =>
        do r <- insert_power_values_floorplan f0 pv ;
        let '(e, f1, pv1) := r in
        match e with
        | TDICE_FAILURE => Ok (TDICE_FAILURE, Some f1 :: fs', pv1)
        | TDICE_SUCCESS =>
          do r2 <- insert_layers ts' fs' pv1 ;
          let '(e2, fs2, pv2) := r2 in Ok (e2, Some f1 :: fs2, pv2)
        end
      end
    | LT_NONE => Ok (TDICE_FAILURE, fs, pv)
    | _ =>
      do r2 <- insert_layers ts' fs' pv ;
      let '(e2, fs2, pv2) := r2 in Ok (e2, f :: fs2, pv2)
    end
  | _, _ => Ok (TDICE_SUCCESS, fs, pv)
  end.
Definition insert_power_values (pg : pgrid) (pv : queue) : outcome (error_t * pgrid * queue) :=
  do r <- insert_layers (pg_types pg) (pg_flps pg) pv ;
  let '(e, fs, pv') := r in
  Ok (e, set_sources pg fs (pg_sources pg), pv').
