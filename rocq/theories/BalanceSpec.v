(** * Specification vocabulary: simulations of an assembled stack *)
From Coq Require Import ZArith List Bool QArith.
From Verif Require Import Base QSum Dims DimsSpec Floorplan FloorplanSpec Stack StackSpec PowerGrid Emulate EmulateSpec Conduct Matrix MatrixSpec.
Import ListNotations.
Local Open Scope Z_scope.

(** A solver that reports success only with an exact solution of the system. *)
Definition exact (solve : sysmatrix -> list Q -> error_t * list Q) : Prop :=
  forall m b x, solve m b = (TDICE_SUCCESS, x) -> solution m (Z.of_nat (length b)) b x.

(** The power grid [pg] of the thermal grid [g]: same layers and sinks, vectors
    of capacities and sink conductances filled from [g]. *)
Record grid_of (g : tgrid) (d : dims) (pg : pgrid) : Prop := {
  go_types : pg_types pg = tg_types g;
  go_top : pg_top pg = tg_top g;
  go_bottom : pg_bottom pg = tg_bottom g;
  go_channel : pg_channel pg = tg_channel g;
  go_caps : cells_capacities g d = Ok (pg_caps pg);
  go_top_tcs : top_tcs g d = Ok (pg_top_tcs pg);
  go_bottom_tcs : bottom_tcs g d = Ok (pg_bottom_tcs pg)
}.

(** The matrix [m] was filled for [g] in memory allocated for its unknowns. *)
Definition filled (g : tgrid) (d : dims) (an : analysis) (m : sysmatrix) : Prop :=
  exists m0, Z.of_nat (length (sm_ptr m0)) = unknowns g d + 1 /\ length (sm_vals m0) = length (sm_rows m0) /\
    fill_system_matrix m0 g an d = Ok m.

(** A transient simulation of the stack [g]. *)
Record assembled {PS} (g : tgrid) (d : dims) (s : sim sysmatrix PS) : Prop := {
  as_grid : good_tgrid d g;
  as_physical : physical g d;
  as_power : grid_of g d (s_pg s);
  as_matrix : filled g d (s_an s) (s_matrix s);
  as_step : (0 < an_step (s_an s))%Q
}.

(** Heat content of all cells (chip and spreader), per degree of the scale. *)
Definition heat_content {PS} (s : sim sysmatrix PS) : Q :=
  qsum (map (fun p => (fst p * snd p)%Q) (combine (pg_caps (s_pg s)) (s_temps s))).

(** Heat per unit of time given to the ambient through the sinks. *)
Definition sum_layer (d : dims) (f : Z -> Z -> Q) : Q :=
  qsum (map (fun r => qsum (map (f r) (zrange 0 (d_ncols d - 1)))) (zrange 0 (d_nrows d - 1))).
Definition lost_top {PS} (d : dims) (s : sim sysmatrix PS) : Q :=
  match pg_top (s_pg s) with
  | Some (SinkTop _ ambient) =>
    sum_layer d (fun r c => nth (Z.to_nat (r * d_ncols d + c)) (pg_top_tcs (s_pg s)) 0 *
                            (at_cell d (s_temps s) (d_nlayers d - 1) r c - ambient))%Q
  | _ => 0%Q
  end.
Definition lost_bottom {PS} (d : dims) (s : sim sysmatrix PS) : Q :=
  match pg_bottom (s_pg s) with
  | Some k =>
    sum_layer d (fun r c => nth (Z.to_nat (r * d_ncols d + c)) (pg_bottom_tcs (s_pg s)) 0 *
                            (at_cell d (s_temps s) 0 r c - bs_ambient k))%Q
  | None => 0%Q
  end.
(** Heat per unit of time received from the plugin of a pluggable sink. *)
Definition from_plugin {PS} (d : dims) (s : sim sysmatrix PS) : Q :=
  qsum (skipn (Z.to_nat (chip_cells d)) (pg_sources (s_pg s))).

(** Heat per unit of time carried out by the coolant: for every coolant cell of
    the last row, twice the convective term times the outlet temperature; and
    brought in at the first row. *)
Definition coolant_cell (ch : channel) (t : layer_type) (c : Z) : bool := is_coolant t && is_channel_column (ch_model ch) c.
Definition sum_coolant (d : dims) (pg : pgrid) (f : channel -> Z -> Z -> Q) : Q :=
  match pg_channel pg with
  | None => 0%Q
  | Some ch =>
    qsum (map (fun l => qsum (map (fun c => if coolant_cell ch (nth (Z.to_nat l) (pg_types pg) LT_NONE) c then f ch l c else 0%Q)
                                  (zrange 0 (d_ncols d - 1))))
              (zrange 0 (d_nlayers d - 1)))
  end.
Definition enthalpy_out {PS} (d : dims) (s : sim sysmatrix PS) : Q :=
  sum_coolant d (s_pg s) (fun ch l c => 2 * convection ch d l c * at_cell d (s_temps s) l (d_nrows d - 1) c)%Q.
Definition enthalpy_in {PS} (d : dims) (s : sim sysmatrix PS) : Q :=
  sum_coolant d (s_pg s) (fun ch l c => 2 * convection ch d l c * co_tin ch)%Q.

(** The same temperature everywhere outside: ambient of every sink and inlet of
    the coolant. *)
Definition surroundings (pg : pgrid) (x : Q) : Prop :=
  (forall h a, pg_top pg = Some (SinkTop h a) -> a == x)%Q /\
  (forall k, pg_bottom pg = Some k -> bs_ambient k == x)%Q /\
  (forall ch, pg_channel pg = Some ch -> co_tin ch == x)%Q.
(** The ambient temperatures lie between [lo] and [hi]. *)
Definition ambient_between (pg : pgrid) (lo hi : Q) : Prop :=
  (forall h a, pg_top pg = Some (SinkTop h a) -> lo <= a /\ a <= hi)%Q /\
  (forall k, pg_bottom pg = Some k -> lo <= bs_ambient k /\ bs_ambient k <= hi)%Q.
(** No spreader. *)
Definition no_plugin (pg : pgrid) : Prop := forall s h m, pg_top pg <> Some (SinkPluggable s h m).

(** Flow of the coolant: parameters that must not be negative. *)
Definition physical_flow (g : tgrid) : Prop :=
  forall ch, tg_channel g = Some ch ->
    match ch_model ch with
    | CM_MC_4RM => (0 <= co_flow_rate ch)%Q /\ 0 < ch_nchannels ch
    | CM_MC_2RM => (0 <= co_flow_rate ch)%Q /\ 0 < ch_nchannels ch /\ (0 < ch_length ch)%Q
    | CM_PF_INLINE | CM_PF_STAGGERED => (0 <= co_darcy ch)%Q
    | CM_NONE => True
    end.

(** The step was performed. *)
Definition done (r : simresult) : Prop := r = TDICE_STEP_DONE \/ r = TDICE_SLOT_DONE.
(** Coolant grids have an inlet row and a different outlet row. *)
Definition no_single_row (g : tgrid) (d : dims) : Prop := 2 <= d_nrows d \/ solid_stack g d.
(** All temperatures between bounds, or equal to one value. *)
Definition between (lo hi : Q) (x : list Q) : Prop := forall i, 0 <= i < Z.of_nat (length x) -> (lo <= qat x i /\ qat x i <= hi)%Q.
Definition uniform (x0 : Q) (x : list Q) : Prop := forall i, 0 <= i < Z.of_nat (length x) -> (qat x i == x0)%Q.
(** Lists of values that are all zero; values that are at most others. *)
Definition zeros (qs : list (list Q)) : Prop := Forall (Forall (fun p => p == 0)%Q) qs.
Definition at_most (qs qs' : list (list Q)) : Prop := Forall2 (Forall2 Qle) qs qs'.
(** The second history inserts at least the values of the first, and steps when it does. *)
Definition more (e e' : event) : Prop :=
  match e, e' with
  | Stepped _, Stepped _ => True
  | Inserted vs _, Inserted vs' _ => Forall2 Qle vs vs'
  | _, _ => False
  end.
(** No temperature of [x] exceeds that of [y]. *)
Definition cooler (x y : list Q) : Prop := length x = length y /\ forall i, 0 <= i < Z.of_nat (length x) -> (qat x i <= qat y i)%Q.
