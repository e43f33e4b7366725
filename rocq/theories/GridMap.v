(** * Model of the FMI heat sink plugin:
      /repo/heatsink_plugin/loaders/FMI/libraries/gridmapper/gridmapper.cpp and
      matrix.h, loaders/FMI/fmiwrapper.cpp, entrypoint.cpp and entrypoint.h.

    The functional mock-up unit (FMU) itself is a parameter. [double] is Q; [int]
    and [unsigned int] do not wrap (sizes of grids). *)
From Coq Require Import ZArith List Bool QArith.
From Verif Require Import Base Dims Floorplan.
Import ListNotations.
Local Open Scope Z_scope.

(** C++: a value, an exception, or undefined behaviour. *)
Inductive cpp (A : Type) := Val (a : A) | Throw | Undef.
Arguments Val {A}. Arguments Throw {A}. Arguments Undef {A}.
Definition cbind {A B} (m : cpp A) (f : A -> cpp B) : cpp B :=
  match m with Val a => f a | Throw => Throw | Undef => Undef end.
Fixpoint cmap {A B} (f : A -> cpp B) (l : list A) : cpp (list B) :=
  match l with [] => Val [] | a :: t => cbind (f a) (fun b => cbind (cmap f t) (fun bs => Val (b :: bs))) end.

(** class Matrix, matrix.h 42-112: row major; [at] checks the indices (58-76). *)
Record cmatrix (A : Type) := mkMat { mx_rows : Z; mx_cols : Z; mx_data : list A }.
Arguments mkMat {A}. Arguments mx_rows {A}. Arguments mx_cols {A}. Arguments mx_data {A}.
Definition mat_at {A} (m : cmatrix A) (r c : Z) : cpp A :=
  if (r <? 0) || (c <? 0) || (mx_rows m <=? r) || (mx_cols m <=? c) then Throw
  else match nth_error (mx_data m) (Z.to_nat (r * mx_cols m + c)) with Some a => Val a | None => Undef end.

(** class CellMatrix, entrypoint.h 67-101: no check (CELLMATRIX_BOUND_CHECK is not defined). *)
Definition cells_at (ncols : Z) (data : list Q) (r c : Z) : cpp Q :=
  match nth_error data (Z.to_nat (r * ncols + c)) with Some a => Val a | None => Undef end.

(** class Grid, gridmapper.h 45-61; class Fragment, 76-84. *)
Record pgrid := mkPgrid { gr_x0 : Q; gr_y0 : Q; gr_x : Q; gr_y : Q; gr_nr : Z; gr_nc : Z }.
Record fragment := mkFrag { fr_r : Z; fr_c : Z; fr_feature : Q }.

(** std::max and std::min. *)
Definition std_max (a b : Q) : Q := if Qlt_bool a b then b else a.
Definition std_min (a b : Q) : Q := if Qlt_bool b a then b else a.

(** Left and right side of column [i]; bottom and top side of row [j]: gridmapper.cpp
    49-61 with [swap] (mapGridsRowSwap), 89-101 without (mapGridsNoRowSwap). *)
Definition left_of (g : pgrid) (i : Z) : Q := (gr_x0 g + qz i * (gr_x g / qz (gr_nc g)))%Q.
Definition right_of (g : pgrid) (i : Z) : Q := (gr_x0 g + qz (i + 1) * (gr_x g / qz (gr_nc g)))%Q.
Definition bottom_of (swap : bool) (g : pgrid) (j : Z) : Q :=
  (gr_y0 g + qz (if swap then j else gr_nr g - 1 - j) * (gr_y g / qz (gr_nr g)))%Q.
Definition top_of (swap : bool) (g : pgrid) (j : Z) : Q :=
  (gr_y0 g + qz (if swap then j + 1 else gr_nr g - j) * (gr_y g / qz (gr_nr g)))%Q.

(** The body of the loops over the target, gridmapper.cpp 66-83 and 106-123. *)
Definition candidate (swap : bool) (s t : pgrid) (f : Q) (j i h k : Z) : list fragment :=
  let xa := std_max (left_of s i) (left_of t h) in
  let xb := std_min (right_of s i) (right_of t h) in
  if Qle_bool xb xa then [] else
  let ya := std_max (bottom_of swap s j) (bottom_of swap t k) in
  let yb := std_min (top_of swap s j) (top_of swap t k) in
  if Qle_bool yb ya then [] else
  [mkFrag k h (f * ((xb - xa) * (yb - ya)))%Q].
Definition fragments (swap : bool) (s t : pgrid) (f : Q) (j i : Z) : list fragment :=
  flat_map (fun h => flat_map (fun k => candidate swap s t f j i h k) (zrange 0 (gr_nr t - 1))) (zrange 0 (gr_nc t - 1)).

(** mapGrids, gridmapper.cpp 130-134: the cells of the result are filled one by one,
    each from its own loops (their order does not matter). *)
Definition map_grids (s t : pgrid) (f : Q) (swap : bool) : cmatrix (list fragment) :=
  mkMat (gr_nr s) (gr_nc s)
        (map (fun n => fragments swap s t f (n / gr_nc s) (n mod gr_nc s)) (zrange 0 (gr_nr s * gr_nc s - 1))).

(** parallel, fmiwrapper.h 48-51. *)
Definition parallel (x y : Q) : Q := (x * y / (x + y))%Q.

(** What the FMU says of itself, fmiwrapper.cpp 63-70 (lengths in m). *)
Record fmu_info := mkInfo {
  fi_conductance : Q; fi_length : Q; fi_width : Q; fi_x0 : Q; fi_y0 : Q; fi_rows : Z; fi_cols : Z
}.

(** The two mappings, and the size of the spreader as heatsink_init keeps it. *)
Record wrapper := mkWrapper {
  wr_spreader : cmatrix (list fragment); wr_sink : cmatrix (list fragment); wr_rows : Z; wr_cols : Z; wr_step : Q
}.

(** FmiWrapper::FmiWrapper, fmiwrapper.cpp 72-98; heatsink_init, entrypoint.cpp 51-69. *)
Definition sink_grid (i : fmu_info) : pgrid :=
  mkPgrid 0 0 (fi_length i * 1000000) (fi_width i * 1000000) (fi_rows i) (fi_cols i).
Definition spreader_grid (nrows ncols : Z) (cell_width cell_length : Q) (i : fmu_info) : pgrid :=
  mkPgrid (fi_x0 i * 1000000) (fi_y0 i * 1000000) (cell_length * qz ncols) (cell_width * qz nrows) nrows ncols.
Definition conductance_per_area (cell_width cell_length spreader_conductance : Q) (i : fmu_info) : Q :=
  let sl := (fi_length i * 1000000)%Q in
  let sw := (fi_width i * 1000000)%Q in
  parallel (spreader_conductance / (cell_length * cell_width))
           (fi_conductance i / ((sl / qz (fi_cols i)) * (sw / qz (fi_rows i)))).
Definition fmi_init (nrows ncols : Z) (cell_width cell_length spreader_conductance step : Q) (i : fmu_info) : wrapper :=
  let g := conductance_per_area cell_width cell_length spreader_conductance i in
  mkWrapper (map_grids (spreader_grid nrows ncols cell_width cell_length i) (sink_grid i) g true)
            (map_grids (sink_grid i) (spreader_grid nrows ncols cell_width cell_length i) g true) nrows ncols step.

Section Step.
  (** State of the FMU; the temperatures T[i,j] it shows, row after row; a step of
      doStep from [time] for [step] with the heat flows Q_flow[i,j], [None] when
      the FMU reports an error (an exception). *)
  Variable F : Type.
  Variable fmu_temperatures : F -> list Q.
  Variable fmu_step : F -> list Q -> Q -> Q -> option F.

  (** The loops over the spreader and over the sink, fmiwrapper.cpp 128-159. *)
  Definition spreader_flow (w : wrapper) (ts : list Q) (sink : cmatrix Q) (n : Z) : cpp Q :=
    let i := n / wr_cols w in
    let j := n mod wr_cols w in
    cbind (cells_at (wr_cols w) ts i j) (fun t =>
    cbind (mat_at (wr_spreader w) i j) (fun frs =>
    fold_left (fun q fr => cbind q (fun q => cbind (mat_at sink (fr_r fr) (fr_c fr)) (fun u => Val (q + fr_feature fr * (t - u))%Q))) frs (Val 0%Q))).
  Definition sink_flow (w : wrapper) (ts : list Q) (sink : cmatrix Q) (n : Z) : cpp Q :=
    let i := n / mx_cols sink in
    let j := n mod mx_cols sink in
    cbind (mat_at sink i j) (fun t =>
    cbind (mat_at (wr_sink w) i j) (fun frs =>
    fold_left (fun q fr => cbind q (fun q => cbind (cells_at (wr_cols w) ts (fr_r fr) (fr_c fr)) (fun u => Val (q + fr_feature fr * (u - t))%Q))) frs (Val 0%Q))).

  (** FmiWrapper::simulateStep, fmiwrapper.cpp 117-168: the heat flows for 3D-ICE, the
      heat flows given to the FMU, its new state. sinkTemperatures has the rows and
      columns of the sink mapping (101-102); [at (0, 0)] is evaluated at 121 and 162.
      The state is that of the FMU and [time]. *)
  Definition simulate_step (w : wrapper) (st : F * Q) (ts : list Q) : cpp (list Q * list Q * (F * Q)) :=
    let sink := mkMat (mx_rows (wr_sink w)) (mx_cols (wr_sink w)) (fmu_temperatures (fst st)) in
    cbind (mat_at sink 0 0) (fun _ =>
    cbind (cmap (spreader_flow w ts sink) (zrange 0 (wr_rows w * wr_cols w - 1))) (fun flows =>
    cbind (cmap (sink_flow w ts sink) (zrange 0 (mx_rows sink * mx_cols sink - 1))) (fun given =>
    match fmu_step (fst st) given (snd st) (wr_step w) with
    | None => Throw
    | Some f => Val (flows, given, (f, (snd st + wr_step w)%Q))
    end))).

  (** heatsink_simulate_step, entrypoint.cpp 71-84, as the plugin of Emulate.v: failure
      flag, the buffer of the heat flows (those written before an exception are left
      out), new state. *)
  Definition fmi_plugin (w : wrapper) (st : F * Q) (ts old : list Q) : bool * list Q * (F * Q) :=
    match simulate_step w st ts with
    | Val (flows, _, st') =>
      if (length flows <=? length old)%nat then (false, flows ++ skipn (length flows) old, st') else (true, old, st)
    | Throw | Undef => (true, old, st)
    end.
End Step.
Arguments simulate_step {F}. Arguments fmi_plugin {F}.
