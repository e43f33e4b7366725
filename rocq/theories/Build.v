(** * From an accepted description to the data of a simulation
    Models the end of the parsing of a stack description,
      /repo/bison/stack_description_parser.y (final actions of the stack section),
    and
      /repo/sources/thermal_data.c (thermal_data_build, uniform grid)
      /repo/sources/power_grid.c (power_grid_build, power_grid_fill) *)
From Coq Require Import ZArith List Bool QArith.
From Verif Require Import Base Dims Floorplan Stack PowerGrid Emulate Conduct Matrix.
Import ListNotations.
Local Open Scope Z_scope.

(** Top sink as declared: an ambient one, or a pluggable one with the size of
    its spreader (stack_description_parser.y, topsink section). *)
Inductive top_decl :=
| DeclTop (htc ambient : Q)
| DeclPluggable (length width height : Q) (mat : material).

(** The sections of a stack description that determine the grid.  [x_walls] are
    the first wall, last wall, wall and channel lengths of a 4RM channel (unused
    for other descriptions). *)
Record description := mkDescription {
  x_channel : option channel_decl; x_walls : Q * Q * Q * Q;
  x_chip_length : Q; x_chip_width : Q; x_cell_length : Q; x_cell_width : Q;
  x_stack : list stack_decl; x_top : option top_decl; x_bottom : option bottom_sink
}.

(** stack_description_parser.y, dimensions section: the columns of a 4RM
    description follow its channels, all others are uniform. *)
Definition x_grid (x : description) : chan_spec :=
  match x_channel x with
  | Some (Decl4RM _ _ _ _ _ _ _ _) => let '(first, last, wall, chan) := x_walls x in MC4RM first last wall chan
  | _ => Uniform (x_cell_length x)
  end.

(** stack_description_parser.y 1182-1189: the spreader is initialised before
    the cells are counted, from the lengths and the numbers of rows and columns. *)
Definition make_top (d : dims) (t : option top_decl) : outcome (option (option top_sink)) :=
  match t with
  | None => Ok (Some None)
  | Some (DeclTop htc a) => Ok (Some (Some (SinkTop htc a)))
  | Some (DeclPluggable len wid h m) =>
    do s <- initialize_heat_spreader d len wid ;
    Ok (match s with Some s => Some (Some (SinkPluggable s h m)) | None => None end)
  end.

(** What the parser leaves: channel, stack elements, dimensions, top sink and
    the number of coefficients of the matrix. *)
Record loaded := mkLoaded {
  lo_channel : option channel; lo_elements : list stkel; lo_dims : dims;
  lo_top : option top_sink; lo_bottom : option bottom_sink; lo_connections : Z
}.

(** stack_description_parser.y 1529: num_channels counts the channel elements. *)
Definition count_channels (es : list stkel) : Z := Z.of_nat (length (filter is_channel es)).

(** stack_description_parser.y 1346-1358: the channel model is that of the
    declared channel, used in the stack or not. *)
Definition declared_model (ch : option channel) : channel_model :=
  match ch with Some c => ch_model c | None => CM_NONE end.
Definition sink_rows (top : option top_sink) : option (Z * Z) :=
  match top with Some (SinkPluggable s _ _) => Some (s_nrows s, s_ncols s) | _ => None end.

(** The whole chain; [None] when the parser aborts.  The dimensions are computed
    first without the cells of the spreader, which needs them, as in the C code
    where NCells is set at the end (stack_description_parser.y 1325-1346). *)
Definition load (x : description) : outcome (option loaded) :=
  do cols <- parse_columns (x_chip_length x) (x_cell_length x) (x_grid x) ;
  match cols with
  | None => Ok None
  | Some (_, _, _, _, ncols) =>
    do ch <- match x_channel x with
             | None => Ok None
             | Some cd => do c <- declare_channel cd (x_chip_length x) ncols ; Ok (Some c)
             end ;
    do st <- parse_stack ch (x_stack x) ;
    match st with
    | None => Ok None
    | Some (es, hs) =>
      do d0 <- parse_dims (x_chip_length x) (x_chip_width x) (x_cell_length x) (x_cell_width x) (x_grid x) hs 0 ;
      match d0 with
      | None => Ok None
      | Some d0 =>
        do top <- make_top d0 (x_top x) ;
        match top with
        | None => Ok None
        | Some top =>
          do d <- parse_dims (x_chip_length x) (x_chip_width x) (x_cell_length x) (x_cell_width x) (x_grid x) hs (spreader_cells top) ;
          Ok (match d with
              | None => None
              | Some d =>
                Some (mkLoaded ch es d top (x_bottom x)
                        (number_of_connections (d_nlayers d) (d_nrows d) (d_ncols d) (count_channels es) (declared_model ch) (sink_rows top)))
              end)
        end
      end
    end
  end.

(** power_grid.c 273-275: the channel pointer is that of the last channel
    element met, NULL when there is none (power_grid_init). *)
Definition channel_of_elements (es : list stkel) : option channel :=
  fold_left (fun c e => match se_kind e with SKChannel x => Some x | _ => c end) (rev es) None.

(** power_grid.c 64-198 power_grid_build and 221-560 power_grid_fill, uniform
    grid.  Allocation never fails; vectors are calloc'ed, the loops write the
    capacities and conductances from the start. *)
Definition power_grid_fill (d : dims) (g : tgrid) (es : list stkel) (top : option top_sink) (bot : option bottom_sink)
  : outcome pgrid :=
  do r <- power_grid_types (d_nlayers d) es top bot ;
  let (ts, fs) := r in
  do caps <- cells_capacities g d ;
  do tops <- top_tcs g d ;
  do bottoms <- bottom_tcs g d ;
  if d_ncells d <? Z.of_nat (length caps) then UB
  else Ok (mkPgrid (d_nlayers d) (d_ncells d) (get_layer_area d) ts fs top bot (channel_of_elements es)
                   (repeat 0%Q (Z.to_nat (d_ncells d)))
                   (caps ++ repeat 0%Q (Z.to_nat (d_ncells d) - length caps)) tops bottoms).

Section Build.
  Context {PS : Type}.
  (** do_factorization (SuperLU) is a parameter. *)
  Variable factor : sysmatrix -> error_t.

  (** thermal_data.c 1033-1230, uniform grid.  [None] is TDICE_FAILURE.  The
      thermal grid, kept in ThermalData_t, is returned with the state. *)
  Definition thermal_data_build (lo : loaded) (an : analysis) (ps : PS) : outcome (option (tgrid * sim sysmatrix PS)) :=
    let d := lo_dims lo in
    do r <- thermal_grid_fill (thermal_grid_build (d_nlayers d)) (lo_elements lo) (lo_top lo) (lo_bottom lo) ;
    let (e, g) := r in
    match e with
    | TDICE_FAILURE => Ok None
    | TDICE_SUCCESS =>
      do pg <- power_grid_fill d g (lo_elements lo) (lo_top lo) (lo_bottom lo) ;
      do m <- fill_system_matrix (system_matrix_build (d_ncells d) (lo_connections lo)) g an d ;
      Ok (match factor m with
          | TDICE_FAILURE => None
          | TDICE_SUCCESS =>
            Some (g, mkSim (repeat (an_initial an) (Z.to_nat (d_ncells d))) pg m an ps)
          end)
    end.
End Build.
