(** * Model of the semantic actions of /repo/bison/stack_description_parser.y
      (246-2340), in the order of the file, and of
      /repo/sources/stack_file_parser.c 62-100: from the declarations of a stack
      description file (StkText.v) to what the program simulates.

    The columns, the stack section and the counts of cells and coefficients are
    [load] (Build.v); layout files are LayText.v, floorplan files FlpText.v.
    Memory allocation never fails. *)
From Coq Require Import ZArith List Bool QArith String Ascii.
From Verif Require Import Base Flex FlpText Vtk Dims Floorplan Stack Queue PowerGrid Inspect Emulate Emulator SlotLength Build StkScan StkText LayText.
Import ListNotations.
Local Open Scope string_scope.
Local Open Scope list_scope.

(** An action that may report an error and abort ([None]). *)
Notation "'try' x <- m ; k" := (bind m (fun r => match r with Some x => k | None => Ok None end)) (at level 200, x name, m at level 100, k at level 200).

(** The files that can be opened. *)
Definition disk := list Z -> option chars.
(** error_message, 101 *)
Definition stack_size : Z := 100.

(** *_list_find, and the message when there is no such identifier. *)
Definition known {A} (say : list Z -> chars) (l : list (list Z * A)) (id : list Z) : outcome (option A) :=
  match lookup id l with Some a => Ok (Some a) | None => message stack_size (say id) (Ok None) end.
(** *_list rules: an identifier that is in the list already is refused. *)
Definition once {A} (say : list Z -> chars) (l : list (list Z * A)) (id : list Z) : outcome (option unit) :=
  match lookup id l with Some _ => message stack_size (say id) (Ok None) | None => Ok (Some tt) end.
Definition unknown_layer (i : list Z) : chars := str "Unknown layer " ++ chars_of i.
Definition unknown_die (i : list Z) : chars := str "Unknown die " ++ chars_of i.
Definition unknown_element (i : list Z) : chars := str "Unknown stack element " ++ chars_of i.
Definition unknown_flpel (i : list Z) : chars := str "Unknown floorplan element " ++ chars_of i.
Definition layer_twice (i : list Z) : chars := str "Layer " ++ chars_of i ++ str " already declared".
Definition die_twice (i : list Z) : chars := str "Die " ++ chars_of i ++ str " already declared".
Definition element_twice (i : list Z) : chars := str "Stack element " ++ chars_of i ++ str " already declared".
Definition must_be_die (i : list Z) : chars := str "The stack element " ++ chars_of i ++ str " must be a die".
Definition must_be_channel (i : list Z) : chars := str "The stack element " ++ chars_of i ++ str " must be a channel".

(** A die that has been declared: layers above the source, source, below. *)
Definition die_body : Type := list layer * layer * list layer.
Definition named_layers := list (list Z * layer).
Definition named_dies := list (list Z * die_body).

(** What the program keeps of a file: the description of the grid, the
    discretization of the elements and the flag of the non-uniform grid, what
    [load] makes of the description, the analysis, the number of threads and the
    outputs. *)
Record project := mkProject {
  j_description : description; j_discretization : list (option (Z * Z)); j_nonuniform : bool; j_loaded : loaded;
  j_analysis : analysis; j_cores : Q; j_output : output
}.

Section Load.
  (** POROSITY (include/macros.h 240) of a diameter and a pitch and
      EFFECTIVE_HTC_PF_INLINE / STAGGERED (192-211) of a Darcy velocity. *)
  Variable porosity : Q -> Q -> Q.
  Variable pin_htc : bool -> Q -> Q.
  (** The double that is read for a number (atof). *)
  Variable to_double : Q -> double.
  (** initialize_pluggable_heatsink (heat_sink.c): whether the plugin, with its
      arguments, can be loaded and initialised. *)
  Variable plugin_starts : list Z -> list Z -> bool.
  (** Steps of the loops that align rectangles and count the slots. *)
  Variable fuel : nat.
  Variable fs : disk.

  (** topsink 346-365, topsink_pluggable 395-480 *)
  Definition top_of (ms : materials) (t : topsink Q (list Z) (list Z)) : outcome (option top_decl) :=
    match t with
    | Convective htc a => Ok (Some (DeclTop htc a))
    | Pluggable l w h m _ _ => try m <- known unknown_material ms m ; Ok (Some (DeclPluggable l w h m))
    end.
  (** bottomsink 373-392 *)
  Definition bottom_of (b : botsink Q) : bottom_sink := mkBottomSink (b_htc b) (b_temperature b).
  (** 516-519: a wall length that is not given, or is 0, is that of the walls *)
  Definition wall_of (w : option Q) (wall : Q) : Q :=
    match w with Some x => if Qeq_bool x 0 then wall else x | None => wall end.
  (** 692-725: side, top, bottom *)
  Definition coef4_of (h : coef4 Q) : Q * Q * Q := match h with Same4 h => (h, h, h) | Each4 s t b => (s, t, b) end.
  Definition coef2_of (h : coef2 Q) : Q * Q := match h with Same2 h => (h, h) | Each2 t b => (t, b) end.
  (** microchannel_opt 500-690 *)
  Definition channel_of (ms : materials) (c : chan Q (list Z)) : outcome (option (channel_decl * (Q * Q * Q * Q))) :=
    match c with
    | Chan4 height channel wall first last m flow h vhc tin =>
      try m <- known unknown_material ms m ;
      let '(s, t, b) := coef4_of h in
      Ok (Some (Decl4RM height m flow s t b vhc tin, (wall_of first wall, wall_of last wall, wall, channel)))
    | Chan2 height channel wall m flow h vhc tin =>
      try m <- known unknown_material ms m ;
      let '(t, b) := coef2_of h in
      Ok (Some (Decl2RM height channel wall m flow 0 t b vhc tin, (0, 0, 0, 0)%Q))
    | Pins height diameter pitch staggered m darcy vhc tin =>
      try m <- known unknown_material ms m ;
      Ok (Some (DeclPF staggered height (porosity diameter pitch) m darcy vhc tin (pin_htc staggered darcy), (0, 0, 0, 0)%Q))
    end.
  Definition optionally {A B} (f : A -> outcome (option B)) (o : option A) : outcome (option (option B)) :=
    match o with None => Ok (Some None) | Some a => try b <- f a ; Ok (Some (Some b)) end.

  (** layer 780-855, optional_layout 857-868, layers_list 747-778 *)
  Definition layer_of (d : dims) (ms : materials) (y : layd Q (list Z) (list Z)) : outcome (option layer) :=
    try m <- known unknown_material ms (y_material y) ;
    try l <- match y_layout y with
             | None => Ok (Some [])
             | Some p => match fs p with None => Ok None | Some text => parse_layout_file fuel d ms text end
             end ;
    Ok (Some (mkLayer (y_height y) m l)).
  Fixpoint layers_of (d : dims) (ms : materials) (acc : named_layers) (ys : list (layd Q (list Z) (list Z))) : outcome (option named_layers) :=
    match ys with
    | [] => Ok (Some acc)
    | y :: ys =>
      try l <- layer_of d ms y ;
      try _ <- once layer_twice acc (y_id y) ;
      layers_of d ms (acc ++ [(y_id y, l)]) ys
    end.

  (** die_layer_content 912-975 *)
  Definition content_of (ms : materials) (ls : named_layers) (c : content Q (list Z)) : outcome (option layer) :=
    match c with
    | Fresh h m => try m <- known unknown_material ms m ; Ok (Some (mkLayer h m []))
    | Declared i => known unknown_layer ls i
    end.
  Fixpoint contents_of (ms : materials) (ls : named_layers) (cs : list (content Q (list Z))) : outcome (option (list layer)) :=
    match cs with
    | [] => Ok (Some [])
    | c :: cs => try l <- content_of ms ls c ; try r <- contents_of ms ls cs ; Ok (Some (l :: r))
    end.
  (** die 1005-1060, dies_list 977-1003 *)
  Definition die_of (ms : materials) (ls : named_layers) (x : died Q (list Z)) : outcome (option die_body) :=
    try a <- contents_of ms ls (i_above x) ;
    try s <- content_of ms ls (i_source x) ;
    try b <- contents_of ms ls (i_below x) ;
    Ok (Some (a, s, b)).
  Fixpoint dies_of (ms : materials) (ls : named_layers) (acc : named_dies) (xs : list (died Q (list Z))) : outcome (option named_dies) :=
    match xs with
    | [] => Ok (Some acc)
    | x :: xs =>
      try b <- die_of ms ls x ;
      try _ <- once die_twice acc (i_id x) ;
      dies_of ms ls (acc ++ [(i_id x, b)]) xs
    end.

  (** Discr_X and Discr_Y, uint32_t: 1088-1089 (the default), 1448-1449, 1495-1496, 1610-1611, 1685-1686 *)
  Definition discr_of (default : Z * Z) (x : option (Q * Q)) : outcome (Z * Z) :=
    match x with None => Ok default | Some (x, y) => do a <- to_u32 x ; do b <- to_u32 y ; Ok (a, b) end.
  (** stack_element 1404-1720 *)
  Definition element_of (d : dims) (default : Z * Z) (ls : named_layers) (ds : named_dies) (channel : bool) (e : eld Q (list Z) (list Z))
    : outcome (option (list Z * (stack_decl * option (Z * Z)))) :=
    match e with
    | ELayer id l z =>
      try l <- known unknown_layer ls l ;
      do z <- discr_of default z ; Ok (Some (id, (DeclLayer id l, Some z)))
    | EChannel id => if channel then Ok (Some (id, (DeclChannel id, None))) else Ok None
    | EDie id n p z =>
      try b <- known unknown_die ds n ;
      match fs p with
      | None => Ok None
      | Some text =>
        try f <- fill_floorplan_file fuel d text ;
        do z <- discr_of default z ;
        let '(above, source, below) := b in Ok (Some (id, (DeclDie id above source below f, Some z)))
      end
    end.
  Definition channel_decl_ (x : list Z * (stack_decl * option (Z * Z))) : bool := match fst (snd x) with DeclChannel _ => true | _ => false end.
  (** stack_elements 1362-1400; the test of two channels compares with the first element *)
  Fixpoint elements_of (d : dims) (default : Z * Z) (ls : named_layers) (ds : named_dies) (channel : bool)
    (acc : list (list Z * (stack_decl * option (Z * Z)))) (es : list (eld Q (list Z) (list Z))) : outcome (option (list (list Z * (stack_decl * option (Z * Z))))) :=
    match es with
    | [] => Ok (Some acc)
    | e :: es =>
      try x <- element_of d default ls ds channel e ;
      try _ <- once element_twice acc (fst x) ;
      if match acc with first :: _ => channel_decl_ first && channel_decl_ x | [] => false end then Ok None
      else elements_of d default ls ds channel (acc ++ [x]) es
    end.

  (** optional_numofcores 1813-1832 *)
  Definition cores_of (c : option Q) : option Q := match c with None => Some 1%Q | Some c => if Qle_bool c 0 then None else Some c end.
  (** solver 1727-1811 *)
  Definition solver_of (top : option (topsink Q (list Z) (list Z))) (v : solverd Q) : outcome (option (analysis * Q)) :=
    match cores_of (v_cores v) with
    | None => Ok None
    | Some c =>
      match v_analysis v with
      | Steady => Ok (Some (mkAnalysis AT_STEADY 1 1 0 (v_initial v), c))
      | Transient step slot =>
        try n <- parse_times fuel (to_double step) (to_double slot) ;
        if match top with Some (Pluggable _ _ _ _ p a) => plugin_starts p (match a with Some a => a | None => [] end) | _ => true end
        then Ok (Some (mkAnalysis AT_TRANSIENT step n 0 (v_initial v), c)) else Ok None
      end
    end.

  (** when 2325-2335 *)
  Definition instant_of (w : option output_instant) : output_instant := match w with None => OI_FINAL | Some i => i end.
  (** stack_element_list_find *)
  Definition named_elements (es : list stkel) : list (list Z * stkel) := map (fun e => (se_id e, e)) es.
  (** get_floorplan_element, floorplan.c: the first of its identifier *)
  Definition named_flpels (f : floorplan) : list (list Z * flpel) := map (fun e => (fe_id e, e)) (f_elements f).
  (** ipoint->StackElement of a T3D output, not set *)
  Definition no_element : stkel := mkStkel [] (SKLayer layer0) 0 0.
  (** inspection_point 1850-2310 *)
  Definition point_of (d : dims) (es : list stkel) (p : pointd Q (list Z) (list Z)) : outcome (option ipoint) :=
    match p with
    | PT i x y f w =>
      try e <- known unknown_element (named_elements es) i ;
      let '(r, c) := align_tcell d x y in Ok (Some (mkIpoint OT_TCELL OQ_NONE (instant_of w) f e r c None))
    | PTflp i f q w =>
      try e <- known unknown_element (named_elements es) i ;
      match se_kind e with
      | SKDie _ => Ok (Some (mkIpoint OT_TFLP q (instant_of w) f e 0 0 None))
      | _ => message stack_size (must_be_die i) (Ok None)
      end
    | PTflpel i n f q w =>
      try e <- known unknown_element (named_elements es) i ;
      match se_kind e with
      | SKDie x =>
        try el <- known unknown_flpel (named_flpels (die_floorplan x)) n ;
        Ok (Some (mkIpoint OT_TFLPEL q (instant_of w) f e 0 0 (Some el)))
      | _ => message stack_size (must_be_die i) (Ok None)
      end
    | PTmap i f w =>
      try e <- known unknown_element (named_elements es) i ; Ok (Some (mkIpoint OT_TMAP OQ_NONE (instant_of w) f e 0 0 None))
    | PT3d f w => Ok (Some (mkIpoint OT_T3D OQ_NONE (instant_of w) f no_element 0 0 None))
    | PPmap i f w =>
      try e <- known unknown_element (named_elements es) i ; Ok (Some (mkIpoint OT_PMAP OQ_NONE (instant_of w) f e 0 0 None))
    | PTcoolant i f q w =>
      try e <- known unknown_element (named_elements es) i ;
      match se_kind e with
      | SKChannel _ => Ok (Some (mkIpoint OT_TCOOLANT q (instant_of w) f e 0 0 None))
      | _ => message stack_size (must_be_channel i) (Ok None)
      end
    end.
  (** inspection_points_list 1843-1858 *)
  Fixpoint points_of (d : dims) (es : list stkel) (acc : output) (ps : list (pointd Q (list Z) (list Z))) : outcome (option output) :=
    match ps with
    | [] => Ok (Some acc)
    | p :: ps => try i <- point_of d es p ; points_of d es (add_inspection_point acc i) ps
    end.

  Definition listed_of {A} (l : A * list A) : list A := fst l :: snd l.
  (** stack_description_file 250-262 *)
  Definition actions (q : qfile) : outcome (option project) :=
    try ms <- declare stack_size material_twice (map material_of (listed_of (s_materials q))) [] ;
    try top <- optionally (top_of ms) (s_top q) ;
    try ch <- optionally (channel_of ms) (s_channel q) ;
    let dd := s_dims q in
    let walls := match ch with Some (_, w) => w | None => (0, 0, 0, 0)%Q end in
    let x stack := mkDescription (option_map fst ch) walls (dd_length dd) (dd_width dd) (dd_cell_length dd) (dd_cell_width dd) stack top (option_map bottom_of (s_bottom q)) in
    try d <- parse_dims (dd_length dd) (dd_width dd) (dd_cell_length dd) (dd_cell_width dd) (x_grid (x [])) [] 0 ;
    do zx <- to_u32 (dd_length dd / dd_cell_length dd)%Q ;
    do zy <- to_u32 (dd_width dd / dd_cell_width dd)%Q ;
    try ls <- layers_of d ms [] (s_layers q) ;
    try ds <- dies_of ms ls [] (listed_of (s_dies q)) ;
    try es <- elements_of d (zx, zy) ls ds (match ch with Some _ => true | None => false end) [] (listed_of (s_stack q)) ;
    try lo <- load (x (map (fun e => fst (snd e)) es)) ;
    try a <- solver_of (s_top q) (s_solver q) ;
    try o <- points_of (lo_dims lo) (lo_elements lo) output_init (match s_output q with Some l => listed_of l | None => [] end) ;
    Ok (Some (mkProject (x (map (fun e => fst (snd e)) es)) (map (fun e => snd (snd e)) es)
                        (match dd_nonuniform dd with Some b => b | None => false end) lo (fst a) (snd a) o)).
  (** parse_stack_description_file, stack_file_parser.c 62-100. Actions run before
      a syntax error are left out. *)
  Definition parse_stack_file (path : list Z) : outcome (option project) :=
    match fs path with
    | None => Ok None
    | Some text => match read_stack text with None => Ok None | Some q => actions q end
    end.
End Load.
