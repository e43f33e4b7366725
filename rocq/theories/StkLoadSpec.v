(** * What a stack description means: every name stands for the declaration it
      names, and the declarations are the ones of the file.

    Layout files, floorplan files and the grid are told by C72, C70 and C51. *)
From Coq Require Import ZArith List Bool QArith String Ascii.
From Verif Require Import Base Flex FlpText FlpTextSpec FloorplanSpec StackSpec Dims Floorplan Stack PowerGrid Inspect Emulate Emulator SlotLength Build StkScan StkText LayText StkLoad.
Import ListNotations.

Section Means.
  Variable porosity : Q -> Q -> Q.
  Variable pin_htc : bool -> Q -> Q.
  Variable to_double : Q -> double.
  Variable plugin_starts : list Z -> list Z -> bool.
  Variable fuel : nat.
  Variable fs : disk.

  (** The heat sinks. *)
  Definition top_means (ms : materials) (t : topsink Q (list Z) (list Z)) (x : top_decl) : Prop :=
    match t, x with
    | Convective htc a, DeclTop htc' a' => htc' = htc /\ a' = a
    | Pluggable l w h m _ _, DeclPluggable l' w' h' m' => l' = l /\ w' = w /\ h' = h /\ In (m, m') ms
    | _, _ => False
    end.
  (** The channel. A wall that is not given (or is 0) is as the others; one heat
      transfer coefficient is for all sides; two-resistor channels have none at
      the sides. *)
  Definition wall_means (w : option Q) (wall x : Q) : Prop :=
    match w with Some y => (~ y == 0 /\ x = y \/ y == 0 /\ x = wall)%Q | None => x = wall end.
  Definition coef4_means (h : coef4 Q) (s t b : Q) : Prop :=
    match h with Same4 h => s = h /\ t = h /\ b = h | Each4 s' t' b' => s = s' /\ t = t' /\ b = b' end.
  Definition coef2_means (h : coef2 Q) (t b : Q) : Prop :=
    match h with Same2 h => t = h /\ b = h | Each2 t' b' => t = t' /\ b = b' end.
  Definition channel_means (ms : materials) (c : chan Q (list Z)) (x : channel_decl) (walls : Q * Q * Q * Q) : Prop :=
    match c, x with
    | Chan4 h channel wall first last m flow co vhc tin, Decl4RM h' m' flow' s t b vhc' tin' =>
      h' = h /\ In (m, m') ms /\ flow' = flow /\ coef4_means co s t b /\ vhc' = vhc /\ tin' = tin /\
      exists f l, walls = (f, l, wall, channel) /\ wall_means first wall f /\ wall_means last wall l
    | Chan2 h channel wall m flow co vhc tin, Decl2RM h' len wl m' flow' s t b vhc' tin' =>
      h' = h /\ len = channel /\ wl = wall /\ In (m, m') ms /\ flow' = flow /\ s = 0%Q /\ coef2_means co t b /\ vhc' = vhc /\ tin' = tin /\
      walls = (0, 0, 0, 0)%Q
    | Pins h diameter pitch staggered m darcy vhc tin, DeclPF st h' por m' darcy' vhc' tin' htc =>
      st = staggered /\ h' = h /\ por = porosity diameter pitch /\ In (m, m') ms /\ darcy' = darcy /\ vhc' = vhc /\ tin' = tin /\
      htc = pin_htc staggered darcy /\ walls = (0, 0, 0, 0)%Q
    | _, _ => False
    end.
  (** Both absent, or both present. *)
  Definition both {A B} (R : A -> B -> Prop) (a : option A) (b : option B) : Prop :=
    match a, b with None, None => True | Some a, Some b => R a b | _, _ => False end.

  (** Layers, dies and elements of the stack. *)
  Definition layer_means (d : dims) (ms : materials) (y : layd Q (list Z) (list Z)) (x : list Z * layer) : Prop :=
    fst x = y_id y /\ ly_height (snd x) = y_height y /\ In (y_material y, ly_mat (snd x)) ms /\
    match y_layout y with
    | None => ly_layout (snd x) = []
    | Some p => exists text, fs p = Some text /\ parse_layout_file fuel d ms text = Ok (Some (ly_layout (snd x)))
    end.
  Definition content_means (ms : materials) (ls : named_layers) (c : content Q (list Z)) (l : layer) : Prop :=
    match c with
    | Fresh h m => ly_height l = h /\ In (m, ly_mat l) ms /\ ly_layout l = []
    | Declared i => In (i, l) ls
    end.
  Definition die_means (ms : materials) (ls : named_layers) (x : died Q (list Z)) (b : list Z * die_body) : Prop :=
    fst b = i_id x /\
    let '(above, source, below) := snd b in
    Forall2 (content_means ms ls) (i_above x) above /\ content_means ms ls (i_source x) source /\ Forall2 (content_means ms ls) (i_below x) below.
  Definition discr_means (default : Z * Z) (z : option (Q * Q)) (x : Z * Z) : Prop :=
    match z with None => x = default | Some (a, b) => to_u32 a = Ok (fst x) /\ to_u32 b = Ok (snd x) end.
  Definition element_means (d : dims) (default : Z * Z) (ls : named_layers) (ds : named_dies) (channel : bool) (e : eld Q (list Z) (list Z))
    (x : stack_decl * option (Z * Z)) : Prop :=
    match e, x with
    | ELayer id l z, (DeclLayer id' l', Some z') => id' = id /\ In (l, l') ls /\ discr_means default z z'
    | EChannel id, (DeclChannel id', None) => id' = id /\ channel = true
    | EDie id n p z, (DeclDie id' above source below f, Some z') =>
      id' = id /\ In (n, (above, source, below)) ds /\ discr_means default z z' /\
      exists text, fs p = Some text /\ fill_floorplan_file fuel d text = Ok (Some f)
    | _, _ => False
    end.
  Definition id_of (e : eld Q (list Z) (list Z)) : list Z := match e with ELayer i _ _ | EChannel i | EDie i _ _ _ => i end.

  (** The analysis and the number of threads. *)
  Definition cores_mean (c : option Q) (n : Q) : Prop := match c with None => n = 1%Q | Some c => (0 < c)%Q /\ n = c end.
  Definition solver_means (top : option (topsink Q (list Z) (list Z))) (v : solverd Q) (a : analysis) : Prop :=
    an_initial a = v_initial v /\ an_time a = 0%Z /\
    match v_analysis v with
    | Steady => an_type a = AT_STEADY /\ an_step a = 1%Q /\ an_slot_length a = 1%Z
    | Transient step slot =>
      an_type a = AT_TRANSIENT /\ an_step a = step /\ parse_times fuel (to_double step) (to_double slot) = Ok (Some (an_slot_length a)) /\
      forall l w h m p args, top = Some (Pluggable l w h m p args) -> plugin_starts p (match args with Some x => x | None => [] end) = true
    end.

  (** The outputs: each names its element of the stack, its file, what and when. *)
  Definition when (w : option output_instant) : output_instant := match w with Some i => i | None => OI_FINAL end.
  Definition names_element (es : list stkel) (id : list Z) (e : stkel) : Prop := In e es /\ se_id e = id.
  Definition point_means (d : dims) (es : list stkel) (p : pointd Q (list Z) (list Z)) (i : ipoint) : Prop :=
    match p with
    | PT id x y f w => exists e, names_element es id e /\ i = mkIpoint OT_TCELL OQ_NONE (when w) f e (fst (align_tcell d x y)) (snd (align_tcell d x y)) None
    | PTflp id f q w => exists e x, names_element es id e /\ se_kind e = SKDie x /\ i = mkIpoint OT_TFLP q (when w) f e 0 0 None
    | PTflpel id n f q w => exists e x before el after, names_element es id e /\ se_kind e = SKDie x /\
        f_elements (die_floorplan x) = before ++ el :: after /\ fe_id el = n /\ ~ In n (map fe_id before) /\
        i = mkIpoint OT_TFLPEL q (when w) f e 0 0 (Some el)
    | PTmap id f w => exists e, names_element es id e /\ i = mkIpoint OT_TMAP OQ_NONE (when w) f e 0 0 None
    | PT3d f w => i = mkIpoint OT_T3D OQ_NONE (when w) f no_element 0 0 None
    | PPmap id f w => exists e, names_element es id e /\ i = mkIpoint OT_PMAP OQ_NONE (when w) f e 0 0 None
    | PTcoolant id f q w => exists e c, names_element es id e /\ se_kind e = SKChannel c /\ i = mkIpoint OT_TCOOLANT q (when w) f e 0 0 None
    end.
  (** The points of an instant, in the order of the file. *)
  Definition at_instant (t : output_instant) (l : list ipoint) : list ipoint :=
    filter (fun p => match ip_instant p, t with OI_FINAL, OI_FINAL | OI_SLOT, OI_SLOT | OI_STEP, OI_STEP => true | _, _ => false end) l.

  (** The file [q] means the project [j]. *)
  Record means (q : qfile) (j : project) : Prop := {
    me_parts : exists ms ls ds d elements points chan,
      (* the materials of the file *)
      ms = map material_of (fst (s_materials q) :: snd (s_materials q)) /\ NoDup (map fst ms) /\
      (* heat sinks, channel, dimensions *)
      both (top_means ms) (s_top q) (x_top (j_description j)) /\
      x_bottom (j_description j) = option_map (fun b => mkBottomSink (b_htc b) (b_temperature b)) (s_bottom q) /\
      both (fun c x => channel_means ms c (fst x) (snd x)) (s_channel q) chan /\
      x_channel (j_description j) = option_map fst chan /\
      x_walls (j_description j) = match chan with Some (_, w) => w | None => (0, 0, 0, 0)%Q end /\
      x_chip_length (j_description j) = dd_length (s_dims q) /\ x_chip_width (j_description j) = dd_width (s_dims q) /\
      x_cell_length (j_description j) = dd_cell_length (s_dims q) /\ x_cell_width (j_description j) = dd_cell_width (s_dims q) /\
      (* the grid of a layer *)
      parse_dims (x_chip_length (j_description j)) (x_chip_width (j_description j)) (x_cell_length (j_description j)) (x_cell_width (j_description j))
                 (x_grid (j_description j)) [] 0 = Ok (Some d) /\
      (* layers and dies, each name once *)
      Forall2 (layer_means d ms) (s_layers q) ls /\ NoDup (map fst ls) /\
      Forall2 (die_means ms ls) (fst (s_dies q) :: snd (s_dies q)) ds /\ NoDup (map fst ds) /\
      (* the stack *)
      (exists zx zy, to_u32 (dd_length (s_dims q) / dd_cell_length (s_dims q)) = Ok zx /\ to_u32 (dd_width (s_dims q) / dd_cell_width (s_dims q)) = Ok zy /\
         Forall2 (element_means d (zx, zy) ls ds (match s_channel q with Some _ => true | None => false end)) (fst (s_stack q) :: snd (s_stack q)) elements) /\
      NoDup (map id_of (fst (s_stack q) :: snd (s_stack q))) /\
      x_stack (j_description j) = map fst elements /\ j_discretization j = map snd elements /\
      (* the outputs *)
      Forall2 (point_means (lo_dims (j_loaded j)) (lo_elements (j_loaded j))) (match s_output q with Some l => fst l :: snd l | None => [] end) points /\
      j_output j = mkOutput (at_instant OI_FINAL points) (at_instant OI_SLOT points) (at_instant OI_STEP points);
    me_nonuniform : j_nonuniform j = true <-> dd_nonuniform (s_dims q) = Some true;
    me_loaded : load (j_description j) = Ok (Some (j_loaded j));
    me_analysis : solver_means (s_top q) (s_solver q) (j_analysis j);
    me_cores : cores_mean (v_cores (s_solver q)) (j_cores j)
  }.
End Means.

(** ** Files whose values make physical sense: a condition on what is written in
       the files, and on the size of the grid. *)
Section Sane.
  Variable porosity : Q -> Q -> Q.
  Variable pin_htc : bool -> Q -> Q.
  Variable fuel : nat.
  Variable fs : disk.
  Local Open Scope Q_scope.

  Definition sane_material (m : qmat) : Prop :=
    0 < m_vhc m /\ match m_k m with Isotropic k => 0 < k | Directional x y z => 0 < x /\ 0 < y /\ 0 < z end.
  Definition sane_top (t : topsink Q (list Z) (list Z)) : Prop :=
    match t with Convective htc _ => 0 < htc | Pluggable _ _ h _ _ _ => 0 < h end.
  Definition not_negative (o : option Q) : Prop := match o with Some x => 0 <= x | None => True end.
  Definition sane_channel (c : chan Q (list Z)) : Prop :=
    match c with
    | Chan4 h channel wall first last _ flow co vhc _ =>
      0 < h /\ 0 < channel /\ 0 < wall /\ not_negative first /\ not_negative last /\ 0 <= flow /\ 0 < vhc /\
      match co with Same4 k => 0 < k | Each4 s t b => 0 < s /\ 0 < t /\ 0 < b end
    | Chan2 h channel wall _ flow co vhc _ =>
      0 < h /\ 0 < channel /\ 0 < wall /\ 0 <= flow /\ 0 < vhc /\ match co with Same2 k => 0 < k | Each2 t b => 0 < t /\ 0 < b end
    | Pins h diameter pitch staggered _ darcy vhc _ =>
      0 < h /\ 0 < porosity diameter pitch /\ porosity diameter pitch < 1 /\ 0 <= darcy /\ 0 < vhc /\ 0 < pin_htc staggered darcy
    end.
  Definition four_resistor (c : option (chan Q (list Z))) : Prop := exists h l w f la m fl co v t, c = Some (Chan4 h l w f la m fl co v t).
  (** The materials that a layout file declares. *)
  Definition sane_layer (y : layd Q (list Z) (list Z)) : Prop :=
    0 < y_height y /\
    forall p text f, y_layout y = Some p -> fs p = Some text -> read_layout text = Some f -> Forall sane_material (a_materials f).
  Definition sane_content (c : content Q (list Z)) : Prop := match c with Fresh h _ => 0 < h | Declared _ => True end.
  (** The floorplan file of a die: rectangles on the chip; the numbers of powers
      and of coefficients fit their types. *)
  Definition sane_floorplan (d : dims) (p : list Z) : Prop :=
    forall text ds, fs p = Some text -> read_decls text = Some ds ->
      Forall (fun x => Forall (on_chip d) (fd_rects x) /\ (2 * Z.of_nat (List.length (powers_of x)) < two32)%Z) ds /\
      forall els, parse_floorplan_file fuel d text = Ok (Some els) -> (coefficients els < two32)%Z.
  Record sane (q : qfile) (j : project) : Prop := {
    sa_materials : Forall sane_material (fst (s_materials q) :: snd (s_materials q));
    sa_top : forall t, s_top q = Some t -> sane_top t;
    sa_bottom : forall b, s_bottom q = Some b -> 0 < b_htc b;
    sa_channel : forall c, s_channel q = Some c -> sane_channel c;
    sa_chip : 0 < dd_length (s_dims q) /\ 0 < dd_width (s_dims q) /\ 0 < dd_cell_length (s_dims q) /\ 0 < dd_cell_width (s_dims q);
    sa_cells : dd_cell_width (s_dims q) <= dd_width (s_dims q) /\
               (~ four_resistor (s_channel q) -> dd_cell_length (s_dims q) <= dd_length (s_dims q));
    sa_layers : Forall sane_layer (s_layers q);
    sa_dies : Forall (fun i => Forall sane_content (i_above i ++ i_source i :: i_below i)) (fst (s_dies q) :: snd (s_dies q));
    sa_floorplans : forall id n p z, In (EDie id n p z) (fst (s_stack q) :: snd (s_stack q)) -> sane_floorplan (lo_dims (j_loaded j)) p;
    (* counters *)
    sa_few_layers : (Z.of_nat (List.length (stack_heights (lo_channel (j_loaded j)) (x_stack (j_description j)))) < two32)%Z;
    sa_few_cells : (7 * d_ncells (lo_dims (j_loaded j)) < two32)%Z;
    sa_spreader : forall s h m, lo_top (j_loaded j) = Some (SinkPluggable s h m) ->
      (2 * s_border_rows s + d_nrows (lo_dims (j_loaded j)) < two32)%Z /\ (2 * s_border_cols s + d_ncols (lo_dims (j_loaded j)) < two32)%Z;
    sa_fuel : (d_nrows (lo_dims (j_loaded j)) + d_ncols (lo_dims (j_loaded j)) <= Z.of_nat fuel)%Z
  }.
End Sane.

(** The power values that the floorplan files of the stack give to their
    elements, from the bottom of the stack. *)
Definition file_decls (fs : disk) (p : list Z) : list flpdecl :=
  match fs p with Some text => match read_decls text with Some ds => ds | None => [] end | None => [] end.
Definition written_powers (fs : disk) (q : qfile) : list (list Q) :=
  flat_map (fun e => match e with EDie _ _ p _ => map powers_of (file_decls fs p) | _ => [] end) (rev (fst (s_stack q) :: snd (s_stack q))).
