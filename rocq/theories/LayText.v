(** * Model of layout files: /repo/bison/layout_parser.y 130-499 (the scanner is
      [lay_tokens], StkScan.v), /repo/sources/layout_file_parser.c 57-95 and
      fill_layout, /repo/sources/layer.c 165-182. *)
From Coq Require Import ZArith List Bool QArith String Ascii.
From Verif Require Import Base Flex FlpText Vtk Dims Floorplan Stack StkScan StkText.
Import ListNotations.
Local Open Scope string_scope.
Local Open Scope list_scope.

(** ** Grammar *)
Section Syntax.
  Variables N I : Type.
  (** x, y, length, width *)
  Definition rectd : Type := N * N * N * N.
  (** layout_elements 396-440: "position x, y ; dimension l, w ;" or a list of
      "rectangle (x, y, l, w) ;" *)
  Inductive shaped_ := Position (r : rectd) | Rectangles (r : rectd) (l : list rectd).
  (** layout, 262-394 *)
  Record layoutd := mkLayoutd { o_material : I; o_shape : shaped_ }.
  (** layout_file 134-150 *)
  Record layfile := mkLayfile { a_materials : list (mat N I); a_layouts : layoutd * list layoutd }.
End Syntax.
Arguments Position {N}. Arguments Rectangles {N}. Arguments mkLayoutd {N I}. Arguments o_material {N I}. Arguments o_shape {N I}.
Arguments mkLayfile {N I}. Arguments a_materials {N I}. Arguments a_layouts {N I}.
Definition qlayoutd := layoutd Q (list Z). Definition qlayfile := layfile Q (list Z).

Definition p_rect : parser (rectd Q) :=
  kw "rectangle" ;; mk "(" ;; let* x := num in mk "," ;; let* y := num in mk "," ;; let* l := num in mk "," ;; let* w := num in
  mk ")" ;; mk ";" ;; ret (x, y, l, w).
Definition p_position : parser (rectd Q) :=
  kw "position" ;; let* x := num in mk "," ;; let* y := num in mk ";" ;;
  kw "dimension" ;; let* l := num in mk "," ;; let* w := num in mk ";" ;; ret (x, y, l, w).
Definition p_shape : parser (shaped_ Q) :=
  alt (let* r := p_position in ret (Position r)) (let* l := some p_rect in ret (Rectangles (fst l) (snd l))).
Definition p_layout : parser qlayoutd :=
  let* i := name in mk ":" ;; let* s := p_shape in ret (mkLayoutd i s).
Definition p_layfile : parser qlayfile :=
  let* m := many p_material in let* l := some p_layout in ret (mkLayfile m l).
Definition parse_layout_tokens (ts : list stok) : option qlayfile :=
  match p_layfile ts with Some (f, []) => Some f | _ => None end.
Definition read_layout (s : chars) : option qlayfile := parse_layout_tokens (lay_tokens s).
(** layout_elements_list: the rectangles in order. *)
Definition rects_of {N} (s : shaped_ N) : list (rectd N) := match s with Position r => [r] | Rectangles r l => r :: l end.

(** ** Actions *)
(** sprintf (error_message, ...) writes past the end of an array of [size]
    characters when the text and its NUL do not fit. *)
Definition message {A} (size : Z) (text : chars) (k : outcome A) : outcome A :=
  if (Z.of_nat (List.length text) <? size)%Z then k else UB.
Definition chars_of (l : list Z) : chars := map (fun z => ascii_of_nat (Z.to_nat z)) l.
(** A list of materials: identifier and properties. *)
Definition materials := list (list Z * material).
(** material 201-258 and stack_description_parser.y 270-323: one conductivity is for the three directions. *)
Definition material_of (m : qmat) : list Z * material :=
  (m_id m, match m_k m with Isotropic k => mkMaterial (m_vhc m) k k k | Directional x y z => mkMaterial (m_vhc m) x y z end).
(** material_list_find: the first with the same identifier. *)
Fixpoint lookup {A} (id : list Z) (l : list (list Z * A)) : option A :=
  match l with [] => None | (i, a) :: r => if same_string i id then Some a else lookup id r end.
Definition layout_size : Z := 250.
(** materials_list 162-199: [None] when an identifier is declared twice. [say]: the
    message, [size]: of the array it is printed in. *)
Fixpoint declare {A} (size : Z) (say : list Z -> chars) (ms : list (list Z * A)) (acc : list (list Z * A)) : outcome (option (list (list Z * A))) :=
  match ms with
  | [] => Ok (Some acc)
  | (i, a) :: r =>
    match lookup i acc with
    | Some _ => message size (say i) (Ok None)
    | None => declare size say r (acc ++ [(i, a)])
    end
  end.
Definition material_twice (i : list Z) : chars := str "Material " ++ chars_of i ++ str " already declared".
(** layout_elements 396-440: the rectangles; [true]: one of them is outside, 414, 466. *)
Fixpoint place (fuel : nat) (d : dims) (rs : list (rectd Q)) : outcome (list icel * bool) :=
  match rs with
  | [] => Ok ([], false)
  | (x, y, l, w) :: r =>
    do a <- align_to_grid fuel (mkIcel x y l w 0 0 0 0) d ;
    do t <- place fuel d r ;
    Ok (a :: fst t, check_location a d || snd t)
  end.
(** 332-340, 366-374: the message of an intersection. *)
Definition rect_text (id : list Z) (a : icel) : chars :=
  chars_of id ++ str " (" ++ str (fixed 1 (ic_x a)) ++ str ", " ++ str (fixed 1 (ic_y a)) ++ str ", " ++ str (fixed 1 (ic_len a)) ++ str ", "
  ++ str (fixed 1 (ic_wid a)) ++ str ")".
Definition clash_text (i : list Z) (a : icel) (j : list Z) (b : icel) : chars :=
  str "Intersection between " ++ rect_text i a ++ str " and " ++ rect_text j b ++ [newline].
Fixpoint clashes (i : list Z) (a : icel) (l : list (list Z * icel)) : outcome bool :=
  match l with
  | [] => Ok false
  | (j, b) :: r =>
    if check_intersection a b then message layout_size (clash_text i a j b) (do _ <- clashes i a r ; Ok true) else clashes i a r
  end.
(** The loops 318-392: each rectangle against the others of the same layout
    (check_intersection is false of a rectangle and itself) and against those of
    the layouts before. *)
Fixpoint all_clashes (i : list Z) (before after : list icel) (previous : list (list Z * icel)) : outcome bool :=
  match after with
  | [] => Ok false
  | a :: r =>
    do x <- clashes i a (map (pair i) (before ++ r) ++ previous) ;
    do y <- all_clashes i (before ++ [a]) r previous ;
    Ok (x || y)
  end.
(** The parser while it reads the layouts: local materials (destroyed by the first
    error, 490-494), the layouts of the layer, and local_abort. *)
Record laystate := mkLaystate { t_local : materials; t_done : list (list Z * (list icel * material)); t_abort : bool }.
Definition done_rects (l : list (list Z * (list icel * material))) : list (list Z * icel) :=
  flat_map (fun x => map (pair (fst x)) (fst (snd x))) l.
Definition unknown_material (i : list Z) : chars := str "Unknown material " ++ chars_of i.
Definition layout_twice (i : list Z) : chars := str "Layout element " ++ chars_of i ++ str " already declared".
(** layout 262-394 and layouts_list 237-260; [None]: YYABORT. *)
Definition add_layout (fuel : nat) (d : dims) (globals : materials) (s : laystate) (o : qlayoutd) : outcome (option laystate) :=
  do r <- place fuel d (rects_of (o_shape o)) ;
  let local := if snd r then [] else t_local s in
  let id := o_material o in
  match (match lookup id local with Some m => Some m | None => lookup id globals end) with
  | None => message layout_size (unknown_material id) (Ok None)
  | Some m =>
    do c <- all_clashes id [] (fst r) (done_rects (t_done s)) ;
    match lookup id (t_done s) with
    | Some _ => message layout_size (layout_twice id) (Ok None)
    | None => Ok (Some (mkLaystate (if c then [] else local) (t_done s ++ [(id, (fst r, m))]) (t_abort s || snd r || c)))
    end
  end.
Fixpoint add_layouts (fuel : nat) (d : dims) (globals : materials) (s : laystate) (l : list qlayoutd) : outcome (option laystate) :=
  match l with
  | [] => Ok (Some s)
  | o :: r =>
    do x <- add_layout fuel d globals s o ;
    match x with Some s => add_layouts fuel d globals s r | None => Ok None end
  end.
(** layout_file 134-150 *)
Definition layout_actions (fuel : nat) (d : dims) (globals : materials) (f : qlayfile) : outcome (option (list (list icel * material))) :=
  do m <- declare layout_size material_twice (map material_of (a_materials f)) [] ;
  match m with
  | None => Ok None
  | Some m =>
    do s <- add_layouts fuel d globals (mkLaystate m [] false) (fst (a_layouts f) :: snd (a_layouts f)) ;
    Ok (match s with Some s => if t_abort s then None else Some (map snd (t_done s)) | None => None end)
  end.
(** parse_layout_file and fill_layout. The file exists. Actions run before a
    syntax error are left out. *)
Definition parse_layout_file (fuel : nat) (d : dims) (globals : materials) (text : chars) : outcome (option (list (list icel * material))) :=
  match read_layout text with None => Ok None | Some f => layout_actions fuel d globals f end.
