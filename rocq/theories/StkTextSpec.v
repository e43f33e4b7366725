(** * The syntax of stack description files, as the user guide gives it.

    Written independently of the scanner and of the grammar: a file is a list
    of lexemes with gaps (blanks and comments, FlpTextSpec.v) between them. *)
From Coq Require Import ZArith List Bool QArith String Ascii.
From Verif Require Import Base Flex FlpText FlpTextSpec StkScan StkText Inspect.
Import ListNotations.
Local Open Scope string_scope.
Local Open Scope list_scope.

(** ** The lexemes of a declaration, in order *)
Section Lexemes.
  Context {N I P : Type}.
  Notation sym := (sym N I P).
  Definition words (l : list string) : list sym := map SK l.
  Definition mark (c : ascii) : list sym := [SM c].
  (** "words number ;" and "words name ;" *)
  Definition value (l : list string) (n : N) : list sym := words l ++ [SN n; SM ";"].
  Definition named (l : list string) (i : I) : list sym := words l ++ [SI i; SM ";"].
  Definition optional {A} (f : A -> list sym) (o : option A) : list sym := match o with Some a => f a | None => [] end.
  Definition listed {A} (f : A -> list sym) (l : list A) : list sym := flat_map f l.
  Definition several {A} (f : A -> list sym) (l : A * list A) : list sym := f (fst l) ++ flat_map f (snd l).

  Definition material_syntax (m : mat N I) : list sym :=
    [SK "material"; SI (m_id m); SM ":"]
    ++ match m_k m with
       | Isotropic k => value ["thermal"; "conductivity"] k
       | Directional x y z => [SK "thermal"; SK "conductivity"; SN x; SM ","; SN y; SM ","; SN z; SM ";"]
       end
    ++ value ["volumetric"; "heat"; "capacity"] (m_vhc m).
  Definition top_syntax (t : topsink N I P) : list sym :=
    match t with
    | Convective h a =>
      words ["top"; "heat"; "sink"] ++ mark ":" ++ value ["heat"; "transfer"; "coefficient"] h ++ value ["temperature"] a
    | Pluggable l w h m p args =>
      words ["top"; "pluggable"; "heat"; "sink"] ++ mark ":"
      ++ [SK "spreader"; SK "length"; SN l; SM ","; SK "width"; SN w; SM ","; SK "height"; SN h; SM ";"]
      ++ named ["material"] m ++ [SK "plugin"; SP p] ++ optional (fun a => [SM ","; SP a]) args ++ mark ";"
    end.
  Definition bottom_syntax (b : botsink N) : list sym :=
    words ["bottom"; "heat"; "sink"] ++ mark ":" ++ value ["heat"; "transfer"; "coefficient"] (b_htc b)
    ++ value ["temperature"] (b_temperature b).
  Definition coolant_syntax (vhc tin : N) : list sym :=
    value ["coolant"; "volumetric"; "heat"; "capacity"] vhc ++ value ["coolant"; "incoming"; "temperature"] tin.
  Definition coefficient : list string := ["coolant"; "heat"; "transfer"; "coefficient"].
  Definition channel_syntax (c : chan N I) : list sym :=
    match c with
    | Chan4 h c w first last m flow k vhc tin =>
      words ["microchannel"; "4rm"] ++ mark ":" ++ value ["height"] h ++ value ["channel"; "length"] c ++ value ["wall"; "length"] w
      ++ optional (value ["first"; "wall"; "length"]) first ++ optional (value ["last"; "wall"; "length"]) last
      ++ named ["wall"; "material"] m ++ value ["coolant"; "flow"; "rate"] flow
      ++ match k with
         | Same4 h => value coefficient h
         | Each4 s t b => words coefficient ++ [SK "side"; SN s; SM ","; SK "top"; SN t; SM ","; SK "bottom"; SN b; SM ";"]
         end
      ++ coolant_syntax vhc tin
    | Chan2 h c w m flow k vhc tin =>
      words ["microchannel"; "2rm"] ++ mark ":" ++ value ["height"] h ++ value ["channel"; "length"] c ++ value ["wall"; "length"] w
      ++ named ["wall"; "material"] m ++ value ["coolant"; "flow"; "rate"] flow
      ++ match k with
         | Same2 h => value coefficient h
         | Each2 t b => words coefficient ++ [SK "top"; SN t; SM ","; SK "bottom"; SN b; SM ";"]
         end
      ++ coolant_syntax vhc tin
    | Pins h d p staggered m darcy vhc tin =>
      words ["pinfin"] ++ mark ":" ++ value ["height"] h ++ value ["pin"; "diameter"] d ++ value ["pin"; "pitch"] p
      ++ words ["pin"; "distribution"; if staggered then "staggered" else "inline"] ++ mark ";"
      ++ named ["pin"; "material"] m ++ value ["darcy"; "velocity"] darcy ++ coolant_syntax vhc tin
    end.
  Definition dims_syntax (d : dimd N) : list sym :=
    words ["dimensions"] ++ mark ":"
    ++ [SK "chip"; SK "length"; SN (dd_length d); SM ","; SK "width"; SN (dd_width d); SM ";"]
    ++ [SK "cell"; SK "length"; SN (dd_cell_length d); SM ","; SK "width"; SN (dd_cell_width d); SM ";"]
    ++ optional (fun b : bool => words ["non-uniform"; if b then "true" else "false"] ++ mark ";") (dd_nonuniform d).
  Definition layer_syntax (y : layd N I P) : list sym :=
    [SK "layer"; SI (y_id y); SM ":"] ++ value ["height"] (y_height y) ++ named ["material"] (y_material y)
    ++ optional (fun p => [SK "layout"; SP p; SM ";"]) (y_layout y).
  Definition content_syntax (c : content N I) : list sym :=
    match c with Fresh h m => [SN h; SI m; SM ";"] | Declared l => [SI l; SM ";"] end.
  Definition die_syntax (d : died N I) : list sym :=
    [SK "die"; SI (i_id d); SM ":"] ++ listed (fun c => words ["layer"] ++ content_syntax c) (i_above d)
    ++ words ["source"] ++ content_syntax (i_source d)
    ++ listed (fun c => words ["layer"] ++ content_syntax c) (i_below d).
  Definition discr_syntax (xy : N * N) : list sym := [SK "discretization"; SN (fst xy); SN (snd xy)].
  Definition element_syntax (e : eld N I P) : list sym :=
    match e with
    | ELayer id l d => [SK "layer"; SI id; SI l] ++ optional discr_syntax d ++ mark ";"
    | EChannel id => named ["channel"] id
    | EDie id l p d => [SK "die"; SI id; SI l; SK "floorplan"; SP p] ++ optional discr_syntax d ++ mark ";"
    end.
  Definition solver_syntax (s : solverd N) : list sym :=
    words ["solver"] ++ mark ":"
    ++ match v_analysis s with
       | Steady => words ["steady"] ++ mark ";"
       | Transient step slot => [SK "transient"; SK "step"; SN step; SM ","; SK "slot"; SN slot; SM ";"]
       end
    ++ value ["initial"; "temperature"] (v_initial s) ++ optional (value ["numofcores"]) (v_cores s).
  Definition instant_name (i : output_instant) : string :=
    match i with OI_STEP => "step" | OI_SLOT => "slot" | _ => "final" end.
  Definition quantity_name (q : output_quantity) : string :=
    match q with OQ_MAXIMUM => "maximum" | OQ_MINIMUM => "minimum" | OQ_AVERAGE => "average" | _ => "gradient" end.
  (** ", instant ) ;" *)
  Definition point_end (w : option output_instant) : list sym :=
    optional (fun i => [SM ","; SK (instant_name i)]) w ++ [SM ")"; SM ";"].
  Definition point_syntax (p : pointd N I P) : list sym :=
    match p with
    | PT id x y f w => [SK "T"; SM "("; SI id; SM ","; SN x; SM ","; SN y; SM ","; SP f] ++ point_end w
    | PTflp id f q w => [SK "Tflp"; SM "("; SI id; SM ","; SP f; SM ","; SK (quantity_name q)] ++ point_end w
    | PTflpel id e f q w =>
      [SK "Tflpel"; SM "("; SI id; SM "."; SI e; SM ","; SP f; SM ","; SK (quantity_name q)] ++ point_end w
    | PTmap id f w => [SK "Tmap"; SM "("; SI id; SM ","; SP f] ++ point_end w
    | PT3d f w => [SK "T3d"; SM "("; SP f] ++ point_end w
    | PPmap id f w => [SK "Pmap"; SM "("; SI id; SM ","; SP f] ++ point_end w
    | PTcoolant id f q w => [SK "Tcoolant"; SM "("; SI id; SM ","; SP f; SM ","; SK (quantity_name q)] ++ point_end w
    end.
  (** The sections, in order. *)
  Definition file_syntax (f : stkfile N I P) : list sym :=
    several material_syntax (s_materials f)
    ++ optional top_syntax (s_top f) ++ optional bottom_syntax (s_bottom f)
    ++ optional channel_syntax (s_channel f)
    ++ dims_syntax (s_dims f)
    ++ listed layer_syntax (s_layers f)
    ++ several die_syntax (s_dies f)
    ++ words ["stack"] ++ mark ":" ++ several element_syntax (s_stack f)
    ++ solver_syntax (s_solver f)
    ++ optional (fun l => words ["output"] ++ mark ":" ++ several point_syntax l) (s_output f).
  (** The instants and quantities a file can name. *)
  Definition instant_ok (w : option output_instant) : Prop := w <> Some OI_NONE.
  Definition point_ok (p : pointd N I P) : Prop :=
    match p with
    | PT _ _ _ _ w | PTmap _ _ w | PT3d _ w | PPmap _ _ w => instant_ok w
    | PTflp _ _ q w | PTflpel _ _ _ q w | PTcoolant _ _ q w => instant_ok w /\ q <> OQ_NONE
    end.
  Definition file_ok (f : stkfile N I P) : Prop :=
    match s_output f with Some (p, l) => Forall point_ok (p :: l) | None => True end.
End Lexemes.

(** ** Lexemes and texts *)
Definition lexm := sym numeral chars chars.
Definition lexm_text (x : lexm) : chars :=
  match x with
  | SK k => str k | SM c => [c] | SN n => numeral_text n | SI w => w
  | SP p => ["034"%char] ++ p ++ ["034"%char]
  end.
(** Names: a letter, then letters, digits and underscores; not a keyword. *)
Definition a_name (kws : list string) (w : chars) : Prop :=
  (exists c r, w = c :: r /\ letter c /\ Forall letter_digit r) /\ ~ In w (map str kws).
Definition lexm_ok (kws : list string) (x : lexm) : Prop :=
  match x with SK _ | SM _ => True | SN n => numeral_ok n | SI w => a_name kws w | SP p => ~ In "034"%char p end.
(** The reserved words of stack description files. *)
Definition reserved : list string :=
  ["material"; "thermal"; "conductivity"; "volumetric"; "heat"; "capacity";
   "top"; "bottom"; "sink"; "transfer"; "coefficient"; "temperature"; "pluggable"; "spreader"; "length"; "width"; "height"; "plugin";
   "microchannel"; "4rm"; "2rm"; "channel"; "wall"; "first"; "last"; "coolant"; "flow"; "rate"; "side"; "incoming";
   "pinfin"; "pin"; "diameter"; "pitch"; "distribution"; "inline"; "staggered"; "darcy"; "velocity";
   "dimensions"; "chip"; "cell"; "non-uniform"; "true"; "false"; "layer"; "layout"; "die"; "source"; "stack"; "floorplan"; "discretization";
   "solver"; "steady"; "transient"; "step"; "slot"; "initial"; "numofcores";
   "output"; "T"; "Tflp"; "Tflpel"; "Tmap"; "T3d"; "Pmap"; "Tcoolant"; "maximum"; "minimum"; "average"; "gradient"; "final";
   "state"; "to"].
(** What lexemes say. *)
Definition map_sym {N I P N' I' P'} (f : N -> N') (g : I -> I') (h : P -> P') (x : sym N I P) : sym N' I' P' :=
  match x with SK k => SK k | SM c => SM c | SN n => SN (f n) | SI i => SI (g i) | SP p => SP (h p) end.
Definition lexm_value : lexm -> stok := map_sym numeral_value name_codes name_codes.

Fixpoint spelling (l : list (gap * lexm)) : chars :=
  match l with [] => [] | (g, x) :: r => gap_text g ++ lexm_text x ++ spelling r end.
(** Two lexemes with nothing between them: marks and paths need no gap, except
    that a point after a numeral does. *)
Definition touching (x y : lexm) : Prop :=
  match x with
  | SM _ | SP _ => True
  | SN _ => match y with SM c => c <> "."%char | SP _ => True | _ => False end
  | SK _ | SI _ => match y with SM _ | SP _ => True | _ => False end
  end.
Fixpoint apart (l : list (gap * lexm)) : Prop :=
  match l with
  | (_, x) :: (((g, y) :: _) as r) => (touching x y \/ g <> []) /\ apart r
  | _ => True
  end.
(** A text that spells the lexemes. *)
Definition written (xs : list lexm) (text : chars) : Prop :=
  exists l e, text = spelling l ++ ending_text e /\ map snd l = xs /\ Forall gap_ok (map fst l) /\ apart l /\ ending_ok e.
(** Any characters before each lexeme. *)
Fixpoint junked (l : list (chars * lexm)) : chars :=
  match l with [] => [] | (j, x) :: r => j ++ lexm_text x ++ junked r end.

(** ** What a declaration says: numbers instead of numerals, codes instead of characters *)
Section Map.
  Context {N I P N' I' P' : Type}.
  Variables (f : N -> N') (g : I -> I') (h : P -> P').
  Definition map_pair {A B C D} (f : A -> C) (g : B -> D) (x : A * B) : C * D := (f (fst x), g (snd x)).
  Definition map_conductivity (k : conductivity N) : conductivity N' :=
    match k with Isotropic k => Isotropic (f k) | Directional x y z => Directional (f x) (f y) (f z) end.
  Definition map_mat (m : mat N I) : mat N' I' := mkMat (g (m_id m)) (map_conductivity (m_k m)) (f (m_vhc m)).
  Definition map_top (t : topsink N I P) : topsink N' I' P' :=
    match t with
    | Convective a b => Convective (f a) (f b)
    | Pluggable a b c m p o => Pluggable (f a) (f b) (f c) (g m) (h p) (option_map h o)
    end.
  Definition map_bot (b : botsink N) : botsink N' := mkBot (f (b_htc b)) (f (b_temperature b)).
  Definition map_chan (c : chan N I) : chan N' I' :=
    match c with
    | Chan4 a b c o p m r k v t =>
      Chan4 (f a) (f b) (f c) (option_map f o) (option_map f p) (g m) (f r)
        (match k with Same4 a => Same4 (f a) | Each4 a b c => Each4 (f a) (f b) (f c) end) (f v) (f t)
    | Chan2 a b c m r k v t =>
      Chan2 (f a) (f b) (f c) (g m) (f r) (match k with Same2 a => Same2 (f a) | Each2 a b => Each2 (f a) (f b) end) (f v) (f t)
    | Pins a b c s m r v t => Pins (f a) (f b) (f c) s (g m) (f r) (f v) (f t)
    end.
  Definition map_dim (d : dimd N) : dimd N' :=
    mkDimd (f (dd_length d)) (f (dd_width d)) (f (dd_cell_length d)) (f (dd_cell_width d)) (dd_nonuniform d).
  Definition map_lay (y : layd N I P) : layd N' I' P' :=
    mkLayd (g (y_id y)) (f (y_height y)) (g (y_material y)) (option_map h (y_layout y)).
  Definition map_content (c : content N I) : content N' I' :=
    match c with Fresh a m => Fresh (f a) (g m) | Declared l => Declared (g l) end.
  Definition map_die (d : died N I) : died N' I' :=
    mkDied (g (i_id d)) (map map_content (i_above d)) (map_content (i_source d)) (map map_content (i_below d)).
  Definition map_element (e : eld N I P) : eld N' I' P' :=
    match e with
    | ELayer i l d => ELayer (g i) (g l) (option_map (map_pair f f) d)
    | EChannel i => EChannel (g i)
    | EDie i l p d => EDie (g i) (g l) (h p) (option_map (map_pair f f) d)
    end.
  Definition map_solver (s : solverd N) : solverd N' :=
    mkSolverd (match v_analysis s with Steady => Steady | Transient a b => Transient (f a) (f b) end) (f (v_initial s))
              (option_map f (v_cores s)).
  Definition map_point (p : pointd N I P) : pointd N' I' P' :=
    match p with
    | PT i x y p w => PT (g i) (f x) (f y) (h p) w
    | PTflp i p q w => PTflp (g i) (h p) q w
    | PTflpel i e p q w => PTflpel (g i) (g e) (h p) q w
    | PTmap i p w => PTmap (g i) (h p) w
    | PT3d p w => PT3d (h p) w
    | PPmap i p w => PPmap (g i) (h p) w
    | PTcoolant i p q w => PTcoolant (g i) (h p) q w
    end.
  Definition map_file (s : stkfile N I P) : stkfile N' I' P' :=
    mkStkfile (map_pair map_mat (map map_mat) (s_materials s)) (option_map map_top (s_top s)) (option_map map_bot (s_bottom s))
      (option_map map_chan (s_channel s)) (map_dim (s_dims s)) (map map_lay (s_layers s))
      (map_pair map_die (map map_die) (s_dies s)) (map_pair map_element (map map_element) (s_stack s))
      (map_solver (s_solver s)) (option_map (map_pair map_point (map map_point)) (s_output s)).
End Map.
Definition file_value : stkfile numeral chars chars -> qfile := map_file numeral_value name_codes name_codes.

(** A stack description file. *)
Record describes (f : stkfile numeral chars chars) (text : chars) : Prop := {
  de_ok : file_ok f;
  de_lexemes : Forall (lexm_ok reserved) (file_syntax f);
  de_text : written (file_syntax f) text
}.
