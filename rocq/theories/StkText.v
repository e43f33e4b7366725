(** * Model of the grammar of stack description files:
      /repo/bison/stack_description_parser.y, rules section (233-2350).

    The LALR parser generated by bison is a recursive descent on the same
    grammar (that the grammar is the one of the rules is C71_grammar: the
    descent accepts exactly the token sequences [file_syntax] of StkTextSpec.v).
    The semantic actions are in StkLoad.v. *)
From Coq Require Import ZArith List Bool QArith String Ascii.
From Verif Require Import Base Flex StkScan Inspect.
Import ListNotations.
Local Open Scope string_scope.
Local Open Scope list_scope.

(** ** What a file declares. [N]: numbers, [I]: identifiers, [P]: paths. *)
Section Syntax.
  Variables N I P : Type.
  (** material, 270-323 *)
  Inductive conductivity := Isotropic (k : N) | Directional (x y z : N).
  Record mat := mkMat { m_id : I; m_k : conductivity; m_vhc : N }.
  (** topsink, topsink_pluggable, 346-480 *)
  Inductive topsink :=
  | Convective (htc temperature : N)
  | Pluggable (length width height : N) (material : I) (plugin : P) (args : option P).
  (** bottomsink, 373-392 *)
  Record botsink := mkBot { b_htc : N; b_temperature : N }.
  (** microchannel_opt, 500-690, and the coefficients, 692-725 *)
  Inductive coef4 := Same4 (h : N) | Each4 (side top bottom : N).
  Inductive coef2 := Same2 (h : N) | Each2 (top bottom : N).
  Inductive chan :=
  | Chan4 (height channel wall : N) (first last : option N) (material : I) (flow : N) (h : coef4) (vhc tin : N)
  | Chan2 (height channel wall : N) (material : I) (flow : N) (h : coef2) (vhc tin : N)
  | Pins (height diameter pitch : N) (staggered : bool) (material : I) (darcy vhc tin : N).
  (** dimensions, 1062-1165 *)
  Record dimd := mkDimd { dd_length : N; dd_width : N; dd_cell_length : N; dd_cell_width : N; dd_nonuniform : option bool }.
  (** layer, 780-868 *)
  Record layd := mkLayd { y_id : I; y_height : N; y_material : I; y_layout : option P }.
  (** die_layer_content, 912-975; die, 1005-1060 *)
  Inductive content := Fresh (height : N) (material : I) | Declared (layer : I).
  Record died := mkDied { i_id : I; i_above : list content; i_source : content; i_below : list content }.
  (** stack_element, 1404-1720 *)
  Inductive eld :=
  | ELayer (id layer : I) (discretization : option (N * N))
  | EChannel (id : I)
  | EDie (id die : I) (floorplan : P) (discretization : option (N * N)).
  (** solver, 1727-1810 *)
  Inductive analysisd := Steady | Transient (step slot : N).
  Record solverd := mkSolverd { v_analysis : analysisd; v_initial : N; v_cores : option N }.
  (** inspection_point, 1850-2310; maxminavg and when, 2312-2330. [None]: no instant. *)
  Inductive pointd :=
  | PT (id : I) (x y : N) (file : P) (w : option output_instant)
  | PTflp (id : I) (file : P) (q : output_quantity) (w : option output_instant)
  | PTflpel (id element : I) (file : P) (q : output_quantity) (w : option output_instant)
  | PTmap (id : I) (file : P) (w : option output_instant)
  | PT3d (file : P) (w : option output_instant)
  | PPmap (id : I) (file : P) (w : option output_instant)
  | PTcoolant (id : I) (file : P) (q : output_quantity) (w : option output_instant).
  (** stack_description_file, 233-245. Lists with a first element are not empty. *)
  Record stkfile := mkStkfile {
    s_materials : mat * list mat;
    s_top : option topsink; s_bottom : option botsink;
    s_channel : option chan;
    s_dims : dimd;
    s_layers : list layd;
    s_dies : died * list died;
    s_stack : eld * list eld;
    s_solver : solverd;
    s_output : option (pointd * list pointd)
  }.
End Syntax.
Arguments Isotropic {N}. Arguments Directional {N}. Arguments mkMat {N I}. Arguments m_id {N I}. Arguments m_k {N I}. Arguments m_vhc {N I}.
Arguments Convective {N I P}. Arguments Pluggable {N I P}. Arguments mkBot {N}. Arguments b_htc {N}. Arguments b_temperature {N}.
Arguments Same4 {N}. Arguments Each4 {N}. Arguments Same2 {N}. Arguments Each2 {N}.
Arguments Chan4 {N I}. Arguments Chan2 {N I}. Arguments Pins {N I}.
Arguments mkDimd {N}. Arguments dd_length {N}. Arguments dd_width {N}. Arguments dd_cell_length {N}. Arguments dd_cell_width {N}.
Arguments dd_nonuniform {N}. Arguments mkLayd {N I P}. Arguments y_id {N I P}. Arguments y_height {N I P}. Arguments y_material {N I P}.
Arguments y_layout {N I P}. Arguments Fresh {N I}. Arguments Declared {N I}.
Arguments mkDied {N I}. Arguments i_id {N I}. Arguments i_above {N I}. Arguments i_source {N I}. Arguments i_below {N I}.
Arguments ELayer {N I P}. Arguments EChannel {N I P}. Arguments EDie {N I P}.
Arguments Steady {N}. Arguments Transient {N}. Arguments mkSolverd {N}. Arguments v_analysis {N}. Arguments v_initial {N}. Arguments v_cores {N}.
Arguments PT {N I P}. Arguments PTflp {N I P}. Arguments PTflpel {N I P}. Arguments PTmap {N I P}. Arguments PT3d {N I P}.
Arguments PPmap {N I P}. Arguments PTcoolant {N I P}.
Arguments mkStkfile {N I P}. Arguments s_materials {N I P}. Arguments s_top {N I P}. Arguments s_bottom {N I P}. Arguments s_channel {N I P}.
Arguments s_dims {N I P}. Arguments s_layers {N I P}. Arguments s_dies {N I P}. Arguments s_stack {N I P}. Arguments s_solver {N I P}.
Arguments s_output {N I P}.

(** ** Recursive descent *)
Definition parser (A : Type) := list stok -> option (A * list stok).
Definition ret {A} (a : A) : parser A := fun ts => Some (a, ts).
Definition pbind {A B} (p : parser A) (f : A -> parser B) : parser B :=
  fun ts => match p ts with Some (a, r) => f a r | None => None end.
Notation "'let*' x ':=' p 'in' q" := (pbind p (fun x => q)) (at level 200, x name, q at level 200).
Notation "p ;; q" := (pbind p (fun _ => q)) (at level 199, right associativity).
(** The first that succeeds. *)
Definition alt {A} (p q : parser A) : parser A := fun ts => match p ts with Some x => Some x | None => q ts end.
Definition maybe {A} (p : parser A) : parser (option A) := alt (let* a := p in ret (Some a)) (ret None).
Fixpoint many_ {A} (fuel : nat) (p : parser A) : parser (list A) := fun ts =>
  match p ts with
  | Some (a, r) => match fuel with O => None | S f => match many_ f p r with Some (l, r) => Some (a :: l, r) | None => None end end
  | None => Some ([], ts)
  end.
(** As many as there are. *)
Definition many {A} (p : parser A) : parser (list A) := fun ts => many_ (List.length ts) p ts.
Definition some {A} (p : parser A) : parser (A * list A) := let* a := p in let* l := many p in ret (a, l).

(** Tokens. *)
Definition kw (k : string) : parser unit := fun ts =>
  match ts with SK k' :: r => if String.eqb k k' then Some (tt, r) else None | _ => None end.
Fixpoint kws (l : list string) : parser unit := match l with [] => ret tt | k :: l => kw k ;; kws l end.
Definition mk (c : ascii) : parser unit := fun ts =>
  match ts with SM c' :: r => if Ascii.eqb c c' then Some (tt, r) else None | _ => None end.
Definition num : parser Q := fun ts => match ts with SN q :: r => Some (q, r) | _ => None end.
Definition name : parser (list Z) := fun ts => match ts with SI i :: r => Some (i, r) | _ => None end.
Definition path : parser (list Z) := fun ts => match ts with SP p :: r => Some (p, r) | _ => None end.
(** keywords DVALUE ';' and keywords IDENTIFIER ';' *)
Definition num_of (l : list string) : parser Q := kws l ;; let* q := num in mk ";" ;; ret q.
Definition name_of (l : list string) : parser (list Z) := kws l ;; let* i := name in mk ";" ;; ret i.

Definition qmat := mat Q (list Z). Definition qtopsink := topsink Q (list Z) (list Z). Definition qchan := chan Q (list Z).
Definition qlayd := layd Q (list Z) (list Z). Definition qcontent := content Q (list Z). Definition qdied := died Q (list Z).
Definition qeld := eld Q (list Z) (list Z). Definition qpointd := pointd Q (list Z) (list Z). Definition qfile := stkfile Q (list Z) (list Z).

(** material, 270-323 *)
Definition p_material : parser qmat :=
  kw "material" ;; let* id := name in mk ":" ;;
  kws ["thermal"; "conductivity"] ;; let* x := num in
  let* k := alt (mk ";" ;; ret (Isotropic x))
                (mk "," ;; let* y := num in mk "," ;; let* z := num in mk ";" ;; ret (Directional x y z)) in
  let* c := num_of ["volumetric"; "heat"; "capacity"] in ret (mkMat id k c).

(** heatsink_opt, 328-480 *)
Definition p_top : parser qtopsink :=
  alt (kws ["top"; "heat"; "sink"] ;; mk ":" ;; let* h := num_of ["heat"; "transfer"; "coefficient"] in
       let* t := num_of ["temperature"] in ret (Convective h t))
      (kws ["top"; "pluggable"; "heat"; "sink"] ;; mk ":" ;;
       kws ["spreader"; "length"] ;; let* l := num in mk "," ;; kw "width" ;; let* w := num in mk "," ;;
       kw "height" ;; let* h := num in mk ";" ;;
       let* m := name_of ["material"] in kw "plugin" ;; let* p := path in
       let* a := maybe (mk "," ;; path) in mk ";" ;; ret (Pluggable l w h m p a)).
Definition p_bottom : parser (botsink Q) :=
  kws ["bottom"; "heat"; "sink"] ;; mk ":" ;; let* h := num_of ["heat"; "transfer"; "coefficient"] in
  let* t := num_of ["temperature"] in ret (mkBot h t).

(** microchannel_opt, 500-725 *)
Definition p_coef4 : parser (coef4 Q) :=
  kws ["coolant"; "heat"; "transfer"; "coefficient"] ;;
  alt (let* h := num in mk ";" ;; ret (Same4 h))
      (kw "side" ;; let* s := num in mk "," ;; kw "top" ;; let* t := num in mk "," ;; kw "bottom" ;; let* b := num in mk ";" ;;
       ret (Each4 s t b)).
Definition p_coef2 : parser (coef2 Q) :=
  kws ["coolant"; "heat"; "transfer"; "coefficient"] ;;
  alt (let* h := num in mk ";" ;; ret (Same2 h))
      (kw "top" ;; let* t := num in mk "," ;; kw "bottom" ;; let* b := num in mk ";" ;; ret (Each2 t b)).
Definition p_chan4 : parser qchan :=
  kws ["microchannel"; "4rm"] ;; mk ":" ;;
  let* h := num_of ["height"] in let* c := num_of ["channel"; "length"] in let* w := num_of ["wall"; "length"] in
  let* f := maybe (num_of ["first"; "wall"; "length"]) in let* l := maybe (num_of ["last"; "wall"; "length"]) in
  let* m := name_of ["wall"; "material"] in let* r := num_of ["coolant"; "flow"; "rate"] in
  let* k := p_coef4 in
  let* v := num_of ["coolant"; "volumetric"; "heat"; "capacity"] in let* t := num_of ["coolant"; "incoming"; "temperature"] in
  ret (Chan4 h c w f l m r k v t).
Definition p_chan2 : parser qchan :=
  kws ["microchannel"; "2rm"] ;; mk ":" ;;
  let* h := num_of ["height"] in let* c := num_of ["channel"; "length"] in let* w := num_of ["wall"; "length"] in
  let* m := name_of ["wall"; "material"] in let* r := num_of ["coolant"; "flow"; "rate"] in
  let* k := p_coef2 in
  let* v := num_of ["coolant"; "volumetric"; "heat"; "capacity"] in let* t := num_of ["coolant"; "incoming"; "temperature"] in
  ret (Chan2 h c w m r k v t).
Definition p_pins : parser qchan :=
  kw "pinfin" ;; mk ":" ;;
  let* h := num_of ["height"] in let* d := num_of ["pin"; "diameter"] in let* p := num_of ["pin"; "pitch"] in
  kws ["pin"; "distribution"] ;; let* s := alt (kw "inline" ;; ret false) (kw "staggered" ;; ret true) in mk ";" ;;
  let* m := name_of ["pin"; "material"] in let* u := num_of ["darcy"; "velocity"] in
  let* v := num_of ["coolant"; "volumetric"; "heat"; "capacity"] in let* t := num_of ["coolant"; "incoming"; "temperature"] in
  ret (Pins h d p s m u v t).
Definition p_channel : parser qchan := alt p_chan4 (alt p_chan2 p_pins).

(** dimensions, 1062-1178 *)
Definition p_dims : parser (dimd Q) :=
  kw "dimensions" ;; mk ":" ;;
  kws ["chip"; "length"] ;; let* a := num in mk "," ;; kw "width" ;; let* b := num in mk ";" ;;
  kws ["cell"; "length"] ;; let* c := num in mk "," ;; kw "width" ;; let* d := num in mk ";" ;;
  let* n := maybe (kw "non-uniform" ;; let* f := alt (kw "true" ;; ret true) (kw "false" ;; ret false) in mk ";" ;; ret f) in
  ret (mkDimd a b c d n).

(** layer and optional_layout, 780-868 *)
Definition p_layer : parser qlayd :=
  kw "layer" ;; let* id := name in mk ":" ;; let* h := num_of ["height"] in let* m := name_of ["material"] in
  let* l := maybe (kw "layout" ;; let* p := path in mk ";" ;; ret p) in
  ret (mkLayd id h m l).

(** die_layer_content 912-975, die 1005-1060 *)
Definition p_content : parser qcontent :=
  alt (let* h := num in let* m := name in mk ";" ;; ret (Fresh h m)) (let* l := name in mk ";" ;; ret (Declared l)).
Definition p_die : parser qdied :=
  kw "die" ;; let* id := name in mk ":" ;;
  let* a := many (kw "layer" ;; p_content) in
  kw "source" ;; let* s := p_content in
  let* b := many (kw "layer" ;; p_content) in
  ret (mkDied id a s b).

(** stack_element, 1404-1720 *)
Definition p_discr : parser (option (Q * Q)) :=
  maybe (kw "discretization" ;; let* x := num in let* y := num in ret (x, y)).
Definition p_stkel : parser qeld :=
  alt (kw "layer" ;; let* id := name in let* l := name in let* d := p_discr in mk ";" ;; ret (ELayer id l d))
 (alt (let* id := name_of ["channel"] in ret (EChannel id))
      (kw "die" ;; let* id := name in let* l := name in kw "floorplan" ;; let* p := path in let* d := p_discr in mk ";" ;;
       ret (EDie id l p d))).

(** solver, 1727-1825 *)
Definition p_solver : parser (solverd Q) :=
  kw "solver" ;; mk ":" ;;
  let* a := alt (kw "steady" ;; mk ";" ;; ret Steady)
                (kws ["transient"; "step"] ;; let* x := num in mk "," ;; kw "slot" ;; let* y := num in mk ";" ;; ret (Transient x y)) in
  let* t := num_of ["initial"; "temperature"] in
  let* c := maybe (num_of ["numofcores"]) in
  ret (mkSolverd a t c).

(** inspection_points 1830-2310, maxminavg and when 2312-2330 *)
Definition p_when : parser (option output_instant) :=
  maybe (mk "," ;; alt (kw "step" ;; ret OI_STEP) (alt (kw "slot" ;; ret OI_SLOT) (kw "final" ;; ret OI_FINAL))).
Definition p_quantity : parser output_quantity :=
  alt (kw "maximum" ;; ret OQ_MAXIMUM) (alt (kw "minimum" ;; ret OQ_MINIMUM)
 (alt (kw "average" ;; ret OQ_AVERAGE) (kw "gradient" ;; ret OQ_GRADIENT))).
(** '(' IDENTIFIER ',' *)
Definition p_of (k : string) : parser (list Z) := kw k ;; mk "(" ;; let* id := name in mk "," ;; ret id.
Definition p_end {A} (a : A) : parser A := mk ")" ;; mk ";" ;; ret a.
Definition p_point : parser qpointd :=
  alt (let* id := p_of "T" in let* x := num in mk "," ;; let* y := num in mk "," ;; let* f := path in let* w := p_when in
       p_end (PT id x y f w))
 (alt (let* id := p_of "Tflp" in let* f := path in mk "," ;; let* q := p_quantity in let* w := p_when in p_end (PTflp id f q w))
 (alt (kw "Tflpel" ;; mk "(" ;; let* id := name in mk "." ;; let* e := name in mk "," ;; let* f := path in mk "," ;;
       let* q := p_quantity in let* w := p_when in p_end (PTflpel id e f q w))
 (alt (let* id := p_of "Tmap" in let* f := path in let* w := p_when in p_end (PTmap id f w))
 (alt (kw "T3d" ;; mk "(" ;; let* f := path in let* w := p_when in p_end (PT3d f w))
 (alt (let* id := p_of "Pmap" in let* f := path in let* w := p_when in p_end (PPmap id f w))
      (let* id := p_of "Tcoolant" in let* f := path in mk "," ;; let* q := p_quantity in let* w := p_when in
       p_end (PTcoolant id f q w))))))).
Definition p_output : parser (option (qpointd * list qpointd)) := maybe (kw "output" ;; mk ":" ;; some p_point).

(** stack_description_file, 233-245 *)
Definition p_file : parser qfile :=
  let* m := some p_material in
  let* t := maybe p_top in
  let* b := maybe p_bottom in
  let* c := maybe p_channel in
  let* d := p_dims in
  let* l := many p_layer in
  let* i := some p_die in
  kw "stack" ;; mk ":" ;; let* e := some p_stkel in
  let* s := p_solver in
  let* o := p_output in
  ret (mkStkfile m t b c d l i e s o).
(** [None]: syntax error. *)
Definition parse_tokens (ts : list stok) : option qfile :=
  match p_file ts with Some (f, []) => Some f | _ => None end.
Definition read_stack (s : chars) : option qfile := parse_tokens (stk_tokens s).
