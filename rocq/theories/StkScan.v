(** * Model of the scanners of stack description and layout files:
      /repo/flex/stack_description_scanner.l, /repo/flex/layout_scanner.l.
    Patterns and numbers are those of FlpText.v (the definitions of the three
    scanners are the same). The code of a keyword token is its text. The files
    hold no NUL character. *)
From Coq Require Import ZArith List Bool QArith String Ascii.
From Verif Require Import Base Flex FlpText Vtk.
Import ListNotations.
Local Open Scope string_scope.
Local Open Scope list_scope.

(** Tokens: keywords, marks ("yytext[0]"), and numbers, identifiers and paths
    with their values. *)
Inductive sym (N I P : Type) := SK (k : string) | SM (c : ascii) | SN (n : N) | SI (i : I) | SP (p : P).
Arguments SK {N I P} k. Arguments SM {N I P} c. Arguments SN {N I P} n. Arguments SI {N I P} i. Arguments SP {N I P} p.
Definition stok := sym Q (list Z) (list Z).

(** The rules of the exclusive start conditions are the same in both:
    stack_description_scanner.l 244-249, layout_scanner.l 153-160. *)
Definition scan_rules (init : list (re * act cond stok)) (c : cond) : list (re * act cond stok) :=
  match c with
  | INITIAL => init
  | ONE_LINE_COMMENT =>
    [ (chr newline, Begin INITIAL);
      (cls (fun c => negb (Ascii.eqb c newline)), Skip) ]
  | MULTIPLE_LINE_COMMENT =>
    [ (lit (str "*/"), Begin INITIAL);
      (plus (cls (fun c => negb (Ascii.eqb c "*" || Ascii.eqb c newline))), Skip);
      (RSeq (chr "*") (cls (fun c => negb (Ascii.eqb c "/"))), Skip);
      (chr newline, Skip) ]
  end.

Definition mark_rule (c : ascii) : re * act cond stok := (lit [c], Emit (fun _ => SM c)).
Definition keyword_rule (k : string) : re * act cond stok := (lit (str k), Emit (fun _ => SK k)).
Definition double_rule : re * act cond stok := (double, Emit (fun s => SN (atof s))).
Definition integer_rule : re * act cond stok := (s_integer, Emit (fun s => SN (atof s))).
Definition identifier_rule : re * act cond stok := (identifier, Emit (fun s => SI (codes s))).
(** A quoted text, 101, 216-242: the value is the text without the two quotes. *)
Definition quote : ascii := "034".
Definition path_re : re := RSeq (chr quote) (RSeq (RStar (cls (fun c => negb (Ascii.eqb c quote)))) (chr quote)).
Definition path_rule : re * act cond stok := (path_re, Emit (fun s => SP (codes (removelast (tl s))))).

(** ** stack_description_scanner.l 118-242 *)
Definition stk_marks : list ascii := ["("; ")"; ","; "."; ":"; ";"]%char.
Definition stk_keywords : list string :=
  ["2rm"; "4rm"; "average"; "bottom"; "capacity"; "cell"; "channel"; "chip"; "coefficient"; "conductivity"; "coolant";
   "darcy"; "diameter"; "die"; "dimensions"; "distribution"; "discretization"; "final"; "first"; "floorplan"; "flow";
   "gradient"; "heat"; "height"; "incoming"; "initial"; "inline"; "last"; "layer"; "layout"; "length"; "material";
   "maximum"; "microchannel"; "minimum"; "non-uniform"; "numofcores"; "output"; "pin"; "pinfin"; "pitch"; "pluggable";
   "plugin"; "Pmap"; "rate"; "side"; "sink"; "slot"; "solver"; "source"; "spreader"; "stack"; "staggered"; "state";
   "steady"; "step"; "T"; "temperature"; "Tcoolant"; "Tflp"; "Tflpel"; "thermal"; "to"; "top"; "Tmap"; "T3d";
   "transfer"; "transient"; "velocity"; "volumetric"; "wall"; "width"; "true"; "false"].
Definition stk_init : list (re * act cond stok) :=
  [(RStar (cls is_space), Skip)] ++ map mark_rule stk_marks
  ++ [(lit (str "//"), Begin ONE_LINE_COMMENT); (lit (str "/*"), Begin MULTIPLE_LINE_COMMENT)]
  ++ map keyword_rule stk_keywords
  ++ [double_rule; identifier_rule; path_rule].
Definition stk_tokens (s : chars) : list stok := lex (scan_rules stk_init) O INITIAL s.

(** ** layout_scanner.l 117-151 *)
Definition lay_marks : list ascii := ["("; ")"; ":"; ","; ";"]%char.
Definition lay_keywords : list string :=
  ["capacity"; "conductivity"; "dimension"; "heat"; "material"; "position"; "rectangle"; "thermal"; "volumetric"].
Definition lay_init : list (re * act cond stok) :=
  [(RStar (cls is_space), Skip); (lit (str "//"), Begin ONE_LINE_COMMENT); (lit (str "/*"), Begin MULTIPLE_LINE_COMMENT)]
  ++ map mark_rule lay_marks ++ map keyword_rule lay_keywords
  ++ [identifier_rule; integer_rule; double_rule].
Definition lay_tokens (s : chars) : list stok := lex (scan_rules lay_init) O INITIAL s.
