(** * The syntax of floorplan files, as the user guide gives it.

    Written independently of the scanner and of the grammar: a file is a list
    of lexemes (words, numerals, punctuation marks) with gaps (blanks, ends of
    lines, C and C++ comments) between them. *)
From Coq Require Import ZArith List Bool QArith String Ascii.
From Verif Require Import Base Dims DimsSpec Queue QueueProofs Floorplan FloorplanSpec Flex FlpText VtkSpec.
Import ListNotations.
Local Open Scope string_scope.
Local Open Scope list_scope.
Local Open Scope Z_scope.

(** ** Numerals: "-12.50e+3" *)
Record numeral := mkNumeral {
  n_sign : option bool;                         (* Some true: "-", Some false: "+" *)
  n_int : list nat;                             (* the digits *)
  n_frac : option (list nat);                   (* the digits after the point *)
  n_exp : option (ascii * option bool * list nat)  (* "e" or "E", sign, digits *)
}.
Definition sign_text (s : option bool) : chars :=
  match s with Some true => str "-" | Some false => str "+" | None => [] end.
Definition digit_text (n : nat) : ascii := ascii_of_nat (48 + n).
Definition digits_text (l : list nat) : chars := map digit_text l.
Definition numeral_text (n : numeral) : chars :=
  sign_text (n_sign n) ++ digits_text (n_int n)
  ++ match n_frac n with Some f => str "." ++ digits_text f | None => [] end
  ++ match n_exp n with Some (c, s, d) => c :: sign_text s ++ digits_text d | None => [] end.
Definition some_digits (l : list nat) : Prop := l <> [] /\ Forall (fun n => (n < 10)%nat) l.
Definition numeral_ok (n : numeral) : Prop :=
  some_digits (n_int n) /\
  match n_frac n with Some f => some_digits f | None => True end /\
  match n_exp n with Some (c, _, d) => (c = "e"%char \/ c = "E"%char) /\ some_digits d | None => True end.
(** Its value. *)
Fixpoint digits_number (acc : Z) (l : list nat) : Z :=
  match l with [] => acc | n :: r => digits_number (acc * 10 + Z.of_nat n) r end.
Definition signed (s : option bool) (z : Z) : Z := match s with Some true => - z | _ => z end.
Definition numeral_value (n : numeral) : Q :=
  let i := inject_Z (digits_number 0 (n_int n)) in
  let f := match n_frac n with
           | Some f => (inject_Z (digits_number 0 f) / inject_Z (10 ^ Z.of_nat (List.length f)))%Q
           | None => 0%Q
           end in
  let e := match n_exp n with Some (_, s, d) => signed s (digits_number 0 d) | None => 0 end in
  Qred (inject_Z (signed (n_sign n) 1) * (i + f) * Qpower (10 # 1) e).

(** ** Lexemes and gaps *)
Inductive lexeme := LWord (w : chars) | LNum (n : numeral) | LMark (c : ascii).
Definition lexeme_text (x : lexeme) : chars :=
  match x with LWord w => w | LNum n => numeral_text n | LMark c => [c] end.

Inductive gap_item := GBlank (c : ascii) | GLine (body : chars) | GBlock (body : chars).
Definition gap_item_text (g : gap_item) : chars :=
  match g with
  | GBlank c => [c]
  | GLine b => str "//" ++ b ++ ["010"%char]
  | GBlock b => str "/*" ++ b ++ str "*/"
  end.
Definition gap := list gap_item.
Definition gap_text (g : gap) : chars := flat_map gap_item_text g.

(** [a] followed by [b] somewhere in the text. *)
Definition contains (s t : chars) : Prop := exists u v, s = u ++ t ++ v.
(** The number of stars at the end of a text. *)
Fixpoint leading_stars (s : chars) : nat :=
  match s with c :: r => if Ascii.eqb c "*" then S (leading_stars r) else O | [] => O end.
Definition trailing_stars (s : chars) : nat := leading_stars (rev s).

(** Comments are those of C and C++. The restriction on the stars at the end is
    a defect of the scanner (C70_star_comment_refuted). *)
Definition gap_item_ok (g : gap_item) : Prop :=
  match g with
  | GBlank c => In c [" "; "009"; "010"; "011"; "012"; "013"]%char
  | GLine b => ~ In "010"%char b
  | GBlock b => ~ contains b (str "*/") /\ Nat.even (trailing_stars b) = true
  end.
Definition gap_ok (g : gap) : Prop := Forall gap_item_ok g.

(** A text: a gap before each lexeme. *)
Fixpoint spell (l : list (gap * lexeme)) : chars :=
  match l with [] => [] | (g, x) :: r => gap_text g ++ lexeme_text x ++ spell r end.
(** A word or a numeral is not stuck to another. *)
Definition is_mark (x : lexeme) : bool := match x with LMark _ => true | _ => false end.
Fixpoint separated (l : list (gap * lexeme)) : Prop :=
  match l with
  | (_, x) :: (((g, y) :: _) as r) => (is_mark x = true \/ is_mark y = true \/ g <> []) /\ separated r
  | _ => True
  end.

(** The end of a file: a gap, and maybe a last line that is a comment and that
    no end of line ends. *)
Definition ending := (gap * option chars)%type.
Definition ending_text (e : ending) : chars :=
  gap_text (fst e) ++ match snd e with Some b => str "//" ++ b | None => [] end.
Definition ending_ok (e : ending) : Prop :=
  gap_ok (fst e) /\ match snd e with Some b => ~ In "010"%char b | None => True end.

(** ** Declarations *)
Record rectangle := mkRectangle { re_x : numeral; re_y : numeral; re_length : numeral; re_width : numeral }.
Inductive shape :=
| Single (r : rectangle) (material : option chars) (discretization : option (numeral * numeral))
| Several (first : rectangle) (others : list rectangle).
Record element := mkElement {
  el_name : chars;
  el_shape : shape;
  el_powers : option (numeral * list numeral)    (* at least one value, if given *)
}.

Definition word (s : string) : lexeme := LWord (str s).
Definition mark (c : ascii) : lexeme := LMark c.
Definition pair_lexemes (x y : numeral) : list lexeme := [LNum x; mark ","; LNum y; mark ";"].
Definition rectangle_lexemes (r : rectangle) : list lexeme :=
  [word "rectangle"; mark "("; LNum (re_x r); mark ","; LNum (re_y r); mark ","; LNum (re_length r); mark ",";
   LNum (re_width r); mark ")"; mark ";"].
Definition shape_lexemes (b : shape) : list lexeme :=
  match b with
  | Single r m xy =>
    word "position" :: pair_lexemes (re_x r) (re_y r) ++ word "dimension" :: pair_lexemes (re_length r) (re_width r)
    ++ match m with Some m => [word "material"; LWord m; mark ";"] | None => [] end
    ++ match xy with Some (x, y) => word "discretization" :: pair_lexemes x y | None => [] end
  | Several r rs => flat_map rectangle_lexemes (r :: rs)
  end.
Definition element_lexemes (e : element) : list lexeme :=
  [LWord (el_name e); mark ":"] ++ shape_lexemes (el_shape e)
  ++ match el_powers e with
     | Some (v, vs) => word "power" :: word "values" :: LNum v :: flat_map (fun v => [mark ","; LNum v]) vs ++ [mark ";"]
     | None => []
     end.

(** Names: a letter, then letters, digits and underscores; not a keyword. *)
Definition letter (c : ascii) : Prop := In c (str "abcdefghijklmnopqrstuvwxyzABCDEFGHIJKLMNOPQRSTUVWXYZ").
Definition letter_digit (c : ascii) : Prop := letter c \/ In c (str "0123456789_").
Definition keywords : list chars :=
  map str ["dimension"; "position"; "power"; "rectangle"; "values"; "discretization"; "material"].
Definition name_ok (w : chars) : Prop :=
  (exists c r, w = c :: r /\ letter c /\ Forall letter_digit r) /\ ~ In w keywords.

Definition rectangle_ok (r : rectangle) : Prop :=
  numeral_ok (re_x r) /\ numeral_ok (re_y r) /\ numeral_ok (re_length r) /\ numeral_ok (re_width r).
Definition shape_ok (b : shape) : Prop :=
  match b with
  | Single r m xy =>
    rectangle_ok r /\ match m with Some m => name_ok m | None => True end
    /\ match xy with Some (x, y) => numeral_ok x /\ numeral_ok y | None => True end
  | Several r rs => Forall rectangle_ok (r :: rs)
  end.
Definition element_ok (e : element) : Prop :=
  name_ok (el_name e) /\ shape_ok (el_shape e)
  /\ match el_powers e with Some (v, vs) => Forall numeral_ok (v :: vs) | None => True end.

(** What a declaration says. *)
Definition rectangle_value (r : rectangle) : Q * Q * Q * Q :=
  (numeral_value (re_x r), numeral_value (re_y r), numeral_value (re_length r), numeral_value (re_width r)).
Definition name_codes (w : chars) : list Z := map (fun c => Z.of_nat (nat_of_ascii c)) w.
Definition element_value (e : element) : flpdecl :=
  {| fd_id := name_codes (el_name e);
     fd_rects := match el_shape e with Single r _ _ => [rectangle_value r] | Several r rs => map rectangle_value (r :: rs) end;
     fd_material := match el_shape e with Single _ (Some m) _ => Some (name_codes m) | _ => None end;
     fd_discr := match el_shape e with
                 | Single _ _ (Some (x, y)) => Some (numeral_value x, numeral_value y)
                 | _ => None
                 end;
     fd_powers := match el_powers e with Some (v, vs) => Some (map numeral_value (v :: vs)) | None => None end |}.

(** A file that spells the elements. *)
Record spells (es : list element) (text : chars) : Prop := {
  sp_some : es <> [];
  sp_ok : Forall element_ok es;
  sp_text : exists l e, text = spell l ++ ending_text e /\ map snd l = flat_map element_lexemes es /\
              Forall gap_ok (map fst l) /\ separated l /\ ending_ok e
}.

(** ** What a file that is accepted contains *)

(** Any characters before each lexeme. *)
Fixpoint with_junk (l : list (chars * lexeme)) : chars :=
  match l with [] => [] | (j, x) :: r => j ++ lexeme_text x ++ with_junk r end.

(** ** The elements of the floorplan *)

(** The rectangle lies on the chip and in the grid of its cells. *)
Definition on_chip (d : dims) (q : Q * Q * Q * Q) : Prop :=
  let '(x, y, l, w) := q in
  (0 <= x /\ x + l <= d_chip_length d /\ 0 <= y /\ y + w <= d_chip_width d)%Q /\ placed d (mkIcel x y l w 0 0 0 0).
(** The rectangle leaves the chip by more than the tolerance. *)
Definition off_chip (d : dims) (q : Q * Q * Q * Q) : Prop :=
  let '(x, y, l, w) := q in
  (x < 0 \/ d_chip_length d + EPSILON < x + l \/ y < 0 \/ d_chip_width d + EPSILON < y + w)%Q.
Definition rect_of (a : icel) : Q * Q * Q * Q := (ic_x a, ic_y a, ic_len a, ic_wid a).
Definition powers_of (x : flpdecl) : list Q := match fd_powers x with Some l => l | None => [] end.
(** The element a declaration is for: its name, its rectangles in order, its
    power values in order. *)
Record made (d : dims) (x : flpdecl) (e : flpel) : Prop := {
  md_id : fe_id e = fd_id x;
  md_rects : map rect_of (fe_ics e) = fd_rects x;
  md_powers : qrep (fe_powers e) (powers_of x);
  md_good : good_element d e
}.

(** ** Generated files *)
Definition near_rect (p q : Q * Q * Q * Q) : Prop :=
  let '(a, b, c, e) := p in let '(a', b', c', e') := q in
  near (1 # 20) a a' /\ near (1 # 20) b b' /\ near (1 # 20) c c' /\ near (1 # 20) e e'.
(** The declaration repeats the element: coordinates to a twentieth of a
    micrometre, powers to half a milliwatt. *)
Definition repeats (l : list Q) (e : flpel) (x : flpdecl) : Prop :=
  fd_id x = fe_id e /\ Forall2 near_rect (fd_rects x) (map rect_of (fe_ics e)) /\
  exists ps, fd_powers x = Some ps /\ Forall2 (near (1 # 2000)) ps l.
(** An element with a name, rectangles and the power values [l] left. *)
Definition printable (l : list Q) (e : flpel) : Prop :=
  (exists w, name_ok w /\ fe_id e = name_codes w) /\ fe_ics e <> [] /\ qrep (fe_powers e) l.
