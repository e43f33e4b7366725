(** * Model of the floorplan file: /repo/flex/floorplan_scanner.l,
      /repo/bison/floorplan_parser.y, /repo/sources/floorplan_file_parser.c and
      the printing of a floorplan (floorplan.c, floorplan_element.c,
      ic_element.c, powers_queue.c), character by character.

    Numbers are exact rationals (the code: double). The LALR parser generated by
    bison is a recursive descent on the same grammar. *)
From Coq Require Import ZArith List Bool QArith String Ascii.
From Verif Require Import Base Dims Queue Floorplan Flex Vtk.
Import ListNotations.
Local Open Scope string_scope.
Local Open Scope Z_scope.

Definition str (s : string) : chars := list_ascii_of_string s.

(** ** atof, on the texts the scanner gives to it: sign, digits, maybe a point
    and digits, maybe an exponent. In lowest terms, so that equal numbers are
    the same number. *)
Definition digit_of (c : ascii) : Z := Z.of_nat (nat_of_ascii c) - 48.
Fixpoint atof_digits (m k : Z) (s : chars) : Z * Z * chars :=
  match s with
  | c :: r => if is_digit c then atof_digits (m * 10 + digit_of c) (k + 1) r else (m, k, s)
  | [] => (m, k, [])
  end.
Definition atof_sign (s : chars) : Z * chars :=
  match s with
  | c :: r => if Ascii.eqb c "-" then (-1, r) else if Ascii.eqb c "+" then (1, r) else (1, s)
  | [] => (1, [])
  end.
Definition atof (s : chars) : Q :=
  let '(sg, s) := atof_sign s in
  let '(m, _, s) := atof_digits 0 0 s in
  let '(m, k, s) := match s with
                    | c :: r => if Ascii.eqb c "." then atof_digits m 0 r else (m, 0, s)
                    | [] => (m, 0, [])
                    end in
  let e := match s with
           | c :: r => if Ascii.eqb c "e" || Ascii.eqb c "E"
                       then let '(es, r) := atof_sign r in let '(e, _, _) := atof_digits 0 0 r in es * e
                       else 0
           | [] => 0
           end in
  Qred (inject_Z (sg * m) * Qpower (10 # 1) (e - k)).

(** ** Scanner, floorplan_scanner.l 92-159 *)
Inductive tok :=
| LPAR | RPAR | COLON | COMMA | SEMI
| DIMENSION | POSITION | POWER | RECTANGLE | VALUES | DISCRETIZATION | MATERIAL
| IDENTIFIER (id : list Z) | DVALUE (q : Q).

(** Start conditions, 103-104. *)
Inductive cond := INITIAL | ONE_LINE_COMMENT | MULTIPLE_LINE_COMMENT.

(** 92-97 *)
Definition u_integer : re := plus (cls is_digit).
Definition s_integer : re := RSeq (opt (cls is_sign)) (plus (cls is_digit)).
Definition exponent : re := RSeq (cls (fun c => Ascii.eqb c "e" || Ascii.eqb c "E")) s_integer.
Definition double : re := RSeq s_integer (opt (RSeq (opt (RSeq (chr ".") u_integer)) (opt exponent))).
Definition identifier : re := RSeq (cls is_alpha) (RStar (cls (fun c => Ascii.eqb c "_" || is_alnum c))).

(** The value of an identifier: yytext, copied. *)
Definition codes (s : chars) : list Z := map (fun c => Z.of_nat (nat_of_ascii c)) s.

Definition flp_rules (c : cond) : list (re * act cond tok) :=
  match c with
  | INITIAL =>
    [ (RStar (cls is_space), Skip);
      (lit (str "//"), Begin ONE_LINE_COMMENT);
      (lit (str "/*"), Begin MULTIPLE_LINE_COMMENT);
      (lit (str "("), Emit (fun _ => LPAR));
      (lit (str ")"), Emit (fun _ => RPAR));
      (lit (str ":"), Emit (fun _ => COLON));
      (lit (str ","), Emit (fun _ => COMMA));
      (lit (str ";"), Emit (fun _ => SEMI));
      (lit (str "dimension"), Emit (fun _ => DIMENSION));
      (lit (str "position"), Emit (fun _ => POSITION));
      (lit (str "power"), Emit (fun _ => POWER));
      (lit (str "rectangle"), Emit (fun _ => RECTANGLE));
      (lit (str "values"), Emit (fun _ => VALUES));
      (lit (str "discretization"), Emit (fun _ => DISCRETIZATION));
      (lit (str "material"), Emit (fun _ => MATERIAL));
      (identifier, Emit (fun s => IDENTIFIER (codes s)));
      (s_integer, Emit (fun s => DVALUE (atof s)));
      (double, Emit (fun s => DVALUE (atof s))) ]
  | ONE_LINE_COMMENT =>
    [ (chr newline, Begin INITIAL);
      (cls (fun c => negb (Ascii.eqb c newline)), Skip) ]
  | MULTIPLE_LINE_COMMENT =>
    [ (lit (str "*/"), Begin INITIAL);
      (plus (cls (fun c => negb (Ascii.eqb c "*" || Ascii.eqb c newline))), Skip);
      (RSeq (chr "*") (cls (fun c => negb (Ascii.eqb c "/"))), Skip);
      (chr newline, Skip) ]
  end.

(** The tokens of a file. *)
Definition tokens (s : chars) : list tok := lex flp_rules O INITIAL s.

(** ** Grammar, floorplan_parser.y 120-520 *)

(** A declaration. *)
Record flpdecl := mkFlpdecl {
  fd_id : list Z;
  fd_rects : list (Q * Q * Q * Q);     (* SW_X, SW_Y, Length, Width *)
  fd_material : option (list Z);
  fd_discr : option (Q * Q);
  fd_powers : option (list Q)
}.

(** ic_elements_list and ic_element, 388-452: as many rectangles as there are. *)
Fixpoint p_rects (ts : list tok) : list (Q * Q * Q * Q) * list tok :=
  match ts with
  | RECTANGLE :: LPAR :: DVALUE x :: COMMA :: DVALUE y :: COMMA :: DVALUE l :: COMMA :: DVALUE w :: RPAR :: SEMI :: r =>
    let '(rs, r') := p_rects r in ((x, y, l, w) :: rs, r')
  | _ => ([], ts)
  end.
(** MATERIAL IDENTIFIER ';', if there. *)
Definition p_material (ts : list tok) : option (list Z) * list tok :=
  match ts with MATERIAL :: IDENTIFIER m :: SEMI :: r => (Some m, r) | _ => (None, ts) end.
(** DISCRETIZATION DVALUE ',' DVALUE ';', if there. *)
Definition p_discr (ts : list tok) : option (Q * Q) * list tok :=
  match ts with DISCRETIZATION :: DVALUE x :: COMMA :: DVALUE y :: SEMI :: r => (Some (x, y), r) | _ => (None, ts) end.
(** ic_elements, 246-386. *)
Definition p_body (ts : list tok)
  : option (list (Q * Q * Q * Q) * option (list Z) * option (Q * Q) * list tok) :=
  match ts with
  | POSITION :: DVALUE x :: COMMA :: DVALUE y :: SEMI :: DIMENSION :: DVALUE l :: COMMA :: DVALUE w :: SEMI :: r =>
    let '(m, r) := p_material r in
    let '(xy, r) := p_discr r in
    Some ([(x, y, l, w)], m, xy, r)
  | _ => match p_rects ts with
         | ([], _) => None
         | (rs, r) => Some (rs, None, None, r)
         end
  end.
(** power_values_list after its first value, 511-518. *)
Fixpoint p_values (ts : list tok) : list Q * list tok :=
  match ts with
  | COMMA :: DVALUE q :: r => let '(qs, r') := p_values r in (q :: qs, r')
  | _ => ([], ts)
  end.
(** optional_power_values_list, 458-507. *)
Definition p_powers (ts : list tok) : option (option (list Q) * list tok) :=
  match ts with
  | POWER :: VALUES :: DVALUE q :: r =>
    match p_values r with
    | (qs, SEMI :: r') => Some (Some (q :: qs), r')
    | _ => None
    end
  | POWER :: _ => None
  | _ => Some (None, ts)
  end.
(** floorplan_element, 169-242. *)
Definition p_element (ts : list tok) : option (flpdecl * list tok) :=
  match ts with
  | IDENTIFIER id :: COLON :: r =>
    match p_body r with
    | Some (rs, m, xy, r) =>
      match p_powers r with
      | Some (ps, r) => Some (mkFlpdecl id rs m xy ps, r)
      | None => None
      end
    | None => None
    end
  | _ => None
  end.
(** floorplan_element_list, 144-165: at least one, until the end of the file.
    [fuel]: more than there are tokens. *)
Fixpoint p_elements (fuel : nat) (ts : list tok) : option (list flpdecl) :=
  match fuel with
  | O => None
  | S f =>
    match p_element ts with
    | Some (e, []) => Some [e]
    | Some (e, r) => match p_elements f r with Some es => Some (e :: es) | None => None end
    | None => None
    end
  end.
(** None: syntax error. *)
Definition read_decls (s : chars) : option (list flpdecl) :=
  let ts := tokens s in p_elements (S (List.length ts)) ts.

(** ** The elements *)

(** 473-475, 509-518: the queue of the power values. *)
Fixpoint put_all (q : queue) (l : list Q) : outcome queue :=
  match l with [] => Ok q | p :: r => do q' <- queue_put q p ; put_all q' r end.
Definition decl_queue (ps : option (list Q)) : outcome queue :=
  put_all (queue_build queue_init 10) (match ps with Some l => l | None => [] end).

(** The element a declaration makes; None: one of its rectangles is outside of
    the IC and local_abort becomes true. *)
Definition decl_element (fuel : nat) (d : dims) (x : flpdecl) : outcome (option flpel) :=
  do q <- decl_queue (fd_powers x) ;
  parse_element fuel d (fd_id x) (fd_rects x) q.
Fixpoint decl_elements (fuel : nat) (d : dims) (l : list flpdecl) : outcome (option (list flpel)) :=
  match l with
  | [] => Ok (Some [])
  | x :: r =>
    do e <- decl_element fuel d x ;
    do es <- decl_elements fuel d r ;
    Ok (match e, es with Some e, Some es => Some (e :: es) | _, _ => None end)
  end.

(** parse_floorplan_file (floorplan_file_parser.c 57-95) and the action of
    floorplan_file (floorplan_parser.y 125-137) on the floorplan of a die.
    None: TDICE_FAILURE. When local_abort is true, floorplan_free is given the
    address of a member of the structure Die_t (stack_description_parser.y 1617,
    1701), which malloc has not returned: undefined behaviour.
    Simplification: the actions that ran before a syntax error (on a floorplan
    that is then destroyed) are left out. *)
Definition parse_floorplan_file (fuel : nat) (d : dims) (s : chars) : outcome (option (list flpel)) :=
  match read_decls s with
  | None => Ok None
  | Some ds =>
    do es <- decl_elements fuel d ds ;
    match es with Some es => Ok (Some es) | None => UB end
  end.

(** fill_floorplan, floorplan.c 170-233. *)
Definition fill_floorplan_file (fuel : nat) (d : dims) (s : chars) : outcome (option floorplan) :=
  do es <- parse_floorplan_file fuel d s ;
  match es with
  | Some es => do f <- fill_floorplan es d ; Ok (Some f)
  | None => Ok None
  end.

(** ** Printing *)

(** powers_queue_print, powers_queue.c 162-186, with an empty prefix; [n] is
    toprint - 1. *)
Fixpoint print_values (n : nat) (q : queue) (m : list power) (index : Z) : outcome chars :=
  do v <- arr_get m index ;
  match n with
  | O => Ok (str (fixed 3 v) ++ str " ")%list
  | S n' =>
    do index' <- umod (u32 (index + 1)) (q_cap q) ;
    do r <- print_values n' q m index' ;
    Ok (str (fixed 3 v) ++ str ", " ++ r)%list
  end.
Definition print_queue (q : queue) : outcome chars :=
  if queue_is_empty q then Ok (str " ")
  else match q_mem q with
       | None => UB
       | Some m => do r <- print_values (Z.to_nat (q_size q) - 1) q m (q_start q) ; Ok (str " " ++ r)%list
       end.
(** ic_element_print, ic_element.c 148-158, with an empty prefix. *)
Definition print_icel (a : icel) : chars :=
  (str "   rectangle (" ++ str (fixed 1 (ic_x a)) ++ str ", " ++ str (fixed 1 (ic_y a)) ++ str ", "
   ++ str (fixed 1 (ic_len a)) ++ str ", " ++ str (fixed 1 (ic_wid a)) ++ str " ) ;" ++ [newline])%list.
(** floorplan_element_print, floorplan_element.c 149-171. *)
Definition print_flpel (e : flpel) : outcome chars :=
  do p <- print_queue (fe_powers e) ;
  Ok (map (fun c => ascii_of_nat (Z.to_nat c)) (fe_id e) ++ str ":" ++ [newline]
      ++ flat_map print_icel (fe_ics e)
      ++ str "   power values " ++ p ++ str " ;" ++ [newline; newline])%list.
(** floorplan_print, floorplan.c 152-166, and generate_floorplan_file,
    floorplan_file_parser.c 99-120: the text of the file. *)
Fixpoint generate_floorplan_file (es : list flpel) : outcome chars :=
  match es with
  | [] => Ok []
  | e :: r =>
    do a <- print_flpel e ;
    do b <- generate_floorplan_file r ;
    Ok (a ++ [newline] ++ b)%list
  end.
