(** * What flex makes of a scanner description (the rules sections of
      /repo/flex/floorplan_scanner.l and /repo/flex/stack_description_scanner.l).

    The generated scanner is not modelled table by table: this is the documented
    meaning of the rules ("Lexical Analysis With Flex": How the Input Is
    Matched; Start Conditions). *)
From Coq Require Import Arith List Bool Ascii.
Local Open Scope char_scope.
Import ListNotations.

Definition chars := list ascii.

(** Patterns; [RNone] matches nothing. *)
Inductive re :=
| RNone | REps
| RCls (f : ascii -> bool)
| RSeq (a b : re) | RAlt (a b : re) | RStar (a : re).

Definition seq_ (a b : re) : re := match a with RNone => RNone | REps => b | _ => RSeq a b end.
Definition alt_ (a b : re) : re := match a with RNone => b | _ => match b with RNone => a | _ => RAlt a b end end.

Fixpoint nullable (r : re) : bool :=
  match r with
  | RNone => false | REps => true | RCls _ => false
  | RSeq a b => nullable a && nullable b
  | RAlt a b => nullable a || nullable b
  | RStar _ => true
  end.

(** What is left of a pattern after a character. *)
Fixpoint deriv (c : ascii) (r : re) : re :=
  match r with
  | RNone => RNone | REps => RNone
  | RCls f => if f c then REps else RNone
  | RSeq a b => if nullable a then alt_ (seq_ (deriv c a) b) (deriv c b) else seq_ (deriv c a) b
  | RAlt a b => alt_ (deriv c a) (deriv c b)
  | RStar a => seq_ (deriv c a) (RStar a)
  end.

Definition is_none (r : re) : bool := match r with RNone => true | _ => false end.

(** The first pattern that has matched. *)
Fixpoint first_nullable (rs : list re) : option nat :=
  match rs with
  | [] => None
  | r :: rs => if nullable r then Some O else option_map S (first_nullable rs)
  end.

(** The longest match and, among the patterns that match as much, the first:
    its length (added to [n]) and its number. *)
Fixpoint longest (rs : list re) (n : nat) (s : chars) : option (nat * nat) :=
  let here := option_map (fun i => (n, i)) (first_nullable rs) in
  match s with
  | [] => here
  | c :: s' =>
    if forallb is_none rs then here
    else match longest (map (deriv c) rs) (S n) s' with Some x => Some x | None => here end
  end.

(** An action: nothing, BEGIN (condition), or a token made from yytext. *)
Inductive act (C T : Type) := Skip | Begin (c : C) | Emit (f : chars -> T).
Arguments Skip {C T}. Arguments Begin {C T} c. Arguments Emit {C T} f.

Section Lex.
  Context {C T : Type}.
  (** The rules active in a start condition, in the order of the file. *)
  Variable rules : C -> list (re * act C T).
  (** Repeated calls to yylex until the end of the file. [k] characters of the
      text are part of the last match. When no rule matches, the default rule
      (option "default") copies one character to the standard output and the
      scanner goes on after it. *)
  Fixpoint lex (k : nat) (c : C) (s : chars) : list T :=
    match s with
    | [] => []
    | x :: s' =>
      match k with
      | S k' => lex k' c s'
      | O =>
        match longest (map fst (rules c)) 0 s with
        | Some (S n, i) =>
          match nth_error (rules c) i with
          | Some (_, Skip) => lex n c s'
          | Some (_, Begin c') => lex n c' s'
          | Some (_, Emit f) => f (firstn (S n) s) :: lex n c s'
          | None => []
          end
        | _ => lex O c s'
        end
      end
    end.
End Lex.

(** ** Writing patterns *)
Definition cls (f : ascii -> bool) : re := RCls f.
Definition chr (c : ascii) : re := RCls (Ascii.eqb c).
Fixpoint lit (s : chars) : re := match s with [] => REps | c :: s => RSeq (chr c) (lit s) end.
Definition plus (r : re) : re := RSeq r (RStar r).
Definition opt (r : re) : re := RAlt r REps.

(** [[:space:]], [[:digit:]], [[:alpha:]], [[:alnum:]] in the C locale. *)
Definition between (a b : ascii) (c : ascii) : bool :=
  (nat_of_ascii a <=? nat_of_ascii c)%nat && (nat_of_ascii c <=? nat_of_ascii b)%nat.
Definition is_space (c : ascii) : bool := Ascii.eqb c " " || between "009" "013" c.
Definition is_digit (c : ascii) : bool := between "0" "9" c.
Definition is_alpha (c : ascii) : bool := between "a" "z" c || between "A" "Z" c.
Definition is_alnum (c : ascii) : bool := is_alpha c || is_digit c.
Definition is_sign (c : ascii) : bool := Ascii.eqb c "+" || Ascii.eqb c "-".
