(** * Specification vocabulary: comparing results with references *)
From Coq Require Import ZArith QArith Qabs Bool List.
From Verif Require Import Base Compare.
Import ListNotations.
Local Open Scope Z_scope.

(** The number of a word, if it is one. *)
Definition value_of (w : word) : option number := match w with WInt z => Some (Some (inject_Z z)) | WNum x => Some x | WText => None end.
(** Lines of a time and a temperature; of a time and two temperatures; of two integers
    and a number. *)
Definition is_pair (l : line) (p : number * number) : Prop := map value_of l = [Some (fst p); Some (snd p)].
Definition is_triple (l : line) (p : number * number * number) : Prop := map value_of l = [Some (fst (fst p)); Some (snd (fst p)); Some (snd p)].
Definition is_entry (l : line) (e : Z * Z * number) : Prop :=
  exists w, l = [WInt (fst (fst e)); WInt (snd (fst e)); w] /\ value_of w = Some (snd e).
(** Both are numbers, and equal. *)
Definition same (a b : number) : Prop := exists x y, a = Some x /\ b = Some y /\ (x == y)%Q.
(** The [i]-th of the rows, counting from 0, disagrees. *)
Definition times_agree (r1 r2 : number * number) (r3 : number * number * number) : Prop := same (fst r1) (fst r2) /\ same (fst r2) (fst (fst r3)).
(** [m] is the largest of the distances [ds] that are numbers, and is attained first by
    the item [a] of [xs]; if there is none above 0, [m] is 0 and [a] is [a0]. *)
Definition first_largest {X} (ds : list number) (xs : list X) (m : Q) (a a0 : X) : Prop :=
  (0 <= m)%Q /\ (forall i d, nth_error ds i = Some (Some d) -> (d <= m)%Q) /\
  ((m == 0 /\ a = a0)%Q \/
   (0 < m)%Q /\ exists i, nth_error xs i = Some a /\ nth_error ds i = Some (Some m) /\ forall j d, (j < i)%nat -> nth_error ds j = Some (Some d) -> (d < m)%Q).
(** Two values of opposite signs. *)
Definition opposite (a b : number) : Prop := exists x y, a = Some x /\ b = Some y /\ (x * y < 0)%Q.
(** Entries of the same row and column. *)
Definition sits (e f : Z * Z * number) : Prop := fst e = fst f.
(** The number of a line, and the row and column of its entry. *)
Definition line_of (p : Z * (Z * Z * number)) : Z * Z * Z := (fst p, fst (fst (snd p)), snd (fst (snd p))).
