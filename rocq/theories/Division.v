(** * Model of the layer division tool, /repo/utils/layer_division/layer_division.py.

    [float] is Q (so a conductance that the tool reaches by repeated multiplications is
    exact); a count is Z. The text of the file is given as its lines, each classified by
    the regular expressions of lines 60-71 and by lines 82-91. The position in the list of layers stands for
    [file_order]. What is only printed on request (--verbose) and the order of the rows of
    the final table (--sort) are left out. *)
From Coq Require Import ZArith QArith Bool List String.
From Verif Require Import Base.
Import ListNotations.
Local Open Scope Z_scope.

(** ** The file (lines 58-219) *)
(** A stripped line: empty, one that starts with "Cells:" with what [_CONDUCTANCE_RE]
    finds in it, one that matches [_UNPROFILED_RE], or another one ([_is_header_line],
    lines 82-91). *)
Inductive line :=
| Blank
| Cells (conductance : option Q)
| Unprofiled (kind name : string)
| Header (name : string).
(** layer_division.py 82-91, and "header or unprofiled", lines 178, 186, 196. *)
Definition ends_block (l : line) : bool := match l with Unprofiled _ _ | Header _ => true | _ => false end.

(** scan_multiline_layer_blocks, layer_division.py 95-141: lines 112-131 count the Cells
    lines that follow a header, lines 133-134 keep the header when there are two. *)
Fixpoint entries (ls : list line) : Z * list line :=
  match ls with
  | Blank :: r => entries r
  | Cells _ :: r => let '(n, rest) := entries r in (n + 1, rest)
  | _ => (0, ls)
  end.
(** The loop of lines 105-139; [fuel] bounds the number of rounds ([length ls] is enough). *)
Fixpoint scan_blocks (fuel : nat) (ls : list line) : list string :=
  match fuel, ls with
  | S f, Header h :: r =>
      let '(n, rest) := entries r in
      if 2 <=? n then h :: scan_blocks f rest else scan_blocks f rest
  | S f, _ :: r => scan_blocks f r
  | _, _ => []
  end.

(** Lines 191-201: is there another conductance before the next header? *)
Fixpoint another (ls : list line) : bool :=
  match ls with
  | [] => false
  | l :: r => if ends_block l then false else match l with Cells (Some _) => true | _ => another r end
  end.
(** Lines 182-206: the first conductance after the header, the lines left at [j], and
    whether a conductance line was met (line 205, [break] without a step). *)
Fixpoint first_conductance (ls : list line) : option Q * list line :=
  match ls with
  | [] => (None, [])
  | l :: r =>
      if ends_block l then (None, ls)
      else match l with Cells (Some c) => (Some c, ls) | _ => first_conductance r end
  end.
(** Lines 175-180: a header that is excluded is left with the lines under it. *)
Fixpoint skip_block (ls : list line) : list line :=
  match ls with
  | [] => []
  | l :: r => if ends_block l then ls else skip_block r
  end.
Definition mem (h : string) (ex : list string) : bool := existsb (String.eqb h) ex.
(** parse_conductance_file, layer_division.py 146-219. *)
Fixpoint parse (fuel : nat) (ls : list line) (ex : list string) : list (string * Q) * list (string * string) :=
  match fuel, ls with
  | S f, Unprofiled k n :: r => let '(p, u) := parse f r ex in (p, (k, n) :: u)
  | S f, Header h :: r =>
      if mem h ex then parse f (skip_block r) ex
      else match first_conductance r with
           | (Some c, at_j) =>
               if another (tl at_j)
               then (* lines 202-204, 208-211: i = j, the lines of the block are then skipped *)
                    parse f at_j (h :: ex)
               else (* lines 213-214: i = j + 1 *)
                    let '(p, u) := parse f (tl at_j) ex in ((h, c) :: p, u)
           | (None, at_j) => parse f at_j ex
           end
  | S f, _ :: r => parse f r ex
  | _, _ => ([], [])
  end.
(** main, layer_division.py 371-376. *)
Definition read_layers (ls : list line) : list (string * Q) :=
  fst (parse (List.length ls) ls (scan_blocks (List.length ls) ls)).

(** ** The layers (lines 41-48) *)
Record layer := mk_layer { name : string; base : Q; current : Q; sublayers : Z; neglected : bool }.
(** main, layer_division.py 381-393. *)
Definition initial (p : string * Q) : layer := mk_layer (fst p) (snd p) (snd p) 1 false.

Definition Qlt_bool (a b : Q) : bool := negb (Qle_bool b a).
(** mark_neglected, layer_division.py 224-232. *)
Definition mark_neglected (st : list layer) : list layer :=
  match st with
  | [] => []
  | _ =>
      let initial_avg := (fold_left (fun t s => t + base s) st 0 / inject_Z (Z.of_nat (List.length st)))%Q in
      map (fun s => if Qlt_bool (3 * initial_avg) (base s)
                    then mk_layer (name s) (base s) (current s) (sublayers s) true else s) st
  end.
(** weighted_average, layer_division.py 235-246; lines 240-241 skip the neglected. *)
Definition eligible (st : list layer) : list layer := filter (fun s => negb (neglected s)) st.
Definition weighted_average (st : list layer) : option Q :=
  let total := fold_left (fun t s => t + current s * inject_Z (sublayers s))%Q (eligible st) 0%Q in
  let weight := fold_left (fun w s => w + sublayers s) (eligible st) 0 in
  if weight =? 0 then None else Some (total / inject_Z weight)%Q.
(** var_s_excel_equivalent, layer_division.py 249-271. *)
Inductive variance := No_layers | Not_a_number | Value (v : Q).
Definition var_s (st : list layer) : variance :=
  match weighted_average st with
  | None => No_layers
  | Some mu =>
      let n := fold_left (fun w s => w + sublayers s) (eligible st) 0 in
      if n <? 2 then Not_a_number
      else Value (fold_left (fun t s => t + inject_Z (sublayers s) * (current s - mu) * (current s - mu))%Q (eligible st) 0%Q
                  / inject_Z (n - 1))%Q
  end.
(** subdivide_one, layer_division.py 274-278. *)
Definition subdivide_one (s : layer) : layer :=
  let n := sublayers s in
  mk_layer (name s) (base s) (current s * (inject_Z (n + 1) / inject_Z n))%Q (n + 1) (neglected s).
(** The state is changed in place: layer number [i]. *)
Fixpoint change (f : layer -> layer) (i : nat) (st : list layer) : list layer :=
  match st, i with
  | [], _ => []
  | s :: r, O => f s :: r
  | s :: r, S k => s :: change f k r
  end.

(** ** The phases (lines 283-332) *)
(** Line 303: the candidates of a phase, with their [file_order]. *)
Fixpoint candidates (i : nat) (avg : Q) (st : list layer) : list (nat * Q) :=
  match st with
  | [] => []
  | s :: r =>
      if negb (neglected s) && Qlt_bool (current s) avg
      then (i, current s) :: candidates (S i) avg r else candidates (S i) avg r
  end.
(** Line 309: sort by (current_conductance, file_order, name); the candidates come in the
    file order, so a stable sort by conductance does it. *)
Fixpoint insert (x : nat * Q) (l : list (nat * Q)) : list (nat * Q) :=
  match l with
  | [] => [x]
  | y :: r => if Qle_bool (snd x) (snd y) then x :: y :: r else y :: insert x r
  end.
Definition sort_candidates (l : list (nat * Q)) : list nat := map fst (fold_right insert [] l).

(** Lines 316-325: what is left of the divisions, the layers, the recorded variances. *)
Fixpoint divide (order : list nat) (left : nat) (st : list layer) : nat * list layer * list variance :=
  match order, left with
  | [], _ => (left, st, [])
  | _, O => (O, st, [])
  | i :: r, S l =>
      let st1 := change subdivide_one i st in
      let '(l', st2, vs) := divide r l st1 in
      (l', st2, match var_s st1 with No_layers => vs | v => v :: vs end)
  end.
(** run_phases_collect_variance, layer_division.py 283-332. [left] is
    max_total_divisions - total_divisions; every phase that does not stop uses at least
    one division, so [left] bounds the number of phases (it is the [fuel] of [run]). *)
Fixpoint phases (fuel : nat) (left : nat) (st : list layer) : nat * list layer * list variance :=
  match fuel, left with
  | _, O | O, _ => (left, st, [])
  | S f, _ =>
      match weighted_average st with
      | None => (left, st, [])
      | Some avg =>
          match sort_candidates (candidates 0 avg st) with
          | [] => (left, st, [])
          | order =>
              let '(l', st1, vs) := divide order left st in
              let '(l2, st2, vs2) := phases f l' st1 in
              (l2, st2, vs ++ vs2)
          end
      end
  end.
(** main, layer_division.py 395-415 and 437-465: the layers and the variances that are printed, the
    first of them before any division; None when there is nothing to analyse (lines
    396-403). A negative --i-max allows no division (line 295). *)
Definition run (layers : list (string * Q)) (i_max : Z) : option (list layer * variance * list variance) :=
  match layers with
  | [] => None
  | _ =>
      let st := mark_neglected (map initial layers) in
      let left := Z.to_nat i_max in
      let '(_, st', vs) := phases left left st in
      Some (st', var_s st, vs)
  end.
