(** * What a reader of VTK legacy files makes of a file.

    Written from the VTK file format ("VTK File Formats", simple legacy
    formats, ASCII, unstructured grid), independently of the model: two header
    lines, then words separated by blanks and ends of lines. *)
From Coq Require Import ZArith List Bool QArith Qabs String Ascii.
From Verif Require Import Base Inspect NonUniform Vtk.
Import ListNotations.
Local Open Scope string_scope.
Local Open Scope Z_scope.

(** Space, end of line, tabulation. *)
Definition blank (c : ascii) : bool := Ascii.eqb c " "%char || Ascii.eqb c "010"%char || Ascii.eqb c "009"%char.

(** The first line and what follows it. *)
Fixpoint cut_line (s : string) : string * string :=
  match s with
  | "" => ("", "")
  | String c r => if Ascii.eqb c "010"%char then ("", r) else let '(a, b) := cut_line r in (String c a, b)
  end.

(** The words of a text: the word the text begins with (maybe empty) and the
    words that follow. *)
Definition add_word (w : string) (l : list string) : list string := match w with "" => l | _ => w :: l end.
Fixpoint split_words (s : string) : string * list string :=
  match s with
  | "" => ("", [])
  | String c r => let '(w, l) := split_words r in if blank c then ("", add_word w l) else (String c w, l)
  end.
Definition words (s : string) : list string := add_word (fst (split_words s)) (snd (split_words s)).

(** Numbers. *)
Definition digit_value (c : ascii) : option Z :=
  let n := Z.of_nat (nat_of_ascii c) - 48 in if (0 <=? n) && (n <=? 9) then Some n else None.
Fixpoint digits_value (acc : Z) (s : string) : option Z :=
  match s with
  | "" => Some acc
  | String c r => match digit_value c with Some v => digits_value (acc * 10 + v) r | None => None end
  end.
Definition read_count (s : string) : option nat :=
  match s with "" => None | _ => option_map Z.to_nat (digits_value 0 s) end.
(** The part before the point and the part after it. *)
Fixpoint cut_point (s : string) : string * string :=
  match s with
  | "" => ("", "")
  | String c r => if Ascii.eqb c "."%char then ("", r) else let '(a, b) := cut_point r in (String c a, b)
  end.
Definition read_unsigned (s : string) : option Q :=
  let '(a, b) := cut_point s in
  match digits_value 0 a, digits_value 0 b with
  | Some i, Some f => Some (inject_Z i + inject_Z f / inject_Z (10 ^ Z.of_nat (String.length b)))%Q
  | _, _ => None
  end.
Definition read_number (s : string) : option Q :=
  match s with
  | "" => None
  | String c r => if Ascii.eqb c "-"%char then option_map Qopp (read_unsigned r) else read_unsigned s
  end.

(** [n] times the same thing. *)
Section Repeat.
  Context {A : Type}.
  Variable one : list string -> option (A * list string).
  Fixpoint read_many (n : nat) (l : list string) : option (list A * list string) :=
    match n with
    | O => Some ([], l)
    | S n' => match one l with
              | Some (x, l1) => match read_many n' l1 with Some (xs, l2) => Some (x :: xs, l2) | None => None end
              | None => None
              end
    end.
End Repeat.

Definition a_number (l : list string) : option (Q * list string) :=
  match l with w :: r => option_map (fun q => (q, r)) (read_number w) | [] => None end.
Definition a_count (l : list string) : option (nat * list string) :=
  match l with w :: r => option_map (fun n => (n, r)) (read_count w) | [] => None end.
Definition a_word (w : string) (l : list string) : option (list string) :=
  match l with v :: r => if String.eqb v w then Some r else None | [] => None end.
Definition a_point (l : list string) : option (Q * Q * Q * list string) :=
  match a_number l with
  | Some (x, l1) => match a_number l1 with
    | Some (y, l2) => match a_number l2 with Some (z, l3) => Some ((x, y, z), l3) | None => None end
    | None => None end
  | None => None end.
(** A cell: the number of its points, then their numbers. *)
Definition a_cell (l : list string) : option (list nat * list string) :=
  match a_count l with Some (n, l1) => read_many a_count n l1 | None => None end.

Notation "'let?' p := m 'in' f" := (match m with Some p => f | None => None end)
  (at level 200, p pattern, m at level 100, f at level 200).

(** SCALARS name type 1, LOOKUP_TABLE name, one value per cell. *)
Definition a_scalar (n : nat) (l : list string) : option (string * list Q * list string) :=
  let? l := a_word "SCALARS" l in
  match l with
  | name :: _ :: one :: table :: _ :: l =>
    if String.eqb one "1" && String.eqb table "LOOKUP_TABLE" then
      let? (vs, l) := read_many a_number n l in Some ((name, vs), l)
    else None
  | _ => None
  end.
Fixpoint scalars (fuel : nat) (n : nat) (l : list string) : option (list (string * list Q)) :=
  match fuel, l with
  | _, [] => Some []
  | O, _ => None
  | S f, _ => let? (s, l) := a_scalar n l in let? ss := scalars f n l in Some (s :: ss)
  end.

(** An unstructured grid. *)
Record vtk := mkVtk {
  vt_points : list (Q * Q * Q);
  vt_cells : list (list nat);
  vt_types : list nat;
  vt_scalars : list (string * list Q)
}.

Definition header_line : string := "# vtk DataFile Version".
Definition read_vtk (text : string) : option vtk :=
  let '(first, t) := cut_line text in
  if String.prefix header_line first then
    let '(_title, t) := cut_line t in
    let l := words t in
    let? l := a_word "ASCII" l in
    let? l := a_word "DATASET" l in
    let? l := a_word "UNSTRUCTURED_GRID" l in
    let? l := a_word "POINTS" l in
    let? (np, l) := a_count l in
    let? l := a_word "float" l in
    let? (ps, l) := read_many a_point np l in
    let? l := a_word "CELLS" l in
    let? (nc, l) := a_count l in
    let? (size, l) := a_count l in
    let? (cs, l) := read_many a_cell nc l in
    if (fold_right (fun c s => S (Datatypes.length c) + s)%nat O cs =? size)%nat then
      let? l := a_word "CELL_TYPES" l in
      let? (nt, l) := a_count l in
      let? (ts, l) := read_many a_count nt l in
      let? l := a_word "CELL_DATA" l in
      let? (nd, l) := a_count l in
      if (nt =? nc)%nat && (nd =? nc)%nat then
        let? ss := scalars (Datatypes.length l) nc l in
        Some (mkVtk ps cs ts ss)
      else None
    else None
  else None.

(** ** What the file should say *)

Definition near (e a b : Q) : Prop := (Qabs (a - b) <= e)%Q.
Definition near_point (e : Q) (p q : Q * Q * Q) : Prop :=
  near e (fst (fst p)) (fst (fst q)) /\ near e (snd (fst p)) (snd (fst q)) /\ near e (snd p) (snd q).

(** The corners of the box of a cell, in the order of the cell type 12
    (VTK_HEXAHEDRON): bottom face, then top face, both turning the same way. *)
Definition box_corners (c : cell) : list (Q * Q * Q) :=
  let '(mkRect x0 y0 x1 y1) := c_rect c in
  let z0 := c_z c in
  let z1 := (c_z c + c_height c)%Q in
  [ (x0, y0, z0); (x1, y0, z0); (x1, y1, z0); (x0, y1, z0);
    (x0, y0, z1); (x1, y0, z1); (x1, y1, z1); (x0, y1, z1) ].

Definition labelled (v : vcell) : Prop := v_id v = Some "UNDERFILL" \/ v_id v = Some "AIR".

(** The grid read from the file is the grid of the cells, with the temperature
    and the label of each; micrometres are exact to the sixth decimal, kelvins
    to the third. *)
Record shows (g : vtk) (cells : list vcell) (temps : list Q) : Prop := {
  sh_cells : Datatypes.length (vt_cells g) = Datatypes.length cells;
  sh_types : vt_types g = List.repeat 12%nat (Datatypes.length cells);
  sh_corner : forall k v, nth_error cells k = Some v ->
    exists ids, nth_error (vt_cells g) k = Some ids /\ Datatypes.length ids = 8%nat /\
      forall j i q, nth_error ids j = Some i -> nth_error (box_corners (v_cell v)) j = Some q ->
        exists p, nth_error (vt_points g) i = Some p /\ near_point (1 # 2000000) p q;
  sh_scalar : exists ts ls, vt_scalars g = [("Temperature", ts); ("Labels", ls)] /\
    Datatypes.length ts = Datatypes.length cells /\ Datatypes.length ls = Datatypes.length cells /\
    (forall k t, (k < Datatypes.length cells)%nat -> nth_error temps k = Some t ->
       exists t', nth_error ts k = Some t' /\ near (1 # 2000) t' t) /\
    (forall k v, nth_error cells k = Some v ->
       exists l, nth_error ls k = Some l /\ ((l == 1 /\ labelled v) \/ (l == 0 /\ ~ labelled v))%Q)
}.

(** ** The names *)

Fixpoint no_dot (s : string) : bool := match s with "" => true | String c r => negb (Ascii.eqb c "."%char) && no_dot r end.
(** The decimal numeral of a number. *)
Definition numeral (s : string) (n : Z) : Prop :=
  digits_value 0 s = Some n /\ s <> "" /\ (forall r, s = String "0"%char r -> n = 0 /\ r = "").
(** "map12.vtk" for the map number 12 of "map.vtk". *)
Definition numbered (stem : string) (n : Z) (name : string) : Prop := exists d, numeral d n /\ name = (stem ++ d ++ ".vtk")%string.

(** A file of the disk shows the temperatures of the cells. *)
Definition holds (k : disk) (name : string) (cells : list vcell) (temps : list Q) : Prop :=
  exists text g, k name = Some text /\ read_vtk text = Some g /\ shows g cells temps.
