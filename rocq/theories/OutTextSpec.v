(** * Reading the output files back.

    Written from the way such files are loaded by plotting tools (Octave's
    load, gnuplot with "set commentschars '%'"), independently of the model:
    lines that begin with a percent sign are comments; every other line is a
    row of numbers separated by blanks and tabulations; an empty line ends a
    block. *)
From Coq Require Import ZArith List Bool QArith Qabs String Ascii.
From Verif Require Import Base Dims Floorplan Stack PowerGrid Emulate Inspect Emulator VtkSpec.
Import ListNotations.
Local Open Scope string_scope.
Local Open Scope Z_scope.

Fixpoint lines (s : string) : list string :=
  match s with
  | "" => []
  | String c r =>
    if Ascii.eqb c "010"%char then "" :: lines r
    else match lines r with [] => [String c ""] | l :: ls => String c l :: ls end
  end.
Definition comment (l : string) : bool := match l with String c _ => Ascii.eqb c "%"%char | "" => false end.
Fixpoint numbers (ws : list string) : option (list Q) :=
  match ws with
  | [] => Some []
  | w :: r => match read_number w, numbers r with Some q, Some l => Some (q :: l) | _, _ => None end
  end.
Fixpoint rows (ls : list string) : option (list (list Q)) :=
  match ls with
  | [] => Some []
  | l :: r =>
    if comment l then rows r
    else match numbers (words l), rows r with Some x, Some xs => Some (x :: xs) | _, _ => None end
  end.
(** The rows of a file, empty ones included. *)
Definition data (text : string) : option (list (list Q)) := rows (lines text).
(** The blocks of rows that an empty row ends. *)
Fixpoint blocks (l : list (list Q)) : list (list (list Q)) :=
  match l with
  | [] => []
  | [] :: r => [] :: blocks r
  | x :: r => match blocks r with [] => [[x]] | b :: bs => (x :: b) :: bs end
  end.
(** The headings of the columns: the words of the last comment, without the
    percent sign. *)
Definition headings (text : string) : list string :=
  match rev (filter comment (lines text)) with l :: _ => tl (words l) | [] => [] end.

(** ** What the files should say *)

(** A name made of visible ASCII characters. *)
Definition visible (n : list Z) : Prop := n <> [] /\ Forall (fun c => 33 <= c < 127) n.
(** The text of a name. *)
Definition says (n : list Z) : string := string_of_list_ascii (map (fun c => ascii_of_nat (Z.to_nat c)) n).

(** Digits after the point. *)
Definition time_error (t : output_type) : Q := match t with OT_TCELL => 1 # 2000000 | _ => 1 # 2000 end.
Definition value_error (t : output_type) : Q := match t with OT_TCELL => 1 # 2000000000000 | _ => 1 # 2000 end.

(** A row with a time and values, to the precision of the format. *)
Definition row_says (t : output_type) (time : Q) (vs : list Q) (row : list Q) : Prop :=
  exists r0 rs, row = r0 :: rs /\ near (time_error t) r0 time /\ Forall2 (near (value_error t)) rs vs.

(** A block that is a map: as many rows and columns as the grid; the number in
    row i and column j is the value of the cell in row i and column j. *)
Definition map_says (d : dims) (vs : list Q) (b : list (list Q)) : Prop :=
  Z.of_nat (Datatypes.length b) = d_nrows d /\
  Forall (fun row => Z.of_nat (Datatypes.length row) = d_ncols d) b /\
  forall i j v, 0 <= i < d_nrows d -> 0 <= j < d_ncols d -> nth_error vs (Z.to_nat (i * d_ncols d + j)) = Some v ->
    exists row x, nth_error b (Z.to_nat i) = Some row /\ nth_error row (Z.to_nat j) = Some x /\ near (1 # 2000) x v.

(** The columns of the file of an inspection point. *)
Definition column_names (p : ipoint) : list string :=
  match ip_type p with
  | OT_TFLP => "Time(s)" ::
      match se_kind (ip_stkel p) with SKDie x => map (fun e => says (fe_id e) ++ "(K)") (f_elements (die_floorplan x)) | _ => [] end
  | OT_TFLPEL => ["Time(s)"; says (se_id (ip_stkel p)) ++ "." ++ match ip_element p with Some e => says (fe_id e) | None => "" end ++ "(K)"]
  | _ => ["Time(s)"; "Temperature(K)"]
  end.
Definition is_map (t : output_type) : Prop := t = OT_TMAP \/ t = OT_PMAP.
Definition is_table (t : output_type) : Prop := t = OT_TCELL \/ t = OT_TFLP \/ t = OT_TFLPEL \/ t = OT_TCOOLANT.
(** The names that a point shows are visible. *)
Definition good_names (p : ipoint) : Prop :=
  visible (se_id (ip_stkel p)) /\
  match se_kind (ip_stkel p) with SKDie x => Forall (fun e => visible (fe_id e)) (f_elements (die_floorplan x)) | _ => True end /\
  match ip_element p with Some e => visible (fe_id e) | None => True end.

(** The text of the file of point [p], with one record for each [k] of [ks]: a
    row or a map of the values that the point reads in the state [at_ k] (what
    [ip_values] means is C52). *)
Section Files.
  Context {M PS : Type}.
  Definition reads (d : dims) (p : ipoint) (s : sim M PS) (v : list Q) : Prop :=
    ip_values d (s_temps s) (pg_sources (s_pg s)) p (ip_quantity p) = Ok (Some v).
  Definition file_says (d : dims) (dt : Q) (p : ipoint) (ks : list Z) (at_ : Z -> sim M PS) (text : string) : Prop :=
    exists tb, data text = Some tb /\
      (is_table (ip_type p) ->
         headings text = column_names p /\
         Forall (fun row => Datatypes.length row = Datatypes.length (column_names p)) tb /\
         Forall2 (fun k row => exists v, reads d p (at_ k) v /\ row_says (ip_type p) (qz k * dt) v row) ks tb) /\
      (is_map (ip_type p) ->
         Forall2 (fun k b => exists v, reads d p (at_ k) v /\ map_says d v b) ks (blocks tb)).
End Files.
(** An axis: one number per line, the centres of the cells in micrometres. *)
Definition axis_says (centre : Z -> Q) (n : Z) (text : string) : Prop :=
  exists xs, data text = Some (map (fun x => [x]) xs) /\ Z.of_nat (Datatypes.length xs) = n /\
    forall i, 0 <= i < n -> exists x, nth_error xs (Z.to_nat i) = Some x /\ near (1 # 200) x (centre i).
