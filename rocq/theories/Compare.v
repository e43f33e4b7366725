(** * Model of the programs that compare results with references:
      /repo/test/CompareTemperatures.c and /repo/test/CompareSystemMatrix.c.

    A file is the list of its lines, a line the list of its words. Of a word only what
    fscanf makes of it is kept: a decimal integer (which "%d" and "%lf" read), another
    number (only "%lf"; [None] is a NaN), or anything else. Simplifications: a word is
    read as a whole ("%d" would read the first digits of 1.5 and leave the rest), the
    counters do not overflow, [double] is Q. Infinities are left out. *)
From Coq Require Import ZArith QArith Qabs Bool List.
From Verif Require Import Base.
Import ListNotations.
Local Open Scope Z_scope.

Definition number := option Q.
Inductive word := WInt (z : Z) | WNum (x : number) | WText.
Definition line := list word.
Definition text := list line.

(** fscanf of one "%lf", of one "%d": blanks and ends of lines are skipped. *)
Definition scan_double (ws : list word) : option (number * list word) :=
  match ws with
  | WInt z :: r => Some (Some (inject_Z z), r)
  | WNum x :: r => Some (x, r)
  | _ => None
  end.
Definition scan_int (ws : list word) : option (Z * list word) :=
  match ws with WInt z :: r => Some (z, r) | _ => None end.
(** The comparisons and fabs of C on such numbers. *)
Definition differ (a b : number) : bool := match a, b with Some x, Some y => negb (Qeq_bool x y) | _, _ => true end.
Definition above (a b : number) : bool := match a, b with Some x, Some y => negb (Qle_bool x y) | _, _ => false end.
Definition distance (a b : number) : number := match a, b with Some x, Some y => Some (Qabs (x - y)) | _, _ => None end.

(** What is printed, and whether the status is EXIT_SUCCESS. *)
Inductive report (A : Type) :=
| Usage
| Unable_to_open (file : Z)
| Different_lines
| Unreadable (file line : Z)
| Mismatch (line : Z)
| Sign_mismatch (line : Z)
| Result (a : A).
Arguments Usage {A}. Arguments Unable_to_open {A} file. Arguments Different_lines {A}. Arguments Unreadable {A} file line.
Arguments Mismatch {A} line. Arguments Sign_mismatch {A} line. Arguments Result {A} a.
(** The [return] statements: EXIT_FAILURE before the comparison, EXIT_SUCCESS after it. *)
Definition exit_success {A} (r : report A) : bool :=
  match r with Usage | Unable_to_open _ | Different_lines => false | _ => true end.

(** ** CompareTemperatures.c *)
(** max_node1, time_node1, max_node2, time_node2. *)
Definition maxima := (number * number * number * number)%type.
Definition scan_two (ws : list word) : option (number * number * list word) :=
  match scan_double ws with
  | Some (t, r) => match scan_double r with Some (v, r') => Some (t, v, r') | None => None end
  | None => None
  end.
Definition scan_three (ws : list word) : option (number * number * number * list word) :=
  match scan_two ws with
  | Some (t, v, r) => match scan_double r with Some (v', r') => Some (t, v, v', r') | None => None end
  | None => None
  end.
(** The loop of lines 206-242: [n] lines left, [counter] read. *)
Fixpoint temperatures_loop (n : nat) (counter : Z) (w1 w2 w3 : list word) (m : maxima) : report maxima :=
  match n with
  | O => Result m
  | S n' =>
    match scan_two w1 with
    | None => Unreadable 1 (counter + 1)
    | Some (time1, temp1, r1) =>
      match scan_two w2 with
      | None => Unreadable 2 (counter + 1)
      | Some (time2, temp2, r2) =>
        match scan_three w3 with
        | None => Unreadable 3 (counter + 1)
        | Some (time3, temp3, temp4, r3) =>
          if differ time1 time2 || differ time2 time3 then Mismatch (counter + 1)
          else
            let '(max1, at1, max2, at2) := m in
            let d1 := distance temp1 temp3 in
            let '(max1, at1) := if above d1 max1 then (d1, time1) else (max1, at1) in
            let d2 := distance temp2 temp4 in
            let '(max2, at2) := if above d2 max2 then (d2, time1) else (max2, at2) in
            temperatures_loop n' (counter + 1) r1 r2 r3 (max1, at1, max2, at2)
        end
      end
    end
  end.
(** main: [None] is a file that cannot be opened. Three lines of the first two files are
    skipped, lines 80-84 and 106-110. *)
Definition compare_temperatures (node1 node2 reference : option text) : report maxima :=
  match node1 with
  | None => Unable_to_open 1
  | Some f1 =>
    match node2 with
    | None => Unable_to_open 2
    | Some f2 =>
      match reference with
      | None => Unable_to_open 3
      | Some l3 =>
        let l1 := skipn 3 f1 in let l2 := skipn 3 f2 in
        if negb (length l1 =? length l2)%nat || negb (length l2 =? length l3)%nat then Different_lines
        else temperatures_loop (length l1) 0 (concat l1) (concat l2) (concat l3) (Some 0, Some 0, Some 0, Some 0)%Q
      end
    end
  end.

(** ** CompareSystemMatrix.c *)
(** max_difference, max_ref + 1, max_row, max_column. *)
Definition furthest := (number * Z * Z * Z)%type.
Definition scan_entry (ws : list word) : option (Z * Z * number * list word) :=
  match scan_int ws with
  | Some (r, ws1) =>
    match scan_int ws1 with
    | Some (c, ws2) => match scan_double ws2 with Some (v, ws3) => Some (r, c, v, ws3) | None => None end
    | None => None
    end
  | None => None
  end.
(** The loop of the comparison. *)
Fixpoint matrix_loop (n : nat) (counter : Z) (w1 w2 : list word) (m : furthest) : report furthest :=
  match n with
  | O => Result m
  | S n' =>
    match scan_entry w1 with
    | None => Unreadable 1 (counter + 1)
    | Some (row1, column1, value1, r1) =>
      match scan_entry w2 with
      | None => Unreadable 2 (counter + 1)
      | Some (row2, column2, value2, r2) =>
        if negb (row1 =? row2) || negb (column1 =? column2) then Mismatch (counter + 1)
        else if above (Some 0%Q) value1 && above value2 (Some 0%Q) || above value1 (Some 0%Q) && above (Some 0%Q) value2 then Sign_mismatch (counter + 1)
        else
          let '(best, at_line, at_row, at_column) := m in
          let d := distance value1 value2 in
          matrix_loop n' (counter + 1) r1 r2 (if above d best then (d, counter + 1, row1, column1) else (best, at_line, at_row, at_column))
      end
    end
  end.
Definition compare_matrices (totest reference : option text) : report furthest :=
  match totest with
  | None => Unable_to_open 1
  | Some l1 =>
    match reference with
    | None => Unable_to_open 2
    | Some l2 =>
      if negb (length l1 =? length l2)%nat then Different_lines
      else matrix_loop (length l1) 0 (concat l1) (concat l2) (Some 0%Q, 1, 0, 0)
    end
  end.
