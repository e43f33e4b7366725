(** * Specification for C80: which cells belong to an element, sizes and numbers of cells,
      and what the written floorplan says. *)
From Coq Require Import ZArith QArith Qround Bool List String Permutation Sorting.Sorted.
From Verif Require Import Base Flex VtkSpec FlpText FlpTextSpec DivisionSpec Gradient.
Import ListNotations.
Local Open Scope list_scope.
Local Open Scope Z_scope.

(** The lower left corner of the cell is in the element, or on its border. *)
Definition corner_in (e : part) (c : cell) : Prop :=
  (p_x e <= llx c <= p_x e + p_length e)%Q /\ (p_y e <= lly c <= p_y e + p_width e)%Q.
Definition covered (cells : list cell) (e : part) : Prop := exists c, In c cells /\ corner_in e c.
(** [a] is the mean gradient of these cells. *)
Definition is_average (cells : list cell) (e : part) (a : Q) : Prop :=
  exists l out, Permutation cells (l ++ out) /\ Forall (corner_in e) l /\ Forall (fun c => ~ corner_in e c) out /\
    l <> [] /\ (a == mean (map gradient l))%Q.
(** [lo] and [hi] are the least and the greatest of the values. *)
Definition least_of (lo : Q) (l : list Q) : Prop := Exists (Qeq lo) l /\ Forall (Qle lo) l.
Definition greatest_of (hi : Q) (l : list Q) : Prop := Exists (Qeq hi) l /\ Forall (fun x => x <= hi)%Q l.
(** How far an average is from the least one towards the greatest: 0 to 1. *)
Definition relative (lo hi a : Q) : Q := ((a - lo) / (hi - lo + float_eps))%Q.
(** The percentile: the value at position (n-1)*p/100 of the sorted values, on the line
    between its neighbours. *)
Definition is_percentile (p : Q) (l : list Q) (v : Q) : Prop :=
  exists s, Permutation s l /\ StronglySorted Qle s /\
    let h := (inject_Z (Z.of_nat (List.length s) - 1) * (p / 100))%Q in
    exists k a b t, Z.of_nat k = Qfloor h /\ nth_error s k = Some a /\
      (nth_error s (S k) = Some b \/ List.length s = S k /\ b = a) /\ (t == h - inject_Z (Qfloor h))%Q /\ (v == (1 - t) * a + t * b)%Q.
(** The size asked for, kept between two limits. *)
Definition kept_between (lo hi t s : Q) : Prop :=
  ((t <= lo)%Q /\ (s == lo)%Q) \/ ((lo <= t <= hi)%Q /\ (s == t)%Q) \/ ((hi <= t)%Q /\ (s == hi)%Q).
(** [n] by [n] is the coarsest such division of an element with cells of at most [sx] by [sy]. *)
Definition coarsest (lx ly sx sy : Q) (n : Z) : Prop :=
  (lx <= inject_Z n * sx)%Q /\ (ly <= inject_Z n * sy)%Q /\
  forall m, (lx <= inject_Z m * sx)%Q -> (ly <= inject_Z m * sy)%Q -> n <= m.
(** What an element has to be for its text to be read again. *)
Definition writable (e : part) : Prop :=
  (0 < p_length e)%Q /\ (0 < p_width e)%Q /\ name_ok (p_name e) /\ match p_material e with Some m => name_ok m | None => True end.
(** The declaration says the same of the element, to half a millionth of a micrometre and
    half a billionth of a milliwatt, and divides it in [n] by [n] cells. *)
Definition declares (e : part) (n : Z) (d : flpdecl) : Prop :=
  fd_id d = name_codes (p_name e) /\
  (exists x y l w, fd_rects d = [(x, y, l, w)] /\ near (1 # 2000000) x (p_x e) /\ near (1 # 2000000) y (p_y e) /\
                   near (1 # 2000000) l (p_length e) /\ near (1 # 2000000) w (p_width e)) /\
  fd_material d = option_map name_codes (p_material e) /\
  (exists nx ny, fd_discr d = Some (nx, ny) /\ (nx == inject_Z n)%Q /\ (ny == inject_Z n)%Q) /\
  (exists ps, fd_powers d = Some ps /\
     Forall2 (near (1 # 2000000000000)) ps (match p_power e with None | Some [] => [0%Q] | Some l => l end)).
