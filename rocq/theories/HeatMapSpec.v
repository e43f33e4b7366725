(** * Specification for C83: where a cell is drawn and in which colour. *)
From Coq Require Import ZArith QArith Qabs Bool List.
From Verif Require Import Base HeatMap.
Import ListNotations.
Local Open Scope list_scope.
Local Open Scope Z_scope.

(** The numbers are the centres of cells of this size, each up to [e] (the axes are
    printed with two decimals). *)
Definition centres (size e : Q) (l : list Q) : Prop :=
  forall j x, nth_error l j = Some x -> (Qabs (x - (inject_Z (Z.of_nat j) + (1 # 2)) * size) <= e)%Q.
(** The rectangle is the cell in column [j] and row [i], in mm, up to [e] um. *)
Definition drawn_at (length width e : Q) (i j : nat) (r : rect) : Prop :=
  (Qabs (1000 * x_left r - inject_Z (Z.of_nat j) * length) <= 2 * e)%Q /\
  (Qabs (1000 * y_left r - inject_Z (Z.of_nat i) * width) <= 2 * e)%Q /\
  (Qabs (1000 * dim_x r - length) <= 2 * e)%Q /\ (Qabs (1000 * dim_y r - width) <= 2 * e)%Q.
(** Colour [k] of [n] for [t] between [lo] and [hi]: the n intervals of equal size. *)
Definition colour_of (lo hi : Q) (n : Z) (t : Q) (k : Z) : Prop :=
  0 <= k < n /\ (lo + inject_Z k * ((hi - lo) / inject_Z n) <= t)%Q /\ (t < lo + inject_Z (k + 1) * ((hi - lo) / inject_Z n))%Q.
