(** * Specification vocabulary for the grid *)
From Coq Require Import ZArith List QArith.
From Verif Require Import Base QSum Dims.
Import ListNotations.
Local Open Scope Z_scope.

(** Coordinates inside the grid. *)
Definition in_grid (d : dims) (l r c : Z) : Prop :=
  0 <= l < d_nlayers d /\ 0 <= r < d_nrows d /\ 0 <= c < d_ncols d.

(** Positive sizes in the dimension section. *)
Definition positive_sizes (chip_length chip_width cell_length cell_width : Q) (s : chan_spec) : Prop :=
  (0 < chip_length /\ 0 < chip_width /\ 0 < cell_length /\ 0 < cell_width)%Q /\
  match s with
  | Uniform _ => True
  | MC4RM f l w c => (0 < f /\ 0 < l /\ 0 < w /\ 0 < c)%Q
  end.

(** Lengths of the first [n] columns. *)
Definition column_lengths (d : dims) (n : nat) : list Q :=
  map (fun i => get_cell_length d (Z.of_nat i)) (seq 0 n).
Definition row_widths (d : dims) (n : nat) : list Q :=
  map (fun i => get_cell_width d (Z.of_nat i)) (seq 0 n).
