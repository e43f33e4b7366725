(** * Specification vocabulary: the template heat sinks *)
From Coq Require Import ZArith QArith Bool String Ascii List.
From Verif Require Import Base QSum Dims Stack PowerGrid Emulate Conduct SinkTemplate.
Local Open Scope Z_scope.

(** Temperatures of the spreader, row after row. *)
Definition spreader_temps {M PS} (d : dims) (s : sim M PS) : list Q := skipn (Z.to_nat (chip_cells d)) (s_temps s).
(** Heat per unit of time that the cells at [ts] give to the air. *)
Definition to_the_air (k : heatsink) (ts : list Q) : Q := qsum (map (fun t => (hk_conductance k * (t - hk_ambient k))%Q) ts).
(** In one step a cell of the spreader loses at most the heat it holds above the ambient. *)
Definition gentle (k : heatsink) (sp : spreader) (h : Q) (m : material) (a : analysis) : Prop :=
  (hk_conductance k * an_step a <= spreader_capacity sp h m)%Q.
(** No temperature below [lo]. *)
Definition at_least (lo : Q) (x : list Q) : Prop := forall i, 0 <= i < Z.of_nat (List.length x) -> (lo <= nth (Z.to_nat i) x 0)%Q.
(** Two conductances one after the other. *)
Definition one_after_other (x y z : Q) : Prop := (0 < x /\ 0 < y /\ 0 < z /\ 1 / z == 1 / x + 1 / y)%Q.

(** [w] is the text before the first space of [s], if any. *)
Definition has_no (c : ascii) (s : string) : Prop := forall n, get n s <> Some c.
Definition word_of (w s : string) : Prop := has_no " " w /\ (s = w \/ exists rest, s = (w ++ " " ++ rest)%string).
