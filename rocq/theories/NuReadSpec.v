(** * Vocabulary: what an output instruction should report on the non-uniform grid *)
From Coq Require Import ZArith List Bool QArith Sorted.
From Verif Require Import Base Dims Floorplan Stack QSum Inspect NonUniform NuSpec.
Import ListNotations.
Local Open Scope Z_scope.

(** Value number [i] of a vector of temperatures or powers. *)
Definition value (v : list Q) (i : nat) : Q := nth i v 0%Q.

(** Cell number [i] is in layer [l]. *)
Definition of_layer (cs : list cell) (l : Z) (i : nat) : Prop := exists c, nth_error cs i = Some c /\ c_layer c = l.
(** Cell number [i] of layer [l] contains the point. *)
Definition holds_point (cs : list cell) (l : Z) (x y : Q) (i : nat) : Prop :=
  exists c, nth_error cs i = Some c /\ c_layer c = l /\ inside (c_rect c) x y.
(** Cell number [i] of layer [l] has a point of the rectangle. *)
Definition covers (cs : list cell) (l : Z) (R : rect) (i : nat) : Prop := exists x y, inside R x y /\ holds_point cs l x y i.

(** The layer an output instruction means: the source layer of a die, the layer of
    a layer, the coolant of a channel; [below] are the elements below. *)
Definition meant_layer (e : nu_kind) (below : list nu_kind) : Z :=
  total_layers below +
  match e with NuDie x => nd_offset x | NuLayer _ _ => 0 | NuChannel CM_MC_4RM => 0 | NuChannel _ => 2 end.
Definition good_source (e : nu_kind) : Prop :=
  match e with NuDie x => 0 <= nd_offset x < Z.of_nat (length (nd_layers x)) | _ => True end.

(** Extremes and average over a set of cells. *)
Definition hottest_of (S : nat -> Prop) (v : list Q) (x : Q) : Prop :=
  (exists i, S i /\ x = value v i) /\ forall i, S i -> (value v i <= x)%Q.
Definition coldest_of (S : nat -> Prop) (v : list Q) (x : Q) : Prop :=
  (exists i, S i /\ x = value v i) /\ forall i, S i -> (x <= value v i)%Q.
Definition area (r : rect) : Q := ((r_x1 r - r_x0 r) * (r_y1 r - r_y0 r))%Q.
Definition cell_area (cs : list cell) (i : nat) : Q := match nth_error cs i with Some c => area (c_rect c) | None => 0 end.
(** The mean of the values of the cells, which is also the mean over the surface. *)
Definition mean_of (S : nat -> Prop) (cs : list cell) (R : rect) (v : list Q) (x : Q) : Prop :=
  exists ns, NoDup ns /\ ns <> [] /\ (forall i, In i ns <-> S i) /\
    (x * qz (Z.of_nat (length ns)) == qsum (map (value v) ns) /\
     x * area R == qsum (map (fun i => value v i * cell_area cs i) ns))%Q.

(** What is asked of the rectangle [R] of a floorplan element in layer [l]. *)
Definition element_value (cs : list cell) (l : Z) (R : rect) (v : list Q) (q : output_quantity) (x : Q) : Prop :=
  match q with
  | OQ_MAXIMUM => hottest_of (covers cs l R) v x
  | OQ_MINIMUM => coldest_of (covers cs l R) v x
  | OQ_AVERAGE => mean_of (covers cs l R) cs R v x
  | OQ_GRADIENT => exists hi lo, hottest_of (covers cs l R) v hi /\ coldest_of (covers cs l R) v lo /\ (x == hi - lo)%Q
  | OQ_NONE => False
  end.

(** Elements of a floorplan of one rectangle each that do not overlap. *)
Definition separate (x : nu_die) : Prop :=
  Forall (fun e => 0 < ni_len (ne_first e) /\ 0 < ni_wid (ne_first e))%Q (nd_els x) /\
  forall j k a b, nth_error (nd_els x) j = Some a -> nth_error (nd_els x) k = Some b -> j <> k -> disjoint (rect_of (ne_first a)) (rect_of (ne_first b)).

(** The values of a whole layer, in the order of the cells. *)
Definition layer_values (cs : list cell) (l : Z) (v m : list Q) : Prop :=
  exists ns, StronglySorted lt ns /\ (forall i, In i ns <-> of_layer cs l i) /\ m = map (value v) ns.

(** Coolant cells of layer [l] at the outlet (the side y = W of the chip), and the
    cell at the outlet next to the side x = 0. *)
Definition at_outlet (cs : list cell) (l : Z) (W : Q) (i : nat) : Prop :=
  exists c, nth_error cs i = Some c /\ c_layer c = l /\ c_channel c = true /\ (r_y1 (c_rect c) == W)%Q.
Definition at_corner (cs : list cell) (l : Z) (W : Q) (i : nat) : Prop :=
  exists c, nth_error cs i = Some c /\ c_layer c = l /\ (r_x0 (c_rect c) == 0 /\ r_y1 (c_rect c) == W)%Q.
