(** * Specification vocabulary: runs of the emulator and their output files *)
From Coq Require Import ZArith List Bool QArith.
From Verif Require Import Base QSum Dims DimsSpec Queue Floorplan FloorplanSpec Stack StackSpec PowerGrid Emulate EmulateSpec Inspect Emulator.
Import ListNotations.
Local Open Scope Z_scope.

(** An inspection point as the parser makes them: its layer and cell are in the
    grid, a Tflp point is on a die, a Tflpel point has an element, a Tcoolant
    point is on a channel. *)
Definition good_point (d : dims) (p : ipoint) : Prop :=
  0 <= get_source_layer_offset (ip_stkel p) < d_nlayers d /\
  match ip_type p with
  | OT_TCELL => 0 <= ip_row p < d_nrows d /\ 0 <= ip_col p < d_ncols d
  | OT_TMAP | OT_PMAP => True
  | OT_TFLP => ip_quantity p <> OQ_NONE /\
      exists x, se_kind (ip_stkel p) = SKDie x /\ Forall (good_element d) (f_elements (die_floorplan x))
  | OT_TFLPEL => ip_quantity p <> OQ_NONE /\ exists e, ip_element p = Some e /\ good_element d e
  | OT_TCOOLANT => ip_quantity p <> OQ_NONE /\ exists c, se_kind (ip_stkel p) = SKChannel c /\ ch_nchannels c <> 0
  | OT_T3D | OT_NONE => False
  end.

(** Numbering the states of a run from [k] on. *)
Fixpoint number {A} (k : Z) (l : list A) : list (Z * A) :=
  match l with [] => [] | x :: t => (k, x) :: number (k + 1) t end.

Definition all_points (o : output) : list ipoint := o_final o ++ o_slot o ++ o_step o.

Section Runs.
  Context {M PS : Type}.
  Variable emulate : dims -> sim M PS -> outcome (simresult * sim M PS).
  (** The states after each of a series of successful steps. *)
  Fixpoint steps_from (d : dims) (s : sim M PS) (l : list (sim M PS)) : Prop :=
    match l with
    | [] => True
    | s' :: l' => (exists r, (r = TDICE_STEP_DONE \/ r = TDICE_SLOT_DONE) /\ emulate d s = Ok (r, s')) /\ steps_from d s' l'
    end.
  (** The line written for point [p] in state [s], at step [k] of length [dt]. *)
  Definition reports (d : dims) (dt : Q) (p : ipoint) (k : Z) (s : sim M PS) (l : line) : Prop :=
    exists v, ip_values d (s_temps s) (pg_sources (s_pg s)) p (ip_quantity p) = Ok (Some v) /\ l = Row p (qz k * dt)%Q (Some v).
End Runs.
