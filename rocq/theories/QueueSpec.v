(** * Specification of powers queues: registers holding plain lists.
    Independent of the circular-buffer model (uses only the operation names). *)
From Coq Require Import ZArith List QArith.
From Verif Require Import Base Queue.
Import ListNotations.
Local Open Scope Z_scope.

(** [None]: the queue has not been built. [Some l]: holds the values [l], oldest first. *)
Definition sqstate := nat -> option (list power).

Definition sqstep (s : sqstate) (o : qop) : option power * sqstate :=
  match o with
  | OBuild r _ => (None, set_reg s r (Some []))
  | OPut r p =>
    (None, match s r with Some l => set_reg s r (Some (l ++ [p])) | None => s end)
  | OGet r =>
    match s r with
    | Some (x :: t) => (Some x, set_reg s r (Some t))
    | _ => (Some 0%Q, s)
    end
  | OCopy d r => (None, set_reg s d (s r))
  | ODestroy r => (None, set_reg s r None)
  end.

Fixpoint sqrun (s : sqstate) (ops : list qop) : list (option power) * sqstate :=
  match ops with
  | [] => ([], s)
  | o :: os =>
    let (v, s1) := sqstep s o in
    let (vs, s2) := sqrun s1 os in
    (v :: vs, s2)
  end.

(** Correct usage: capacities are positive 32-bit numbers and a copy reads a
    built queue different from the destination. *)
Definition valid_qop (s : sqstate) (o : qop) : Prop :=
  match o with
  | OBuild _ c => 0 < c < two32
  | OCopy d r => d <> r /\ s r <> None
  | _ => True
  end.

Fixpoint valid_qops (s : sqstate) (ops : list qop) : Prop :=
  match ops with
  | [] => True
  | o :: os => valid_qop s o /\ valid_qops (snd (sqstep s o)) os
  end.
