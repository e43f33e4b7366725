(** * Model of the transient solver section of a stack description,
      /repo/bison/stack_description_parser.y 1752-1811

    Time_t is double (include/types.h 65): the arithmetic here is IEEE binary64
    as defined in the standard library (Coq.Floats.SpecFloat, 53 bits of
    mantissa, rounding to nearest even). *)
From Coq Require Import ZArith List Bool SpecFloat.
From Verif Require Import Base.
Local Open Scope Z_scope.

Definition double := spec_float.
Definition dmul : double -> double -> double := SFmul 53 1024.
(** The constants 10.0 and 0.0. *)
Definition ten : double := S754_finite false 5629499534213120 (-49).
Definition dzero : double := S754_zero false.

(** modf (C library): [modf_frac_zero x] is whether the fractional part of [x]
    compares equal to 0.0 ([modf] of an infinity is 0, of a nan a nan). *)
Definition modf_frac_zero (x : double) : bool :=
  match x with
  | S754_zero _ | S754_infinity _ => true
  | S754_nan => false
  | S754_finite _ m e => (0 <=? e) || (Z.pos m mod 2 ^ (- e) =? 0)
  end.
(** Conversion of the integral part to Quantity_t (uint32_t): [UB] when it does
    not fit (C99 6.3.1.4). *)
Definition quantity_of (x : double) : outcome Z :=
  match x with
  | S754_zero _ => Ok 0
  | S754_infinity _ | S754_nan => UB
  | S754_finite s m e =>
    let a := if 0 <=? e then Z.pos m * 2 ^ e else Z.pos m / 2 ^ (- e) in
    if s then (if a =? 0 then Ok 0 else UB) else if a <? two32 then Ok a else UB
  end.

(** The while loop, 1789-1801. *)
Fixpoint scale (fuel : nat) (sl st : double) : outcome (double * double) :=
  match fuel with
  | O => NoFuel
  | S f =>
    if modf_frac_zero sl && modf_frac_zero st then Ok (sl, st)
    else scale f (dmul sl ten) (dmul st ten)
  end.
(** SlotLength, 1803. *)
Definition slot_length (fuel : nat) (sl st : double) : outcome Z :=
  do r <- scale fuel sl st ;
  let '(sl', st') := r in
  do a <- quantity_of sl' ;
  do b <- quantity_of st' ;
  if b =? 0 then UB else Ok (a / b).
(** 1758-1778, 1803: [None] when the parser aborts. *)
Definition parse_times (fuel : nat) (step slot : double) : outcome (option Z) :=
  if SFltb slot step then Ok None
  else if SFleb step dzero then Ok None
  else if SFleb slot dzero then Ok None
  else do n <- slot_length fuel slot step ; Ok (Some n).
