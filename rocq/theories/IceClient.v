(** * Model of the SystemC client, /repo/sources/IceWrapper.cpp, on the words of the
      messages *)
From Coq Require Import ZArith List Bool QArith Qround.
From Verif Require Import Base Emulate Message Server.
Import ListNotations.
Local Open Scope Z_scope.

(** getNumberOfFloorplanElements, IceWrapper.cpp 93-107: request and answer. *)
Definition ice_count_request : word * list word := (TOTAL_NUMBER_OF_FLOORPLAN_ELEMENTS, []).
Definition ice_count (reply : message) : outcome word := word_at reply 0.

(** sendPowerValues, IceWrapper.cpp 109-142: [None] is SC_REPORT_FATAL (which ends the
    program); [vs] are the words of the values. *)
Definition ice_powers (n : word) (vs : list word) : option (word * list word) :=
  if Z.of_nat (length vs) =? n then Some (INSERT_POWERS, n :: vs) else None.
(** 130-140: goes on when the answer is TDICE_SUCCESS. *)
Definition ice_accepted (reply : message) : outcome bool := do e <- word_at reply 0 ; Ok (e =? error_code TDICE_SUCCESS).

(** simulate, IceWrapper.cpp 144-164. *)
Definition ice_simulate : word * list word := (SIMULATE_SLOT, []).
Definition ice_simulated (reply : message) : outcome bool := do r <- word_at reply 0 ; Ok (r =? result_code TDICE_SLOT_DONE).

(** getTemperature, IceWrapper.cpp 166-206: the request, and the loop over the values:
    a word beyond the buffer leaves temperature = 0 (nresults + 2 does not wrap). *)
Definition ice_request (instant type quantity : word) : word * list word := (SEND_OUTPUT, [instant; type; quantity]).
Fixpoint ice_floats (m : message) (n : nat) (index : Z) : outcome (list word) :=
  match n with
  | O => Ok []
  | S n' =>
    do w <- extract_message_word m index ;
    do t <- ice_floats m n' (index + 1) ;
    Ok (match w with Some w => w | None => 0 end :: t)
  end.
Definition ice_temperatures (m : message) : outcome (list word) :=
  do _ <- extract_message_word m 0 ;
  do n <- word_at m 1 ;
  ice_floats m (Z.to_nat n) 2.

(** The time check, IceWrapper.cpp 183-197. [time] is a double, initially 0, into which
    the 4 bytes of the word are copied: its value is that of a double whose lower 32
    bits are the word and whose other bits are 0 (little-endian), 2^-1074 per unit. *)
Definition ice_time (w : word) : Q := (inject_Z w * (1 # Z.to_pos (2 ^ 1074)))%Q.
(** sc_time (v, SC_SEC) with the default resolution of 1 ps (SystemC, not part of the
    repository): 64-bit ticks, rounded to nearest. *)
Definition two64 : Z := 2 ^ 64.
Definition sc_ticks (v : Q) : Z := Qfloor (v * inject_Z (10 ^ 12) + (1 # 2)) mod two64.
(** The test that makes the program stop; [now] are the ticks of sc_time_stamp () and
    1 ns is 1000 ticks; additions and subtractions wrap. *)
Definition ice_out_of_sync (now : Z) (w : word) : bool :=
  ((now + 1000) mod two64 <=? sc_ticks (ice_time w)) && (sc_ticks (ice_time w) <=? (now - 1000) mod two64).

(** getMap, IceWrapper.cpp 208-264: what is written, maps of rows; [last] is the value of
    temperature, kept when a word is beyond the buffer. Result: also index and
    temperature after the loops. *)
Fixpoint ice_cells (m : message) (n : nat) (index : Z) (last : word) : outcome (list word * Z * word) :=
  match n with
  | O => Ok ([], index, last)
  | S n' =>
    let index := u32 (index + 1) in
    do w <- extract_message_word m index ;
    let t := match w with Some w => w | None => last end in
    do r <- ice_cells m n' index t ;
    let '(ts, i, l) := r in Ok (t :: ts, i, l)
  end.
Fixpoint ice_rows (m : message) (rows ncols : nat) (index : Z) (last : word) : outcome (list (list word) * Z * word) :=
  match rows with
  | O => Ok ([], index, last)
  | S r =>
    do a <- ice_cells m ncols index last ; let '(row, i, l) := a in
    do b <- ice_rows m r ncols i l ; let '(t, i2, l2) := b in Ok (row :: t, i2, l2)
  end.
Fixpoint ice_maps (m : message) (n rows ncols : nat) (index : Z) (last : word) : outcome (list (list (list word)) * Z * word) :=
  match n with
  | O => Ok ([], index, last)
  | S n' =>
    do a <- ice_rows m rows ncols index last ; let '(x, i, l) := a in
    do b <- ice_maps m n' rows ncols i l ; let '(t, i2, l2) := b in Ok (x :: t, i2, l2)
  end.
Definition ice_map (m : message) : outcome (list (list (list word))) :=
  do _ <- extract_message_word m 0 ;
  do n <- word_at m 1 ;
  do nr <- word_at m 2 ;
  do nc <- word_at m 3 ;
  do r <- ice_maps m (Z.to_nat n) (Z.to_nat nr) (Z.to_nat nc) 4 0 ;
  Ok (fst (fst r)).
