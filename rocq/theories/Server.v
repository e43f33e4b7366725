(** * Model of /repo/bin/3D-ICE-Server.c 54-640, of the message functions of
      /repo/sources/inspection_point.c 970-1467 and output.c 84-345, and of the
      decoding done by /repo/bin/3D-ICE-Client.c (uniform grid).

    A float stored in a message word is modelled by two functions: [encF]
    (double to float, then its bits) and [decF] (bits to float, then double).
    No property of them is assumed here.  The text of an output file is that of
    Emulator.v, turned into bytes by [render]. *)
From Coq Require Import ZArith List Bool QArith.
From Verif Require Import Base Dims Queue Floorplan Stack PowerGrid Emulate Inspect Emulator Message.
Import ListNotations.
Local Open Scope Z_scope.

(** ** Codes on the wire *)
(** MessageType_t, include/types.h 560-690. *)
Definition EXIT_SIMULATION : word := 0.
Definition RESET_THERMAL_STATE : word := 1.
Definition SEND_OUTPUT : word := 2.
Definition PRINT_OUTPUT : word := 3.
Definition TOTAL_NUMBER_OF_FLOORPLAN_ELEMENTS : word := 4.
Definition INSERT_POWERS : word := 5.
Definition SIMULATE_SLOT : word := 6.
Definition SIMULATE_STEP : word := 7.
Definition SEND_OUTPUT_FILES : word := 8.
(** Error_t and SimResult_t, include/types.h 405-443. *)
Definition error_code (e : error_t) : word := match e with TDICE_SUCCESS => 0 | TDICE_FAILURE => 1 end.
Definition result_code (r : simresult) : word :=
  match r with
  | TDICE_END_OF_SIMULATION => 0 | TDICE_WRONG_CONFIG => 1 | TDICE_SOLVER_ERROR => 2 | TDICE_STEP_DONE => 3 | TDICE_SLOT_DONE => 4
  end.
(** OutputQuantity_t, OutputType_t, OutputInstant_t, include/types.h 480-536.
    [None]: a value outside of the enumeration. *)
Definition quantity_of (w : word) : option output_quantity :=
  match w with 0 => Some OQ_NONE | 1 => Some OQ_AVERAGE | 2 => Some OQ_MAXIMUM | 3 => Some OQ_MINIMUM | 4 => Some OQ_GRADIENT | _ => None end.
Definition type_of_code (w : word) : option output_type :=
  match w with
  | 0 => Some OT_NONE | 1 => Some OT_TCELL | 2 => Some OT_TFLP | 3 => Some OT_TFLPEL | 4 => Some OT_TMAP
  | 5 => Some OT_PMAP | 6 => Some OT_TCOOLANT | 7 => Some OT_T3D | _ => None
  end.
Definition instant_of (w : word) : output_instant :=
  match w with 1 => OI_FINAL | 2 => OI_SLOT | 3 => OI_STEP | _ => OI_NONE end.

(** ** Texts *)
(** insert_message_bytes, inspection_point.c 970-990 and 3D-ICE-Server.c 55-76:
    the words inserted for a block of bytes, the last one padded with zeros.
    Simplification: no 32-bit wrap of the index (less than 2^32 - 4 bytes). *)
Fixpoint pack_bytes (bs : list byte) : list word :=
  match bs with
  | [] => []
  | [b0] => [word_of_bytes b0 0 0 0]
  | [b0; b1] => [word_of_bytes b0 b1 0 0]
  | [b0; b1; b2] => [word_of_bytes b0 b1 b2 0]
  | b0 :: b1 :: b2 :: b3 :: t => word_of_bytes b0 b1 b2 b3 :: pack_bytes t
  end.
(** get_output_quantity_label, inspection_point.c 994-1018: Maximum, Minimum,
    Average, Gradient, Unknown. *)
Definition quantity_label (q : output_quantity) : list byte :=
  match q with
  | OQ_MAXIMUM => [77; 97; 120; 105; 109; 117; 109]
  | OQ_MINIMUM => [77; 105; 110; 105; 109; 117; 109]
  | OQ_AVERAGE => [65; 118; 101; 114; 97; 103; 101]
  | OQ_GRADIENT => [71; 114; 97; 100; 105; 101; 110; 116]
  | OQ_NONE => [85; 110; 107; 110; 111; 119; 110]
  end.
(** The constant pieces of the formats in build_tflp_header, inspection_point.c
    1040-1043 and 1055: "% ", " temperatures for the floorplan of the die ",
    end of line, "Time(s) \t ", "(K) \t ". *)
Definition txt_prefix : list byte := [37; 32].
Definition txt_of_die : list byte :=
  [32; 116; 101; 109; 112; 101; 114; 97; 116; 117; 114; 101; 115; 32; 102; 111; 114; 32; 116; 104; 101; 32;
   102; 108; 111; 111; 114; 112; 108; 97; 110; 32; 111; 102; 32; 116; 104; 101; 32; 100; 105; 101; 32].
Definition txt_newline : list byte := [10].
Definition txt_time : list byte := [84; 105; 109; 101; 40; 115; 41; 32; 9; 32].
Definition txt_kelvin : list byte := [40; 75; 41; 32; 9; 32].
(** build_tflp_header, inspection_point.c 1022-1113 (snprintf and malloc
    succeed); the label is that of the quantity of the inspection point. *)
Definition tflp_header (q : output_quantity) (die_id : list byte) (els : list flpel) : list byte :=
  txt_prefix ++ quantity_label q ++ txt_of_die ++ die_id ++ txt_newline ++ txt_prefix ++ txt_time
  ++ flat_map (fun el => fe_id el ++ txt_kelvin) els ++ txt_newline.

Section Server.
  Variables (encF : Q -> word) (decF : word -> Q).

  (** The words inserted by fill_message_inspection_point, inspection_point.c
      1117-1467, for the quantity [q] of the request ([None]: a number that is
      not in the enumeration, as OQ_NONE for all the tests of the function). *)
  Definition point_words (d : dims) (temps sources : list Q) (p : ipoint) (q : option output_quantity) : outcome (list word) :=
    let q := match q with Some q => q | None => OQ_NONE end in
    do v <- ip_values d temps sources p q ;
    match v with
    | None => Ok []
    | Some vs =>
      match ip_type p with
      | OT_TFLP =>
        match se_kind (ip_stkel p) with
        | SKDie x =>
          let h := tflp_header (ip_quantity p) (se_id (ip_stkel p)) (f_elements (die_floorplan x)) in
          Ok (u32 (Z.of_nat (length (ip_file p))) :: u32 (Z.of_nat (length h)) :: u32 (Z.of_nat (length vs)) ::
              pack_bytes (ip_file p) ++ pack_bytes h ++ map encF vs)
        | _ => UB
        end
      | OT_TMAP | OT_PMAP => Ok (d_nrows d :: d_ncols d :: map encF vs)
      | _ => Ok (map encF vs)
      end
    end.
  Definition fill_message_inspection_point (d : dims) (temps sources : list Q) (p : ipoint) (q : option output_quantity) (m : message)
    : outcome message :=
    do ws <- point_words d temps sources p q ; insert_words m ws.

  (** is_inspection_point, inspection_point.c 318-357, on the numbers of the
      request. *)
  Definition is_point (p : ipoint) (t : option output_type) (q : option output_quantity) : bool :=
    match t with
    | None => false
    | Some t' =>
      match q with
      | Some q' => is_inspection_point p t' q'
      | None => type_eqb (ip_type p) t' && match t' with OT_TCELL | OT_TMAP | OT_PMAP => true | _ => false end
      end
    end.
  (** get_number_of_inspection_points, output.c 84-131. *)
  Definition number_of_points (o : output) (i : output_instant) (t : option output_type) (q : option output_quantity) : Z :=
    match points o i with
    | None => 0
    | Some ps => u32 (Z.of_nat (length (filter (fun p => is_point p t q) ps)))
    end.
  (** fill_output_message, output.c 297-345. *)
  Fixpoint fill_points (d : dims) (temps sources : list Q) (t : option output_type) (q : option output_quantity) (ps : list ipoint) (m : message)
    : outcome message :=
    match ps with
    | [] => Ok m
    | p :: ps' =>
      do m1 <- (if is_point p t q then fill_message_inspection_point d temps sources p q m else Ok m) ;
      fill_points d temps sources t q ps' m1
    end.
  Definition fill_output_message (o : output) (d : dims) (temps sources : list Q) (i : output_instant) (t : option output_type)
      (q : option output_quantity) (m : message) : outcome (error_t * message) :=
    match points o i with
    | None => Ok (TDICE_FAILURE, m)
    | Some ps => do m' <- fill_points d temps sources t q ps m ; Ok (TDICE_SUCCESS, m')
    end.

  (** get_total_number_of_floorplan_elements, stack_description.c 158-174, and
      get_number_of_floorplan_elements_stack_element, stack_element.c 474-488. *)
  Definition stkel_elements (e : stkel) : Z :=
    match se_kind e with SKDie x => f_nelements (die_floorplan x) | _ => 0 end.
  Definition total_number_of_floorplan_elements (es : list stkel) : Z :=
    fold_left (fun n e => u32 (n + stkel_elements e)) es 0.

  (** ** Output files sent to the client *)
  (** [read_file n]: the bytes of the file [n], [None] if it cannot be opened
      for reading.  fseek, ftell, malloc and fread succeed; a file has less than
      2^32 bytes (its length is cast to Quantity_t). *)
  Definition MAX_OUTPUT_FILES : Z := 1024.
  (** append_file_to_message, 3D-ICE-Server.c 97-182: [added] holds the names
      sent so far, in reverse order. *)
  Definition append_file (read_file : list byte -> option (list byte)) (name : list byte) (added : list (list byte)) (m : message)
    : outcome (error_t * list (list byte) * message) :=
    match name with
    | [] => Ok (TDICE_SUCCESS, added, m)
    | _ =>
      if existsb (fun n => if name_dec n name then true else false) added then Ok (TDICE_SUCCESS, added, m)
      else if Z.of_nat (length added) =? MAX_OUTPUT_FILES then Ok (TDICE_FAILURE, added, m)
      else
        match read_file name with
        | None => Ok (TDICE_SUCCESS, added, m)
        | Some bs =>
          do m1 <- insert_words m (u32 (Z.of_nat (length name)) :: u32 (Z.of_nat (length bs)) :: pack_bytes name ++ pack_bytes bs) ;
          Ok (TDICE_SUCCESS, name :: added, m1)
        end
    end.
  (** append_output_files_from_list, 3D-ICE-Server.c 184-208, over the three
      lists one after the other (build_output_files_message, 210-245). *)
  Fixpoint append_files (read_file : list byte -> option (list byte)) (ps : list ipoint) (added : list (list byte)) (m : message)
    : outcome (error_t * list (list byte) * message) :=
    match ps with
    | [] => Ok (TDICE_SUCCESS, added, m)
    | p :: ps' =>
      do r <- append_file read_file (ip_file p) added m ;
      match r with
      | (TDICE_SUCCESS, added1, m1) => append_files read_file ps' added1 m1
      | _ => Ok r
      end
    end.
  (** build_output_files_message, 3D-ICE-Server.c 210-245. *)
  Definition build_output_files_message (read_file : list byte -> option (list byte)) (o : output) (m : message) : outcome (error_t * message) :=
    do m0 <- build_message_head m SEND_OUTPUT_FILES ;
    do m1 <- insert_message_word m0 0 ;
    do r <- append_files read_file (o_final o ++ o_slot o ++ o_step o) [] m1 ;
    match r with
    | (TDICE_SUCCESS, added, m2) =>
      do mem <- arr_set (m_mem m2) 2 (Z.of_nat (length added)) ;
      Ok (TDICE_SUCCESS, mkMsg mem (m_max m2))
    | (TDICE_FAILURE, _, m2) => Ok (TDICE_FAILURE, m2)
    end.

  (** ** The server *)
  Variables (openable : list Z -> bool) (readable : list Z -> bool) (render : list line -> list byte).
  Context {M PS : Type}.
  Variable solve : M -> list Q -> error_t * list Q.
  Variable plugin : PS -> list Q -> list Q -> bool * list Q * PS.
  Variables (stack : list stkel) (o : output) (d : dims).
  Notation sim := (sim M PS).

  (** tdata and analysis, the output files, and the flag [headers]. *)
  Record server := mkServer { sv_sim : sim; sv_files : files; sv_headers : bool }.
  Definition sv_read (st : server) (n : list byte) : option (list byte) :=
    if readable n then match sv_files st n with Some c => Some (render c) | None => None end else None.

  (** What the main loop does after the switch: next request, [goto quit]
      (success) or [goto sim_error] (failure). *)
  Inductive next := Go_on | Quit | Sim_error.

  (** The loop of INSERT_POWERS, 3D-ICE-Server.c 400-408: [n] words from
      [index] on.  A word beyond the buffer leaves power_value uninitialised:
      UB. *)
  Fixpoint put_powers (m : message) (n : nat) (index : Z) (q : queue) : outcome queue :=
    match n with
    | O => Ok q
    | S n' =>
      do w <- extract_message_word m index ;
      match w with
      | None => UB
      | Some w => do q' <- queue_put q (decF w) ; put_powers m n' (index + 1) q'
      end
    end.

  (** A word read by the switch: beyond the buffer it is uninitialised. *)
  Definition word_at (m : message) (i : Z) : outcome word :=
    do w <- extract_message_word m i ; match w with None => UB | Some w => Ok w end.

  (** emulate_slot: the number of steps of a slot bounds its loop (proved in
      ServerProofs.v). *)
  Definition slot_of (s : sim) : outcome (simresult * sim) :=
    emulate_slot solve plugin (S (Z.to_nat (an_slot_length (s_an s)))) d s.

  (** The switch of the main loop, 3D-ICE-Server.c 345-622: new state, reply
      sent if any, what follows.  The messages printed are not modelled. *)
  Definition serve (st : server) (request : message) : outcome (server * option message * next) :=
    do ty <- message_type request ;
    let s := sv_sim st in
    match ty with
    | 0 => (* TDICE_EXIT_SIMULATION, 350-355 *)
      Ok (st, None, Quit)
    | 1 => (* TDICE_RESET_THERMAL_STATE, 359-364 *)
      Ok (mkServer (reset_thermal_state s) (sv_files st) (sv_headers st), None, Go_on)
    | 4 => (* TDICE_TOTAL_NUMBER_OF_FLOORPLAN_ELEMENTS, 368-383 *)
      do r <- make_message message_init TOTAL_NUMBER_OF_FLOORPLAN_ELEMENTS [total_number_of_floorplan_elements stack] ;
      Ok (st, Some r, Go_on)
    | 5 => (* TDICE_INSERT_POWERS, 387-430 *)
      do n <- word_at request 0 ;
      do q <- put_powers request (Z.to_nat n) 1 (queue_build queue_init n) ;
      do r <- insert_power_values (s_pg s) q ;
      let '(e, pg, _) := r in
      let st' := mkServer (mkSim (s_temps s) pg (s_matrix s) (s_an s) (s_plugin s)) (sv_files st) (sv_headers st) in
      match e with
      | TDICE_FAILURE => Ok (st', None, Sim_error)
      | TDICE_SUCCESS =>
        do m <- make_message message_init INSERT_POWERS [error_code e] ;
        Ok (st', Some m, Go_on)
      end
    | 2 => (* TDICE_SEND_OUTPUT, 434-476 *)
      do wi <- word_at request 0 ;
      do wt <- word_at request 1 ;
      do wq <- word_at request 2 ;
      let i := instant_of wi in let t := type_of_code wt in let q := quantity_of wq in
      let n := number_of_points o i t q in
      do m <- make_message message_init SEND_OUTPUT [encF (get_simulated_time (s_an s)); n] ;
      if 0 <? n then
        do r <- fill_output_message o d (s_temps s) (pg_sources (s_pg s)) i t q m ;
        match r with
        | (TDICE_SUCCESS, m1) => Ok (st, Some m1, Go_on)
        | (TDICE_FAILURE, _) => Ok (st, None, Sim_error)
        end
      else Ok (st, Some m, Go_on)
    | 3 => (* TDICE_PRINT_OUTPUT, 480-510 *)
      do wi <- word_at request 0 ;
      let '(e, f0) := if sv_headers st then (TDICE_SUCCESS, sv_files st) else generate_output_headers openable o (sv_files st) in
      match e with
      | TDICE_FAILURE => Ok (mkServer s f0 (sv_headers st), None, Sim_error)
      | TDICE_SUCCESS =>
        do r <- generate_output openable o d (s_temps s) (pg_sources (s_pg s)) (get_simulated_time (s_an s)) (instant_of wi) f0 ;
        Ok (mkServer s (snd r) true, None, Go_on)
      end
    | 8 => (* TDICE_SEND_OUTPUT_FILES, 514-532 *)
      do r <- build_output_files_message (sv_read st) o message_init ;
      match r with
      | (TDICE_SUCCESS, m) => Ok (st, Some m, Go_on)
      | (TDICE_FAILURE, _) => Ok (st, None, Sim_error)
      end
    | 6 => (* TDICE_SIMULATE_SLOT, 536-574 *)
      do r <- slot_of s ;
      let '(res, s') := r in
      do m <- make_message message_init SIMULATE_SLOT [result_code res] ;
      Ok (mkServer s' (sv_files st) (sv_headers st), Some m,
          match res with TDICE_END_OF_SIMULATION => Quit | TDICE_SLOT_DONE => Go_on | _ => Sim_error end)
    | 7 => (* TDICE_SIMULATE_STEP, 578-612 *)
      do r <- emulate_step solve plugin d s ;
      let '(res, s') := r in
      do m <- make_message message_init SIMULATE_STEP [result_code res] ;
      Ok (mkServer s' (sv_files st) (sv_headers st), Some m,
          match res with TDICE_END_OF_SIMULATION => Quit | TDICE_STEP_DONE | TDICE_SLOT_DONE => Go_on | _ => Sim_error end)
    | _ => (* default, 616-618 *)
      Ok (st, None, Go_on)
    end.

  (** How far the server got: it left the loop, or it still waits for a request
      or for a reply to be sent (the schedule of system calls is exhausted). *)
  Inductive status := Left (n : next) | Waiting_request | Waiting_reply.

  (** The do-while loop, 3D-ICE-Server.c 338-624: a fresh message, a request
      received (whatever receive_message_from_socket returns), the switch, the
      reply sent (its result is ignored).  [rs] and [ws] schedule the read and
      write calls.  Result: final state, bytes sent, status. *)
  Fixpoint server_loop (fuel : nat) (st : server) (rs ws : list io) (stream : list byte) : outcome (server * list byte * status) :=
    match fuel with
    | O => NoFuel
    | S f =>
      do r <- receive_message message_init rs stream ;
      let '(code, request, rest, rs') := r in
      match code with
      | None => Ok (st, [], Waiting_request)
      | Some _ =>
        do x <- serve st request ;
        let '(st', reply, nx) := x in
        do y <- (match reply with None => Ok (Some TDICE_SUCCESS, [], ws) | Some m => send_message m ws end) ;
        let '(sent, out, ws') := y in
        match sent with
        | None => Ok (st', out, Waiting_reply)
        | Some _ =>
          match nx with
          | Go_on => do z <- server_loop f st' rs' ws' rest ; let '(st2, out2, stt) := z in Ok (st2, out ++ out2, stt)
          | _ => Ok (st', out, Left nx)
          end
        end
      end
    end.
End Server.
Arguments server : clear implicits.
Arguments mkServer {M PS}.
Arguments sv_sim {M PS}.
Arguments sv_files {M PS}.
Arguments sv_headers {M PS}.

(** ** Decoding by the client *)
(** extract_message_bytes, 3D-ICE-Client.c 77-101: [nbytes] bytes from word
    [index] on; the index moves by one word for each 4 bytes.  [None]:
    TDICE_FAILURE. *)
Fixpoint extract_bytes (m : message) (n : nat) (nbytes index : Z) : outcome (option (list byte * Z)) :=
  match n with
  | O => Ok (Some ([], index))
  | S n' =>
    if nbytes <=? 0 then Ok (Some ([], index))
    else
      do w <- extract_message_word m index ;
      match w with
      | None => Ok None
      | Some w =>
        do r <- extract_bytes m n' (nbytes - 4) (index + 1) ;
        match r with
        | None => Ok None
        | Some (bs, i) => Ok (Some (firstn (Z.to_nat nbytes) (bytes_of_word w) ++ bs, i))
        end
      end
  end.
(** The loop over words [index .. index + n): client 225-231, 709-714, 744-751. *)
Fixpoint extract_floats (m : message) (n : nat) (index : Z) : outcome (list word) :=
  match n with
  | O => Ok []
  | S n' => do w <- word_at m index ; do t <- extract_floats m n' (index + 1) ; Ok (w :: t)
  end.
(** One result of request_tflp_slot_output, 3D-ICE-Client.c 158-244: name of
    the file, header, temperatures, and the index of the next word.  [None]:
    extract_message_bytes failed. *)
Definition decode_tflp (m : message) (index : Z) : outcome (option (list byte * list byte * list word * Z)) :=
  do nl <- word_at m index ;
  do hl <- word_at m (index + 1) ;
  do nf <- word_at m (index + 2) ;
  do a <- extract_bytes m (Z.to_nat nl) nl (index + 3) ;
  match a with
  | None => Ok None
  | Some (name, i1) =>
    do b <- extract_bytes m (Z.to_nat hl) hl i1 ;
    match b with
    | None => Ok None
    | Some (header, i2) =>
      do vs <- extract_floats m (Z.to_nat nf) i2 ;
      Ok (Some (name, header, vs, i2 + nf))
    end
  end.
Fixpoint decode_tflps (m : message) (n : nat) (index : Z) : outcome (option (list (list byte * list byte * list word) * Z)) :=
  match n with
  | O => Ok (Some ([], index))
  | S n' =>
    do r <- decode_tflp m index ;
    match r with
    | None => Ok None
    | Some (name, header, vs, i) =>
      do r2 <- decode_tflps m n' i ;
      match r2 with None => Ok None | Some (t, i2) => Ok (Some ((name, header, vs) :: t, i2)) end
    end
  end.
(** request_tflp_slot_output, 3D-ICE-Client.c 103-250, once the reply has been
    received: time, results and the index of the word after the last one read
    (the files written are in [client_tflp_files]). *)
Definition client_tflp (m : message) : outcome (option (word * list (list byte * list byte * list word) * Z)) :=
  do time <- word_at m 0 ;
  do n <- word_at m 1 ;
  do r <- decode_tflps m (Z.to_nat n) 2 ;
  match r with None => Ok None | Some (t, i) => Ok (Some (time, t, i)) end.
(** The replies for cells and floorplan elements, 3D-ICE-Client.c 623-640 and
    786-798: nresults words from word 2 on (no 32-bit wrap of nresults + 2). *)
Definition client_values (m : message) : outcome (word * list word * Z) :=
  do time <- word_at m 0 ;
  do n <- word_at m 1 ;
  do vs <- extract_floats m (Z.to_nat n) 2 ;
  Ok (time, vs, 2 + n).
(** One thermal map, 3D-ICE-Client.c 668-691: row by row. *)
Fixpoint decode_rows (m : message) (rows : nat) (ncols index : Z) : outcome (list (list word)) :=
  match rows with
  | O => Ok []
  | S r => do row <- extract_floats m (Z.to_nat ncols) index ; do t <- decode_rows m r ncols (index + ncols) ; Ok (row :: t)
  end.
Fixpoint decode_maps (m : message) (n : nat) (index : Z) : outcome (list (list (list word)) * Z) :=
  match n with
  | O => Ok ([], index)
  | S n' =>
    do nr <- word_at m index ;
    do nc <- word_at m (index + 1) ;
    do rows <- decode_rows m (Z.to_nat nr) nc (index + 2) ;
    do r <- decode_maps m n' (index + 2 + nr * nc) ;
    let '(t, i) := r in Ok (rows :: t, i)
  end.
Definition client_maps (m : message) : outcome (word * list (list (list word)) * Z) :=
  do time <- word_at m 0 ;
  do n <- word_at m 1 ;
  do r <- decode_maps m (Z.to_nat n) 2 ;
  let '(t, i) := r in Ok (time, t, i).

(** The files the client writes for one reply, 3D-ICE-Client.c 197-241: a line
    of the client's file is its header or a row with the time and the values. *)
Inductive cline := CHead (h : list byte) | CRow (time : word) (vs : list word).
Definition cfiles := list Z -> option (list cline).
Definition cput (n : list Z) (c : list cline) (f : cfiles) : cfiles := fun m => if name_dec m n then Some c else f m.
Definition cget (f : cfiles) (n : list Z) : list cline := match f n with Some c => c | None => [] end.
(** fopen with "w" and the header for the first slot, "a" afterwards; [None]:
    a file that cannot be opened ends the client. *)
Fixpoint client_write (openable : list Z -> bool) (slot : Z) (time : word) (rs : list (list byte * list byte * list word)) (f : cfiles)
  : option cfiles :=
  match rs with
  | [] => Some f
  | (name, header, vs) :: rs' =>
    if openable name then
      let old := if slot =? 0 then (match header with [] => [] | _ => [CHead header] end) else cget f name in
      client_write openable slot time rs' (cput name (old ++ [CRow time vs]) f)
    else None
  end.
(** The slots of a client, 3D-ICE-Client.c 558-673: after each slot the results
    of the three requests of request_tflp_slot_outputs (259-280), all with the
    same time, are written one after the other. *)
Fixpoint client_run (openable : list Z -> bool) (slot : Z) (l : list (word * list (list byte * list byte * list word))) (f : cfiles) : option cfiles :=
  match l with
  | [] => Some f
  | (time, rs) :: l' =>
    match client_write openable slot time rs f with
    | None => None
    | Some f' => client_run openable (u32 (slot + 1)) l' f'
    end
  end.
