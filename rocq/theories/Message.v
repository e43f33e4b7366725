(** * Model of /repo/sources/network_message.c and of the send/receive loops of
      /repo/sources/network_socket.c *)
From Coq Require Import ZArith List Bool.
From Verif Require Import Base.
Import ListNotations.
Local Open Scope Z_scope.

(** MessageWord_t = uint32_t, include/types.h. *)
Notation word := Z (only parsing).

(** NetworkMessage_t, include/network_message.h 70-92.  Length, MType and
    Content are interior pointers to words 0, 1 and 2 of Memory at all times
    (set together with Memory at lines 46-57 and 78-92), so they are not fields
    of the model. *)
Record message := mkMsg { m_mem : list word; m_max : Z }.

(** MESSAGE_LENGTH, include/network_message.h 58. *)
Definition MESSAGE_LENGTH : Z := 256.

(** network_message_init, network_message.c 46-57 (calloc succeeds). *)
Definition message_init : message :=
  mkMsg (repeat 0 (Z.to_nat MESSAGE_LENGTH)) MESSAGE_LENGTH.

(** increase_message_memory, network_message.c 78-92.  The memcpy of MaxLength
    words into a smaller block is undefined. *)
Definition increase_message_memory (m : message) (new_size : Z) : outcome message :=
  if new_size <? m_max m then UB
  else Ok (mkMsg (m_mem m ++ repeat 0 (Z.to_nat (new_size - m_max m))) new_size).

(** build_message_head, network_message.c 96-101. *)
Definition build_message_head (m : message) (type : word) : outcome message :=
  do mem1 <- arr_set (m_mem m) 0 2 ;
  do mem2 <- arr_set mem1 1 type ;
  Ok (mkMsg mem2 (m_max m)).

(** insert_message_word, network_message.c 105-120. *)
Definition insert_message_word (m : message) (w : word) : outcome message :=
  do len <- arr_get (m_mem m) 0 ;
  do m1 <- (if len =? m_max m
            then increase_message_memory m (u32 (2 * m_max m))
            else Ok m) ;
  do mem1 <- arr_set (m_mem m1) len w ;
  do len1 <- arr_get mem1 0 ;
  do mem2 <- arr_set mem1 0 (u32 (len1 + 1)) ;
  Ok (mkMsg mem2 (m_max m1)).

(** extract_message_word, network_message.c 124-137: [None] is TDICE_FAILURE,
    [Some w] is TDICE_SUCCESS with the word stored through the pointer. *)
Definition extract_message_word (m : message) (index : Z) : outcome (option word) :=
  if u32 (m_max m - 2) <=? index then Ok None
  else do w <- arr_get (m_mem m) (2 + index) ; Ok (Some w).

(** *message->Length and *message->MType. *)
Definition message_length (m : message) : outcome word := arr_get (m_mem m) 0.
Definition message_type (m : message) : outcome word := arr_get (m_mem m) 1.

(** A whole message built by the callers: init, head, then one insert per word
    (the pattern of client.c, bin/3D-ICE-Server.c, inspection_point.c). *)
Fixpoint insert_words (m : message) (ws : list word) : outcome message :=
  match ws with
  | [] => Ok m
  | w :: t => do m' <- insert_message_word m w ; insert_words m' t
  end.

Definition make_message (m0 : message) (type : word) (ws : list word) : outcome message :=
  do m <- build_message_head m0 type ; insert_words m ws.

(** ** Bytes.  Words are stored little endian; both ends run on hosts with the
    same byte order (the code performs no conversion). *)
Notation byte := Z (only parsing).
Definition bytes_of_word (w : word) : list byte :=
  [w mod 256; (w / 256) mod 256; (w / 65536) mod 256; (w / 16777216) mod 256].
Definition word_of_bytes (b0 b1 b2 b3 : byte) : word :=
  b0 + 256 * b1 + 65536 * b2 + 16777216 * b3.
Definition bytes_of_words (ws : list word) : list byte := flat_map bytes_of_word ws.
Fixpoint words_of_bytes (bs : list byte) : list word :=
  match bs with
  | b0 :: b1 :: b2 :: b3 :: t => word_of_bytes b0 b1 b2 b3 :: words_of_bytes t
  | _ => []
  end.

(** ** Sockets.  One [io] event is the outcome of one read/write system call:
    interrupted by a signal, failed with another errno, or done.  [Moved k] on
    a write transfers min k requested bytes (possibly 0); on a read it returns
    min (k+1) (requested) of the bytes still to come, i.e. at least one unless
    the stream is exhausted, in which case read returns 0 (peer closed).  A
    blocking read simply waits, so only completed calls appear.  An exhausted
    schedule means that the function has not returned yet. *)
Inductive io := Interrupted | Failed | Moved (k : nat).

(** send_message_to_socket, network_socket.c 197-245.  Result: return code
    ([None]: still blocked), bytes put on the wire, unused schedule. *)
Fixpoint send_loop (sched : list io) (buf : list byte)
  : option error_t * list byte * list io :=
  match buf with
  | [] => (Some TDICE_SUCCESS, [], sched)
  | _ :: _ =>
    match sched with
    | [] => (None, [], [])
    | Interrupted :: s => send_loop s buf
    | Failed :: s => (Some TDICE_FAILURE, [], s)
    | Moved k :: s =>
      let '(r, out, s') := send_loop s (skipn k buf) in
      (r, firstn k buf ++ out, s')
    end
  end.

Definition send_message (m : message) (sched : list io)
  : outcome (option error_t * list byte * list io) :=
  do len <- message_length m ;
  if m_max m <? len then UB   (* write() would read past the buffer *)
  else Ok (send_loop sched (bytes_of_words (firstn (Z.to_nat len) (m_mem m)))).

(** The two identical read loops, network_socket.c 262-286 and 313-345: read
    exactly [n] bytes.  Result: return code, bytes stored, rest of the stream,
    unused schedule. *)
Fixpoint recv_loop (sched : list io) (n : nat) (stream : list byte)
  : option error_t * list byte * list byte * list io :=
  match n with
  | O => (Some TDICE_SUCCESS, [], stream, sched)
  | S _ =>
    match sched with
    | [] => (None, [], stream, [])
    | Interrupted :: s => recv_loop s n stream
    | Failed :: s => (Some TDICE_FAILURE, [], stream, s)
    | Moved k :: s =>
      match stream with
      | [] => (Some TDICE_FAILURE, [], stream, s)
      | _ :: _ =>
        let b := Nat.min (Nat.min (S k) n) (length stream) in
        let '(r, got, rest, s') := recv_loop s (n - b) (skipn b stream) in
        (r, firstn b stream ++ got, rest, s')
      end
    end
  end.

(** Storing the received bytes in Memory from MType on (byte offset 4); past
    the end of the buffer is undefined. *)
Definition store_body (mem : list word) (bs : list byte) : outcome (list word) :=
  let old := bytes_of_words mem in
  if Nat.leb (4 + length bs) (length old)
  then Ok (words_of_bytes (firstn 4 old ++ bs ++ skipn (4 + length bs) old))
  else UB.

(** receive_message_from_socket, network_socket.c 249-348.  Returns the code,
    the message (also after a failure: fields already written stay written),
    the rest of the stream and the unused schedule. *)
Definition receive_message (m : message) (sched : list io) (stream : list byte)
  : outcome (option error_t * message * list byte * list io) :=
  let '(r, got, rest, s1) := recv_loop sched 4 stream in
  match r with
  | Some TDICE_SUCCESS =>
    match words_of_bytes got with
    | [len] =>
      if len =? 0 then Ok (Some TDICE_FAILURE, m, rest, s1)
      else
        do m1 <- (if m_max m <? len then increase_message_memory m len else Ok m) ;
        do mem1 <- arr_set (m_mem m1) 0 len ;
        let nbytes := u32 ((len - 1) * 4) in
        let '(r2, got2, rest2, s2) := recv_loop s1 (Z.to_nat nbytes) rest in
        do mem2 <- store_body mem1 got2 ;
        Ok (r2, mkMsg mem2 (m_max m1), rest2, s2)
    | _ => UB
    end
  | _ => Ok (r, m, rest, s1)
  end.

(** Several messages on one connection. *)
Fixpoint send_all (ms : list message) (sched : list io)
  : outcome (option error_t * list byte * list io) :=
  match ms with
  | [] => Ok (Some TDICE_SUCCESS, [], sched)
  | m :: t =>
    do r <- send_message m sched ;
    match r with
    | (Some TDICE_SUCCESS, out, s) =>
      do r' <- send_all t s ;
      let '(r2, out2, s2) := r' in Ok (r2, out ++ out2, s2)
    | _ => Ok r
    end
  end.

(** Receives [n] messages, each into a fresh message (as the server loop does,
    bin/3D-ICE-Server.c, network_message_init before every receive). *)
Fixpoint receive_all (n : nat) (sched : list io) (stream : list byte)
  : outcome (option error_t * list message * list byte * list io) :=
  match n with
  | O => Ok (Some TDICE_SUCCESS, [], stream, sched)
  | S n' =>
    do r <- receive_message message_init sched stream ;
    match r with
    | (Some TDICE_SUCCESS, m, rest, s) =>
      do r' <- receive_all n' s rest ;
      let '(r2, ms, rest2, s2) := r' in Ok (r2, m :: ms, rest2, s2)
    | (c, m, rest, s) => Ok (c, [], rest, s)
    end
  end.
