(** * Specification vocabulary for the server: what each request does, in terms
      of the library calls, and the conversations they make up *)
From Coq Require Import ZArith List Bool QArith.
From Verif Require Import Base Dims Queue Floorplan Stack PowerGrid Emulate EmulateSpec Inspect Emulator EmulatorSpec Message MessageSpec Server.
Import ListNotations.
Local Open Scope Z_scope.

(** Bytes and texts. *)
Definition is_byte (b : byte) : Prop := 0 <= b < 256.
Definition is_text (bs : list byte) : Prop := Forall is_byte bs.

(** Codes of the values of the enumerations. *)
Definition instant_code (i : output_instant) : word := match i with OI_NONE => 0 | OI_FINAL => 1 | OI_SLOT => 2 | OI_STEP => 3 end.
Definition type_code (t : output_type) : word :=
  match t with OT_NONE => 0 | OT_TCELL => 1 | OT_TFLP => 2 | OT_TFLPEL => 3 | OT_TMAP => 4 | OT_PMAP => 5 | OT_TCOOLANT => 6 | OT_T3D => 7 end.
Definition quantity_code (q : output_quantity) : word :=
  match q with OQ_NONE => 0 | OQ_AVERAGE => 1 | OQ_MAXIMUM => 2 | OQ_MINIMUM => 3 | OQ_GRADIENT => 4 end.

(** A queue filled locally with [vs], in order. *)
Fixpoint put_all (q : queue) (vs : list Q) : outcome queue :=
  match vs with [] => Ok q | v :: t => do q' <- queue_put q v ; put_all q' t end.
Definition queue_of (vs : list Q) : outcome queue := put_all (queue_build queue_init (Z.of_nat (length vs))) vs.

(** The inspection points declared for an instant, of a type, and - where the
    quantity matters - of a quantity. *)
Definition declared_at (o : output) (i : output_instant) : list ipoint :=
  match i with OI_FINAL => o_final o | OI_SLOT => o_slot o | OI_STEP => o_step o | OI_NONE => [] end.
Definition wanted (t : output_type) (q : output_quantity) (p : ipoint) : Prop :=
  ip_type p = t /\ t <> OT_NONE /\ t <> OT_T3D /\ (t = OT_TFLP \/ t = OT_TFLPEL \/ t = OT_TCOOLANT -> ip_quantity p = q).
(** [ps] are the elements of [l] that satisfy [P], in order. *)
Inductive those {A} (P : A -> Prop) : list A -> list A -> Prop :=
| th_nil : those P [] []
| th_keep : forall x l ps, P x -> those P l ps -> those P (x :: l) (x :: ps)
| th_drop : forall x l ps, ~ P x -> those P l ps -> those P (x :: l) ps.

(** Which requests have a reply. *)
Definition has_reply (ty : word) : bool :=
  (ty =? SEND_OUTPUT) || (ty =? TOTAL_NUMBER_OF_FLOORPLAN_ELEMENTS) || (ty =? INSERT_POWERS) || (ty =? SIMULATE_SLOT)
  || (ty =? SIMULATE_STEP) || (ty =? SEND_OUTPUT_FILES).
Definition opt {A} (x : option A) : list A := match x with None => [] | Some a => [a] end.

(** The files sent to the client: for each name of the list, in order, that is
    not empty, was not sent before and can be read, its name and its bytes. *)
Inductive picked (read : list byte -> option (list byte)) : list (list byte) -> list (list byte) -> list (list byte * list byte) -> Prop :=
| p_nil : forall seen, picked read [] seen []
| p_skip : forall n ns seen fs, n = [] \/ In n seen \/ read n = None -> picked read ns seen fs -> picked read (n :: ns) seen fs
| p_take : forall n b ns seen fs, n <> [] -> ~ In n seen -> read n = Some b -> picked read ns (n :: seen) fs -> picked read (n :: ns) seen ((n, b) :: fs).
(** At most [k] different names, the empty one apart. *)
Definition at_most_names (k : nat) (ns : list (list byte)) : Prop :=
  exists all, (length all <= k)%nat /\ forall n, In n ns -> n <> [] -> In n all.
Definition file_words (nb : list byte * list byte) : list word :=
  Z.of_nat (length (fst nb)) :: Z.of_nat (length (snd nb)) :: pack_bytes (fst nb) ++ pack_bytes (snd nb).

Section ServerSpec.
  Variables (encF : Q -> word) (decF : word -> Q).
  Variables (openable : list Z -> bool) (readable : list Z -> bool) (render : list line -> list byte).
  Context {M PS : Type}.
  Variable solve : M -> list Q -> error_t * list Q.
  Variable plugin : PS -> list Q -> list Q -> bool * list Q * PS.
  Variables (stack : list stkel) (o : output) (d : dims).
  Notation sim := (sim M PS).
  Notation server := (server M PS).

  (** The numbers an inspection point would write to its file now. *)
  Definition shows (s : sim) (p : ipoint) (vs : list Q) : Prop :=
    ip_values d (s_temps s) (pg_sources (s_pg s)) p (ip_quantity p) = Ok (Some vs).

  (** The layout of one result: for a floorplan the lengths, the name of the
      file, the header, and the values; for a map its size and the values;
      otherwise the values. *)
  Definition die_elements (p : ipoint) : list flpel :=
    match se_kind (ip_stkel p) with SKDie x => f_elements (die_floorplan x) | _ => [] end.
  Definition header_of (p : ipoint) : list byte := tflp_header (ip_quantity p) (se_id (ip_stkel p)) (die_elements p).
  Definition result_words (pv : ipoint * list Q) : list word :=
    let '(p, vs) := pv in
    match ip_type p with
    | OT_TFLP => Z.of_nat (length (ip_file p)) :: Z.of_nat (length (header_of p)) :: Z.of_nat (length vs) ::
                 pack_bytes (ip_file p) ++ pack_bytes (header_of p) ++ map encF vs
    | OT_TMAP | OT_PMAP => d_nrows d :: d_ncols d :: map encF vs
    | _ => map encF vs
    end.

  Definition with_sim (st : server) (s : sim) : server := mkServer s (sv_files st) (sv_headers st).
  Definition insert_into (s : sim) (pg : pgrid) : sim := mkSim (s_temps s) pg (s_matrix s) (s_an s) (s_plugin s).

  (** [handled st c st' reply next]: the request [c] (a type and the words that
      follow), the state it leads to, the reply sent, and whether the server
      goes on.  Requests the switch understands, well formed, and any other
      type. *)
  Inductive handled (st : server) : content -> server -> option content -> next -> Prop :=
  | h_exit : forall ws, handled st (EXIT_SIMULATION, ws) st None Quit
  | h_reset : forall ws, handled st (RESET_THERMAL_STATE, ws) (with_sim st (reset_thermal_state (sv_sim st))) None Go_on
  | h_total : forall ws, handled st (TOTAL_NUMBER_OF_FLOORPLAN_ELEMENTS, ws) st
      (Some (TOTAL_NUMBER_OF_FLOORPLAN_ELEMENTS, [total_number_of_floorplan_elements stack])) Go_on
  | h_insert : forall ws rest q pg q', queue_of (map decF ws) = Ok q ->
      insert_power_values (s_pg (sv_sim st)) q = Ok (TDICE_SUCCESS, pg, q') ->
      handled st (INSERT_POWERS, Z.of_nat (length ws) :: ws ++ rest) (with_sim st (insert_into (sv_sim st) pg)) (Some (INSERT_POWERS, [0])) Go_on
  | h_insert_failed : forall ws rest q pg q', queue_of (map decF ws) = Ok q ->
      insert_power_values (s_pg (sv_sim st)) q = Ok (TDICE_FAILURE, pg, q') ->
      handled st (INSERT_POWERS, Z.of_nat (length ws) :: ws ++ rest) (with_sim st (insert_into (sv_sim st) pg)) None Sim_error
  | h_send : forall i t q rest ps vss,
      those (wanted t q) (declared_at o i) ps -> Forall2 (shows (sv_sim st)) ps vss -> Z.of_nat (length ps) < two32 ->
      Forall (fun p => ip_type p = OT_TFLP -> Z.of_nat (length (ip_file p)) < two32 /\ Z.of_nat (length (header_of p)) < two32) ps ->
      Forall (fun vs => Z.of_nat (length vs) < two32) vss ->
      handled st (SEND_OUTPUT, instant_code i :: type_code t :: quantity_code q :: rest) st
        (Some (SEND_OUTPUT, encF (get_simulated_time (s_an (sv_sim st))) :: Z.of_nat (length ps) :: flat_map result_words (combine ps vss))) Go_on
  | h_print : forall i rest f0 f e,
      (if sv_headers st then (TDICE_SUCCESS, sv_files st) else generate_output_headers openable o (sv_files st)) = (TDICE_SUCCESS, f0) ->
      generate_output openable o d (s_temps (sv_sim st)) (pg_sources (s_pg (sv_sim st))) (get_simulated_time (s_an (sv_sim st))) i f0 = Ok (e, f) ->
      handled st (PRINT_OUTPUT, instant_code i :: rest) (mkServer (sv_sim st) f true) None Go_on
  | h_print_failed : forall i rest f0, sv_headers st = false -> generate_output_headers openable o (sv_files st) = (TDICE_FAILURE, f0) ->
      handled st (PRINT_OUTPUT, instant_code i :: rest) (mkServer (sv_sim st) f0 false) None Sim_error
  | h_slot : forall ws k res s', 0 < an_slot_length (s_an (sv_sim st)) -> emulate_slot solve plugin k d (sv_sim st) = Ok (res, s') ->
      handled st (SIMULATE_SLOT, ws) (with_sim st s') (Some (SIMULATE_SLOT, [result_code res]))
        (match res with TDICE_END_OF_SIMULATION => Quit | TDICE_SLOT_DONE => Go_on | _ => Sim_error end)
  | h_step : forall ws res s', emulate_step solve plugin d (sv_sim st) = Ok (res, s') ->
      handled st (SIMULATE_STEP, ws) (with_sim st s') (Some (SIMULATE_STEP, [result_code res]))
        (match res with TDICE_END_OF_SIMULATION => Quit | TDICE_STEP_DONE | TDICE_SLOT_DONE => Go_on | _ => Sim_error end)
  | h_files : forall ws fs, picked (sv_read readable render st) (map ip_file (o_final o ++ o_slot o ++ o_step o)) [] fs ->
      Forall (fun nb => Z.of_nat (length (fst nb)) < two32 /\ Z.of_nat (length (snd nb)) < two32) fs ->
      at_most_names 1024 (map ip_file (o_final o ++ o_slot o ++ o_step o)) ->
      handled st (SEND_OUTPUT_FILES, ws) st (Some (SEND_OUTPUT_FILES, Z.of_nat (length fs) :: flat_map file_words fs)) Go_on
  | h_unknown : forall ty ws, 8 < ty -> handled st (ty, ws) st None Go_on.

  (** A conversation: the requests [cs], the replies in order, and how it ends:
      the server leaves the loop at the first request that makes it leave, or
      when the connection is closed. *)
  Inductive talk : server -> list content -> server -> list content -> next -> Prop :=
  | t_closed : forall st, talk st [] st [] Quit
  | t_more : forall st c st1 r cs st2 rs x, handled st c st1 r Go_on -> talk st1 cs st2 rs x -> talk st (c :: cs) st2 (opt r ++ rs) x
  | t_stop : forall st c st1 r cs x, handled st c st1 r x -> x <> Go_on -> talk st (c :: cs) st1 (opt r) x.
End ServerSpec.

(** System calls that never fail, and enough of them. *)
Definition healthy_reads (rs : list io) (n : nat) : Prop := ~ In Failed rs /\ (n < reads rs)%nat.
Definition healthy_writes (ws : list io) (n : nat) : Prop := ~ In Failed ws /\ (n <= moves ws)%nat.

(** ** Requests a client may send, and servers ready to answer them *)
Section ServerReady.
  Context {M PS : Type}.
  Variables (readable : list Z -> bool) (render : list line -> list byte) (o : output) (d : dims).

  (** A request of a known type with its arguments, whatever follows them, or of
      an unknown type. *)
  Inductive well_formed : content -> Prop :=
  | w_bare : forall ty ws, In ty [EXIT_SIMULATION; RESET_THERMAL_STATE; TOTAL_NUMBER_OF_FLOORPLAN_ELEMENTS; SIMULATE_SLOT; SIMULATE_STEP; SEND_OUTPUT_FILES] ->
      well_formed (ty, ws)
  | w_insert : forall ws rest, ws <> [] -> well_formed (INSERT_POWERS, Z.of_nat (length ws) :: ws ++ rest)
  | w_send : forall i t q rest, well_formed (SEND_OUTPUT, instant_code i :: type_code t :: quantity_code q :: rest)
  | w_print : forall i rest, well_formed (PRINT_OUTPUT, instant_code i :: rest)
  | w_unknown : forall ty ws, 8 < ty -> well_formed (ty, ws).

  (** The simulation is ready to run and the queues have room for [n] more
      values. *)
  Definition room (n : nat) (qs : list (list Q)) : Prop := Forall (fun l => 2 * (Z.of_nat (length l) + Z.of_nat n) < two32) qs.
  Definition ready (n : nat) (st : server M PS) : Prop :=
    good_sim d (sv_sim st) /\ exists qs, queued (s_pg (sv_sim st)) qs /\ room n qs.

  (** The number of words of the results of all the inspection points. *)
  Definition result_size (p : ipoint) : Z :=
    match ip_type p with
    | OT_TFLP => 3 + Z.of_nat (length (ip_file p)) + Z.of_nat (length (header_of p)) + Z.of_nat (length (die_elements p))
    | OT_TMAP | OT_PMAP => 2 + d_nrows d * d_ncols d
    | _ => 1
    end.
  (** Inspection points as the parser makes them whose results, all together, fit
      a message of 2^30 words, with at most 1024 file names. *)
  Definition points_fit : Prop :=
    Forall (good_point d) (all_points o) /\ Forall (fun p => is_text (ip_file p) /\ is_text (header_of p)) (all_points o) /\
    fold_right Z.add 0 (map result_size (all_points o)) + 4 <= 1073741824 /\ at_most_names 1024 (map ip_file (all_points o)).
  (** So do the files. *)
  Definition files_fit (st : server M PS) : Prop :=
    forall fs, picked (sv_read readable render st) (map ip_file (all_points o)) [] fs ->
      Z.of_nat (length (flat_map file_words fs)) + 3 <= 1073741824 /\
      Forall (fun nb => Z.of_nat (length (fst nb)) < two32 /\ Z.of_nat (length (snd nb)) < two32) fs.
End ServerReady.
