(** * Property C48: what the client reads in the replies *)
From Coq Require Import String Ascii ZArith List Bool QArith Lia.
From Verif Require Import Base QSum Dims DimsSpec Queue Floorplan FloorplanSpec FloorplanProofs Stack StackSpec PowerGrid Emulate EmulateSpec
  EmulatorProofs SimWitness Inspect Emulator EmulatorSpec Message MessageSpec MessageProofs
  Server ServerSpec ServerIoProofs ServerProofs ServerDecodeProofs ServerRunProofs PropServer.
Import ListNotations.
Local Open Scope list_scope.
Local Open Scope Z_scope.

(** The text at the head of a file of type Tflp, in plain characters (9 is the
    tabulation, 10 the end of line). *)
Definition chars (s : string) : list byte := map (fun c => Z.of_N (N_of_ascii c)) (list_ascii_of_string s).
Definition quantity_name (q : output_quantity) : string :=
  match q with OQ_MAXIMUM => "Maximum" | OQ_MINIMUM => "Minimum" | OQ_AVERAGE => "Average" | OQ_GRADIENT => "Gradient" | OQ_NONE => "Unknown" end%string.
Definition tflp_text (q : output_quantity) (die : list byte) (elements : list (list byte)) : list byte :=
  chars "% " ++ chars (quantity_name q) ++ chars " temperatures for the floorplan of the die " ++ die ++ [10]
  ++ chars "% Time(s) " ++ [9] ++ chars " " ++ List.concat (map (fun name => name ++ chars "(K) " ++ [9] ++ chars " ") elements) ++ [10].

Lemma header_text : forall q die els, tflp_header q die els = tflp_text q die (map fe_id els).
Proof.
  intros q die els. assert (E : forall l, flat_map (fun el => fe_id el ++ txt_kelvin) l = List.concat (map (fun name => name ++ chars "(K) " ++ [9] ++ chars " ") (map fe_id l))).
  { induction l as [|e l IH]; [reflexivity|]. cbn [flat_map map List.concat]. rewrite IH. reflexivity. }
  unfold tflp_header, tflp_text. rewrite E. destruct q; reflexivity.
Qed.

Section C48.
  Variables (encF : Q -> word) (decF : word -> Q).
  Variables (openable : list Z -> bool) (readable : list Z -> bool) (render : list line -> list byte).
  Context {M PS : Type}.
  Variable solve : M -> list Q -> error_t * list Q.
  Variable plugin : PS -> list Q -> list Q -> bool * list Q * PS.
  Variables (stack : list stkel) (o : output) (d : dims).
  Notation serve := (serve encF decF openable readable render solve plugin stack o d).

  (** The time on the wire, and the answer to a request for output. *)
  Definition time_of (st : server M PS) : word := encF (get_simulated_time (s_an (sv_sim st))).
  (** [decoded f st request x]: the server answers [request] without changing its
      state, and decoding with [f] any message that carries the same words - the
      one the client receives - gives [x] and the number of words of the reply:
      all of them were read. *)
  Definition decoded {A} (f : message -> outcome (A * Z)) (st : server M PS) (request : content) (x : A) : Prop :=
    forall m, carries_c m request -> exists reply c, serve st m = Ok (st, Some reply, Go_on) /\ carries_c reply c /\ good_content c /\ fst c = SEND_OUTPUT /\
      forall m', carries_c m' c -> f m' = Ok (x, Z.of_nat (length (snd c))).
  Definition tflp_reader (m : message) : outcome (option (word * list (list byte * list byte * list word)) * Z) :=
    do r <- client_tflp m ; match r with Some (t, l, i) => Ok (Some (t, l), i) | None => Ok (None, 0) end.

  Lemma send_handled : (forall x, is_word (encF x)) -> points_fit o d -> forall (st : server M PS) i t q rest ps vss, good_sim d (sv_sim st) ->
      those (wanted t q) (declared_at o i) ps -> Forall2 (shows d (sv_sim st)) ps vss ->
      forall m, carries_c m (SEND_OUTPUT, instant_code i :: type_code t :: quantity_code q :: rest) ->
      exists reply, serve st m = Ok (st, Some reply, Go_on) /\
        good_content (SEND_OUTPUT, time_of st :: Z.of_nat (length ps) :: flat_map (result_words encF d) (combine ps vss)) /\
        carries_c reply (SEND_OUTPUT, time_of st :: Z.of_nat (length ps) :: flat_map (result_words encF d) (combine ps vss)).
  Proof.
    intros ENC (FP & FT & FS & FN) st i t q rest ps vss G T V m C. pose proof G as (GP & _). destruct (pgrid_lengths d _ GP) as (GG & _).
    assert (IN : forall p, In p ps -> In p (all_points o)) by (intros p I; apply (declared_in o i); apply (those_in _ _ _ _ T I)).
    assert (FT' : Forall (fun p => is_text (ip_file p) /\ is_text (header_of p)) ps) by (apply Forall_forall; intros p I; rewrite Forall_forall in FT; auto).
    assert (TS : total_size d ps + 4 <= 1073741824).
    { pose proof (total_those d _ _ _ GG T). pose proof (total_declared o d i GG). unfold total_size in *. lia. }
    pose proof (length_total d ps GG) as LP. pose proof (results_length encF d _ _ _ _ GG V) as RL.
    assert (T32 : total_size d ps < two32) by (unfold two32; lia).
    assert (GC : good_content (SEND_OUTPUT, time_of st :: Z.of_nat (length ps) :: flat_map (result_words encF d) (combine ps vss))).
    { unfold good_content. cbn [fst snd]. split; [cbv; split; [discriminate|reflexivity]|]. split; [|cbn [length]; lia].
      constructor; [apply ENC|]. constructor; [unfold is_word, two32; lia|]. apply (results_words encF d ENC _ _ _ _ GG T32 FT' V). }
    destruct (serve_handled encF decF openable readable render solve plugin stack o d st (SEND_OUTPUT, instant_code i :: type_code t :: quantity_code q :: rest) st (Some (SEND_OUTPUT, time_of st :: Z.of_nat (length ps) :: flat_map (result_words encF d) (combine ps vss))) Go_on m) with (3 := C) as (reply & S & A).
    - apply h_send; try assumption; [unfold two32; lia| |].
      + apply Forall_forall. intros p I TP. pose proof (total_bounds d p ps GG I) as B. unfold result_size in B. rewrite TP in B. unfold two32. lia.
      + clear - V TS GG. induction V as [|p vs ps vss E V IH]; [constructor|].
        pose proof (total_bounds d p (p :: ps) GG (or_introl eq_refl)) as X. constructor.
        * apply shows_length in E; [|exact GG]. unfold result_size in X. unfold two32. destruct (ip_type p); try contradiction; lia.
        * apply IH. unfold total_size in *. cbn [map fold_right] in TS. pose proof (result_size_pos d p GG). lia.
    - constructor; [exact GC|constructor].
    - destruct reply as [r|]; cbn [answered] in A; [|contradiction]. exists r. auto.
  Qed.

  Hypothesis ENC : forall x, is_word (encF x).
  Hypothesis FIT : points_fit o d.

  Lemma time_and_count : forall m t n ws, carries m SEND_OUTPUT (t :: n :: ws) -> word_at m 0 = Ok t /\ word_at m 1 = Ok n.
  Proof.
    intros m t n ws C. split; [exact (word_at_mid m _ [] _ _ C)|exact (word_at_mid m _ [t] _ _ C)].
  Qed.

  (** C48 for Tflp: time, and for each inspection point the name of its file, its
      header and the temperatures. *)
  Theorem C48_tflp : forall (st : server M PS) i q rest ps vss, good_sim d (sv_sim st) ->
      those (wanted OT_TFLP q) (declared_at o i) ps -> Forall2 (shows d (sv_sim st)) ps vss ->
      decoded tflp_reader st (SEND_OUTPUT, instant_code i :: type_code OT_TFLP :: quantity_code q :: rest)
        (Some (time_of st, map (fun pv => (ip_file (fst pv), tflp_text q (se_id (ip_stkel (fst pv))) (map fe_id (die_elements (fst pv))), map encF (snd pv))) (combine ps vss))).
  Proof.
    intros st i q rest ps vss G T V m C. destruct (send_handled ENC FIT st i OT_TFLP q rest ps vss G T V m C) as (reply & S & GC & CR).
    exists reply. eexists. split; [exact S|]. split; [exact CR|]. split; [exact GC|]. split; [reflexivity|]. intros m' C'. unfold carries_c in C'. cbn [fst snd] in C'.
    assert (LV : length vss = length ps) by (clear - V; induction V; cbn; congruence).
    assert (W : Forall (wanted OT_TFLP q) ps) by (apply (those_wanted _ _ _ _ T)).
    assert (F : Forall (fun p => ip_type p = OT_TFLP /\ is_text (ip_file p) /\ is_text (header_of p)) ps).
    { destruct FIT as (_ & FT & _). apply Forall_forall. intros p I. rewrite Forall_forall in FT, W. split; [apply (W p I)|]. apply FT. apply (declared_in o i). apply (those_in _ _ _ _ T I). }
    unfold tflp_reader, client_tflp. destruct (time_and_count _ _ _ _ C') as (E1 & E2). rewrite E1, E2. cbn [bind]. rewrite Nat2Z.id.
    assert (C2 : carries m' SEND_OUTPUT ([time_of st; Z.of_nat (length ps)] ++ flat_map (result_words encF d) (combine ps vss) ++ [])) by (rewrite app_nil_r; exact C').
    rewrite (decode_tflps_spec encF d ps vss LV F m' SEND_OUTPUT _ _ C2 : decode_tflps m' (length ps) 2 = _). cbn [bind snd length].
    match goal with |- Ok (Some (_, ?a), _) = Ok (Some (_, ?b), _) => assert (EM : a = b); [|rewrite EM; do 2 f_equal; lia] end.
    apply map_ext_in. intros [p vs] I. cbn [fst snd]. apply in_combine_l in I. rewrite Forall_forall in W. destruct (W p I) as (_ & _ & _ & WQ).
    unfold header_of. rewrite header_text, (WQ (or_introl eq_refl)). reflexivity.
  Qed.

  (** For cells, floorplan elements and channel outlets: one value each. *)
  Theorem C48_values : forall (st : server M PS) i t q rest ps vss, good_sim d (sv_sim st) -> In t [OT_TCELL; OT_TFLPEL; OT_TCOOLANT] ->
      those (wanted t q) (declared_at o i) ps -> Forall2 (fun p v => shows d (sv_sim st) p [v]) ps vss ->
      decoded (fun m => do r <- client_values m ; let '(a, b, c) := r in Ok ((a, b), c)) st
        (SEND_OUTPUT, instant_code i :: type_code t :: quantity_code q :: rest) (time_of st, map encF vss).
  Proof.
    intros st i t q rest ps vs G IT T V m C.
    assert (V2 : Forall2 (shows d (sv_sim st)) ps (map (fun v => [v]) vs)) by (clear - V; induction V; constructor; auto).
    destruct (send_handled ENC FIT st i t q rest ps _ G T V2 m C) as (reply & S & GC & CR).
    exists reply. eexists. split; [exact S|]. split; [exact CR|]. split; [exact GC|]. split; [reflexivity|]. intros m' C'. unfold carries_c in C'. cbn [fst snd] in C'.
    assert (LV : length vs = length ps) by (clear - V; induction V; cbn; congruence).
    assert (W : Forall (wanted t q) ps) by (apply (those_wanted _ _ _ _ T)).
    assert (FM : flat_map (result_words encF d) (combine ps (map (fun v => [v]) vs)) = map encF vs).
    { clear - V W IT. induction V as [|p v ps vs E V IH]; [reflexivity|]. inversion W as [|? ? (W1 & _) W2]; subst. cbn [map combine flat_map].
      rewrite IH by assumption. unfold result_words. cbn [In] in IT. destruct IT as [X|[X|[X|[]]]]; rewrite <- X; reflexivity. }
    rewrite FM in *. unfold client_values. destruct (time_and_count _ _ _ _ C') as (E1 & E2). rewrite E1, E2. cbn [bind]. rewrite Nat2Z.id.
    assert (C2 : carries m' SEND_OUTPUT ([time_of st; Z.of_nat (length ps)] ++ map encF vs ++ [])) by (rewrite app_nil_r; exact C').
    replace (length ps) with (length (map encF vs)) by (rewrite map_length; exact LV).
    rewrite (extract_floats_spec (map encF vs) m' SEND_OUTPUT _ _ C2 : extract_floats m' _ 2 = _). cbn [bind snd length].
    do 2 f_equal. rewrite map_length. lia.
  Qed.

  (** For maps: the rows of the layer, each of the number of columns. *)
  Theorem C48_maps : forall (st : server M PS) i t q rest ps vss, good_sim d (sv_sim st) -> In t [OT_TMAP; OT_PMAP] ->
      those (wanted t q) (declared_at o i) ps -> Forall2 (shows d (sv_sim st)) ps vss ->
      forall m, carries_c m (SEND_OUTPUT, instant_code i :: type_code t :: quantity_code q :: rest) ->
      exists reply c, serve st m = Ok (st, Some reply, Go_on) /\ carries_c reply c /\ good_content c /\ fst c = SEND_OUTPUT /\
      forall m', carries_c m' c -> exists maps, client_maps m' = Ok (time_of st, maps, Z.of_nat (length (snd c))) /\
        Forall2 (fun rows vs => concat rows = map encF vs /\ Z.of_nat (length rows) = d_nrows d /\ Forall (fun r => Z.of_nat (length r) = d_ncols d) rows) maps vss.
  Proof.
    intros st i t q rest ps vss G IT T V m C. destruct (send_handled ENC FIT st i t q rest ps vss G T V m C) as (reply & S & GC & CR).
    exists reply. eexists. split; [exact S|]. split; [exact CR|]. split; [exact GC|]. split; [reflexivity|]. intros m' C'. unfold carries_c in C'. cbn [fst snd] in C'.
    pose proof G as (GP & _). destruct (pgrid_lengths d _ GP) as (GG & _).
    assert (W : Forall (wanted t q) ps) by (apply (those_wanted _ _ _ _ T)).
    assert (F : Forall (fun p => ip_type p = OT_TMAP \/ ip_type p = OT_PMAP) ps).
    { eapply Forall_impl; [|exact W]. intros p (X & _). cbn [In] in IT. rewrite X. destruct IT as [<-|[<-|[]]]; auto. }
    assert (L : Forall2 (fun p vs => Z.of_nat (length vs) = d_nrows d * d_ncols d) ps vss).
    { clear - V F GG. induction V as [|p vs ps vss E V IH]; constructor; inversion F as [|? ? F1 F2]; subst; auto.
      apply shows_length in E; [|exact GG]. destruct F1 as [X|X]; rewrite X in E; exact E. }
    unfold client_maps. destruct (time_and_count _ _ _ _ C') as (E1 & E2). rewrite E1, E2. cbn [bind]. rewrite Nat2Z.id.
    assert (C2 : carries m' SEND_OUTPUT ([time_of st; Z.of_nat (length ps)] ++ flat_map (result_words encF d) (combine ps vss) ++ [])) by (rewrite app_nil_r; exact C').
    pose proof GG as (G1 & G2 & _).
    destruct (decode_maps_spec encF d ps vss L F ltac:(lia) ltac:(lia) m' SEND_OUTPUT _ _ C2) as (maps & E & MS).
    exists maps. rewrite (E : decode_maps m' (length ps) 2 = _). cbn [bind snd length]. split; [|exact MS]. do 2 f_equal. lia.
  Qed.
End C48.
Print Assumptions C48_tflp.
Print Assumptions C48_values.
Print Assumptions C48_maps.

(** The files of the client: with different file names, after n slots the file of
    an inspection point holds its header and one row per slot, in order, and no
    other file changes. *)
Lemma cget_other : forall f n m c, m <> n -> cput n c f m = f m.
Proof. intros f n m c H. unfold cput. destruct (name_dec m n); [contradiction|reflexivity]. Qed.
Lemma cget_same : forall f n c, cput n c f n = Some c.
Proof. intros f n c. unfold cput. destruct (name_dec n n); [reflexivity|contradiction]. Qed.
Definition first_lines (header : list byte) : list cline := match header with [] => [] | _ => [CHead header] end.
Lemma write_spec : forall openable slot time rs f, NoDup (map (fun r => fst (fst r)) rs) -> Forall (fun r => openable (fst (fst r)) = true) rs ->
    exists f', client_write openable slot time rs f = Some f' /\
      (forall n, ~ In n (map (fun r => fst (fst r)) rs) -> f' n = f n) /\
      forall n h vs, In (n, h, vs) rs -> f' n = Some ((if slot =? 0 then first_lines h else cget f n) ++ [CRow time vs]).
Proof.
  intros openable slot time rs. induction rs as [|[[n h] vs] rs IH]; intros f ND OP; cbn [client_write map fst] in *.
  - exists f. split; [reflexivity|]. split; [auto|]. intros n h vs [].
  - inversion ND as [|? ? NI ND']; subst. inversion OP as [|? ? O1 OP']; subst. cbn [fst] in O1. rewrite O1.
    destruct (IH (cput n ((if slot =? 0 then first_lines h else cget f n) ++ [CRow time vs]) f) ND' OP') as (f' & E & OT & IN).
    exists f'. split; [exact E|]. split.
    + intros m NM. rewrite OT by (intro X; apply NM; right; exact X). apply cget_other. intro X. apply NM. left. auto.
    + intros m h2 vs2 [X|X].
      * assert (n = m) as -> by congruence. assert (h = h2) as -> by congruence. assert (vs = vs2) as -> by congruence.
        rewrite OT by exact NI. apply cget_same.
      * rewrite (IN _ _ _ X). unfold cget. rewrite cget_other; [reflexivity|]. intro Y. apply NI. subst m. apply in_map_iff. exists (n, h2, vs2). auto.
Qed.
(** What the points [ps] (name and header) sent at each of the slots: times and,
    for each point, its values. *)
Definition reply_of (ps : list (list byte * list byte)) (tv : word * list (list word)) : word * list (list byte * list byte * list word) :=
  (fst tv, combine ps (snd tv)).
Theorem C48_client_files : forall openable ps tvs f, NoDup (map fst ps) -> Forall (fun p => openable (fst p) = true) ps ->
    Forall (fun tv => length (snd tv) = length ps) tvs -> Z.of_nat (length tvs) < two32 ->
    exists f', client_run openable 0 (map (reply_of ps) tvs) f = Some f' /\
      (forall n, ~ In n (map fst ps) -> f' n = f n) /\
      forall j n h, nth_error ps j = Some (n, h) -> tvs <> [] ->
        f' n = Some (first_lines h ++ map (fun tv => CRow (fst tv) (nth j (snd tv) [])) tvs).
Proof.
  intros openable ps tvs f ND OP LE B.
  assert (NM : forall vss, length vss = length ps -> map (fun r : list byte * list byte * list word => fst (fst r)) (combine ps vss) = map fst ps).
  { clear. induction ps as [|p ps IH]; intros vss L; [reflexivity|]. destruct vss as [|v vss]; [discriminate|]. cbn [combine map fst]. f_equal. apply IH. cbn in L. lia. }
  assert (OPN : forall vss, Forall (fun r : list byte * list byte * list word => openable (fst (fst r)) = true) (combine ps vss)).
  { intro vss. apply Forall_forall. intros [p v] I. apply in_combine_l in I. rewrite Forall_forall in OP. exact (OP p I). }
  assert (NTH : forall j n h (vss : list (list word)), nth_error ps j = Some (n, h) -> length vss = length ps -> In (n, h, nth j vss []) (combine ps vss)).
  { clear. induction ps as [|p ps IH]; intros j n h vss N L; [destruct j; discriminate|]. destruct vss as [|v vss]; [discriminate|].
    destruct j as [|j]; cbn in N |- *; [left; congruence|]. right. apply IH; [exact N|cbn in L; lia]. }
  assert (GEN : forall tvs slot f, Forall (fun tv => length (snd tv) = length ps) tvs -> 0 < slot -> slot + Z.of_nat (length tvs) < two32 ->
    exists f', client_run openable slot (map (reply_of ps) tvs) f = Some f' /\
      (forall n, ~ In n (map fst ps) -> f' n = f n) /\
      forall j n h, nth_error ps j = Some (n, h) -> tvs <> [] -> f' n = Some (cget f n ++ map (fun tv => CRow (fst tv) (nth j (snd tv) [])) tvs)).
  { clear tvs f LE B. induction tvs as [|[t vss] tvs IH]; intros slot f LE SL B; cbn [map client_run reply_of fst snd].
    - exists f. split; [reflexivity|]. split; [auto|congruence].
    - inversion LE as [|? ? L1 LE']; subst. cbn [snd] in L1. cbn [length] in B.
      destruct (write_spec openable slot t (combine ps vss) f) as (f1 & E & OT & IN); [rewrite (NM vss L1); exact ND|apply OPN|].
      rewrite E, u32_id by lia. destruct (IH (slot + 1) f1 LE' ltac:(lia) ltac:(lia)) as (f' & E2 & OT2 & IN2). exists f'. split; [exact E2|]. rewrite (NM vss L1) in OT. split.
      + intros n H. rewrite (OT2 n H). apply OT. exact H.
      + intros j n h N _. pose proof (IN _ _ _ (NTH j n h vss N L1)) as X. destruct (Z.eqb_spec slot 0); [lia|].
        destruct tvs as [|tv tvs]; [cbn [map client_run] in E2; assert (f1 = f') as -> by congruence; exact X|].
        rewrite (IN2 j n h N ltac:(discriminate)). unfold cget at 1. rewrite X, <- app_assoc. reflexivity. }
  destruct tvs as [|[t vss] tvs]; cbn [map client_run reply_of fst snd].
  - exists f. split; [reflexivity|]. split; [auto|congruence].
  - inversion LE as [|? ? L1 LE']; subst. cbn [snd] in L1. cbn [length] in B.
    destruct (write_spec openable 0 t (combine ps vss) f) as (f1 & E & OT & IN); [rewrite (NM vss L1); exact ND|apply OPN|].
    rewrite E. change (u32 (0 + 1)) with 1. destruct (GEN tvs 1 f1 LE' ltac:(lia) ltac:(lia)) as (f' & E2 & OT2 & IN2). exists f'. split; [exact E2|]. rewrite (NM vss L1) in OT. split.
    + intros n H. rewrite (OT2 n H). apply OT. exact H.
    + intros j n h N _. pose proof (IN _ _ _ (NTH j n h vss N L1)) as X. cbn [Z.eqb] in X.
      destruct tvs as [|tv tvs]; [cbn [map client_run] in E2; assert (f1 = f') as -> by congruence; exact X|].
      rewrite (IN2 j n h N ltac:(discriminate)). unfold cget at 1. rewrite X, <- app_assoc. reflexivity.
Qed.
Print Assumptions C48_client_files.

(** Two inspection points with the same file: what the first wrote is lost at the
    first slot. *)
Theorem C48_same_file_overwritten : exists ps tvs f',
    client_run sv_any 0 (map (reply_of ps) tvs) (fun _ => None) = Some f' /\ length ps = 2%nat /\
    f' [97] = Some [CHead [72]; CRow 5 [2]] /\ tvs = [(5, [[1]; [2]])].
Proof. exists [([97], [71]); ([97], [72])], [(5, [[1]; [2]])]. eexists. split; [reflexivity|]. split; [reflexivity|]. split; reflexivity. Qed.
Print Assumptions C48_same_file_overwritten.

(** The server of PropServer.v meets the hypotheses, for two Tflp points, a map
    and a cell. *)
Example C48_witness : (forall x, is_word (sv_enc x)) /\ points_fit sv_out wd /\ good_sim wd (sv_sim sv_start) /\
    those (wanted OT_TFLP OQ_MAXIMUM) (declared_at sv_out OI_SLOT) [sv_point OI_SLOT OT_TFLP [98; 98; 46; 116; 120]; sv_point OI_SLOT OT_TFLP [99]] /\
    Forall2 (shows wd (sv_sim sv_start)) [sv_point OI_SLOT OT_TFLP [98; 98; 46; 116; 120]; sv_point OI_SLOT OT_TFLP [99]] [[300%Q; 300%Q]; [300%Q; 300%Q]] /\
    those (wanted OT_TMAP OQ_NONE) (declared_at sv_out OI_SLOT) [sv_point OI_SLOT OT_TMAP [100; 100]] /\
    Forall2 (shows wd (sv_sim sv_start)) [sv_point OI_SLOT OT_TMAP [100; 100]] [repeat 300%Q 4] /\
    those (wanted OT_TCELL OQ_NONE) (declared_at sv_out OI_STEP) [sv_point OI_STEP OT_TCELL [97; 46; 116]] /\
    Forall2 (fun p v => shows wd (sv_sim sv_start) p [v]) [sv_point OI_STEP OT_TCELL [97; 46; 116]] [300%Q].
Proof.
  assert (W : forall i t f q, t <> OT_NONE -> t <> OT_T3D -> (q = OQ_MAXIMUM \/ t = OT_TMAP \/ t = OT_TCELL) -> wanted t q (sv_point i t f)).
  { intros i t f q A B C. split; [reflexivity|]. split; [exact A|]. split; [exact B|]. intros D. cbn. destruct C as [->|[-> | ->]]; try reflexivity; destruct D as [D|[D|D]]; discriminate. }
  split; [exact sv_enc_word|]. split; [exact sv_points_fit|]. split; [apply (sv_ready 1); unfold two32; lia|].
  split; [cbn; constructor; [apply W; auto; discriminate|constructor; [apply W; auto; discriminate|apply th_drop; [intros (X & _); discriminate|constructor]]]|].
  split; [constructor; [vm_compute; reflexivity|constructor; [vm_compute; reflexivity|constructor]]|].
  split; [cbn; apply th_drop; [intros (X & _); discriminate|apply th_drop; [intros (X & _); discriminate|constructor; [apply W; auto; discriminate|constructor]]]|].
  split; [constructor; [vm_compute; reflexivity|constructor]|].
  split; [cbn; constructor; [apply W; auto; discriminate|constructor]|].
  constructor; [vm_compute; reflexivity|constructor].
Qed.
