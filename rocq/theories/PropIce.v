(** * Property C66: what the SystemC client (IceWrapper) reads and sends *)
From Coq Require Import ZArith List Bool QArith Qround Lia.
From Verif Require Import Base QSum Dims DimsSpec Queue Floorplan FloorplanSpec FloorplanProofs Stack StackSpec PowerGrid Emulate EmulateSpec
  EmulatorProofs SimWitness Inspect Emulator EmulatorSpec Message MessageSpec MessageProofs
  Server ServerSpec ServerIoProofs ServerProofs ServerDecodeProofs ServerRunProofs PropServer PropReply IceClient.
Import ListNotations.
Local Open Scope list_scope.
Local Open Scope Z_scope.

(** ** The loops over the words *)
Lemma ice_floats_spec : forall ws m ty pre post, carries m ty (pre ++ ws ++ post) ->
    ice_floats m (length ws) (Z.of_nat (length pre)) = Ok ws.
Proof.
  induction ws as [|w ws IH]; intros m ty pre post C; cbn [length ice_floats]; [reflexivity|].
  rewrite (extract_mid m ty pre w (ws ++ post) C). cbn [bind].
  replace (Z.of_nat (length pre) + 1) with (Z.of_nat (length (pre ++ [w]))) by (rewrite app_length; cbn [length]; lia).
  rewrite (IH m ty (pre ++ [w]) post); [reflexivity|]. rewrite <- app_assoc. exact C.
Qed.

Lemma ice_temperatures_spec : forall m ty t ws post, carries m ty (t :: Z.of_nat (length ws) :: ws ++ post) ->
    ice_temperatures m = Ok ws.
Proof.
  intros m ty t ws post C. unfold ice_temperatures.
  rewrite (extract_mid m ty [] _ _ C : extract_message_word m 0 = _). cbn [bind].
  rewrite (word_at_mid m ty [t] _ _ C : word_at m 1 = _). cbn [bind]. rewrite Nat2Z.id.
  exact (ice_floats_spec ws m ty [t; Z.of_nat (length ws)] post C).
Qed.

Lemma ice_cells_spec : forall ws m ty pre post last, carries m ty (pre ++ ws ++ post) -> pre <> [] -> Z.of_nat (length (pre ++ ws)) < two32 ->
    ice_cells m (length ws) (Z.of_nat (length pre) - 1) last = Ok (ws, Z.of_nat (length (pre ++ ws)) - 1, List.last ws last).
Proof.
  induction ws as [|w ws IH]; intros m ty pre post l C NE B; cbn [length ice_cells].
  - rewrite app_nil_r. reflexivity.
  - assert (1 <= length pre)%nat by (destruct pre; [congruence|cbn; lia]).
    rewrite app_length in B. cbn [length] in B.
    rewrite u32_id by lia. replace (Z.of_nat (length pre) - 1 + 1) with (Z.of_nat (length pre)) by lia.
    rewrite (extract_mid m ty pre w (ws ++ post) C). cbn [bind].
    replace (Z.of_nat (length pre)) with (Z.of_nat (length (pre ++ [w])) - 1) by (rewrite app_length; cbn [length]; lia).
    rewrite (IH m ty (pre ++ [w]) post w).
    + cbn [bind]. rewrite <- app_assoc. cbn [app]. do 2 f_equal. destruct ws; reflexivity || (cbn [List.last]; clear; revert w z; induction ws; intros; [reflexivity|apply IHws]).
    + rewrite <- app_assoc. exact C.
    + destruct pre; discriminate.
    + rewrite app_length, app_length. cbn [length]. lia.
Qed.

Lemma ice_cells_app : forall a b m index last, ice_cells m (a + b) index last =
    do x <- ice_cells m a index last ; let '(ts, i, l) := x in
    do y <- ice_cells m b i l ; let '(us, j, k) := y in Ok (ts ++ us, j, k).
Proof.
  induction a as [|a IH]; intros b m index l; cbn [Nat.add ice_cells bind].
  - destruct (ice_cells m b index l) as [[[us j] k]| |]; reflexivity.
  - destruct (extract_message_word m (u32 (index + 1))) as [w| |]; cbn [bind]; [|reflexivity..].
    rewrite IH. destruct (ice_cells m a (u32 (index + 1)) _) as [[[ts i] l1]| |]; cbn [bind]; [|reflexivity..].
    destruct (ice_cells m b i l1) as [[[us j] k]| |]; reflexivity.
Qed.

Lemma ice_rows_cells : forall r c m index last ts i l, ice_cells m (r * c) index last = Ok (ts, i, l) ->
    exists rows, ice_rows m r c index last = Ok (rows, i, l) /\ concat rows = ts.
Proof.
  induction r as [|r IH]; intros c m index lst ts i l E; cbn [Nat.mul ice_rows] in *.
  - cbn [ice_cells] in E. exists []. split; [|cbn; congruence]. congruence.
  - rewrite ice_cells_app in E. destruct (ice_cells m c index lst) as [[[row i1] l1]| |]; cbn [bind] in *; [|discriminate..].
    destruct (ice_cells m (r * c) i1 l1) as [[[us j] k]| |] eqn:E2; cbn [bind] in *; [|discriminate..].
    destruct (IH c m i1 l1 us j k E2) as (rows & R & CO). rewrite R. cbn [bind]. exists (row :: rows).
    split; [congruence|]. cbn [concat]. congruence.
Qed.
Lemma ice_maps_cells : forall n r c m index last ts i l, ice_cells m (n * (r * c)) index last = Ok (ts, i, l) ->
    exists maps, ice_maps m n r c index last = Ok (maps, i, l) /\ concat (concat maps) = ts.
Proof.
  induction n as [|n IH]; intros r c m index lst ts i l E; cbn [Nat.mul ice_maps] in *.
  - cbn [ice_cells] in E. exists []. split; [|cbn; congruence]. congruence.
  - rewrite ice_cells_app in E. destruct (ice_cells m (r * c) index lst) as [[[row i1] l1]| |] eqn:E1; cbn [bind] in *; [|discriminate..].
    destruct (ice_cells m (n * (r * c)) i1 l1) as [[[us j] k]| |] eqn:E2; cbn [bind] in *; [|discriminate..].
    destruct (IH r c m i1 l1 us j k E2) as (maps & R & CO). destruct (ice_rows_cells r c m index lst row i1 l1 E1) as (rows & RW & CR).
    rewrite RW. cbn [bind]. rewrite R. cbn [bind]. exists (rows :: maps).
    split; [congruence|]. cbn [concat]. rewrite concat_app. congruence.
Qed.
Lemma ice_rows_shape : forall r c m index last rows i l, ice_rows m r c index last = Ok (rows, i, l) ->
    length rows = r /\ Forall (fun row => length row = c) rows.
Proof.
  assert (CL : forall n m index last ts i l, ice_cells m n index last = Ok (ts, i, l) -> length ts = n).
  { induction n as [|n IH]; intros m index lst ts i l E; cbn [ice_cells] in E; [assert (ts = []) as -> by congruence; reflexivity|].
    destruct (extract_message_word m (u32 (index + 1))) as [w| |]; cbn [bind] in E; [|discriminate..].
    destruct (ice_cells m n (u32 (index + 1)) _) as [[[us j] k]| |] eqn:E2; cbn [bind] in E; [|discriminate..].
    apply IH in E2. assert (length ts = S (length us)) as -> by (replace ts with (match w with Some w => w | None => lst end :: us) by congruence; reflexivity). lia. }
  induction r as [|r IH]; intros c m index lst rows i l E; cbn [ice_rows] in E.
  - assert (rows = []) as -> by congruence. auto.
  - destruct (ice_cells m c index lst) as [[[row i1] l1]| |] eqn:E1; cbn [bind] in E; [|discriminate..].
    destruct (ice_rows m r c i1 l1) as [[[t i2] l2]| |] eqn:E2; cbn [bind] in E; [|discriminate..].
    assert (rows = row :: t) as -> by congruence. destruct (IH _ _ _ _ _ _ _ E2) as (A & B). split; [cbn; lia|]. constructor; [exact (CL _ _ _ _ _ _ _ E1)|exact B].
Qed.
Lemma ice_maps_shape : forall n r c m index last maps i l, ice_maps m n r c index last = Ok (maps, i, l) ->
    length maps = n /\ Forall (fun rows => length rows = r /\ Forall (fun row => length row = c) rows) maps.
Proof.
  induction n as [|n IH]; intros r c m index lst maps i l E; cbn [ice_maps] in E.
  - assert (maps = []) as -> by congruence. auto.
  - destruct (ice_rows m r c index lst) as [[[x i1] l1]| |] eqn:E1; cbn [bind] in E; [|discriminate..].
    destruct (ice_maps m n r c i1 l1) as [[[t i2] l2]| |] eqn:E2; cbn [bind] in E; [|discriminate..].
    assert (maps = x :: t) as -> by congruence. destruct (IH _ _ _ _ _ _ _ _ E2) as (A & B). split; [cbn; lia|].
    constructor; [exact (ice_rows_shape _ _ _ _ _ _ _ _ E1)|exact B].
Qed.

Lemma extract_total : forall m ty ws i, carries m ty ws -> 0 <= i -> exists w, extract_message_word m i = Ok w.
Proof.
  intros m ty ws i ((HM & HR & _) & _) P. unfold extract_message_word. rewrite u32_id by lia.
  destruct (Z.leb_spec (m_max m - 2) i); [eauto|]. rewrite (arr_get_ok _ _ 0) by lia. cbn [bind]. eauto.
Qed.

Section C66.
  Variables (encF : Q -> word) (decF : word -> Q).
  Variables (openable : list Z -> bool) (readable : list Z -> bool) (render : list line -> list byte).
  Context {M PS : Type}.
  Variable solve : M -> list Q -> error_t * list Q.
  Variable plugin : PS -> list Q -> list Q -> bool * list Q * PS.
  Variables (stack : list stkel) (o : output) (d : dims).
  Notation serve := (serve encF decF openable readable render solve plugin stack o d).

  (** [reads f st request x]: the server answers [request] without changing its state,
      and [f] applied to what the client then holds (any buffer that carries the words
      of the answer) gives [x]. *)
  Definition reads {A} (f : message -> outcome A) (st : server M PS) (request : content) (x : A -> Prop) : Prop :=
    forall m, carries_c m request -> exists reply c, serve st m = Ok (st, Some reply, Go_on) /\ carries_c reply c /\ good_content c /\
      forall m', carries_c m' c -> exists a, f m' = Ok a /\ x a.

  Hypothesis ENC : forall x, is_word (encF x).
  Hypothesis FIT : points_fit o d.

  (** getTemperature for cells, floorplan elements and channel outlets: the values of
      the inspection points, one each, in their order. *)
  Theorem C66_values : forall (st : server M PS) i t q ps vs, good_sim d (sv_sim st) -> In t [OT_TCELL; OT_TFLPEL; OT_TCOOLANT] ->
      those (wanted t q) (declared_at o i) ps -> Forall2 (fun p v => shows d (sv_sim st) p [v]) ps vs ->
      reads ice_temperatures st (ice_request (instant_code i) (type_code t) (quantity_code q)) (fun got => got = map encF vs).
  Proof.
    intros st i t q ps vs G IT T V m C.
    assert (V2 : Forall2 (shows d (sv_sim st)) ps (map (fun v => [v]) vs)) by (clear - V; induction V; constructor; auto).
    destruct (send_handled encF decF openable readable render solve plugin stack o d ENC FIT st i t q [] ps _ G T V2 m C) as (reply & S & GC & CR).
    exists reply. eexists. split; [exact S|]. split; [exact CR|]. split; [exact GC|]. intros m' C'. unfold carries_c in C'. cbn [fst snd] in C'.
    assert (LV : length vs = length ps) by (clear - V; induction V; cbn; congruence).
    assert (W : Forall (wanted t q) ps) by (apply (those_wanted _ _ _ _ T)).
    assert (FM : flat_map (result_words encF d) (combine ps (map (fun v => [v]) vs)) = map encF vs).
    { clear - V W IT. induction V as [|p v ps vs E V IH]; [reflexivity|]. inversion W as [|? ? (W1 & _) W2]; subst. cbn [map combine flat_map].
      rewrite IH by assumption. unfold result_words. cbn [In] in IT. destruct IT as [X|[X|[X|[]]]]; rewrite <- X; reflexivity. }
    rewrite FM in *. exists (map encF vs). split; [|reflexivity].
    apply (ice_temperatures_spec m' SEND_OUTPUT (time_of encF st) (map encF vs) []). rewrite app_nil_r, map_length, LV. exact C'.
  Qed.

  (** getTemperature for type Tflp: what is returned first is the length of a file
      name, and as many words as there are inspection points, none of which is a
      temperature for the first point when there are at most three points. *)
  Theorem C66_tflp_returns_lengths : forall (st : server M PS) i q p ps v vss, good_sim d (sv_sim st) ->
      those (wanted OT_TFLP q) (declared_at o i) (p :: ps) -> Forall2 (shows d (sv_sim st)) (p :: ps) (v :: vss) ->
      reads ice_temperatures st (ice_request (instant_code i) (type_code OT_TFLP) (quantity_code q))
        (fun got => length got = S (length ps) /\ nth 0 got 0 = Z.of_nat (length (ip_file p)) /\
           ((2 <= length got)%nat -> nth 1 got 0 = Z.of_nat (length (header_of p))) /\
           ((3 <= length got)%nat -> nth 2 got 0 = Z.of_nat (length v))).
  Proof.
    intros st i q p ps v vss G T V m C.
    destruct (send_handled encF decF openable readable render solve plugin stack o d ENC FIT st i OT_TFLP q [] (p :: ps) _ G T V m C) as (reply & S & GC & CR).
    exists reply. eexists. split; [exact S|]. split; [exact CR|]. split; [exact GC|]. intros m' C'. unfold carries_c in C'. cbn [fst snd] in C'.
    assert (LV : length vss = length ps) by (clear - V; inversion V as [|? ? ? ? ? V2]; subst; clear V; induction V2; cbn; congruence).
    assert (W : Forall (wanted OT_TFLP q) (p :: ps)) by (apply (those_wanted _ _ _ _ T)).
    set (all := flat_map (result_words encF d) (combine (p :: ps) (v :: vss))) in *.
    assert (LA : (length (p :: ps) <= length all)%nat).
    { unfold all. clear - W LV. assert (X : forall ps vss, Forall (wanted OT_TFLP q) ps -> length vss = length ps -> (length ps <= length (flat_map (result_words encF d) (combine ps vss)))%nat).
      { clear. induction ps as [|p ps IH]; intros [|v vss] F L; try discriminate; [cbn; lia|]. inversion F as [|? ? (F1 & _) F2]; subst. cbn [combine flat_map].
        rewrite app_length. cbn in L. specialize (IH vss F2 ltac:(lia)). unfold result_words at 1. rewrite F1. cbn [length]. lia. }
      apply X; [exact W|cbn; lia]. }
    exists (firstn (length (p :: ps)) all). split.
    - apply (ice_temperatures_spec m' SEND_OUTPUT (time_of encF st) (firstn (length (p :: ps)) all) (skipn (length (p :: ps)) all)).
      rewrite firstn_skipn, firstn_length_le by exact LA. exact C'.
    - assert (H3 : exists r, all = Z.of_nat (length (ip_file p)) :: Z.of_nat (length (header_of p)) :: Z.of_nat (length v) :: r).
      { inversion W as [|? ? (W1 & _) _]; subst. unfold all. cbn [combine flat_map]. unfold result_words at 1. rewrite W1. cbn [app]. eauto. }
      destruct H3 as (r & ->). rewrite firstn_length_le by exact LA. cbn [length firstn]. split; [reflexivity|]. split; [reflexivity|].
      split; intro L; destruct ps as [|p2 [|p3 ps]]; cbn [length] in L; try lia; reflexivity.
  Qed.

  (** getTemperatureMap and getPowerMap, one inspection point: the first value of the
      map is not written and the last position holds something else; rows and columns
      are those of the layer. *)
  Theorem C66_map_shifted : forall (st : server M PS) t p v, good_sim d (sv_sim st) -> In t [OT_TMAP; OT_PMAP] ->
      those (wanted t OQ_NONE) (declared_at o OI_SLOT) [p] -> shows d (sv_sim st) p v ->
      reads ice_map st (ice_request (instant_code OI_SLOT) (type_code t) (quantity_code OQ_NONE))
        (fun maps => exists rows x, maps = [rows] /\ concat rows = tl (map encF v) ++ [x] /\ Z.of_nat (length rows) = d_nrows d /\
           Forall (fun r => Z.of_nat (length r) = d_ncols d) rows).
  Proof.
    intros st t p v G IT T V m C.
    destruct (send_handled encF decF openable readable render solve plugin stack o d ENC FIT st OI_SLOT t OQ_NONE [] [p] [v] G T (Forall2_cons _ _ V (Forall2_nil _)) m C) as (reply & S & GC & CR).
    exists reply. eexists. split; [exact S|]. split; [exact CR|]. split; [exact GC|]. intros m' C'. unfold carries_c in C'. cbn [fst snd] in C'.
    pose proof G as (GP & _). destruct (pgrid_lengths d _ GP) as (GG & _). pose proof GG as (G1 & G2 & _).
    assert (W : Forall (wanted t OQ_NONE) [p]) by (apply (those_wanted _ _ _ _ T)). inversion W as [|? ? (W1 & _) _]; subst.
    assert (LV : Z.of_nat (length v) = d_nrows d * d_ncols d).
    { apply shows_length in V; [|exact GG]. cbn [In] in IT. destruct IT as [X|[X|[]]]; rewrite <- X in V; exact V. }
    assert (E : flat_map (result_words encF d) (combine [p] [v]) = d_nrows d :: d_ncols d :: map encF v).
    { cbn [combine flat_map]. rewrite app_nil_r. unfold result_words. cbn [In] in IT. destruct IT as [X|[X|[]]]; rewrite <- X; reflexivity. }
    rewrite E in C', GC. destruct GC as (_ & _ & GL). cbn [fst snd length] in GL, C'. rewrite map_length in GL.
    unfold ice_map. rewrite (extract_mid m' SEND_OUTPUT [] _ _ C' : extract_message_word m' 0 = _). cbn [bind].
    rewrite (word_at_mid m' SEND_OUTPUT [_] _ _ C' : word_at m' 1 = _). cbn [bind].
    rewrite (word_at_mid m' SEND_OUTPUT [_; _] _ _ C' : word_at m' 2 = _). cbn [bind].
    rewrite (word_at_mid m' SEND_OUTPUT [_; _; _] _ _ C' : word_at m' 3 = _). cbn [bind].
    assert (VNE : exists v0 v', v = v0 :: v' /\ Z.of_nat (length v') + 1 = d_nrows d * d_ncols d).
    { destruct v as [|v0 v']; [cbn in LV; nia|]. exists v0, v'. split; [reflexivity|]. cbn [length] in LV. lia. }
    destruct VNE as (v0 & v' & -> & LV'). cbn [map tl length] in *.
    assert (XE : exists cs i l, ice_cells m' (1 * (Z.to_nat (d_nrows d) * Z.to_nat (d_ncols d))) 4 0 = Ok (cs, i, l) /\ exists x, cs = map encF v' ++ [x]).
    { replace (1 * (Z.to_nat (d_nrows d) * Z.to_nat (d_ncols d)))%nat with (length (map encF v') + 1)%nat by (rewrite map_length; nia).
      rewrite ice_cells_app.
      pose proof (ice_cells_spec (map encF v') m' SEND_OUTPUT [time_of encF st; 1; d_nrows d; d_ncols d; encF v0] [] 0) as X. cbn [length] in X.
      change (Z.of_nat 5 - 1) with 4 in X. rewrite app_nil_r in X. rewrite X; [|exact C'|discriminate|cbn [app length]; rewrite map_length; unfold two32; lia].
      cbn [bind ice_cells app length]. rewrite map_length, u32_id by (unfold two32; lia).
      destruct (extract_total m' _ _ (Z.of_nat (Datatypes.S (Datatypes.S (Datatypes.S (Datatypes.S (Datatypes.S (length v')))))) - 1 + 1) C' ltac:(lia)) as (w & ->). cbn [bind]. eauto 10. }
    destruct XE as (cs & i & l & XE & x & ->). destruct (ice_maps_cells 1 _ _ m' 4 0 _ i l XE) as (maps & EM & CM).
    change (Z.to_nat (Z.of_nat 1)) with 1%nat. rewrite EM. cbn [bind fst]. exists maps. split; [reflexivity|]. destruct (ice_maps_shape _ _ _ _ _ _ _ _ _ EM) as (L1 & SH).
    destruct maps as [|rows [|? ?]]; try discriminate. exists rows, x. split; [reflexivity|]. cbn [concat] in CM. rewrite app_nil_r in CM. split; [exact CM|].
    inversion SH as [|? ? (SR & SC) _]; subst. split; [lia|]. eapply Forall_impl; [|exact SC]. cbn beta. intros a SA. rewrite SA. lia.
  Qed.

  (** Two or more inspection points: what is written are the words of the answer from
      the sixth on; the numbers of rows and columns of the second map are written as
      if they were temperatures. *)
  Theorem C66_maps_mixed : forall (st : server M PS) t p1 p2 v1 v2, good_sim d (sv_sim st) -> In t [OT_TMAP; OT_PMAP] ->
      those (wanted t OQ_NONE) (declared_at o OI_SLOT) [p1; p2] -> shows d (sv_sim st) p1 v1 -> shows d (sv_sim st) p2 v2 ->
      reads ice_map st (ice_request (instant_code OI_SLOT) (type_code t) (quantity_code OQ_NONE))
        (fun maps => concat (concat maps) ++ [encF (last v2 0%Q)] = tl (map encF v1) ++ d_nrows d :: d_ncols d :: map encF v2).
  Proof.
    intros st t p1 p2 v1 v2 G IT T V1 V2 m C.
    destruct (send_handled encF decF openable readable render solve plugin stack o d ENC FIT st OI_SLOT t OQ_NONE [] [p1; p2] [v1; v2] G T (Forall2_cons _ _ V1 (Forall2_cons _ _ V2 (Forall2_nil _))) m C) as (reply & S & GC & CR).
    exists reply. eexists. split; [exact S|]. split; [exact CR|]. split; [exact GC|]. intros m' C'. unfold carries_c in C'. cbn [fst snd] in C'.
    pose proof G as (GP & _). destruct (pgrid_lengths d _ GP) as (GG & _). pose proof GG as (G1 & G2 & _).
    assert (W : Forall (wanted t OQ_NONE) [p1; p2]) by (apply (those_wanted _ _ _ _ T)). inversion W as [|? ? (W1 & _) W']; subst. inversion W' as [|? ? (W2 & _) _]; subst.
    assert (LV : forall p v, ip_type p = ip_type p1 -> shows d (sv_sim st) p v -> Z.of_nat (length v) = d_nrows d * d_ncols d).
    { intros p v TP V. apply shows_length in V; [|exact GG]. rewrite TP in V. cbn [In] in IT. destruct IT as [X|[X|[]]]; rewrite <- X in V; exact V. }
    pose proof (LV p1 v1 eq_refl V1) as L1. pose proof (LV p2 v2 W2 V2) as L2.
    assert (E : flat_map (result_words encF d) (combine [p1; p2] [v1; v2]) = d_nrows d :: d_ncols d :: map encF v1 ++ d_nrows d :: d_ncols d :: map encF v2).
    { cbn [combine flat_map]. rewrite app_nil_r. unfold result_words. rewrite W2. cbn [In] in IT. destruct IT as [X|[X|[]]]; rewrite <- X; reflexivity. }
    rewrite E in C', GC. destruct GC as (_ & _ & GL). cbn [fst snd length] in GL, C'. rewrite app_length in GL. cbn [length] in GL. rewrite !map_length in GL.
    unfold ice_map. rewrite (extract_mid m' SEND_OUTPUT [] _ _ C' : extract_message_word m' 0 = _). cbn [bind].
    rewrite (word_at_mid m' SEND_OUTPUT [_] _ _ C' : word_at m' 1 = _). cbn [bind].
    rewrite (word_at_mid m' SEND_OUTPUT [_; _] _ _ C' : word_at m' 2 = _). cbn [bind].
    rewrite (word_at_mid m' SEND_OUTPUT [_; _; _] _ _ C' : word_at m' 3 = _). cbn [bind].
    destruct v1 as [|a v1]; [cbn in L1; nia|]. destruct (@exists_last _ v2) as (v & z & EZ); [intros ->; cbn in L2; nia|]. subst v2.
    rewrite app_length in L2, GL. cbn [length map tl app] in *. rewrite map_app in *. cbn [map] in *. rewrite last_last.
    set (ws := map encF v1 ++ d_nrows d :: d_ncols d :: map encF v) in *.
    assert (LW : length ws = (2 * (Z.to_nat (d_nrows d) * Z.to_nat (d_ncols d)))%nat).
    { unfold ws. rewrite app_length. cbn [length]. rewrite !map_length. nia. }
    assert (C2 : carries m' SEND_OUTPUT ([time_of encF st; 2; d_nrows d; d_ncols d; encF a] ++ ws ++ [encF z])).
    { unfold ws. rewrite <- app_assoc. exact C'. }
    pose proof (ice_cells_spec ws m' SEND_OUTPUT _ _ 0 C2 ltac:(discriminate)) as X. rewrite LW in X.
    change (Z.of_nat (length [time_of encF st; 2; d_nrows d; d_ncols d; encF a]) - 1) with 4 in X.
    destruct (ice_maps_cells 2 _ _ m' 4 0 _ _ _ (X ltac:(rewrite app_length, LW; cbn [length]; unfold two32; nia))) as (maps & EM & CM).
    change (Z.to_nat (Z.of_nat 2)) with 2%nat. rewrite EM. cbn [bind fst]. exists maps. split; [reflexivity|]. rewrite CM. unfold ws. rewrite <- app_assoc. reflexivity.
  Qed.

  (** getNumberOfFloorplanElements then sendPowerValues: values of another number are
      not sent; values of the right number are accepted and given to the elements, one
      each. *)
  Theorem C66_powers : Forall (fun e => forall x, se_kind e = SKDie x -> f_nelements (die_floorplan x) = Z.of_nat (length (f_elements (die_floorplan x)))) stack ->
      forall k (st : server M PS) qs, good_sim d (sv_sim st) -> queued (s_pg (sv_sim st)) qs -> room (S k) qs ->
      length (stack_elements stack) = length (elements (s_pg (sv_sim st))) -> Z.of_nat (length (stack_elements stack)) + 3 <= 1073741824 -> stack_elements stack <> [] ->
      forall m, carries_c m ice_count_request -> exists r c, serve st m = Ok (st, Some r, Go_on) /\ carries_c r c /\
      forall r', carries_c r' c -> exists n, ice_count r' = Ok n /\
      forall ws, Forall is_word ws ->
        (length ws <> length (elements (s_pg (sv_sim st))) -> ice_powers n ws = None) /\
        (length ws = length (elements (s_pg (sv_sim st))) -> exists request, ice_powers n ws = Some request /\ good_content request /\
           forall m2, carries_c m2 request -> exists pg r2 c2,
             serve st m2 = Ok (mkServer (with_pg (sv_sim st) pg) (sv_files st) (sv_headers st), Some r2, Go_on) /\
             queued pg (give qs (map decF ws)) /\ same_fields (s_pg (sv_sim st)) pg /\
             carries_c r2 c2 /\ forall r3, carries_c r3 c2 -> ice_accepted r3 = Ok true).
  Proof.
    intros F k st qs G Q R LE B NE m C.
    destruct (C47_total encF decF openable readable render solve plugin stack o d F ltac:(unfold two32; lia) st [] m C) as (r & S & CR).
    exists r, (TOTAL_NUMBER_OF_FLOORPLAN_ELEMENTS, [Z.of_nat (length (stack_elements stack))]). split; [exact S|]. split; [exact CR|].
    intros r' C'. exists (Z.of_nat (length (stack_elements stack))). split; [exact (word_at_mid r' _ [] _ _ C')|].
    intros ws FW. unfold ice_powers. split; intro L.
    - destruct (Z.eqb_spec (Z.of_nat (length ws)) (Z.of_nat (length (stack_elements stack)))); [lia|reflexivity].
    - destruct (Z.eqb_spec (Z.of_nat (length ws)) (Z.of_nat (length (stack_elements stack)))); [|lia].
      rewrite <- e. eexists. split; [reflexivity|].
      assert (WNE : ws <> []) by (intros ->; cbn in L; destruct (stack_elements stack); [congruence|cbn in LE; lia]).
      assert (GC : good_content (INSERT_POWERS, Z.of_nat (length ws) :: ws ++ [])).
      { rewrite app_nil_r. unfold good_content. cbn [fst snd length]. split; [cbv; split; [discriminate|reflexivity]|]. split; [|lia]. constructor; [unfold is_word, two32; lia|exact FW]. }
      split; [rewrite app_nil_r in GC; exact GC|]. intros m2 C2. unfold carries_c in C2. cbn [fst snd] in C2. replace ws with (ws ++ []) in C2 at 2 by (rewrite app_nil_r; reflexivity).
      destruct (C47_equals_local_partial encF decF openable readable render solve plugin stack o d k st ws [] qs m2 G Q R WNE GC C2) as (q & e2 & pg & q' & reply & _ & _ & SV & QG & SF & _ & IFF & RP).
      assert (e2 = TDICE_SUCCESS) as -> by (apply IFF; lia). destruct RP as (r2 & -> & C3). exists pg, r2, (INSERT_POWERS, [0]). split; [exact SV|]. split; [exact QG|]. split; [exact SF|].
      split; [exact C3|]. intros r3 C4. unfold ice_accepted. rewrite (word_at_mid r3 _ [] _ _ C4 : word_at r3 0 = _). reflexivity.
  Qed.
  (** simulate: the server runs one slot, and the client goes on exactly when the slot
      was completed. *)
  Theorem C66_simulate : forall (st : server M PS) k res s', 0 < an_slot_length (s_an (sv_sim st)) -> emulate_slot solve plugin k d (sv_sim st) = Ok (res, s') ->
      forall m, carries_c m ice_simulate -> exists reply c x, serve st m = Ok (mkServer s' (sv_files st) (sv_headers st), Some reply, x) /\ carries_c reply c /\ forall r', carries_c r' c -> exists b, ice_simulated r' = Ok b /\ (b = true <-> res = TDICE_SLOT_DONE) /\ (b = true -> x = Go_on).
  Proof.
    intros st k res s' L E m C.
    destruct (serve_handled encF decF openable readable render solve plugin stack o d st _ _ _ _ m (h_slot encF decF openable readable render solve plugin stack o d st [] k res s' L E)) as (reply & S & A).
    { constructor; [|constructor]. unfold good_content. cbn [fst snd length]. split; [cbv; split; [discriminate|reflexivity]|]. split; [|lia]. constructor; [|constructor]. destruct res; cbv; split; (discriminate || reflexivity). }
    { exact C. }
    destruct reply as [r|]; cbn [answered] in A; [|contradiction]. exists r, (SIMULATE_SLOT, [result_code res]). eexists. split; [exact S|]. split; [exact A|].
    intros r' C'. unfold ice_simulated. rewrite (word_at_mid r' _ [] _ _ C' : word_at r' 0 = _). cbn [bind]. eexists. split; [reflexivity|].
    destruct res; (split; [split; (reflexivity || discriminate || congruence)|]); intro X; try reflexivity; vm_compute in X; discriminate.
  Qed.
End C66.
Print Assumptions C66_values.
Print Assumptions C66_tflp_returns_lengths.
Print Assumptions C66_map_shifted.
Print Assumptions C66_maps_mixed.
Print Assumptions C66_powers.
Print Assumptions C66_simulate.

(** The check of the time in getTemperature: whatever the time of the answer and the
    time of SystemC, the program goes on. The second part: even if the ticks were the
    time of the answer, the two tests exclude each other. *)
Theorem C66_sync_never : (forall now w, 0 <= now < two64 - 1000 -> is_word w -> ice_out_of_sync now w = false) /\
    (forall now ticks, 1000 <= now < two64 - 1000 -> ((now + 1000) mod two64 <=? ticks) && (ticks <=? (now - 1000) mod two64) = false).
Proof.
  split.
  - intros now w N W. unfold ice_out_of_sync.
    assert (E : sc_ticks (ice_time w) = 0).
    { unfold sc_ticks, ice_time. assert (F : Qfloor (inject_Z w * (1 # Z.to_pos (2 ^ 1074)) * inject_Z (10 ^ 12) + (1 # 2)) = 0).
      { unfold Qfloor, Qplus, Qmult, inject_Z. cbn [Qnum Qden]. rewrite !Pos.mul_1_l, !Pos.mul_1_r, !Z.mul_1_r.
        apply Z.div_small. unfold is_word, two32 in W. rewrite Pos2Z.inj_mul, Z2Pos.id by (apply Z.pow_pos_nonneg; lia).
        assert (2 ^ 100 <= 2 ^ 1074) by (apply Z.pow_le_mono_r; lia). set (b := 2 ^ 1074) in *. change (2 ^ 100) with 1267650600228229401496703205376 in H. change (10 ^ 12) with 1000000000000. lia. }
      rewrite F. reflexivity. }
    rewrite E, Z.mod_small by lia. destruct (Z.leb_spec (now + 1000) 0); [lia|reflexivity].
  - intros now t N. rewrite !Z.mod_small by lia. destruct (Z.leb_spec (now + 1000) t); [|reflexivity]. destruct (Z.leb_spec t (now - 1000)); [lia|reflexivity].
Qed.
Print Assumptions C66_sync_never.

(** One map whose values are not all the same: the file does not hold the map. *)
Lemma tl_shift : forall (l : list word) x, tl l ++ [x] = l -> l <> [] -> exists a, l = repeat a (length l).
Proof.
  induction l as [|a l IH]; intros x E NE; [congruence|]. cbn [tl] in E. destruct l as [|b l]; [exists a; reflexivity|].
  cbn [app] in E. injection E as E1 E2. subst b. destruct (IH x) as (a' & EA); [exact E2|discriminate|]. exists a. cbn [length repeat] in EA |- *.
  assert (a' = a) as -> by congruence. rewrite <- EA. reflexivity.
Qed.
Definition ice_start : server unit unit := mkServer (wsim q_empty q_empty (repeat 0%Q 8) [1; 2; 3; 4; 305; 306; 307; 308]%Q 2 0) (fun _ => None) false.
Lemma ice_good : good_sim wd (sv_sim ice_start).
Proof. apply wsim_good; try reflexivity; unfold two32; lia. Qed.
Lemma ice_wanted : forall i t f q, t <> OT_NONE -> t <> OT_T3D -> (q = OQ_MAXIMUM \/ t = OT_TMAP \/ t = OT_TCELL) -> wanted t q (sv_point i t f).
Proof. intros i t f q A B C. split; [reflexivity|]. split; [exact A|]. split; [exact B|]. intros D. cbn. destruct C as [->|[-> | ->]]; try reflexivity; destruct D as [D|[D|D]]; discriminate. Qed.
(** The four cells of the layer hold 305, 306, 307 and 308. *)
Lemma ice_shows : shows wd (sv_sim ice_start) (sv_point OI_SLOT OT_TMAP [100; 100]) [305; 306; 307; 308]%Q.
Proof. vm_compute. reflexivity. Qed.
Lemma ice_those : those (wanted OT_TMAP OQ_NONE) (declared_at sv_out OI_SLOT) [sv_point OI_SLOT OT_TMAP [100; 100]].
Proof. cbn; apply th_drop; [intros (X & _); discriminate|apply th_drop; [intros (X & _); discriminate|constructor; [apply ice_wanted; auto; discriminate|constructor]]]. Qed.

(** Refutation: the temperatures 305 306 / 307 308 are written as 306 307 / 308 x. *)
Theorem C66_map_refuted : exists st p v, good_sim wd (sv_sim st) /\ those (wanted OT_TMAP OQ_NONE) (declared_at sv_out OI_SLOT) [p] /\ shows wd (sv_sim st) p v /\
    v = [305; 306; 307; 308]%Q /\
    reads sv_enc sv_dec sv_any sv_any sv_render wsolve wplugin [sv_die] sv_out wd ice_map st (ice_request (instant_code OI_SLOT) (type_code OT_TMAP) (quantity_code OQ_NONE))
      (fun maps => (exists x, maps = [[[306; 307]; [308; x]]]) /\ concat (concat maps) <> map sv_enc v).
Proof.
  exists ice_start, (sv_point OI_SLOT OT_TMAP [100; 100]), [305; 306; 307; 308]%Q.
  split; [exact ice_good|]. split; [exact ice_those|]. split; [exact ice_shows|]. split; [reflexivity|].
  intros m C. destruct (C66_map_shifted sv_enc sv_dec sv_any sv_any sv_render wsolve wplugin [sv_die] sv_out wd sv_enc_word sv_points_fit ice_start OT_TMAP _ _ ice_good (or_introl eq_refl) ice_those ice_shows m C) as (reply & c & S & CR & GC & RD).
  exists reply, c. split; [exact S|]. split; [exact CR|]. split; [exact GC|]. intros m' C'. destruct (RD m' C') as (maps & E & rows & x & -> & CO & LR & FR).
  exists [rows]. split; [exact E|]. change (tl (map sv_enc [305; 306; 307; 308]%Q) ++ [x]) with [306; 307; 308; x] in CO. change (d_nrows wd) with 2 in LR. change (d_ncols wd) with 2 in FR.
  split.
  - exists x. destruct rows as [|r1 [|r2 [|? ?]]]; cbn [length] in LR; try lia. inversion FR as [|? ? F1 F']; subst. inversion F' as [|? ? F2 _]; subst.
    destruct r1 as [|a [|b [|? ?]]]; cbn [length] in F1; try lia. destruct r2 as [|a2 [|b2 [|? ?]]]; cbn [length] in F2; try lia. cbn in CO. congruence.
  - cbn [concat]. rewrite app_nil_r, CO. change (map sv_enc [305; 306; 307; 308]%Q) with [305; 306; 307; 308]. congruence.
Qed.
Print Assumptions C66_map_refuted.

(** In general: one map whose values are not all the same word is not what is written. *)
Theorem C66_map_never_right : forall (vs : list word) x a b, In a vs -> In b vs -> a <> b -> tl vs ++ [x] <> vs.
Proof.
  intros vs x a b IA IB NE E. destruct (tl_shift vs x E) as (c & EC); [intros ->; destruct IA|].
  rewrite EC in IA, IB. apply repeat_spec in IA, IB. congruence.
Qed.

(** Hypotheses met: cells (C66_values), Tflp, a map (above), two maps, powers. *)
Definition ice_out2 : output :=
  fold_left add_inspection_point [sv_point OI_SLOT OT_TMAP [100; 100]; sv_point OI_SLOT OT_TMAP [101]] output_init.
Example C66_witness :
    those (wanted OT_TCELL OQ_NONE) (declared_at sv_out OI_STEP) [sv_point OI_STEP OT_TCELL [97; 46; 116]] /\
    Forall2 (fun p v => shows wd (sv_sim ice_start) p [v]) [sv_point OI_STEP OT_TCELL [97; 46; 116]] [307%Q] /\
    those (wanted OT_TFLP OQ_MAXIMUM) (declared_at sv_out OI_SLOT) [sv_point OI_SLOT OT_TFLP [98; 98; 46; 116; 120]; sv_point OI_SLOT OT_TFLP [99]] /\
    Forall2 (shows wd (sv_sim ice_start)) [sv_point OI_SLOT OT_TFLP [98; 98; 46; 116; 120]; sv_point OI_SLOT OT_TFLP [99]] [[307%Q; 306%Q]; [307%Q; 306%Q]] /\
    points_fit ice_out2 wd /\
    those (wanted OT_TMAP OQ_NONE) (declared_at ice_out2 OI_SLOT) [sv_point OI_SLOT OT_TMAP [100; 100]; sv_point OI_SLOT OT_TMAP [101]] /\
    length (stack_elements [sv_die]) = length (elements (s_pg (sv_sim ice_start))) /\ stack_elements [sv_die] <> [] /\
    Forall (fun e => forall x, se_kind e = SKDie x -> f_nelements (die_floorplan x) = Z.of_nat (length (f_elements (die_floorplan x)))) [sv_die] /\
    queued (s_pg (sv_sim ice_start)) [[]; []] /\ room 5 [[]; []].
Proof.
  split; [cbn; constructor; [apply ice_wanted; auto; discriminate|constructor]|].
  split; [constructor; [vm_compute; reflexivity|constructor]|].
  split; [cbn; constructor; [apply ice_wanted; auto; discriminate|constructor; [apply ice_wanted; auto; discriminate|apply th_drop; [intros (X & _); discriminate|constructor]]]|].
  split; [constructor; [vm_compute; reflexivity|constructor; [vm_compute; reflexivity|constructor]]|].
  split.
  { split; [|split; [|split]].
    - repeat (constructor; [apply sv_point_good; cbn; auto 10|]). constructor.
    - repeat (constructor; [split; apply sv_text; vm_compute; reflexivity|]). constructor.
    - vm_compute. discriminate.
    - exists (map ip_file (all_points ice_out2)). split; [vm_compute; lia|]. intros n H _. exact H. }
  split; [cbn; constructor; [apply ice_wanted; auto; discriminate|constructor; [apply ice_wanted; auto; discriminate|constructor]]|].
  split; [reflexivity|]. split; [discriminate|].
  split; [constructor; [|constructor]; intros x E; cbn in E; assert (x = mkDie [layer0] 0 (wfloor q_empty q_empty)) as -> by congruence; reflexivity|].
  split; [apply wpg_queued; apply q_empty_rep|].
  constructor; [cbn [length]; unfold two32; lia|]. constructor; [cbn [length]; unfold two32; lia|constructor].
Qed.
