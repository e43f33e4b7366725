(** * Two simulations that differ only in what their queues hold *)
From Coq Require Import ZArith List Bool QArith Lia.
From Verif Require Import Base QSum Dims Queue QueueProofs Floorplan FloorplanSpec Stack StackSpec PowerGrid Emulate EmulateSpec EmulateProofs
  SourceVectorProofs HistoryProofs.
Import ListNotations.
Local Open Scope list_scope.
Local Open Scope Z_scope.

(** A simulation without the contents of its queues. *)
Definition bare_queue : queue := mkQueue None 0 0 0 0.
Definition bare_element (e : flpel) : flpel := mkFlpel (fe_id e) (fe_nic e) (fe_area e) (fe_ics e) bare_queue.
Definition bare_floorplan (f : floorplan) : floorplan := mkFlp (f_nelements f) (map bare_element (f_elements f)) (f_bpowers f) (f_matrix f).
Definition bare_pgrid (pg : pgrid) : pgrid := set_sources pg (map (option_map bare_floorplan) (pg_flps pg)) (pg_sources pg).
Definition bare {M PS} (s : sim M PS) : sim M PS := with_pg s (bare_pgrid (s_pg s)).

(** The next value of the two queues is the same. *)
Definition same_head (e e' : flpel) : Prop := exists x l l', qrep (fe_powers e) (x :: l) /\ qrep (fe_powers e') (x :: l').

Lemma take_twin : forall els els' i bp e1 b1 e2 b2, take_powers els i bp = Ok (TDICE_SUCCESS, e1, b1) -> take_powers els' i bp = Ok (TDICE_SUCCESS, e2, b2) ->
    map bare_element els = map bare_element els' -> Forall2 same_head els els' -> b1 = b2 /\ map bare_element e1 = map bare_element e2.
Proof.
  intros els els' i bp e1 b1 e2 b2 E1 E2 S H. revert i bp e1 b1 e2 b2 E1 E2 S. induction H as [|e e' els els' (x & l & l' & Q1 & Q2) H IH]; intros i bp e1 b1 e2 b2 E1 E2 S; cbn [take_powers] in *.
  - assert (e1 = []) as -> by congruence. assert (e2 = []) as -> by congruence. split; [congruence|reflexivity].
  - destruct (queue_get_spec _ _ _ Q1) as (q1 & G1 & _). destruct (queue_get_spec _ _ _ Q2) as (q2 & G2 & _). rewrite G1 in E1. rewrite G2 in E2. cbn [bind fst snd] in *.
    destruct (queue_is_empty (fe_powers e)); [discriminate|]. destruct (queue_is_empty (fe_powers e')); [discriminate|].
    destruct (arr_set bp i x) as [bp'| |]; cbn [bind] in *; try discriminate.
    destruct (take_powers els (i + 1) bp') as [[[r1 a1] c1]| |] eqn:T1; cbn [bind] in E1; try discriminate.
    destruct (take_powers els' (i + 1) bp') as [[[r2 a2] c2]| |] eqn:T2; cbn [bind] in E2; try discriminate.
    assert (r1 = TDICE_SUCCESS) as -> by congruence. assert (r2 = TDICE_SUCCESS) as -> by congruence.
    cbn [map] in S. assert (SE : bare_element e = bare_element e') by congruence. assert (SR : map bare_element els = map bare_element els') by congruence.
    destruct (IH _ _ _ _ _ _ T1 T2 SR) as (B & A).
    assert (b1 = c1) as -> by congruence. assert (b2 = c2) as -> by congruence. split; [exact B|].
    replace e1 with (mkFlpel (fe_id e) (fe_nic e) (fe_area e) (fe_ics e) q1 :: a1) by congruence.
    replace e2 with (mkFlpel (fe_id e') (fe_nic e') (fe_area e') (fe_ics e') q2 :: a2) by congruence.
    cbn [map]. f_equal; [exact SE|exact A].
Qed.

Lemma fill_twin : forall f g s f1 s1 g1 s2, fill_sources_floorplan f s = Ok (TDICE_SUCCESS, f1, s1) -> fill_sources_floorplan g s = Ok (TDICE_SUCCESS, g1, s2) ->
    bare_floorplan f = bare_floorplan g -> Forall2 same_head (f_elements f) (f_elements g) -> s1 = s2 /\ bare_floorplan f1 = bare_floorplan g1.
Proof.
  intros f g s f1 s1 g1 s2 E1 E2 B H. unfold fill_sources_floorplan in *.
  assert (B1 : f_bpowers f = f_bpowers g) by (change (f_bpowers (bare_floorplan f) = f_bpowers (bare_floorplan g)); congruence).
  assert (B2 : f_matrix f = f_matrix g) by (change (f_matrix (bare_floorplan f) = f_matrix (bare_floorplan g)); congruence).
  assert (B3 : f_nelements f = f_nelements g) by (change (f_nelements (bare_floorplan f) = f_nelements (bare_floorplan g)); congruence).
  assert (B4 : map bare_element (f_elements f) = map bare_element (f_elements g)) by (change (f_elements (bare_floorplan f) = f_elements (bare_floorplan g)); congruence).
  rewrite B1, B2, B3 in E1.
  destruct (take_powers (f_elements f) 0 (f_bpowers g)) as [[[r1 a1] c1]| |] eqn:T1; cbn [bind] in E1; try discriminate.
  destruct (take_powers (f_elements g) 0 (f_bpowers g)) as [[[r2 a2] c2]| |] eqn:T2; cbn [bind] in E2; try discriminate.
  destruct r1; [|discriminate]. destruct r2; [|discriminate].
  destruct (take_twin _ _ _ _ _ _ _ _ T1 T2 B4 H) as (<- & A).
  destruct (flpmatrix_multiply (f_matrix g) s c1) as [s'| |]; cbn [bind] in *; try discriminate.
  split; [congruence|]. replace f1 with (mkFlp (f_nelements g) a1 c1 (f_matrix g)) by congruence. replace g1 with (mkFlp (f_nelements g) a2 c1 (f_matrix g)) by congruence.
  unfold bare_floorplan. cbn [f_nelements f_elements f_bpowers f_matrix]. rewrite A. reflexivity.
Qed.

Definition same_heads_in (a b : option floorplan) : Prop := Forall2 same_head (layer_elements a) (layer_elements b).
(** The fields [update_layer] reads, in twin power grids. *)
Lemma update_layer_pg : forall pg pg' d l t fo s, bare_pgrid pg = bare_pgrid pg' -> update_layer pg d l t fo s = update_layer pg' d l t fo s.
Proof.
  intros pg pg' d l t fo s B.
  assert (B1 : pg_top pg = pg_top pg') by (change (pg_top (bare_pgrid pg) = pg_top (bare_pgrid pg')); congruence).
  assert (B2 : pg_bottom pg = pg_bottom pg') by (change (pg_bottom (bare_pgrid pg) = pg_bottom (bare_pgrid pg')); congruence).
  assert (B3 : pg_channel pg = pg_channel pg') by (change (pg_channel (bare_pgrid pg) = pg_channel (bare_pgrid pg')); congruence).
  assert (B4 : pg_top_tcs pg = pg_top_tcs pg') by (change (pg_top_tcs (bare_pgrid pg) = pg_top_tcs (bare_pgrid pg')); congruence).
  assert (B5 : pg_bottom_tcs pg = pg_bottom_tcs pg') by (change (pg_bottom_tcs (bare_pgrid pg) = pg_bottom_tcs (bare_pgrid pg')); congruence).
  assert (B6 : pg_ncells_layer pg = pg_ncells_layer pg') by (change (pg_ncells_layer (bare_pgrid pg) = pg_ncells_layer (bare_pgrid pg')); congruence).
  unfold update_layer. rewrite B1, B2, B3, B4, B5, B6. reflexivity.
Qed.

Lemma update_layer_twin : forall pg d l t fo go s f1 s1 g1 s2, update_layer pg d l t fo s = Ok (TDICE_SUCCESS, f1, s1) -> update_layer pg d l t go s = Ok (TDICE_SUCCESS, g1, s2) ->
    option_map bare_floorplan fo = option_map bare_floorplan go -> same_heads_in fo go -> s1 = s2 /\ option_map bare_floorplan f1 = option_map bare_floorplan g1.
Proof.
  intros pg d l t fo go s f1 s1 g1 s2 E1 E2 B H.
  assert (FL : forall s0 a1 c1 a2 c2,
     match fo with None => UB | Some f => do r <- fill_sources_floorplan f s0 ; let '(e, f', s') := r in Ok (e, Some f', s') end = Ok (TDICE_SUCCESS, a1, c1) ->
     match go with None => UB | Some f => do r <- fill_sources_floorplan f s0 ; let '(e, f', s') := r in Ok (e, Some f', s') end = Ok (TDICE_SUCCESS, a2, c2) ->
     c1 = c2 /\ option_map bare_floorplan a1 = option_map bare_floorplan a2).
  { intros s0 a1 c1 a2 c2 X1 X2. destruct fo as [f|]; [|discriminate]. destruct go as [g|]; [|discriminate]. cbn [option_map] in B.
    destruct (fill_sources_floorplan f s0) as [[[r1 p1] q1]| |] eqn:T1; cbn [bind] in X1; try discriminate.
    destruct (fill_sources_floorplan g s0) as [[[r2 p2] q2]| |] eqn:T2; cbn [bind] in X2; try discriminate.
    assert (r1 = TDICE_SUCCESS) as -> by congruence. assert (r2 = TDICE_SUCCESS) as -> by congruence.
    destruct (fill_twin f g s0 _ _ _ _ T1 T2 ltac:(congruence) H) as (A & C).
    replace a1 with (Some p1) by congruence. replace a2 with (Some p2) by congruence. cbn [option_map]. split; congruence. }
  assert (SAME : forall o, (do s1 <- o ; Ok (TDICE_SUCCESS, fo, s1)) = Ok (TDICE_SUCCESS, f1, s1) -> (do s1 <- o ; Ok (TDICE_SUCCESS, go, s1)) = Ok (TDICE_SUCCESS, g1, s2) ->
     s1 = s2 /\ option_map bare_floorplan f1 = option_map bare_floorplan g1).
  { intros [x| |] X1 X2; cbn [bind] in *; try discriminate. split; congruence. }
  assert (VIA : forall o, (do s1 <- o ; match fo with None => UB | Some f => do r <- fill_sources_floorplan f s1 ; let '(e, f', s') := r in Ok (e, Some f', s') end) = Ok (TDICE_SUCCESS, f1, s1) ->
     (do s1 <- o ; match go with None => UB | Some f => do r <- fill_sources_floorplan f s1 ; let '(e, f', s') := r in Ok (e, Some f', s') end) = Ok (TDICE_SUCCESS, g1, s2) ->
     s1 = s2 /\ option_map bare_floorplan f1 = option_map bare_floorplan g1).
  { intros [x| |] X1 X2; cbn [bind] in *; try discriminate. eapply FL; eassumption. }
  unfold update_layer in *. destruct t; first [discriminate | eapply FL; eassumption | eapply SAME; eassumption | eapply VIA; eassumption | split; congruence |
    destruct (pg_channel pg); [|discriminate]; eapply SAME; eassumption].
Qed.

Lemma update_layers_twin : forall pg pg' d, bare_pgrid pg = bare_pgrid pg' -> forall ts l fs gs s f1 s1 g1 s2,
    update_layers pg d l ts fs s = Ok (TDICE_SUCCESS, f1, s1) -> update_layers pg' d l ts gs s = Ok (TDICE_SUCCESS, g1, s2) ->
    map (option_map bare_floorplan) fs = map (option_map bare_floorplan) gs -> Forall2 same_heads_in fs gs ->
    s1 = s2 /\ map (option_map bare_floorplan) f1 = map (option_map bare_floorplan) g1.
Proof.
  intros pg pg' d BP. induction ts as [|t ts IH]; intros l fs gs s f1 s1 g1 s2 E1 E2 B H; cbn [update_layers] in *.
  - split; congruence.
  - inversion H as [|f g fs' gs' HH HT]; subst; [split; congruence|].
    rewrite <- (update_layer_pg pg pg' d l t g s BP) in E2.
    destruct (update_layer pg d l t f s) as [[[r1 p1] q1]| |] eqn:T1; cbn [bind] in E1; try discriminate.
    destruct (update_layer pg d l t g s) as [[[r2 p2] q2]| |] eqn:T2; cbn [bind] in E2; try discriminate.
    destruct r1; [|discriminate]. destruct r2; [|discriminate]. cbn [map] in B.
    destruct (update_layer_twin pg d l t f g s _ _ _ _ T1 T2 ltac:(congruence) HH) as (<- & C).
    destruct (update_layers pg d (l + 1) ts fs' _) as [[[r3 p3] q3]| |] eqn:T3; cbn [bind] in E1; try discriminate.
    destruct (update_layers pg' d (l + 1) ts gs' _) as [[[r4 p4] q4]| |] eqn:T4; cbn [bind] in E2; try discriminate.
    assert (r3 = TDICE_SUCCESS) as -> by congruence. assert (r4 = TDICE_SUCCESS) as -> by congruence.
    destruct (IH _ _ _ _ _ _ _ _ T3 T4 ltac:(congruence) HT) as (<- & A).
    split; [congruence|]. replace f1 with (p1 :: p3) by congruence. replace g1 with (p2 :: p4) by congruence. cbn [map]. congruence.
Qed.

(** From the flat list of elements to the layers. *)
Lemma heads_layers : forall fs gs, map (option_map bare_floorplan) fs = map (option_map bare_floorplan) gs ->
    Forall2 same_head (flat_map layer_elements fs) (flat_map layer_elements gs) -> Forall2 same_heads_in fs gs.
Proof.
  induction fs as [|f fs IH]; intros [|g gs] B H; try discriminate; [constructor|]. cbn [map] in B. cbn [flat_map] in H.
  assert (BF : option_map bare_floorplan f = option_map bare_floorplan g) by congruence. assert (BR : map (option_map bare_floorplan) fs = map (option_map bare_floorplan) gs) by congruence.
  assert (L : length (layer_elements f) = length (layer_elements g)).
  { destruct f as [f|], g as [g|]; cbn [option_map] in BF; try discriminate; [|reflexivity]. cbn [layer_elements].
    rewrite <- (map_length bare_element (f_elements f)), <- (map_length bare_element (f_elements g)).
    change (map bare_element (f_elements f)) with (f_elements (bare_floorplan f)). change (map bare_element (f_elements g)) with (f_elements (bare_floorplan g)). congruence. }
  apply Forall2_app_inv_l in H. destruct H as (l1 & l2 & H1 & H2 & E).
  assert (L1 : length l1 = length (layer_elements g)) by (rewrite <- L; clear - H1; induction H1; cbn; congruence).
  assert (l1 = layer_elements g /\ l2 = flat_map layer_elements gs) as (-> & ->).
  { clear - E L1. revert E L1. generalize (layer_elements g) as a. induction l1 as [|x l1 IH]; intros [|y a] E L; try discriminate; [auto|].
    cbn [app] in E. cbn in L. destruct (IH a) as (-> & ->); [congruence|lia|]. split; congruence. }
  constructor; [exact H1|]. apply IH; assumption.
Qed.

Lemma update_twin : forall pg pg' d p1 p2, update_source_vector pg d = Ok (TDICE_SUCCESS, p1) -> update_source_vector pg' d = Ok (TDICE_SUCCESS, p2) ->
    bare_pgrid pg = bare_pgrid pg' -> Forall2 same_head (elements pg) (elements pg') -> bare_pgrid p1 = bare_pgrid p2.
Proof.
  intros pg pg' d p1 p2 E1 E2 B H. unfold update_source_vector in *.
  assert (B1 : pg_ncells pg = pg_ncells pg') by (change (pg_ncells (bare_pgrid pg) = pg_ncells (bare_pgrid pg')); congruence).
  assert (B2 : pg_sources pg = pg_sources pg') by (change (pg_sources (bare_pgrid pg) = pg_sources (bare_pgrid pg')); congruence).
  assert (B3 : pg_types pg = pg_types pg') by (change (pg_types (bare_pgrid pg) = pg_types (bare_pgrid pg')); congruence).
  assert (B4 : map (option_map bare_floorplan) (pg_flps pg) = map (option_map bare_floorplan) (pg_flps pg')) by (change (pg_flps (bare_pgrid pg) = pg_flps (bare_pgrid pg')); congruence).
  rewrite <- B1, <- B2, <- B3 in E2.
  destruct (update_layers pg d 0 (pg_types pg) (pg_flps pg) _) as [[[r1 f1] s1]| |] eqn:T1; cbn [bind] in E1; try discriminate.
  destruct (update_layers pg' d 0 (pg_types pg) (pg_flps pg') _) as [[[r2 f2] s2]| |] eqn:T2; cbn [bind] in E2; try discriminate.
  assert (r1 = TDICE_SUCCESS) as -> by congruence. assert (r2 = TDICE_SUCCESS) as -> by congruence.
  destruct (update_layers_twin pg pg' d B _ _ _ _ _ _ _ _ _ T1 T2 B4 (heads_layers _ _ B4 H)) as (<- & A).
  replace p1 with (set_sources pg f1 s1) by congruence. replace p2 with (set_sources pg' f2 s1) by congruence.
  unfold bare_pgrid, set_sources in *. cbn [pg_nlayers pg_ncells pg_ncells_layer pg_types pg_flps pg_top pg_bottom pg_channel pg_sources pg_caps pg_top_tcs pg_bottom_tcs] in *.
  rewrite A. injection B. intros. congruence.
Qed.

Section Twin.
  Context {M PS : Type}.
  Variable solve : M -> list Q -> error_t * list Q.
  Variable plugin : PS -> list Q -> list Q -> bool * list Q * PS.
  Hypothesis IP : in_place solve plugin.
  Notation sim := (sim M PS).

  Lemma bare_fields : forall s s' : sim, bare s = bare s' ->
      s_temps s = s_temps s' /\ s_matrix s = s_matrix s' /\ s_an s = s_an s' /\ s_plugin s = s_plugin s' /\ bare_pgrid (s_pg s) = bare_pgrid (s_pg s').
  Proof.
    intros s s' B. split; [change (s_temps (bare s) = s_temps (bare s')); congruence|].
    split; [change (s_matrix (bare s) = s_matrix (bare s')); congruence|].
    split; [change (s_an (bare s) = s_an (bare s')); congruence|].
    split; [change (s_plugin (bare s) = s_plugin (bare s')); congruence|]. change (s_pg (bare s) = s_pg (bare s')). congruence.
  Qed.

  Lemma bare_sources : forall pg pg' src, bare_pgrid pg = bare_pgrid pg' ->
      bare_pgrid (set_sources pg (pg_flps pg) src) = bare_pgrid (set_sources pg' (pg_flps pg') src).
  Proof.
    intros pg pg' src B. unfold bare_pgrid, set_sources in *. cbn [pg_nlayers pg_ncells pg_ncells_layer pg_types pg_flps pg_top pg_bottom pg_channel pg_sources pg_caps pg_top_tcs pg_bottom_tcs] in *.
    injection B. intros. congruence.
  Qed.

  (** The part of a step after the update of the sources. *)
  Lemma plug_twin : forall d (s s' : sim) e1 (s1 : sim) e2 (s2 : sim), pluggable_heatsink plugin d s = Ok (e1, s1) -> pluggable_heatsink plugin d s' = Ok (e2, s2) ->
      bare s = bare s' -> e1 = e2 /\ bare s1 = bare s2.
  Proof.
    intros d s s' e1 s1 e2 s2 E1 E2 B. destruct (bare_fields s s' B) as (T & MM & AN & PL & BP). unfold pluggable_heatsink in *.
    assert (B1 : pg_top (s_pg s) = pg_top (s_pg s')) by (change (pg_top (bare_pgrid (s_pg s)) = pg_top (bare_pgrid (s_pg s'))); congruence).
    assert (B2 : pg_sources (s_pg s) = pg_sources (s_pg s')) by (change (pg_sources (bare_pgrid (s_pg s)) = pg_sources (bare_pgrid (s_pg s'))); congruence).
    rewrite B1, B2, T, PL in E1. destruct (pg_top (s_pg s')) as [[|sp h m]|]; [split; congruence| |split; congruence].
    destruct (_ && _); [|discriminate]. destruct (plugin _ _ _) as [[bad flows] ps]. 
    destruct bad; (split; [congruence|]).
    - replace s1 with (mkSim (s_temps s') (set_sources (s_pg s) (pg_flps (s_pg s)) (firstn (Z.to_nat (spreader_offset d sp 0 0)) (pg_sources (s_pg s')) ++ flows ++ skipn (Z.to_nat (spreader_offset d sp 0 0) + Z.to_nat (u32 (s_ncols sp * s_nrows sp))) (pg_sources (s_pg s')))) (s_matrix s) (s_an s) ps) by congruence.
      replace s2 with (mkSim (s_temps s') (set_sources (s_pg s') (pg_flps (s_pg s')) (firstn (Z.to_nat (spreader_offset d sp 0 0)) (pg_sources (s_pg s')) ++ flows ++ skipn (Z.to_nat (spreader_offset d sp 0 0) + Z.to_nat (u32 (s_ncols sp * s_nrows sp))) (pg_sources (s_pg s')))) (s_matrix s') (s_an s') ps) by congruence.
      unfold bare, with_pg. cbn [s_temps s_pg s_matrix s_an s_plugin]. rewrite (bare_sources _ _ _ BP). congruence.
    - replace s1 with (mkSim (s_temps s') (set_sources (s_pg s) (pg_flps (s_pg s)) (firstn (Z.to_nat (spreader_offset d sp 0 0)) (pg_sources (s_pg s')) ++ map Qopp flows ++ skipn (Z.to_nat (spreader_offset d sp 0 0) + Z.to_nat (u32 (s_ncols sp * s_nrows sp))) (pg_sources (s_pg s')))) (s_matrix s) (s_an s) ps) by congruence.
      replace s2 with (mkSim (s_temps s') (set_sources (s_pg s') (pg_flps (s_pg s')) (firstn (Z.to_nat (spreader_offset d sp 0 0)) (pg_sources (s_pg s')) ++ map Qopp flows ++ skipn (Z.to_nat (spreader_offset d sp 0 0) + Z.to_nat (u32 (s_ncols sp * s_nrows sp))) (pg_sources (s_pg s')))) (s_matrix s') (s_an s') ps) by congruence.
      unfold bare, with_pg. cbn [s_temps s_pg s_matrix s_an s_plugin]. rewrite (bare_sources _ _ _ BP). congruence.
  Qed.

  Definition well (r : simresult) : Prop := r = TDICE_STEP_DONE \/ r = TDICE_SLOT_DONE.
  Lemma step_twin : forall d s s' r1 s1 r2 s2, emulate_step solve plugin d s = Ok (r1, s1) -> emulate_step solve plugin d s' = Ok (r2, s2) ->
      well r1 -> well r2 -> bare s = bare s' -> (slot_completed (s_an s) = Ok true -> Forall2 same_head (elements (s_pg s)) (elements (s_pg s'))) ->
      r1 = r2 /\ bare s1 = bare s2.
  Proof.
    intros d s s' r1 s1 r2 s2 E1 E2 W1 W2 B H. destruct (bare_fields s s' B) as (T & MM & AN & PL & BP). unfold emulate_step in *. rewrite <- AN in E2.
    destruct (an_type (s_an s)); try (destruct W1; congruence).
    destruct (slot_completed (s_an s)) as [bd| |]; cbn [bind] in *; try discriminate.
    destruct (if bd then update_source_vector (s_pg s) d else Ok (TDICE_SUCCESS, s_pg s)) as [[e1 pg1]| |] eqn:U1; cbn [bind] in E1; try discriminate.
    destruct (if bd then update_source_vector (s_pg s') d else Ok (TDICE_SUCCESS, s_pg s')) as [[e2 pg2]| |] eqn:U2; cbn [bind] in E2; try discriminate.
    destruct e1; [|destruct W1; congruence]. destruct e2; [|destruct W2; congruence].
    assert (BG : bare_pgrid pg1 = bare_pgrid pg2).
    { destruct bd; [apply (update_twin _ _ _ _ _ U1 U2 BP (H eq_refl))|]. congruence. }
    destruct (pluggable_heatsink plugin d _) as [[e1 t1]| |] eqn:P1 in E1; cbn [bind] in E1; try discriminate.
    destruct (pluggable_heatsink plugin d _) as [[e2 t2]| |] eqn:P2 in E2; cbn [bind] in E2; try discriminate.
    destruct (plug_twin d _ _ _ _ _ _ P1 P2) as (-> & BT).
    { unfold bare, with_pg. cbn [s_temps s_pg s_matrix s_an s_plugin]. congruence. }
    destruct e2; [|destruct W1; congruence].
    destruct (bare_fields t1 t2 BT) as (T' & MM' & AN' & PL' & BP').
    assert (B1 : pg_top (s_pg t1) = pg_top (s_pg t2)) by (change (pg_top (bare_pgrid (s_pg t1)) = pg_top (bare_pgrid (s_pg t2))); congruence).
    assert (B2 : pg_sources (s_pg t1) = pg_sources (s_pg t2)) by (change (pg_sources (bare_pgrid (s_pg t1)) = pg_sources (bare_pgrid (s_pg t2))); congruence).
    assert (B3 : pg_caps (s_pg t1) = pg_caps (s_pg t2)) by (change (pg_caps (bare_pgrid (s_pg t1)) = pg_caps (bare_pgrid (s_pg t2))); congruence).
    unfold fill_system_vector in *. rewrite B1, B2, B3, T', AN', MM' in E1.
    destruct (fill_cells _ _ _ _ _) as [b| |] in E1, E2; cbn [bind] in *; try discriminate.
    destruct (solve (s_matrix t2) b) as [e3 x]. destruct e3; [|destruct W1; congruence].
    destruct (slot_completed (increase_by_step_time (s_an t2))) as [dn| |]; cbn [bind] in *; try discriminate.
    split; [congruence|].
    replace s1 with (mkSim x (s_pg t1) (s_matrix t2) (increase_by_step_time (s_an t2)) (s_plugin t1)) by congruence.
    replace s2 with (mkSim x (s_pg t2) (s_matrix t2) (increase_by_step_time (s_an t2)) (s_plugin t2)) by congruence.
    unfold bare, with_pg. cbn [s_temps s_pg s_matrix s_an s_plugin]. congruence.
  Qed.

  Lemma insert_bare : forall (s : sim) pv e pg' pv', insert_power_values (s_pg s) pv = Ok (e, pg', pv') -> bare (with_pg s pg') = bare s.
  Proof.
    assert (IL : forall els pv e els' pv', insert_loop els pv = Ok (e, els', pv') -> map bare_element els' = map bare_element els).
    { induction els as [|x els IH]; intros pv e els' pv' E; cbn [insert_loop] in E; [congruence|].
      destruct (queue_is_empty pv); [congruence|]. destruct (queue_get pv) as [vq| |]; cbn [bind] in E; try discriminate.
      destruct (queue_put _ _) as [q'| |]; cbn [bind] in E; try discriminate.
      destruct (insert_loop els (snd vq)) as [[[r es] p]| |] eqn:I; cbn [bind] in E; try discriminate.
      replace els' with (mkFlpel (fe_id x) (fe_nic x) (fe_area x) (fe_ics x) q' :: es) by congruence. cbn [map]. rewrite (IH _ _ _ _ I). reflexivity. }
    assert (LL : forall ts fs pv e fs' pv', insert_layers ts fs pv = Ok (e, fs', pv') -> map (option_map bare_floorplan) fs' = map (option_map bare_floorplan) fs).
    { induction ts as [|t ts IH]; intros [|f fs] pv e fs' pv' E; cbn [insert_layers] in E; try congruence.
      assert (REST : (do r2 <- insert_layers ts fs pv ; let '(e2, fs2, pv2) := r2 in Ok (e2, f :: fs2, pv2)) = Ok (e, fs', pv') -> map (option_map bare_floorplan) fs' = map (option_map bare_floorplan) (f :: fs)).
      { intro X. destruct (insert_layers ts fs pv) as [[[r a] b]| |] eqn:I; cbn [bind] in X; try discriminate. replace fs' with (f :: a) by congruence. cbn [map]. rewrite (IH _ _ _ _ _ I). reflexivity. }
      assert (SRC : match f with None => UB | Some f0 => do r <- insert_power_values_floorplan f0 pv ; let '(e, f1, pv1) := r in match e with TDICE_FAILURE => Ok (TDICE_FAILURE, Some f1 :: fs, pv1) | TDICE_SUCCESS => do r2 <- insert_layers ts fs pv1 ; let '(e2, fs2, pv2) := r2 in Ok (e2, Some f1 :: fs2, pv2) end end = Ok (e, fs', pv') ->
         map (option_map bare_floorplan) fs' = map (option_map bare_floorplan) (f :: fs)).
      { intro X. destruct f as [f|]; [|discriminate]. unfold insert_power_values_floorplan in X. destruct (insert_loop (f_elements f) pv) as [[[r a] b]| |] eqn:I; cbn [bind] in X; try discriminate.
        apply IL in I. assert (BF : bare_floorplan (mkFlp (f_nelements f) a (f_bpowers f) (f_matrix f)) = bare_floorplan f) by (unfold bare_floorplan; cbn [f_nelements f_elements f_bpowers f_matrix]; rewrite I; reflexivity).
        destruct r.
        - destruct (insert_layers ts fs b) as [[[r2 a2] b2]| |] eqn:I2; cbn [bind] in X; try discriminate.
          replace fs' with (Some (mkFlp (f_nelements f) a (f_bpowers f) (f_matrix f)) :: a2) by congruence. cbn [map option_map]. rewrite (IH _ _ _ _ _ I2), BF. reflexivity.
        - replace fs' with (Some (mkFlp (f_nelements f) a (f_bpowers f) (f_matrix f)) :: fs) by congruence. cbn [map option_map]. rewrite BF. reflexivity. }
      destruct t; try (apply REST; exact E); try (apply SRC; exact E). congruence. }
    intros s pv e pg' pv' E. unfold insert_power_values in E. destruct (insert_layers _ _ _) as [[[r a] b]| |] eqn:I; cbn [bind] in E; try discriminate.
    apply LL in I. replace pg' with (set_sources (s_pg s) a (pg_sources (s_pg s))) by congruence.
    unfold bare, with_pg, bare_pgrid, set_sources. cbn [s_temps s_pg s_matrix s_an s_plugin pg_nlayers pg_ncells pg_ncells_layer pg_types pg_flps pg_top pg_bottom pg_channel pg_sources pg_caps pg_top_tcs pg_bottom_tcs]. rewrite I. reflexivity.
  Qed.

  (** Values are only appended. *)
  Lemma give_prefix : forall tot vs j k l, nth_error tot j = Some l -> (k < length l)%nat -> exists l', nth_error (give tot vs) j = Some l' /\ (k < length l')%nat /\ nth k l' 0%Q = nth k l 0%Q.
  Proof.
    induction tot as [|a tot IH]; intros vs j k l N L; [destruct j; discriminate|]. destruct vs as [|v vs]; cbn [give]; [eauto|].
    destruct j as [|j]; cbn [nth_error] in *; [|apply IH; assumption]. assert (a = l) as -> by congruence. exists (l ++ [v]). split; [reflexivity|].
    rewrite app_length. split; [lia|]. apply app_nth1. exact L.
  Qed.
  Lemma given_prefix : forall t tot j k l, nth_error tot j = Some l -> (k < length l)%nat -> exists l', nth_error (given tot t) j = Some l' /\ (k < length l')%nat /\ nth k l' 0%Q = nth k l 0%Q.
  Proof.
    induction t as [|[r|vs e] t IH]; intros tot j k l N L; cbn [given]; [eauto|apply IH; assumption|].
    destruct (give_prefix tot vs j k l N L) as (l1 & N1 & L1 & E1). destruct (IH _ _ _ _ N1 L1) as (l2 & N2 & L2 & E2). exists l2. split; [exact N2|]. split; [exact L2|]. congruence.
  Qed.
End Twin.
