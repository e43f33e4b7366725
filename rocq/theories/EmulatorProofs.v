From Coq Require Import ZArith List Bool QArith Lia Lqa.
From Verif Require Import Base QSum Dims DimsSpec DimsProofs Queue QueueProofs Floorplan FloorplanSpec
     FloorplanProofs FlpMatrixProofs TempProofs Stack StackSpec StackProofs PowerGrid Emulate EmulateSpec SourceProofs LayerProofs SourceVectorProofs EmulateProofs HistoryProofs SimProofs Inspect PropInspect Emulator EmulatorSpec.
Import ListNotations.
Local Open Scope Z_scope.

(** ** Reading a point *)
Lemma flpel_avg_total : forall d e t, good_grid d -> good_element d e -> d_nrows d * d_ncols d <= Z.of_nat (length t) ->
    exists m, flpel_avg d e t = Ok m.
Proof.
  intros d e t G E Ht. pose proof (good_element_el d e G E) as GE. unfold flpel_avg.
  assert (X : exists ms, map_out (fun a => icel_avg d a t) (fe_ics e) = Ok ms).
  { pose proof (ge_ics d e GE) as F. induction F as [|a l I F IH]; [eexists; reflexivity|].
    destruct IH as (ms & E1). destruct (icel_avg_ok d a t G I Ht) as (m & E2 & _). cbn [map_out]. rewrite E2, E1. eexists. reflexivity. }
  destruct X as (ms & ->). eexists. reflexivity.
Qed.
Lemma flpel_value_total : forall q d e t, q <> OQ_NONE -> good_grid d -> good_element d e -> d_nrows d * d_ncols d <= Z.of_nat (length t) ->
    exists g, flpel_value q = Some g /\ exists v, g d e t = Ok v.
Proof.
  intros q d e t N G E Ht.
  assert (X : fe_ics e <> []) by (destruct E as (id & ics & qq & -> & Hn & _); exact Hn).
  destruct (flpel_extremes d e t G (good_element_el d e G E) X Ht) as (hi & lo & E1 & E2 & (g & E3 & _) & _).
  destruct (flpel_avg_total d e t G E Ht) as (m & E4).
  destruct q; try congruence; eexists; (split; [reflexivity|]); eauto.
Qed.

Lemma from_layer_length : forall d e t, good_grid d -> 0 <= get_source_layer_offset e < d_nlayers d ->
    chip_cells d <= Z.of_nat (length t) -> chip_cells d < two32 -> d_nrows d * d_ncols d <= Z.of_nat (length (from_layer d e t)).
Proof.
  intros d e t G H Ht Hb. unfold from_layer. rewrite skipn_length. pose proof G as (HR & HC & HA & _). unfold chip_cells in *.
  set (l := get_source_layer_offset e) in *.
  assert (A1 : (l + 1) * (d_nrows d * d_ncols d) <= d_nlayers d * (d_nrows d * d_ncols d)).
  { apply Z.mul_le_mono_nonneg_r; [apply Z.mul_nonneg_nonneg; lia|lia]. }
  assert (A0 : 0 <= l * (d_nrows d * d_ncols d)) by (apply Z.mul_nonneg_nonneg; [lia|apply Z.mul_nonneg_nonneg; lia]).
  assert (A2 : d_nlayers d * d_nrows d * d_ncols d = d_nlayers d * (d_nrows d * d_ncols d)) by ring.
  assert (A3 : (l + 1) * (d_nrows d * d_ncols d) = l * (d_nrows d * d_ncols d) + d_nrows d * d_ncols d) by ring.
  assert (E : offset_in_stack d l 0 0 = l * (d_nrows d * d_ncols d)).
  { unfold offset_in_stack, offset_in_layer, get_layer_area. rewrite Z.mul_0_l. change (u32 (u32 0 + 0)) with 0.
    assert (0 < d_nrows d * d_ncols d) by (apply Z.mul_pos_pos; lia).
    rewrite (u32_id (d_nrows d * d_ncols d)) by lia. rewrite Z.mul_comm. rewrite !u32_id; rewrite ?u32_id; lia. }
  rewrite E. lia.
Qed.

Lemma point_values : forall d temps sources p, good_grid d -> good_point d p ->
    chip_cells d <= Z.of_nat (length temps) -> chip_cells d <= Z.of_nat (length sources) -> chip_cells d < two32 ->
    exists v, ip_values d temps sources p (ip_quantity p) = Ok (Some v).
Proof.
  intros d temps sources p G (HL & GP) HT HS HB. unfold ip_values.
  pose proof (from_layer_length d (ip_stkel p) temps G HL HT HB) as LT.
  pose proof (from_layer_length d (ip_stkel p) sources G HL HS HB) as LS.
  assert (MAP : forall t, d_nrows d * d_ncols d <= Z.of_nat (length (from_layer d (ip_stkel p) t)) -> exists vs, layer_map d (ip_stkel p) t = Ok vs).
  { intros t Ht. unfold layer_map. rewrite read_all_ok; [eexists; reflexivity|]. apply Forall_forall. intros k Hk. apply in_zrange in Hk. lia. }
  destruct (ip_type p); try contradiction.
  - destruct GP as [Hr Hc].
    assert (X : exists v, arr_get temps (offset_in_stack d (get_source_layer_offset (ip_stkel p)) (ip_row p) (ip_col p)) = Ok v).
    { set (l := get_source_layer_offset (ip_stkel p)) in *. pose proof G as (HR & HC & HA & _).
      destruct (layer_offset d (ip_row p) (ip_col p) G Hr Hc) as (E & B).
      assert (P : 0 < d_nrows d * d_ncols d) by (apply Z.mul_pos_pos; lia).
      unfold chip_cells in *.
      assert (A1 : (l + 1) * (d_nrows d * d_ncols d) <= d_nlayers d * (d_nrows d * d_ncols d)) by (apply Z.mul_le_mono_nonneg_r; lia).
      assert (A0 : 0 <= l * (d_nrows d * d_ncols d)) by (apply Z.mul_nonneg_nonneg; lia).
      assert (A2 : d_nlayers d * d_nrows d * d_ncols d = d_nlayers d * (d_nrows d * d_ncols d)) by ring.
      assert (A3 : (l + 1) * (d_nrows d * d_ncols d) = l * (d_nrows d * d_ncols d) + d_nrows d * d_ncols d) by ring.
      exists (nth (Z.to_nat (offset_in_stack d l (ip_row p) (ip_col p))) temps 0%Q). apply arr_get_ok.
      unfold offset_in_stack, get_layer_area. rewrite (u32_id (d_nrows d * d_ncols d)) by lia.
      rewrite (Z.mul_comm (d_nrows d * d_ncols d)) || idtac.
      rewrite (u32_id (l * (d_nrows d * d_ncols d))) by lia. rewrite u32_id by lia. lia. }
    destruct X as (v & ->). eexists. reflexivity.
  - destruct GP as (N & x & K & F). destruct (flpel_value (ip_quantity p)) as [g|] eqn:FV.
    + rewrite K. assert (X : exists vs, flp_all g (die_floorplan x) d (from_layer d (ip_stkel p) temps) = Ok vs).
      { unfold flp_all. induction F as [|e l E F IH]; [eexists; reflexivity|]. destruct IH as (vs & E1).
        destruct (flpel_value_total _ d e _ N G E LT) as (g' & FV' & v & E2). rewrite FV in FV'. assert (g' = g) as -> by congruence.
        cbn [map_out]. rewrite E2, E1. eexists. reflexivity. }
      destruct X as (vs & ->). eexists. reflexivity.
    + destruct (ip_quantity p); try discriminate FV. congruence.
  - destruct GP as (N & e & K & E). destruct (flpel_value_total _ d e _ N G E LT) as (g & -> & v & E2). rewrite K, E2. eexists. reflexivity.
  - destruct (MAP temps LT) as (vs & ->). eexists. reflexivity.
  - destruct (MAP sources LS) as (vs & ->). eexists. reflexivity.
  - destruct GP as (N & c & K & NC). rewrite K.
    destruct (C36_outlet_partial c d (from_layer d (ip_stkel p) temps) G LT) as (hi & lo & E1 & E2 & E3 & _ & _ & E4).
    destruct (E4 NC) as (m & E5 & _). destruct (ip_quantity p); try congruence; cbn [outlet_value]; rewrite ?E1, ?E2, ?E3, ?E5; eexists; reflexivity.
Qed.

(** ** Files *)
Lemma put_same : forall n c f, put_file n c f n = Some c.
Proof. intros. unfold put_file. destruct (name_dec n n); congruence. Qed.
Lemma put_other : forall n m c f, m <> n -> put_file n c f m = f m.
Proof. intros. unfold put_file. destruct (name_dec m n); congruence. Qed.

Section Loop.
  Variable openable : list Z -> bool.
  Context {M PS : Type}.
  Variable solve : M -> list Q -> error_t * list Q.
  Variable plugin : PS -> list Q -> list Q -> bool * list Q * PS.
  Hypothesis IP : in_place solve plugin.
  Notation sim := (sim M PS).

  Definition usable (d : dims) (p : ipoint) : Prop := good_point d p /\ openable (ip_file p) = true.

  Lemma outputs_spec : forall d temps sources time, good_grid d ->
    chip_cells d <= Z.of_nat (length temps) -> chip_cells d <= Z.of_nat (length sources) -> chip_cells d < two32 ->
    forall ps, Forall (usable d) ps -> NoDup (map ip_file ps) -> forall f,
    exists f', outputs openable d temps sources time ps f = Ok (TDICE_SUCCESS, f') /\
      (forall p, In p ps -> exists v, ip_values d temps sources p (ip_quantity p) = Ok (Some v) /\
          f' (ip_file p) = Some (get_file f (ip_file p) ++ [Row p time (Some v)])) /\
      (forall n, ~ In n (map ip_file ps) -> f' n = f n).
  Proof.
    intros d temps sources time G HT HS HB ps F. induction F as [|p ps (GP & OP) F IH]; intros ND f.
    - exists f. split; [reflexivity|]. split; [intros p []|reflexivity].
    - cbn [map] in ND. inversion ND as [|? ? ND1 ND2]. subst. cbn [outputs].
      destruct (point_values d temps sources p G GP HT HS HB) as (v & EV).
      assert (E : point_output openable d temps sources time p f =
                  Ok (TDICE_SUCCESS, put_file (ip_file p) (get_file f (ip_file p) ++ [Row p time (Some v)]) f)).
      { unfold point_output. rewrite OP, EV. destruct GP as [_ GP]. destruct (ip_type p); try contradiction; reflexivity. }
      rewrite E. cbn [bind].
      destruct (IH ND2 (put_file (ip_file p) (get_file f (ip_file p) ++ [Row p time (Some v)]) f)) as (f' & E' & A & B).
      exists f'. split; [exact E'|]. split.
      + intros p' [<-|Hp'].
        * exists v. split; [exact EV|]. rewrite B by exact ND1. apply put_same.
        * destruct (A p' Hp') as (v' & EV' & E2). exists v'. split; [exact EV'|]. rewrite E2. unfold get_file. rewrite put_other; [reflexivity|].
          intro X. apply ND1. rewrite <- X. apply in_map. exact Hp'.
      + intros n Hn. cbn [map In] in Hn. rewrite B by tauto. apply put_other. intuition.
  Qed.

  Lemma headers_spec : forall d ps, Forall (usable d) ps -> NoDup (map ip_file ps) -> forall f,
    exists f', headers openable ps f = (TDICE_SUCCESS, f') /\ (forall p, In p ps -> f' (ip_file p) = Some [Head p]) /\
      (forall n, ~ In n (map ip_file ps) -> f' n = f n).
  Proof.
    intros d ps F. induction F as [|p ps (GP & OP) F IH]; intros ND f.
    - exists f. split; [reflexivity|]. split; [intros p []|reflexivity].
    - cbn [map] in ND. inversion ND as [|? ? ND1 ND2]. subst. cbn [headers].
      assert (E : point_header openable p f = (TDICE_SUCCESS, put_file (ip_file p) [Head p] f)).
      { unfold point_header. rewrite OP. destruct GP as [_ GP]. destruct (ip_type p); try contradiction; try reflexivity;
        destruct GP as [N _]; destruct (ip_quantity p); try congruence; reflexivity. }
      rewrite E. destruct (IH ND2 (put_file (ip_file p) [Head p] f)) as (f' & E' & A & B).
      exists f'. split; [exact E'|]. split.
      + intros p' [<-|Hp']; [rewrite B by exact ND1; apply put_same|apply A; exact Hp'].
      + intros n Hn. cbn [map In] in Hn. rewrite B by tauto. apply put_other. intuition.
  Qed.

  (** One emission, in a state after [k] steps. *)
  Lemma emit_spec_len : forall d o (s : sim) i ps k dt f, good_grid d -> chip_cells d < two32 ->
    chip_cells d <= Z.of_nat (length (s_temps s)) -> chip_cells d <= Z.of_nat (length (pg_sources (s_pg s))) -> points o i = Some ps ->
    get_simulated_time (s_an s) = (qz k * dt)%Q ->
    Forall (usable d) ps -> NoDup (map ip_file ps) ->
    exists f', emit openable o d i s f = Ok f' /\
      (forall p, In p ps -> exists l, reports d dt p k s l /\ f' (ip_file p) = Some (get_file f (ip_file p) ++ [l])) /\
      (forall n, ~ In n (map ip_file ps) -> f' n = f n).
  Proof.
    intros d o s i ps k dt f G HB HT HS EP ET F ND. unfold emit, generate_output. rewrite EP, ET.
    destruct (outputs_spec d (s_temps s) (pg_sources (s_pg s)) (qz k * dt)%Q G HT HS HB ps F ND f) as (f' & E & A & B).
    rewrite E. cbn [bind snd]. exists f'. split; [reflexivity|]. split; [|exact B].
    intros p Hp. destruct (A p Hp) as (v & EV & E2). eexists. split; [|exact E2]. exists v. auto.
  Qed.
  Lemma pgrid_lengths : forall d pg, good_pgrid d pg -> good_grid d /\ chip_cells d < two32 /\ chip_cells d <= pg_ncells pg /\
      chip_cells d <= Z.of_nat (length (pg_sources pg)).
  Proof.
    intros d pg (G & _ & _ & NC & NB & SP & _ & LS & _).
    assert (SC : 0 <= spreader_cells (pg_top pg)).
    { unfold spreader_cells. destruct (pg_top pg) as [[|sp h m]|] eqn:E; try lia. destruct (SP sp h m eq_refl). apply Z.mul_nonneg_nonneg; lia. }
    split; [exact G|]. lia.
  Qed.
  Lemma emit_spec : forall d o (s : sim) i ps k dt f, good_sim d s -> points o i = Some ps ->
    get_simulated_time (s_an s) = (qz k * dt)%Q ->
    Forall (usable d) ps -> NoDup (map ip_file ps) ->
    exists f', emit openable o d i s f = Ok f' /\
      (forall p, In p ps -> exists l, reports d dt p k s l /\ f' (ip_file p) = Some (get_file f (ip_file p) ++ [l])) /\
      (forall n, ~ In n (map ip_file ps) -> f' n = f n).
  Proof.
    intros d o s i ps k dt f GS EP ET F ND. destruct GS as (GP & LT & _). destruct (pgrid_lengths d _ GP) as (G & B & N & S0).
    apply emit_spec_len; auto. lia.
  Qed.

  Definition names_ok (o : output) : Prop := NoDup (map ip_file (all_points o)).
  Lemma NoDup_app_inv : forall {A} (a b : list A), NoDup (a ++ b) -> NoDup a /\ NoDup b /\ (forall x, In x a -> ~ In x b).
  Proof.
    intros A a b. induction a as [|x a IH]; intro N; cbn [app] in N.
    - split; [constructor|]. split; [exact N|]. intros x [].
    - inversion N as [|? ? N1 N2]. subst. destruct (IH N2) as (A1 & A2 & A3). split; [constructor; [intro H; apply N1; apply in_or_app; left; exact H|exact A1]|].
      split; [exact A2|]. intros y [<-|Hy]; [intro H; apply N1; apply in_or_app; right; exact H|apply A3; exact Hy].
  Qed.
  Lemma names_parts : forall o, names_ok o ->
      NoDup (map ip_file (o_final o)) /\ NoDup (map ip_file (o_slot o)) /\ NoDup (map ip_file (o_step o)) /\
      (forall p, In p (o_final o) -> ~ In (ip_file p) (map ip_file (o_slot o)) /\ ~ In (ip_file p) (map ip_file (o_step o))) /\
      (forall p, In p (o_slot o) -> ~ In (ip_file p) (map ip_file (o_final o)) /\ ~ In (ip_file p) (map ip_file (o_step o))) /\
      (forall p, In p (o_step o) -> ~ In (ip_file p) (map ip_file (o_final o)) /\ ~ In (ip_file p) (map ip_file (o_slot o))).
  Proof.
    intros o N. unfold names_ok, all_points in N. rewrite !map_app in N.
    destruct (NoDup_app_inv _ _ N) as (N1 & N2 & D1). destruct (NoDup_app_inv _ _ N2) as (N3 & N4 & D2).
    split; [exact N1|]. split; [exact N3|]. split; [exact N4|].
    assert (D1' : forall x, In x (map ip_file (o_final o)) -> ~ In x (map ip_file (o_slot o)) /\ ~ In x (map ip_file (o_step o))).
    { intros x Hx. pose proof (D1 x Hx) as H. rewrite in_app_iff in H. tauto. }
    split; [|split]; intros p Hp; apply (in_map ip_file) in Hp.
    - apply D1'. exact Hp.
    - split; [intro X; apply D1' in X; tauto|apply D2; exact Hp].
    - split; [intro X; apply D1' in X; tauto|intro X; apply (D2 _ X); exact Hp].
  Qed.

  Notation step := (emulate_step solve plugin).

  Lemma loop_run : forall d L tot dt o, Forall (usable d) (all_points o) -> names_ok o ->
    forall tr (s : sim) n f fuel r s1, steps_from step d s tr -> at_step d L n tot s -> an_step (s_an s) = dt ->
      n + Z.of_nat (length tr) < two32 -> step d (last tr s) = Ok (r, s1) ->
      r = TDICE_END_OF_SIMULATION \/ r = TDICE_SOLVER_ERROR -> (length tr < fuel)%nat ->
    exists f', emulator_loop openable step fuel o d s f = Ok (s1, f') /\
      (forall p c, In p (o_step o) -> f (ip_file p) = Some c ->
         exists rows, f' (ip_file p) = Some (c ++ rows) /\
           Forall2 (fun ks l => reports d dt p (fst ks) (snd ks) l) (number (n + 1) tr) rows) /\
      (forall p c, In p (o_slot o) -> f (ip_file p) = Some c ->
         exists rows, f' (ip_file p) = Some (c ++ rows) /\
           Forall2 (fun ks l => reports d dt p (fst ks) (snd ks) l)
                   (filter (fun ks => fst ks mod L =? 0) (number (n + 1) tr)) rows) /\
      (forall m, ~ In m (map ip_file (o_step o)) -> ~ In m (map ip_file (o_slot o)) -> f' m = f m) /\
      at_step d L (n + Z.of_nat (length tr)) tot (last tr s) /\ an_step (s_an (last tr s)) = dt.
  Proof.
    intros d L tot dt o U N. destruct (names_parts o N) as (_ & NS & NT & _ & DS & DT).
    unfold all_points in U. rewrite !Forall_app in U. destruct U as (_ & US & UT).
    induction tr as [|s' tr IH]; intros s n f [|fuel] r s1 ST AS AD Hb EL ER Hf; try (cbn in Hf; lia); cbn [emulator_loop].
    - cbn [last length] in *. rewrite EL. cbn [bind]. exists f.
      split; [destruct ER as [-> | ->]; reflexivity|]. rewrite Z.add_0_r.
      split; [intros p c _ E; exists []; rewrite app_nil_r; split; [exact E|constructor]|].
      split; [intros p c _ E; exists []; rewrite app_nil_r; split; [exact E|constructor]|]. auto.
    - cbn [steps_from] in ST. destruct ST as ((r0 & R0 & E0) & ST). cbn [length] in *.
      destruct (step_at solve plugin IP d L n tot s r0 s' AS E0 R0 ltac:(lia)) as (AS' & K & RE).
      assert (EL' : step d (last tr s') = Ok (r, s1)).
      { rewrite <- EL. f_equal. clear. revert s'. destruct tr as [|x tr]; [reflexivity|]. intro s'. cbn [last].
        revert x. induction tr as [|y tr IH]; intro x; [reflexivity|]. cbn [last]. apply IH. }
      assert (LS : last (s' :: tr) s = last tr s').
      { clear. revert s'. destruct tr as [|x tr]; [reflexivity|]. intro s'. cbn [last].
        revert x. induction tr as [|y tr IH]; intro x; [reflexivity|]. cbn [last]. apply IH. }
      assert (AD' : an_step (s_an s') = dt) by (destruct K as (_ & _ & _ & K & _); congruence).
      assert (GT : get_simulated_time (s_an s') = (qz (n + 1) * dt)%Q).
      { unfold get_simulated_time. rewrite AD'. destruct AS' as [_ _ T _ _ _ _]. rewrite T. reflexivity. }
      destruct (emit_spec d o s' OI_STEP (o_step o) (n + 1) dt f (at_good _ _ _ _ _ AS') eq_refl GT UT NT) as (f1 & E1 & A1 & B1).
      rewrite E0. cbn [bind].
      assert (MID : exists f2, (match r0 with TDICE_SLOT_DONE => emit openable o d OI_SLOT s' f1 | _ => Ok f1 end) = Ok f2 /\
          (forall m, ~ In m (map ip_file (o_slot o)) -> f2 m = f1 m) /\
          (forall p, In p (o_slot o) -> if (n + 1) mod L =? 0 then exists l, reports d dt p (n + 1) s' l /\ f2 (ip_file p) = Some (get_file f1 (ip_file p) ++ [l])
                                        else f2 (ip_file p) = f1 (ip_file p))).
      { destruct ((n + 1) mod L =? 0); subst r0.
        - destruct (emit_spec d o s' OI_SLOT (o_slot o) (n + 1) dt f1 (at_good _ _ _ _ _ AS') eq_refl GT US NS) as (f2 & E2 & A2 & B2).
          exists f2. auto.
        - exists f1. auto. }
      destruct MID as (f2 & E2 & B2 & A2).
      assert (EF1 : (match r0 with TDICE_STEP_DONE | TDICE_SLOT_DONE => emit openable o d OI_STEP s' f | _ => Ok f end) = Ok f1).
      { destruct R0 as [-> | ->]; exact E1. }
      rewrite EF1. cbn [bind]. rewrite E2. cbn [bind].
      destruct (IH s' (n + 1) f2 fuel r s1 ST AS' AD' ltac:(lia) EL' ER ltac:(lia)) as (f' & EE & P1 & P2 & P3 & P4 & P5).
      exists f'. split; [destruct R0 as [-> | ->]; exact EE|].
      split; [|split; [|split; [|split]]].
      + intros p c Hp Ec. destruct (A1 p Hp) as (l & RL & E3). destruct (DT p Hp) as [_ D].
        destruct (P1 p (get_file f (ip_file p) ++ [l]) Hp ltac:(rewrite B2; [exact E3|exact D])) as (rows & E4 & F4).
        exists (l :: rows). unfold get_file in E4. rewrite Ec in E4. rewrite <- app_assoc in E4. split; [exact E4|].
        cbn [number]. constructor; [exact RL|exact F4].
      + intros p c Hp Ec. destruct (DS p Hp) as [_ D]. specialize (A2 p Hp). cbn [number filter fst].
        pose proof (B1 (ip_file p) D) as B1'. unfold get_file in A2. rewrite B1', Ec in A2.
        destruct ((n + 1) mod L =? 0).
        * destruct A2 as (l & RL & E3). destruct (P2 p _ Hp E3) as (rows & E4 & F4). exists (l :: rows). rewrite <- app_assoc in E4. split; [exact E4|].
          constructor; [exact RL|exact F4].
        * destruct (P2 p _ Hp A2) as (rows & E4 & F4). exists rows. auto.
      + intros m M1 M2. rewrite P3, B2, B1; auto.
      + rewrite LS. replace (n + Z.of_nat (S (length tr))) with (n + 1 + Z.of_nat (length tr)) by lia. exact P4.
      + rewrite LS. exact P5.
  Qed.

  (** The whole program. *)
  Lemma emulator_run : forall d L tot dt o, Forall (usable d) (all_points o) -> names_ok o ->
    forall tr (s : sim) f fuel r s1, steps_from step d s tr -> at_step d L 0 tot s -> an_step (s_an s) = dt ->
      Z.of_nat (length tr) < two32 -> step d (last tr s) = Ok (r, s1) -> good_sim d s1 ->
      r = TDICE_END_OF_SIMULATION \/ r = TDICE_SOLVER_ERROR -> s_an s1 = s_an (last tr s) -> (length tr < fuel)%nat ->
    exists f', emulator openable step fuel o d s f = Ok (Some (s1, f')) /\
      (forall p, In p (o_step o) -> exists rows, f' (ip_file p) = Some (Head p :: rows) /\
           Forall2 (fun ks l => reports d dt p (fst ks) (snd ks) l) (number 1 tr) rows) /\
      (forall p, In p (o_slot o) -> exists rows, f' (ip_file p) = Some (Head p :: rows) /\
           Forall2 (fun ks l => reports d dt p (fst ks) (snd ks) l) (filter (fun ks => fst ks mod L =? 0) (number 1 tr)) rows) /\
      (forall p, In p (o_final o) -> exists l, f' (ip_file p) = Some [Head p; l] /\ reports d dt p (Z.of_nat (length tr)) s1 l) /\
      (forall m, ~ In m (map ip_file (all_points o)) -> f' m = f m).
  Proof.
    intros d L tot dt o U N tr s f fuel r s1 ST AS AD Hb EL GS1 ER AN Hf.
    unfold emulator, generate_output_headers.
    destruct (headers_spec d (o_final o ++ o_slot o ++ o_step o) U N f) as (f0 & E0 & A0 & B0). rewrite E0.
    destruct (loop_run d L tot dt o U N tr s 0 f0 fuel r s1 ST AS AD Hb EL ER Hf) as (f1 & E1 & P1 & P2 & P3 & P4 & P5).
    rewrite E1. cbn [bind].
    destruct (names_parts o N) as (NF & _ & _ & DF & DS & DT).
    assert (UF : Forall (usable d) (o_final o)) by (unfold all_points in U; rewrite !Forall_app in U; tauto).
    assert (GT : get_simulated_time (s_an s1) = (qz (Z.of_nat (length tr)) * dt)%Q).
    { unfold get_simulated_time. rewrite AN, P5. destruct P4 as [_ _ T _ _ _ _]. rewrite T. reflexivity. }
    destruct (emit_spec d o s1 OI_FINAL (o_final o) (Z.of_nat (length tr)) dt f1 GS1 eq_refl GT UF NF) as (f2 & E2 & A2 & B2).
    rewrite E2. cbn [bind]. exists f2. split; [reflexivity|].
    assert (H0 : forall p, In p (o_final o ++ o_slot o ++ o_step o) -> f0 (ip_file p) = Some [Head p]) by exact A0.
    split; [|split; [|split]].
    - intros p Hp. destruct (P1 p [Head p] Hp) as (rows & E & F); [apply H0; rewrite !in_app_iff; tauto|].
      exists rows. split; [|exact F]. rewrite B2; [exact E|]. apply (DT p Hp).
    - intros p Hp. destruct (P2 p [Head p] Hp) as (rows & E & F); [apply H0; rewrite !in_app_iff; tauto|].
      exists rows. split; [|exact F]. rewrite B2; [exact E|]. apply (DS p Hp).
    - intros p Hp. destruct (A2 p Hp) as (l & RL & E). exists l. split; [|exact RL]. rewrite E. unfold get_file.
      destruct (DF p Hp) as [D1 D2]. rewrite P3 by assumption. rewrite H0; [reflexivity|]. rewrite !in_app_iff; tauto.
    - intros m Hm. unfold all_points in Hm. rewrite !map_app, !in_app_iff in Hm. rewrite B2, P3, B0; try tauto.
      rewrite !map_app, !in_app_iff. exact Hm.
  Qed.

  (** ** The number of steps *)
  Lemma error_reason : forall d (s : sim) s1, step d s = Ok (TDICE_SOLVER_ERROR, s1) ->
      (exists m b, fst (solve m b) = TDICE_FAILURE) \/ (exists ps t v, fst (fst (plugin ps t v)) = true).
  Proof.
    intros d s s1 E. unfold emulate_step in E. destruct (an_type (s_an s)); try discriminate.
    destruct (slot_completed (s_an s)) as [b| |]; cbn [bind] in E; try discriminate.
    destruct (if b then _ else _) as [[e1 pg1]| |]; cbn [bind] in E; try discriminate. destruct e1; [|discriminate].
    unfold pluggable_heatsink in E. cbn [s_pg s_temps s_plugin] in E.
    assert (FIN : forall s2 : sim, (do b0 <- fill_system_vector d (pg_top (s_pg s2)) (an_step (s_an s2)) (s_pg s2) (s_temps s2) ;
        let '(e3, x) := solve (s_matrix s2) b0 in
        match e3 with
        | TDICE_FAILURE => Ok (TDICE_SOLVER_ERROR, mkSim x (s_pg s2) (s_matrix s2) (s_an s2) (s_plugin s2))
        | TDICE_SUCCESS => let an := increase_by_step_time (s_an s2) in
            do done <- slot_completed an ; Ok (if done then TDICE_SLOT_DONE else TDICE_STEP_DONE, mkSim x (s_pg s2) (s_matrix s2) an (s_plugin s2))
        end) = Ok (TDICE_SOLVER_ERROR, s1) -> exists m b, fst (solve m b) = TDICE_FAILURE).
    { intros s2 X. destruct (fill_system_vector _ _ _ _ _) as [b0| |]; cbn [bind] in X; try discriminate.
      destruct (solve (s_matrix s2) b0) as [e3 x] eqn:ES. destruct e3.
      - cbn zeta in X. destruct (slot_completed _) as [dn| |]; cbn [bind] in X; try discriminate. destruct dn; discriminate.
      - exists (s_matrix s2), b0. rewrite ES. reflexivity. }
    destruct (pg_top pg1) as [[h t|sp h m]|].
    - cbn [bind] in E. left. apply (FIN _ E).
    - destruct (_ && _); [|discriminate].
      destruct (plugin _ _ _) as [[bad fl] ps] eqn:EP. destruct bad.
      + right. do 3 eexists. rewrite EP. reflexivity.
      + cbn [bind] in E. left. apply (FIN _ E).
    - cbn [bind] in E. left. apply (FIN _ E).
  Qed.

  Lemma all_steps : (forall m b, fst (solve m b) = TDICE_SUCCESS) -> (forall ps t v, fst (fst (plugin ps t v)) = false) ->
    forall d L tot N, 0 <= N -> Forall (fun l : list Q => (Z.to_nat N <= length l)%nat) tot -> Exists (fun l => length l = Z.to_nat N) tot ->
    N * L < two32 ->
    forall k n (s : sim), at_step d L n tot s -> n + Z.of_nat k = N * L ->
    exists tr s1, length tr = k /\ steps_from step d s tr /\ step d (last tr s) = Ok (TDICE_END_OF_SIMULATION, s1) /\
      at_step d L (N * L) tot (last tr s).
  Proof.
    intros SO PO d L tot N N0 FA EX Hb. induction k as [|k IH]; intros n s AS Hk.
    - replace n with (N * L) in AS by lia. pose proof AS as [GS HL HT Hn _ QU _]. pose proof GS as (_ & _ & _ & SL & _).
      destruct (emulate_step_spec solve plugin IP d s _ GS QU) as (r & s1 & E & _).
      assert (r = TDICE_END_OF_SIMULATION) as ->.
      { apply (step_end_iff solve plugin IP d s _ r s1 GS QU E). split.
        - unfold on_boundary. rewrite HT, HL. apply Z.mod_mul. lia.
        - rewrite HL in SL. assert (SB : slots_begun L (N * L) = N).
          { unfold slots_begun. replace (N * L + L - 1) with (L - 1 + N * L) by lia. rewrite Z.div_add by lia. rewrite (Z.div_small (L - 1)) by lia. lia. }
          rewrite SB. apply Exists_exists in EX. destruct EX as (l & Il & El). apply in_map_iff. exists l. split; [|exact Il].
          apply skipn_all2. lia. }
      exists [], s1. cbn [length steps_from last]. auto.
    - pose proof AS as [GS HL HT Hn _ QU _]. pose proof GS as (_ & _ & TY & SL & _).
      destruct (emulate_step_spec solve plugin IP d s _ GS QU) as (r & s1 & E & _ & _ & _ & _ & X).
      assert (R : r = TDICE_STEP_DONE \/ r = TDICE_SLOT_DONE).
      { destruct r; auto; exfalso.
        - destruct (proj1 (step_end_iff solve plugin IP d s _ _ s1 GS QU E) eq_refl) as (OB & I).
          unfold on_boundary in OB. rewrite HT, HL in OB. rewrite HL in SL.
          apply in_map_iff in I. destruct I as (l & El & Il). rewrite Forall_forall in FA. specialize (FA l Il).
          assert (SB : slots_begun L n < N).
          { unfold slots_begun. pose proof (Z.div_mod n L ltac:(lia)) as DM. rewrite OB in DM.
            replace (n + L - 1) with (L - 1 + (n / L) * L) by lia. rewrite Z.div_add by lia. rewrite (Z.div_small (L - 1)) by lia.
            assert (n / L * L < N * L) as HH by lia. apply Z.mul_lt_mono_pos_r in HH; lia. }
          assert (NN : 0 <= slots_begun L n) by (apply slots_begun_nonneg; lia).
          pose proof (f_equal (@length Q) El) as Len. rewrite skipn_length in Len. cbn [length] in Len. lia.
        - unfold emulate_step in E. rewrite TY in E. rewrite slot_completed_spec in E by lia. cbn [bind] in E.
          contradiction.
        - destruct (error_reason d s s1 E) as [(m & b & Z)|(ps & t & v & Z)]; [rewrite SO in Z|rewrite PO in Z]; discriminate. }
      destruct (step_at solve plugin IP d L n tot s r s1 AS E R ltac:(lia)) as (AS' & _).
      destruct (IH (n + 1) s1 AS' ltac:(lia)) as (tr & s2 & LT & ST & EL & AL).
      exists (s1 :: tr), s2.
      assert (LS : last (s1 :: tr) s = last tr s1).
      { clear. revert s1. destruct tr as [|x tr]; [reflexivity|]. intro s1. cbn [last].
        revert x. induction tr as [|y tr IH]; intro x; [reflexivity|]. cbn [last]. apply IH. }
      rewrite LS. split; [cbn; lia|]. split; [cbn [steps_from]; split; [exists r; auto|exact ST]|]. auto.
  Qed.

  (** ** Steady state *)
  Lemma copy_cells_ok : forall n src temps, (n <= length src)%nat -> (n <= length temps)%nat ->
      exists b, copy_cells n src temps = Ok b /\ length b = length temps.
  Proof.
    induction n as [|n IH]; intros src temps H1 H2; [eexists; split; reflexivity|].
    destruct src as [|x src]; [cbn in H1; lia|]. destruct temps as [|t temps]; [cbn in H2; lia|]. cbn [copy_cells].
    destruct (IH src temps ltac:(cbn in H1; lia) ltac:(cbn in H2; lia)) as (b & -> & L). cbn [bind]. eexists. split; [reflexivity|]. cbn. lia.
  Qed.
  Lemma steady_spec : forall d (s : sim) qs, good_pgrid d (s_pg s) -> Z.of_nat (length (s_temps s)) = pg_ncells (s_pg s) ->
      an_type (s_an s) = AT_STEADY -> queued (s_pg s) qs ->
      exists r s1, emulate_steady solve d s = Ok (r, s1) /\ (r = TDICE_END_OF_SIMULATION \/ r = TDICE_SOLVER_ERROR) /\
        good_pgrid d (s_pg s1) /\ length (s_temps s1) = length (s_temps s) /\ s_an s1 = s_an s.
  Proof.
    intros d s qs GP LT TY QU. unfold emulate_steady. rewrite TY.
    destruct (pgrid_lengths d _ GP) as (G & B & N & S0).
    assert (X : exists r s1, (do r1 <- update_source_vector (s_pg s) d ;
        let '(e1, pg1) := r1 in
        match e1 with
        | TDICE_FAILURE => Ok (TDICE_END_OF_SIMULATION, mkSim (s_temps s) pg1 (s_matrix s) (s_an s) (s_plugin s))
        | TDICE_SUCCESS =>
          do b <- copy_cells (Z.to_nat (chip_cells d)) (pg_sources pg1) (s_temps s) ;
          let '(e3, x) := solve (s_matrix s) b in
          Ok (match e3 with TDICE_FAILURE => TDICE_SOLVER_ERROR | TDICE_SUCCESS => TDICE_END_OF_SIMULATION end,
              mkSim x pg1 (s_matrix s) (s_an s) (s_plugin s))
        end) = Ok (r, s1) /\ (r = TDICE_END_OF_SIMULATION \/ r = TDICE_SOLVER_ERROR) /\
        good_pgrid d (s_pg s1) /\ length (s_temps s1) = length (s_temps s) /\ s_an s1 = s_an s).
    { destruct (update_source_vector_spec (s_pg s) d qs GP QU) as (pg1 & -> & GP1 & _). cbn [bind].
      destruct (fst (fst (take_heads qs))).
      - destruct (pgrid_lengths d _ GP1) as (_ & _ & _ & S1).
        destruct (copy_cells_ok (Z.to_nat (chip_cells d)) (pg_sources pg1) (s_temps s) ltac:(lia) ltac:(lia)) as (b & -> & LB).
        cbn [bind]. destruct (solve (s_matrix s) b) as [e3 x] eqn:ES. do 2 eexists. split; [reflexivity|].
        split; [destruct e3; auto|]. cbn [s_pg s_temps s_an]. split; [exact GP1|]. split; [|reflexivity].
        destruct IP as [IP1 _]. rewrite (IP1 _ _ _ _ ES). exact LB.
      - do 2 eexists. split; [reflexivity|]. auto. }
    destruct (pg_top (s_pg s)) as [[h t|sp h m]|]; try exact X.
    do 2 eexists. split; [reflexivity|]. auto.
  Qed.
End Loop.
