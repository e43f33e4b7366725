(** * C50: output files of the emulator *)
From Coq Require Import ZArith List Bool QArith Lia Lqa.
From Verif Require Import Base QSum Dims DimsSpec DimsProofs Queue QueueProofs Floorplan FloorplanSpec
     FloorplanProofs Stack StackSpec PowerGrid Emulate EmulateSpec EmulateProofs HistoryProofs SimProofs SimWitness PropEmulate Inspect PropInspect Emulator EmulatorSpec EmulatorProofs.
Import ListNotations.
Local Open Scope Z_scope.

Lemma number_nth : forall {A} (l : list A) k x, number k l = map (fun i => (i, nth (Z.to_nat (i - k)) l x)) (zrange k (k + Z.of_nat (length l) - 1)).
Proof.
  intros A l. induction l as [|y l IH]; intros k x.
  - rewrite zrange_nil by (cbn; lia). reflexivity.
  - cbn [number length]. rewrite zrange_cons by lia. cbn [map]. rewrite Z.sub_diag. cbn [Z.to_nat nth]. f_equal.
    rewrite (IH (k + 1) x). replace (k + 1 + Z.of_nat (length l) - 1) with (k + Z.of_nat (S (length l)) - 1) by lia.
    apply map_ext_in. intros i Hi. apply in_zrange in Hi. f_equal. replace (Z.to_nat (i - k)) with (S (Z.to_nat (i - (k + 1)))) by lia. reflexivity.
Qed.
Lemma zrange_app : forall a b c, a <= b + 1 -> b <= c -> zrange a c = zrange a b ++ zrange (b + 1) c.
Proof.
  intros a b c. pattern a. apply (zrange_ind _ b); clear a.
  - intros a Ha H1 H2. rewrite (zrange_nil a b) by lia. replace a with (b + 1) by lia. reflexivity.
  - intros a Ha IH H1 H2. rewrite (zrange_cons a c), (zrange_cons a b) by lia. cbn [app]. f_equal. apply IH; lia.
Qed.
Lemma filter_none : forall {A} (f : A -> bool) l, (forall x, In x l -> f x = false) -> filter f l = [].
Proof. induction l as [|x l IH]; intro H; [reflexivity|]. cbn. rewrite H by (left; reflexivity). apply IH. intros. apply H. right. assumption. Qed.
Lemma multiples : forall L N, 0 < L -> 0 <= N -> filter (fun k => k mod L =? 0) (zrange 1 (N * L)) = map (fun j => j * L) (zrange 1 N).
Proof.
  intros L N HL HN. pattern N. apply natlike_ind; [reflexivity| |exact HN]. clear N HN. intros N HN IH.
  rewrite (zrange_app 1 N (Z.succ N)) by lia. rewrite map_app, <- IH.
  assert (NL : 0 <= N * L) by (apply Z.mul_nonneg_nonneg; lia).
  replace (Z.succ N * L) with (N * L + L) by ring.
  rewrite (zrange_app 1 (N * L) (N * L + L)) by lia. rewrite filter_app. f_equal.
  rewrite (zrange_app (N * L + 1) (N * L + L - 1) (N * L + L)) by lia. rewrite filter_app.
  rewrite filter_none.
  - replace (N * L + L - 1 + 1) with (N * L + L) by lia. rewrite (zrange_cons (N * L + L)) by lia. rewrite zrange_nil by lia.
    rewrite (zrange_cons (N + 1) (Z.succ N)) by lia. rewrite zrange_nil by lia. cbn [app map filter].
    replace (N * L + L) with ((N + 1) * L) by ring. rewrite Z.mod_mul by lia. reflexivity.
  - intros x Hx. apply in_zrange in Hx. apply Z.eqb_neq. replace x with (x - N * L + N * L) by lia. rewrite Z.mod_add by lia. rewrite Z.mod_small; lia.
Qed.
Lemma filter_map : forall {A B} (g : A -> B) f l, filter f (map g l) = map g (filter (fun x => f (g x)) l).
Proof. intros A B g f. induction l as [|x l IH]; [reflexivity|]. cbn. destruct (f (g x)); cbn; rewrite IH; reflexivity. Qed.
Lemma Forall2_map_l : forall {A B C} (g : A -> B) (P : B -> C -> Prop) l m, Forall2 P (map g l) m -> Forall2 (fun x y => P (g x) y) l m.
Proof. intros A B C g P. induction l as [|x l IH]; intros m H; inversion H; subst; constructor; auto. Qed.

(** Transient runs: [N] slots of [L] steps.  [at_ k] is the state after [k]
    steps.  Every step (slot) point has one row per step (slot), in order, with
    the time and the values of that step; every final point has one row. *)
Theorem C50_output_instants : forall {M PS} solve plugin openable d (s : sim M PS) qs o N,
    in_place solve plugin ->
    (forall m b, fst (solve m b) = TDICE_SUCCESS) -> (forall ps t v, fst (fst (plugin ps t v)) = false) ->
    good_sim d s -> an_time (s_an s) = 0 -> queued (s_pg s) qs ->
    0 <= N -> Forall (fun l => N <= Z.of_nat (length l)) qs -> Exists (fun l => Z.of_nat (length l) = N) qs ->
    N * an_slot_length (s_an s) < two32 ->
    Forall (fun p => good_point d p /\ openable (ip_file p) = true) (all_points o) -> NoDup (map ip_file (all_points o)) ->
    let L := an_slot_length (s_an s) in let dt := an_step (s_an s) in
    exists at_ : Z -> sim M PS, at_ 0 = s /\
      (forall k, 0 <= k < N * L -> exists r, (r = TDICE_STEP_DONE \/ r = TDICE_SLOT_DONE) /\ emulate_step solve plugin d (at_ k) = Ok (r, at_ (k + 1))) /\
      forall f, exists fuel s' f', emulator openable (emulate_step solve plugin) fuel o d s f = Ok (Some (s', f')) /\
        s_temps s' = s_temps (at_ (N * L)) /\
        (forall p, In p (o_step o) -> exists rows, f' (ip_file p) = Some (Head p :: rows) /\
           Forall2 (fun k l => reports d dt p k (at_ k) l) (zrange 1 (N * L)) rows) /\
        (forall p, In p (o_slot o) -> exists rows, f' (ip_file p) = Some (Head p :: rows) /\
           Forall2 (fun j l => reports d dt p (j * L) (at_ (j * L)) l) (zrange 1 N) rows) /\
        (forall p, In p (o_final o) -> exists l, f' (ip_file p) = Some [Head p; l] /\ reports d dt p (N * L) s' l) /\
        (forall m, ~ In m (map ip_file (all_points o)) -> f' m = f m).
Proof.
  intros M PS solve plugin openable d s qs o N IP SO PO GS T0 QU HN FA EX Hb U ND L dt.
  pose proof GS as (_ & _ & _ & SL & _).
  assert (NL : 0 <= N * L) by (apply Z.mul_nonneg_nonneg; unfold L; lia).
  pose proof (at_start d s qs GS T0 QU) as AS. fold L in AS.
  assert (FA' : Forall (fun l : list Q => (Z.to_nat N <= length l)%nat) qs) by (eapply Forall_impl; [|exact FA]; cbn beta; intros; lia).
  assert (EX' : Exists (fun l : list Q => length l = Z.to_nat N) qs) by (eapply Exists_impl; [|exact EX]; cbn beta; intros; lia).
  destruct (all_steps solve plugin IP SO PO d L qs N HN FA' EX' Hb (Z.to_nat (N * L)) 0 s AS ltac:(lia)) as (tr & s1 & LT & ST & EL & AL).
  set (at_ := fun k => if k =? 0 then s else nth (Z.to_nat (k - 1)) tr s). exists at_. split; [reflexivity|]. split.
  - assert (G : forall tr s0, steps_from (emulate_step solve plugin) d s0 tr -> forall k, (k < length tr)%nat ->
        exists r, (r = TDICE_STEP_DONE \/ r = TDICE_SLOT_DONE) /\
          emulate_step solve plugin d (match k with O => s0 | S k' => nth k' tr s end) = Ok (r, nth k tr s)).
    { clear. induction tr as [|x tr IH]; intros s0 ST k Hk; [cbn in Hk; lia|]. cbn [steps_from] in ST. destruct ST as ((r & R & E) & ST).
      destruct k as [|k]; [exists r; auto|]. cbn [length] in Hk. destruct (IH x ST k ltac:(lia)) as (r' & R' & E'). exists r'. split; [exact R'|].
      change (nth (S k) (x :: tr) s) with (nth k tr s). rewrite <- E'. destruct k; reflexivity. }
    intros k Hk. destruct (G tr s ST (Z.to_nat k) ltac:(lia)) as (r & R & E). exists r. split; [exact R|].
    unfold at_. destruct (Z.eqb_spec k 0) as [->|K].
    + exact E.
    + replace (k + 1 =? 0) with false by lia. replace (Z.to_nat (k + 1 - 1)) with (Z.to_nat k) by lia. rewrite <- E. f_equal.
      replace (Z.to_nat k) with (S (Z.to_nat (k - 1))) by lia. reflexivity.
  - intro f. pose proof AL as [GL _ _ _ _ QL _].
    destruct (step_end_keeps solve plugin IP d _ s1 GL (ex_intro _ _ QL) EL) as (TE & AE & _ & GS1 & _).
    destruct (emulator_run openable solve plugin IP d L qs dt o U ND tr s f (S (length tr)) _ s1 ST AS eq_refl ltac:(lia) EL GS1 (or_introl eq_refl) AE ltac:(lia))
      as (f' & E & P1 & P2 & P3 & P4).
    exists (S (length tr)), s1, f'. split; [exact E|].
    assert (NU : number 1 tr = map (fun i => (i, at_ i)) (zrange 1 (N * L))).
    { rewrite (number_nth tr 1 s). replace (1 + Z.of_nat (length tr) - 1) with (N * L) by lia. apply map_ext_in. intros i Hi. apply in_zrange in Hi.
      unfold at_. replace (i =? 0) with false by lia. reflexivity. }
    split.
    { rewrite TE. f_equal. unfold at_. destruct (Z.eqb_spec (N * L) 0) as [Z0|Z0].
      - destruct tr; [reflexivity|cbn in LT; lia].
      - clear -LT Z0 NL. destruct tr as [|x tr]; [cbn in LT; lia|]. cbn [length] in LT. replace (Z.to_nat (N * L - 1)) with (length tr) by lia.
        clear. revert x. induction tr as [|y tr IH]; intro x; [reflexivity|]. change (last (x :: y :: tr) s) with (last (y :: tr) s). rewrite IH. reflexivity. }
    split; [|split; [|split]].
    + intros p Hp. destruct (P1 p Hp) as (rows & E1 & F1). exists rows. split; [exact E1|]. rewrite NU in F1. apply Forall2_map_l in F1. exact F1.
    + intros p Hp. destruct (P2 p Hp) as (rows & E1 & F1). exists rows. split; [exact E1|]. rewrite NU, filter_map in F1. cbn [fst] in F1.
      rewrite multiples in F1 by (unfold L; lia). rewrite map_map in F1. apply Forall2_map_l in F1. exact F1.
    + intros p Hp. destruct (P3 p Hp) as (l & E1 & F1). exists l. split; [exact E1|]. replace (N * L) with (Z.of_nat (length tr)) by lia. exact F1.
    + exact P4.
Qed.

(** Whatever makes the run stop (end of the powers or a failure of the solver)
    after the states [tr], rows are written for these states only. *)
Theorem C50_interrupted : forall {M PS} solve plugin openable d (s : sim M PS) qs o tr r s1,
    in_place solve plugin -> good_sim d s -> an_time (s_an s) = 0 -> queued (s_pg s) qs -> Z.of_nat (length tr) < two32 ->
    Forall (fun p => good_point d p /\ openable (ip_file p) = true) (all_points o) -> NoDup (map ip_file (all_points o)) ->
    steps_from (emulate_step solve plugin) d s tr -> emulate_step solve plugin d (last tr s) = Ok (r, s1) ->
    r = TDICE_END_OF_SIMULATION \/ r = TDICE_SOLVER_ERROR ->
    let L := an_slot_length (s_an s) in let dt := an_step (s_an s) in
    forall f fuel, (length tr < fuel)%nat ->
    exists f', emulator openable (emulate_step solve plugin) fuel o d s f = Ok (Some (s1, f')) /\
      (forall p, In p (o_step o) -> exists rows, f' (ip_file p) = Some (Head p :: rows) /\
           Forall2 (fun ks l => reports d dt p (fst ks) (snd ks) l) (number 1 tr) rows) /\
      (forall p, In p (o_slot o) -> exists rows, f' (ip_file p) = Some (Head p :: rows) /\
           Forall2 (fun ks l => reports d dt p (fst ks) (snd ks) l) (filter (fun ks => fst ks mod L =? 0) (number 1 tr)) rows) /\
      (forall p, In p (o_final o) -> exists l, f' (ip_file p) = Some [Head p; l] /\ reports d dt p (Z.of_nat (length tr)) s1 l).
Proof.
  intros M PS solve plugin openable d s qs o tr r s1 IP GS T0 QU Hb U ND ST EL ER L dt f fuel Hf.
  pose proof (at_start d s qs GS T0 QU) as AS. fold L in AS.
  assert (AL : at_step d L (Z.of_nat (length tr)) qs (last tr s)).
  { destruct (loop_run openable solve plugin IP d L qs dt o U ND tr s 0 f fuel r s1 ST AS eq_refl Hb EL ER Hf) as (_ & _ & _ & _ & _ & A & _). exact A. }
  pose proof AL as [GL _ _ _ _ QL _].
  destruct (emulate_step_spec solve plugin IP d _ _ GL QL) as (r' & s1' & E' & GS1 & _ & _ & _ & X).
  rewrite EL in E'. assert (r' = r /\ s1' = s1) as [-> ->] by (split; congruence).
  assert (AE : s_an s1 = s_an (last tr s)) by (destruct ER as [-> | ->]; [destruct X as (_ & _ & _ & X & _)|destruct X as (X & _)]; exact X).
  destruct (emulator_run openable solve plugin IP d L qs dt o U ND tr s f fuel r s1 ST AS eq_refl Hb EL GS1 ER AE Hf) as (f' & E & P1 & P2 & P3 & _).
  exists f'. auto.
Qed.

(** Steady state: one final row, no step or slot row. *)
Theorem C50_steady : forall {M PS} solve (plugin : PS -> list Q -> list Q -> bool * list Q * PS) openable d (s : sim M PS) qs o,
    in_place solve plugin -> good_pgrid d (s_pg s) -> Z.of_nat (length (s_temps s)) = pg_ncells (s_pg s) ->
    an_type (s_an s) = AT_STEADY -> queued (s_pg s) qs ->
    Forall (fun p => good_point d p /\ openable (ip_file p) = true) (all_points o) -> NoDup (map ip_file (all_points o)) ->
    forall f fuel, (0 < fuel)%nat ->
    exists r s1 f', emulate_steady solve d s = Ok (r, s1) /\
      emulator openable (emulate_steady solve) fuel o d s f = Ok (Some (s1, f')) /\
      (forall p, In p (o_step o) \/ In p (o_slot o) -> f' (ip_file p) = Some [Head p]) /\
      (forall p, In p (o_final o) -> exists l, f' (ip_file p) = Some [Head p; l] /\ reports d (an_step (s_an s)) p (an_time (s_an s)) s1 l).
Proof.
  intros M PS solve plugin openable d s qs o IP GP LT TY QU U ND f [|fuel] Hf; [lia|].
  destruct (steady_spec solve plugin IP d s qs GP LT TY QU) as (r & s1 & E & R & GP1 & L1 & A1).
  exists r, s1. unfold emulator, generate_output_headers.
  destruct (headers_spec openable d (o_final o ++ o_slot o ++ o_step o) U ND f) as (f0 & E0 & A0 & B0). rewrite E0.
  cbn [emulator_loop]. rewrite E. cbn [bind].
  destruct (names_parts openable o ND) as (NF & _ & _ & DF & DS & DT).
  assert (UF : Forall (usable openable d) (o_final o)) by (unfold all_points in U; rewrite !Forall_app in U; tauto).
  destruct (pgrid_lengths d _ GP1) as (G & B & _ & S1). destruct (pgrid_lengths d _ GP) as (_ & _ & N0 & _).
  destruct (emit_spec_len openable d o s1 OI_FINAL (o_final o) (an_time (s_an s)) (an_step (s_an s)) f0 G B ltac:(lia) S1 eq_refl) as (f2 & E2 & A2 & B2);
    [unfold get_simulated_time; rewrite A1; reflexivity|exact UF|exact NF|].
  exists f2. split; [reflexivity|]. split.
  { destruct R as [-> | ->]; cbn [bind]; rewrite E2; reflexivity. }
  split.
  - intros p Hp. rewrite B2.
    + apply A0. rewrite !in_app_iff. tauto.
    + destruct Hp as [Hp|Hp]; [apply (DT p Hp)|apply (DS p Hp)].
  - intros p Hp. destruct (A2 p Hp) as (l & RL & E3). exists l. split; [|exact RL]. rewrite E3. unfold get_file. rewrite A0; [reflexivity|]. rewrite !in_app_iff. tauto.
Qed.

(** add_inspection_point files a point under its own instant, in the order of
    the file. *)
Definition instant_eqb (a b : output_instant) : bool :=
  match a, b with OI_NONE, OI_NONE | OI_FINAL, OI_FINAL | OI_SLOT, OI_SLOT | OI_STEP, OI_STEP => true | _, _ => false end.
Theorem C50_registration : forall ps,
    let o := fold_left add_inspection_point ps output_init in
    o_step o = filter (fun p => instant_eqb (ip_instant p) OI_STEP) ps /\
    o_slot o = filter (fun p => instant_eqb (ip_instant p) OI_SLOT) ps /\
    o_final o = filter (fun p => instant_eqb (ip_instant p) OI_FINAL) ps.
Proof.
  intro ps. cbn zeta. induction ps as [|q ps IH] using rev_ind; [auto|].
  rewrite fold_left_app, !filter_app. cbn [fold_left filter]. destruct IH as (I1 & I2 & I3). rewrite <- I1, <- I2, <- I3.
  generalize (fold_left add_inspection_point ps output_init). intro o. unfold add_inspection_point.
  destruct (ip_instant q); cbn [instant_eqb o_step o_slot o_final]; rewrite ?app_nil_r; auto.
Qed.

(** The hypotheses of C50_output_instants hold for two slots of two steps with
    one point of each instant. *)
Definition wpt (i : output_instant) (f : Z) (t : output_type) : ipoint :=
  mkIpoint t OQ_MAXIMUM i [f] (mkStkel [1] (SKLayer layer0) 1 1) 0 1 None.
Definition wout : output := fold_left add_inspection_point [wpt OI_STEP 1 OT_TCELL; wpt OI_SLOT 2 OT_TMAP; wpt OI_FINAL 3 OT_TCELL] output_init.
Example C50_witness : exists (s : sim unit unit) qs,
    good_sim wd s /\ an_time (s_an s) = 0 /\ queued (s_pg s) qs /\
    Forall (fun l => 2 <= Z.of_nat (length l)) qs /\ Exists (fun l => Z.of_nat (length l) = 2) qs /\
    2 * an_slot_length (s_an s) < two32 /\ an_slot_length (s_an s) = 2 /\ (forall m b, fst (wsolve m b) = TDICE_SUCCESS) /\
    (forall ps t v, fst (fst (wplugin ps t v)) = false) /\
    Forall (fun p => good_point wd p /\ true = true) (all_points wout) /\ NoDup (map ip_file (all_points wout)).
Proof.
  exists (wsim (wq 4 6) (wq 8 10) (repeat 0%Q 8) (repeat 300%Q 8) 2 0), [[4; 6]; [8; 10]]%Q.
  split; [apply wsim_good; try reflexivity; unfold two32; lia|]. split; [reflexivity|]. split; [apply wpg_queued; apply wq_rep|].
  split; [repeat constructor; cbn; lia|]. split; [left; reflexivity|]. split; [reflexivity|]. split; [reflexivity|].
  split; [reflexivity|]. split; [reflexivity|]. split.
  - cbn. repeat constructor; cbn; lia.
  - cbn. repeat constructor; cbn; intuition congruence.
Qed.

Print Assumptions C50_output_instants.
Print Assumptions C50_interrupted.
Print Assumptions C50_steady.
Print Assumptions C50_registration.
