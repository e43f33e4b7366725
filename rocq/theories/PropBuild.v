(** * C51: from an accepted stack description to simulated temperatures *)
From Coq Require Import ZArith List Bool QArith Lia Lqa.
From Verif Require Import Base QSum Dims DimsSpec DimsProofs Queue QueueProofs Floorplan FloorplanSpec FloorplanProofs FlpMatrixProofs TempProofs
     Stack StackSpec StackProofs StackGridProofs StackAcceptProofs PowerGrid Emulate EmulateSpec EmulateProofs HistoryProofs Conduct Matrix MatrixSpec
     BalanceSpec Build BuildSpec BuildProofs BuildSimProofs PropFloorplan PropStack PropMatrix SimWitness MatrixWitness.
Import ListNotations.
Local Open Scope Z_scope.

(** An accepted description whose values make sense, small enough for the number
    of coefficients of its matrix (at most seven per cell) to fit its type. *)
Definition usable (x : description) (lo : loaded) : Prop :=
  load x = Ok (Some lo) /\ sound x lo /\ 7 * d_ncells (lo_dims lo) < two32.
(** A transient analysis that has not started. *)
Definition fresh (an : analysis) : Prop :=
  an_type an = AT_TRANSIENT /\ 0 < an_slot_length an < two32 /\ an_time an = 0 /\ (0 < an_step an)%Q.
(** No channel in the stack. *)
Definition dry (x : description) : Prop := forall id, ~ In (DeclChannel id) (x_stack x).
(** The outside temperatures of the description: sinks and coolant inlet. *)
Definition decl_tin (cd : channel_decl) : Q :=
  match cd with Decl4RM _ _ _ _ _ _ _ t | Decl2RM _ _ _ _ _ _ _ _ _ t | DeclPF _ _ _ _ _ _ t _ => t end.
Definition outside (x : description) (ok : Q -> Prop) : Prop :=
  (forall h a, x_top x = Some (DeclTop h a) -> ok a) /\ (forall b, x_bottom x = Some b -> ok (bs_ambient b)) /\
  (forall cd, x_channel x = Some cd -> ok (decl_tin cd)).
Definition no_spreader (x : description) : Prop := forall l w h m, x_top x <> Some (DeclPluggable l w h m).

(** ** The simulation that is built *)
(** Building never leaves the bounds of an array; it fails exactly when the stack
    is refused or the factorisation fails; otherwise every cell starts at the
    initial temperature, the clock is that of the analysis, the floorplan elements
    are those of the description, and the grid is the one the properties C16-C33
    speak about. *)
Theorem C51_build : forall {PS} factor x lo an (ps : PS), usable x lo -> fresh an ->
    exists r, thermal_data_build factor lo an ps = Ok r /\
      (refused x lo -> r = None) /\
      (~ refused x lo -> exists g s, r = match factor (s_matrix s) with TDICE_SUCCESS => Some (g, s) | TDICE_FAILURE => None end /\
         assembled g (lo_dims lo) s /\ good_sim (lo_dims lo) s /\ (some_channel lo -> physical_flow g) /\
         s_an s = an /\ s_temps s = repeat (an_initial an) (Z.to_nat (d_ncells (lo_dims lo))) /\ s_plugin s = ps /\
         elements (s_pg s) = described_elements x /\ (exists qs, queued (s_pg s) qs) /\
         tg_top g = lo_top lo /\ tg_bottom g = x_bottom x /\
         (forall c, tg_channel g = Some c -> lo_channel lo = Some c) /\ (dry x -> solid_stack g (lo_dims lo))).
Proof.
  intros PS factor x lo an ps (LD & SO & S7) (A1 & A2 & A3 & A4).
  destruct (load_inv x lo LD) as (hs & d0 & ncols & F).
  pose proof (lf_declared _ _ _ _ _ F) as D. pose proof (so_layers _ _ SO) as LB. pose proof (lf_stack _ _ _ _ _ F) as P.
  destruct (grids_agree _ _ _ _ D LB P (lo_top lo) (lo_bottom lo)) as (err & g & ts & fs & TF & _ & ER & _).
  destruct (load_layers x lo hs d0 ncols F SO) as (_ & _ & _ & NL). rewrite <- NL in TF.
  assert (RF : err = TDICE_FAILURE <-> refused x lo).
  { rewrite ER. unfold refused. rewrite (lf_bottom _ _ _ _ _ F). rewrite NL.
    split; (intros [X|(X & Y)]; [left; exact X|right; split; [lia|exact Y]]). }
  unfold thermal_data_build. rewrite TF. cbn [bind]. destruct err.
  - destruct (power_ok x lo hs d0 ncols F SO g TF) as (pg & EP & GP & GO & EL). rewrite EP. cbn [bind].
    destruct (matrix_ok x lo hs d0 ncols F SO g TF an S7) as (m & EM & FM). rewrite EM. cbn [bind].
    eexists. split; [reflexivity|]. split; [intro R; apply RF in R; discriminate|]. intros _.
    exists g, (mkSim (repeat (an_initial an) (Z.to_nat (d_ncells (lo_dims lo)))) pg m an ps). cbn [s_matrix s_an s_temps s_plugin s_pg].
    split; [destruct (factor m); reflexivity|].
    pose proof (G x lo hs d0 ncols F SO g TF) as GT. destruct (K x lo hs d0 ncols F SO g TF) as (fs' & _ & _ & _ & TT & TB & _).
    split; [constructor; cbn [s_pg s_an s_matrix]; try assumption; apply (sim_physical x lo hs d0 ncols F SO g TF)|].
    split.
    { unfold good_sim. cbn [s_pg s_temps s_an]. split; [exact GP|]. rewrite repeat_length. split; [|split; [exact A1|split; [exact A2|rewrite A3; unfold two32; lia]]].
      destruct (cells_eq x lo hs d0 ncols F SO g TF) as (N1 & N2 & _). destruct GP as (_ & _ & _ & N3 & _). rewrite (go_top _ _ _ GO), TT in N3.
      pose proof (ac_cells _ (gt_accepted _ _ GT)). 
      assert (0 <= d_ncells (lo_dims lo)) by (pose proof (EnumProofs.nodes_length g (lo_dims lo) GT); lia). lia. }
    split; [apply (sim_flow x lo hs d0 ncols F SO g TF)|]. split; [reflexivity|]. split; [reflexivity|]. split; [reflexivity|]. split; [exact EL|].
    split; [unfold queued; rewrite EL; apply (described_queues x lo hs d0 ncols F SO)|].
    split; [exact TT|]. split; [rewrite TB; apply (lf_bottom _ _ _ _ _ F)|].
    split; [intros c T; apply (sim_channel x lo hs d0 ncols F SO g TF c T)|].
    intros DR l Hl. destruct (gt_shape _ _ GT l Hl) as [(X & _)|(b & j & c & T & _)]; [exact X|]. exfalso.
    destruct (sim_channel x lo hs d0 ncols F SO g TF c T) as (_ & E). apply existsb_exists in E. destruct E as (dc & I & J).
    destruct dc; try discriminate. exact (DR _ I).
  - eexists. split; [reflexivity|]. split; [reflexivity|]. intro N. exfalso. apply N. apply RF. reflexivity.
Qed.
Print Assumptions C51_build.

Lemma built : forall {PS} factor x lo an (ps : PS) g s, usable x lo -> fresh an -> thermal_data_build factor lo an ps = Ok (Some (g, s)) ->
    assembled g (lo_dims lo) s /\ good_sim (lo_dims lo) s /\ (some_channel lo -> physical_flow g) /\
    s_an s = an /\ s_temps s = repeat (an_initial an) (Z.to_nat (d_ncells (lo_dims lo))) /\
    elements (s_pg s) = described_elements x /\ (exists qs, queued (s_pg s) qs) /\
    tg_top g = lo_top lo /\ tg_bottom g = x_bottom x /\
    (forall c, tg_channel g = Some c -> lo_channel lo = Some c) /\ (dry x -> solid_stack g (lo_dims lo)).
Proof.
  intros PS factor x lo an ps g s U FR E. destruct (C51_build factor x lo an ps U FR) as (r & E' & R1 & R2).
  rewrite E in E'. assert (r = Some (g, s)) as -> by congruence.
  destruct R2 as (g' & s' & M & R2); [intro R; discriminate (R1 R)|].
  destruct (factor (s_matrix s')); [|discriminate]. assert (g' = g /\ s' = s) as (-> & ->) by (split; congruence). tauto.
Qed.

(** Every cell of the built simulation is at the initial temperature. *)
Theorem C51_starts_uniform : forall {PS} factor x lo an (ps : PS) g s, usable x lo -> fresh an ->
    thermal_data_build factor lo an ps = Ok (Some (g, s)) ->
    uniform (an_initial an) (s_temps s) /\ Z.of_nat (length (s_temps s)) = d_ncells (lo_dims lo).
Proof.
  intros PS factor x lo an ps g s U FR E. destruct (built factor x lo an ps g s U FR E) as (A & GS & _ & _ & T & _).
  rewrite T. split.
  - intros i I. unfold qat. assert (nth (Z.to_nat i) (repeat (an_initial an) (Z.to_nat (d_ncells (lo_dims lo)))) 0%Q = an_initial an) as ->; [|reflexivity].
    rewrite repeat_length in I. eapply repeat_spec. apply nth_In. rewrite repeat_length. lia.
  - rewrite repeat_length. destruct GS as (_ & L & _). rewrite T, repeat_length in L. pose proof (gt_accepted _ _ (as_grid _ _ _ A)) as AC.
    pose proof (ac_cells _ AC). pose proof (ac_nrows _ AC). pose proof (ac_ncols _ AC). pose proof (ac_nlayers _ AC).
    assert (0 <= d_nlayers (lo_dims lo) * d_nrows (lo_dims lo) * d_ncols (lo_dims lo)) by (repeat apply Z.mul_nonneg_nonneg; lia). lia.
Qed.
Print Assumptions C51_starts_uniform.

(** No call sequence on it leaves the bounds of an array: after any calls that
    went well, the next step returns an answer. *)
Theorem C51_always_answers : forall {PS} solve plugin factor x lo an (ps : PS) g s qs t s1, usable x lo -> fresh an ->
    thermal_data_build factor lo an ps = Ok (Some (g, s)) -> in_place solve plugin ->
    Forall2 (fun e l => qrep (fe_powers e) l) (described_elements x) qs ->
    history solve plugin (lo_dims lo) s t s1 -> Forall went_well t -> small_queues (given qs t) -> Z.of_nat (steps_of t) < two32 ->
    exists r s2, emulate_step solve plugin (lo_dims lo) s1 = Ok (r, s2).
Proof.
  intros PS solve plugin factor x lo an ps g s qs t s1 U FR E IP Q H W SM B.
  destruct (built factor x lo an ps g s U FR E) as (A & GS & _ & AN & _ & EL & _). destruct FR as (_ & _ & T0 & _).
  assert (queued (s_pg s) qs) as QU by (unfold queued; rewrite EL; exact Q). rewrite <- AN in T0.
  destruct (history_at solve plugin IP _ s t s1 H _ 0 qs (at_start _ s qs GS T0 QU) W ltac:(lia) SM) as (AT & _ & _).
  destruct (emulate_step_spec solve plugin IP _ s1 _ (at_good _ _ _ _ _ AT) (at_queues _ _ _ _ _ AT)) as (r & s2 & E2 & _). eauto.
Qed.
Print Assumptions C51_always_answers.

(** Energy: whatever the stack, the change of the heat content in a step is what
    its elements dissipate, plus the coolant brings in, minus what leaves. *)
Theorem C51_energy : forall {PS} solve plugin factor x lo an (ps : PS) g s qs t s1 r s2, usable x lo -> fresh an ->
    thermal_data_build factor lo an ps = Ok (Some (g, s)) -> in_place solve plugin -> exact solve ->
    2 <= d_nrows (lo_dims lo) \/ dry x ->
    Forall2 (fun e l => qrep (fe_powers e) l) (described_elements x) qs ->
    history solve plugin (lo_dims lo) s t s1 -> Forall went_well t -> small_queues (given qs t) -> Z.of_nat (steps_of t) + 1 < two32 ->
    emulate_step solve plugin (lo_dims lo) s1 = Ok (r, s2) -> done r ->
    let k := Z.to_nat (slots_begun (an_slot_length an) (Z.of_nat (steps_of t) + 1)) in
    (heat_content s2 - heat_content s1 ==
     an_step an * (qsum (map (fun l => nth (k - 1) l 0) (given qs t)) + from_plugin (lo_dims lo) s2
                   + enthalpy_in (lo_dims lo) s2 - enthalpy_out (lo_dims lo) s2 - lost_top (lo_dims lo) s2 - lost_bottom (lo_dims lo) s2))%Q.
Proof.
  intros PS solve plugin factor x lo an ps g s qs t s1 r s2 U FR E IP EX NS Q H W SM B ES DN k.
  destruct (built factor x lo an ps g s U FR E) as (A & GS & _ & AN & _ & EL & _ & _ & _ & _ & DR). destruct FR as (_ & _ & T0 & _).
  assert (queued (s_pg s) qs) as QU by (unfold queued; rewrite EL; exact Q). rewrite <- AN in T0.
  pose proof (C33_energy_partial solve plugin g (lo_dims lo) s s1 s2 qs t r IP EX A GS T0 QU) as R. rewrite AN in R. apply R; try assumption.
  destruct NS as [NS|NS]; [left; exact NS|right; apply DR; exact NS].
Qed.
Print Assumptions C51_energy.

Lemma top_outside : forall x lo, load x = Ok (Some lo) -> forall h a, lo_top lo = Some (SinkTop h a) -> x_top x = Some (DeclTop h a).
Proof.
  intros x lo L h a T. destruct (load_inv x lo L) as (hs & d0 & ncols & F). pose proof (lf_top _ _ _ _ _ F) as M. rewrite T in M. unfold make_top in M.
  destruct (x_top x) as [[h' a'|len wid h' m']|]; try discriminate; [injection M as -> ->; reflexivity|].
  destruct (initialize_heat_spreader d0 len wid) as [[]| |]; discriminate.
Qed.
Lemma top_no_spreader : forall x lo, load x = Ok (Some lo) -> no_spreader x -> forall s h m, lo_top lo <> Some (SinkPluggable s h m).
Proof.
  intros x lo L N s h m T. destruct (load_inv x lo L) as (hs & d0 & ncols & F). pose proof (lf_top _ _ _ _ _ F) as M. rewrite T in M. unfold make_top in M.
  destruct (x_top x) as [[h' a'|len wid h' m']|] eqn:X; try discriminate. exact (N _ _ _ _ X).
Qed.
Lemma channel_outside : forall x lo c, load x = Ok (Some lo) -> lo_channel lo = Some c -> exists cd, x_channel x = Some cd /\ decl_tin cd = co_tin c.
Proof.
  intros x lo c L T. destruct (load_inv x lo L) as (hs & d0 & ncols & F). pose proof (lf_channel _ _ _ _ _ F) as M.
  destruct (x_channel x) as [cd|]; [|congruence]. destruct M as (c' & E & DC). assert (c' = c) as -> by congruence. exists cd. split; [reflexivity|].
  destruct cd; cbn in DC.
  - injection DC as <-. reflexivity.
  - destruct (to_u32 _) as [n| |] in DC; cbn in DC; try discriminate. injection DC as <-. reflexivity.
  - injection DC as <-. destruct staggered; reflexivity.
Qed.

(** Equilibrium: built at the temperature of its surroundings and never powered,
    it stays there. *)
Theorem C51_equilibrium : forall {PS} solve plugin factor x lo an (ps : PS) g s qs t s', usable x lo -> fresh an ->
    thermal_data_build factor lo an ps = Ok (Some (g, s)) -> in_place solve plugin -> exact solve ->
    2 <= d_nrows (lo_dims lo) \/ dry x -> some_channel lo -> no_spreader x -> outside x (fun a => a == an_initial an)%Q ->
    Forall2 (fun e l => qrep (fe_powers e) l) (described_elements x) qs ->
    history solve plugin (lo_dims lo) s t s' -> Forall went_well t -> small_queues (given qs t) -> Z.of_nat (steps_of t) < two32 ->
    zeros (given qs t) -> uniform (an_initial an) (s_temps s').
Proof.
  intros PS solve plugin factor x lo an ps g s qs t s' U FR E IP EX NS SC NSP (O1 & O2 & O3) Q H W SM B Z0.
  destruct (C51_starts_uniform factor x lo an ps g s U FR E) as (UN & _).
  destruct (built factor x lo an ps g s U FR E) as (A & GS & FL & AN & _ & EL & _ & TT & TB & TC & DR). destruct FR as (_ & _ & T0 & _).
  assert (queued (s_pg s) qs) as QU by (unfold queued; rewrite EL; exact Q). rewrite <- AN in T0.
  pose proof (as_power _ _ _ A) as GO. destruct U as (LD & _).
  apply (C29_stays_partial solve plugin g (lo_dims lo) s s' qs t); try assumption.
  - exact (FL SC).
  - destruct NS as [NS|NS]; [left; exact NS|right; apply DR; exact NS].
  - intros sp h m T. rewrite (go_top _ _ _ GO), TT in T. exact (top_no_spreader x lo LD NSP _ _ _ T).
  - split; [|split].
    + intros h a T. rewrite (go_top _ _ _ GO), TT in T. apply (O1 h a). apply (top_outside x lo LD h a T).
    + intros k T. rewrite (go_bottom _ _ _ GO), TB in T. exact (O2 k T).
    + intros c T. rewrite (go_channel _ _ _ GO) in T. destruct (channel_outside x lo c LD (TC c T)) as (cd & X & <-). exact (O3 cd X).
Qed.
Print Assumptions C51_equilibrium.

(** Without coolant and power, no cell leaves the range of the initial and the
    ambient temperatures. *)
Theorem C51_bounds : forall {PS} solve plugin factor x lo an (ps : PS) g s qs t s' low high, usable x lo -> fresh an ->
    thermal_data_build factor lo an ps = Ok (Some (g, s)) -> in_place solve plugin -> exact solve ->
    dry x -> no_spreader x -> (low <= an_initial an /\ an_initial an <= high)%Q -> outside x (fun a => low <= a /\ a <= high)%Q ->
    Forall2 (fun e l => qrep (fe_powers e) l) (described_elements x) qs ->
    history solve plugin (lo_dims lo) s t s' -> Forall went_well t -> small_queues (given qs t) -> Z.of_nat (steps_of t) < two32 ->
    zeros (given qs t) -> between low high (s_temps s').
Proof.
  intros PS solve plugin factor x lo an ps g s qs t s' low high U FR E IP EX DRY NSP (I1 & I2) (O1 & O2 & _) Q H W SM B Z0.
  destruct (C51_starts_uniform factor x lo an ps g s U FR E) as (UN & _).
  destruct (built factor x lo an ps g s U FR E) as (A & GS & FL & AN & _ & EL & _ & TT & TB & TC & DR). destruct FR as (_ & _ & T0 & _).
  assert (queued (s_pg s) qs) as QU by (unfold queued; rewrite EL; exact Q). rewrite <- AN in T0.
  pose proof (as_power _ _ _ A) as GO. destruct U as (LD & _).
  apply (C30_between solve plugin g (lo_dims lo) s s' qs t); try assumption.
  - exact (DR DRY).
  - intros sp h m T. rewrite (go_top _ _ _ GO), TT in T. exact (top_no_spreader x lo LD NSP _ _ _ T).
  - split.
    + intros h a T. rewrite (go_top _ _ _ GO), TT in T. apply (O1 h a). apply (top_outside x lo LD h a T).
    + intros k T. rewrite (go_bottom _ _ _ GO), TB in T. exact (O2 k T).
  - intros i I. rewrite (UN i I). auto.
Qed.
Print Assumptions C51_bounds.

(** ** A concrete description: a die over a two-resistor channel over a layer,
    under an ambient sink. *)
Definition zz : queue := q_put q_empty 0.
Lemma zz_rep : qrep zz [0%Q]. Proof. apply (q_put_rep _ []); [apply q_empty_rep|unfold two32; cbn; lia]. Qed.
Definition zfloor : floorplan :=
  match fill_floorplan [we1 zz; we2 zz] wd with Ok f => f | _ => mkFlp 0 [] [] wmatrix end.
Definition xdesc : description :=
  mkDescription (Some (Decl2RM 3 5 5 wmat 6 1 2 3 4 300)) (1%Q, 1%Q, 1%Q, 1%Q) 20 10 10 5
    [DeclDie [1] [] (wlayer 1) [] zfloor; DeclChannel [2]; DeclLayer [3] (wlayer 2)]
    (Some (DeclTop 7 300)) None.
Definition xlo : loaded := match load xdesc with Ok (Some l) => l | _ => mkLoaded None [] wd None None 0 end.
Lemma xload : load xdesc = Ok (Some xlo).
Proof. unfold xlo. destruct (load xdesc) as [[l|]| |] eqn:E; [reflexivity|vm_compute in E; discriminate..]. Qed.
Definition xd : dims := mkDims 10 10 10 10 5 [2; 3; 3; 3; 3; 1]%Q 6 2 2 24 20 10.
Lemma xdims : lo_dims xlo = xd.
Proof. vm_compute. reflexivity. Qed.
Lemma wmat_physical : physical_material wmat.
Proof. vm_compute. auto. Qed.
Lemma wlayer_sound : forall h, (0 < h)%Q -> sound_layer (wlayer h).
Proof. intros h H. split; [exact H|]. split; [apply wmat_physical|constructor]. Qed.
Lemma zfloor_sound : sound_floorplan xd zfloor.
Proof.
  exists [we1 zz; we2 zz]. split; [|split; [vm_compute; reflexivity|split]].
  - constructor; [|constructor; [|constructor]].
    + eexists. exists [mkIcel 0 0 10 10 0 0 1 0], zz. split; [reflexivity|]. split; [discriminate|]. good_rects 10%nat.
    + eexists. exists [mkIcel 10 0 10 5 0 1 0 1], zz. split; [reflexivity|]. split; [discriminate|]. good_rects 10%nat.
  - vm_compute. reflexivity.
  - constructor; [exists [0%Q]; apply zz_rep|]. constructor; [exists [0%Q]; apply zz_rep|constructor].
Qed.
Lemma zfloor_sound_wd : sound_floorplan wd zfloor.
Proof.
  exists [we1 zz; we2 zz]. split; [|split; [vm_compute; reflexivity|split]].
  - constructor; [|constructor; [|constructor]].
    + eexists. exists [mkIcel 0 0 10 10 0 0 1 0], zz. split; [reflexivity|]. split; [discriminate|]. good_rects 10%nat.
    + eexists. exists [mkIcel 10 0 10 5 0 1 0 1], zz. split; [reflexivity|]. split; [discriminate|]. good_rects 10%nat.
  - vm_compute. reflexivity.
  - constructor; [exists [0%Q]; apply zz_rep|]. constructor; [exists [0%Q]; apply zz_rep|constructor].
Qed.
Lemma xusable : usable xdesc xlo.
Proof.
  split; [apply xload|]. split; [|rewrite xdims; reflexivity]. constructor.
  - vm_compute. auto 10 || (repeat split; try reflexivity; discriminate).
  - intros cd E. assert (cd = Decl2RM 3 5 5 wmat 6 1 2 3 4 300) as -> by (cbn in E; congruence). split; [vm_compute; repeat split; try reflexivity; discriminate|apply wmat_physical].
  - rewrite xdims. constructor; [|constructor; [exact I|constructor; [|constructor]]].
    + split; [|apply zfloor_sound]. constructor; [|constructor]. apply wlayer_sound. reflexivity.
    + apply wlayer_sound. reflexivity.
  - vm_compute. reflexivity.
  - vm_compute. reflexivity.
  - discriminate.
  - intros s h m E. vm_compute in E. discriminate.
Qed.
Lemma xsome : some_channel xlo.
Proof. intros c E _. vm_compute in E. injection E as <-. reflexivity. Qed.
Lemma xaccepted : ~ refused xdesc xlo.
Proof.
  intros [((s & h & m & E) & _)|(E & _)]; [vm_compute in E; discriminate|rewrite xdims in E; discriminate].
Qed.
Definition xbuilt : tgrid * sim sysmatrix unit :=
  match thermal_data_build (fun _ => TDICE_SUCCESS) xlo (wan 1 0) tt with
  | Ok (Some p) => p
  | _ => (gsolid, mkSim [] (wpg q_empty q_empty []) (mkSysmatrix [] [] []) (wan 1 0) tt)
  end.
Lemma xbuild : thermal_data_build (fun _ => TDICE_SUCCESS) xlo (wan 1 0) tt = Ok (Some (fst xbuilt, snd xbuilt)).
Proof.
  destruct (C51_build (fun _ => TDICE_SUCCESS) xdesc xlo (wan 1 0) tt xusable ltac:(unfold fresh, two32; cbn; repeat split; lia || reflexivity)) as (r & E & _ & R).
  destruct (R xaccepted) as (g & s & -> & _). unfold xbuilt. rewrite E. reflexivity.
Qed.

(** All hypotheses of the theorems above hold for a slot of this description. *)
Example C51_witness : exists solve s',
    usable xdesc xlo /\ fresh (wan 1 0) /\ thermal_data_build (fun _ => TDICE_SUCCESS) xlo (wan 1 0) tt = Ok (Some xbuilt) /\
    in_place solve wplugin /\ exact solve /\ 2 <= d_nrows (lo_dims xlo) /\ some_channel xlo /\ no_spreader xdesc /\
    outside xdesc (fun a => a == an_initial (wan 1 0))%Q /\
    Forall2 (fun e l => qrep (fe_powers e) l) (described_elements xdesc) [[0%Q]; [0%Q]] /\
    history solve wplugin (lo_dims xlo) (snd xbuilt) [Stepped TDICE_SLOT_DONE] s' /\
    zeros (given [[0%Q]; [0%Q]] [Stepped TDICE_SLOT_DONE]) /\ elements (s_pg (snd xbuilt)) <> [] /\ ~ dry xdesc.
Proof.
  set (sv := guess [repeat 300%Q 24]). exists sv, (next sv (lo_dims xlo) (snd xbuilt)).
  split; [apply xusable|]. split; [unfold fresh, two32; cbn; repeat split; lia || reflexivity|].
  split; [rewrite xbuild; destruct xbuilt; reflexivity|]. split; [apply guess_in_place|]. split; [apply guess_exact|].
  split; [rewrite xdims; cbn; lia|]. split; [apply xsome|]. split; [intros l w h m; discriminate|].
  split; [split; [intros h a E; cbn in E; injection E as <- <-; reflexivity|split; [discriminate|intros cd E; cbn in E; injection E as <-; reflexivity]]|].
  split; [constructor; [apply zz_rep|constructor; [apply zz_rep|constructor]]|].
  split; [eapply H_step; [apply next_ok; vm_compute; reflexivity|constructor]|].
  split; [unfold zeros; cbn; repeat constructor; reflexivity|]. split; [vm_compute; discriminate|].
  intros DR. apply (DR [2]). right. left. reflexivity.
Qed.

(** A stack without coolant, between two sinks. *)
Definition ydesc : description :=
  mkDescription None (1%Q, 1%Q, 1%Q, 1%Q) 20 10 10 5 [DeclDie [1] [] (wlayer 1) [] zfloor; DeclLayer [3] (wlayer 2)]
    (Some (DeclTop 7 300)) (Some (mkBottomSink 3 300)).
Definition ylo : loaded := match load ydesc with Ok (Some l) => l | _ => mkLoaded None [] wd None None 0 end.
Lemma ydims : lo_dims ylo = wd.
Proof. vm_compute. reflexivity. Qed.
Lemma yusable : usable ydesc ylo.
Proof.
  split; [unfold ylo; destruct (load ydesc) as [[l|]| |] eqn:E; [reflexivity|vm_compute in E; discriminate..]|].
  split; [|rewrite ydims; reflexivity]. constructor.
  - vm_compute. auto 10 || (repeat split; try reflexivity; discriminate).
  - discriminate.
  - rewrite ydims. constructor; [|constructor; [|constructor]].
    + split; [|exact zfloor_sound_wd]. constructor; [|constructor]. apply wlayer_sound. reflexivity.
    + apply wlayer_sound. reflexivity.
  - vm_compute. reflexivity.
  - vm_compute. reflexivity.
  - intros b E. assert (b = mkBottomSink 3 300) as -> by (cbn in E; congruence). reflexivity.
  - intros s h m E. vm_compute in E. discriminate.
Qed.
Definition ybuilt : tgrid * sim sysmatrix unit :=
  match thermal_data_build (fun _ => TDICE_SUCCESS) ylo (wan 1 0) tt with Ok (Some p) => p | _ => xbuilt end.
Example C51_dry_witness : exists solve s',
    usable ydesc ylo /\ fresh (wan 1 0) /\ thermal_data_build (fun _ => TDICE_SUCCESS) ylo (wan 1 0) tt = Ok (Some ybuilt) /\
    in_place solve wplugin /\ exact solve /\ dry ydesc /\ no_spreader ydesc /\ outside ydesc (fun a => 290 <= a /\ a <= 310)%Q /\
    Forall2 (fun e l => qrep (fe_powers e) l) (described_elements ydesc) [[0%Q]; [0%Q]] /\
    history solve wplugin (lo_dims ylo) (snd ybuilt) [Stepped TDICE_SLOT_DONE] s' /\ zeros (given [[0%Q]; [0%Q]] [Stepped TDICE_SLOT_DONE]).
Proof.
  set (sv := guess [repeat 300%Q 8]). exists sv, (next sv (lo_dims ylo) (snd ybuilt)).
  split; [apply yusable|]. split; [unfold fresh, two32; cbn; repeat split; lia || reflexivity|].
  split.
  { destruct (C51_build (fun _ => TDICE_SUCCESS) ydesc ylo (wan 1 0) tt yusable ltac:(unfold fresh, two32; cbn; repeat split; lia || reflexivity)) as (r & E & _ & R).
    destruct R as (g & s & -> & _); [|unfold ybuilt; rewrite E; reflexivity].
    intros [((s & h & m & E1) & _)|(E1 & _)]; [vm_compute in E1; discriminate|rewrite ydims in E1; discriminate]. }
  split; [apply guess_in_place|]. split; [apply guess_exact|].
  split; [intros id [X|[X|[]]]; discriminate|]. split; [intros l w h m; discriminate|].
  split; [split; [intros h a E; cbn in E; injection E as <- <-; split; vm_compute; discriminate|split; [intros b E; cbn in E; injection E as <-; split; vm_compute; discriminate|discriminate]]|].
  split; [constructor; [apply zz_rep|constructor; [apply zz_rep|constructor]]|].
  split; [eapply H_step; [apply next_ok; vm_compute; reflexivity|constructor]|].
  unfold zeros; cbn; repeat constructor; reflexivity.
Qed.
