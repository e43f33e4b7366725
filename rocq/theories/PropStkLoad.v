(** * C73. From a stack description file and the files it names to a simulation.

    [parse_stack_file ... fs path] is what the program makes of a file: [fs] are
    the files that can be opened; [None] is an error that the program reports.
    [means ... q j] (StkLoadSpec.v): every name of [q] stands for the declaration
    it names. The parameters: porosity and heat transfer of pin fins, the reading
    of doubles, and whether a plugin starts. *)
From Coq Require Import ZArith List Bool QArith String Ascii Lia.
From Verif Require Import Base Flex FlpText FlpTextSpec Dims Floorplan Stack StackSpec Queue PowerGrid Inspect Emulate Emulator SlotLength Matrix Build BuildSpec QSum QueueProofs FloorplanSpec MatrixSpec StackProofs StackAcceptProofs
  EmulateSpec BalanceSpec BuildProofs PropBuild StkScan StkText StkTextSpec PropFlpText PropStkText LayText LayProofs StkLoad StkLoadSpec StkLoadProofs StkSoundProofs.
Import ListNotations.
Local Open Scope string_scope.
Local Open Scope list_scope.

Section Load.
  Variable porosity : Q -> Q -> Q.
  Variable pin_htc : bool -> Q -> Q.
  Variable to_double : Q -> double.
  Variable plugin_starts : list Z -> list Z -> bool.
  Variable fuel : nat.
  Variable fs : disk.
  Notation actions := (actions porosity pin_htc to_double plugin_starts fuel fs).
  Notation means := (means porosity pin_htc to_double plugin_starts fuel fs).
  Notation parse_stack_file := (parse_stack_file porosity pin_htc to_double plugin_starts fuel fs).

  Lemma element_decl_id : forall d def ls ds ch e x, element_means fuel fs d def ls ds ch e x -> decl_id (fst x) = id_of e.
  Proof.
    intros d def ls ds ch e [dc z] H. destruct e, dc; cbn in H; try contradiction; destruct z; try contradiction; destruct H as [-> _]; reflexivity.
  Qed.
  Lemma elements_split : forall d def ls ds ch es new, elements_means fuel fs d def ls ds ch es new ->
    map fst new = map id_of es /\ Forall2 (element_means fuel fs d def ls ds ch) es (map snd new) /\ map decl_id (map (fun e => fst (snd e)) new) = map id_of es.
  Proof.
    intros d def ls ds ch es new H. induction H as [|e x es new [H1 H2] F (I1 & I2 & I3)]; cbn [map]; [repeat split; constructor|].
    split; [congruence|]. split; [constructor; assumption|]. rewrite I3. f_equal. eapply element_decl_id. eassumption.
  Qed.
  Lemma elements_join : forall d def ls ds ch es xs, Forall2 (element_means fuel fs d def ls ds ch) es xs ->
    exists new, elements_means fuel fs d def ls ds ch es new /\ map snd new = xs.
  Proof.
    intros d def ls ds ch es xs H. induction H as [|e x es xs H F (new & I1 & I2)]; [exists []; split; [constructor|reflexivity]|].
    exists ((id_of e, x) :: new). split; [constructor; [split; [reflexivity|exact H]|exact I1]|cbn; congruence].
  Qed.

  Theorem C73_meaning : forall q j, actions q = Ok (Some j) <-> means q j.
  Proof.
    intros q j. split.
    - intros H. unfold StkLoad.actions in H. apply try_iff in H. destruct H as (ms & MS & H). apply declare_iff in MS. destruct MS as [MS NM]. rewrite <- MS in NM.
      apply try_iff in H. destruct H as (top & TOP & H). rewrite (optionally_iff _ _ _ (top_means ms)) in TOP by (intros; apply top_iff; exact NM).
      apply try_iff in H. destruct H as (ch & CH & H).
      rewrite (optionally_iff _ _ _ (fun c (x : channel_decl * (Q * Q * Q * Q)) => channel_means porosity pin_htc ms c (fst x) (snd x))) in CH by (intros; apply channel_iff; exact NM).
      cbv zeta in H. set (w := match ch with Some (_, w) => w | None => (0, 0, 0, 0)%Q end) in H.
      apply try_iff in H. destruct H as (d & D & H). apply do_iff in H. destruct H as (zx & ZX & H). apply do_iff in H. destruct H as (zy & ZY & H).
      apply try_iff in H. destruct H as (ls & LS & H). apply layers_iff in LS; [|exact NM|constructor]. destruct LS as (ls' & E & LS & NL). cbn [app] in E. subst ls'.
      apply try_iff in H. destruct H as (ds & DS & H). apply dies_iff in DS; [|exact NM|exact NL|constructor]. destruct DS as (ds' & E & DS & ND). cbn [app] in E. subst ds'.
      apply try_iff in H. destruct H as (es & ES & H). apply elements_iff in ES; [|exact NL|exact ND|constructor|reflexivity].
      destruct ES as (es' & E & ES & NE & _). cbn [app] in E. subst es'.
      apply try_iff in H. destruct H as (lo & LO & H). apply try_iff in H. destruct H as ([a c] & SO & H). apply solver_iff in SO. destruct SO as [SO CO].
      apply try_iff in H. destruct H as (o & OU & H). injection H as <-.
      destruct (elements_split _ _ _ _ _ _ _ ES) as (E1 & E2 & E3). destruct (loaded_ids _ _ LO) as [ID _]. cbn [x_stack] in ID.
      assert (NS : NoDup (map se_id (lo_elements lo))) by (rewrite ID, E3, <- E1; exact NE).
      apply points_iff in OU; [|exact NS]. destruct OU as (pts & PT & ->). rewrite points_filed. cbn [output_init o_final o_slot o_step app].
      split; cbn [j_description j_discretization j_nonuniform j_loaded j_analysis j_cores j_output fst snd]; try assumption.
      + exists ms, ls, ds, d, (map snd es), pts, ch. cbn [x_top x_bottom x_channel x_walls x_chip_length x_chip_width x_cell_length x_cell_width x_stack].
        split; [exact MS|]. split; [exact NM|]. split; [exact TOP|]. split; [reflexivity|]. split; [exact CH|]. split; [reflexivity|]. split; [reflexivity|].
        do 4 (split; [reflexivity|]). split; [exact D|]. split; [exact LS|]. split; [exact NL|]. split; [exact DS|]. split; [exact ND|].
        split.
        { exists zx, zy. split; [exact ZX|]. split; [exact ZY|].
          assert (CE : match s_channel q with Some _ => true | None => false end = match ch with Some _ => true | None => false end).
          { unfold both in CH. destruct (s_channel q), ch; try contradiction; reflexivity. }
          rewrite CE. exact E2. }
        split; [unfold listed_of in E1; rewrite <- E1; exact NE|]. split; [rewrite map_map; reflexivity|]. split; [rewrite map_map; reflexivity|]. split; [exact PT|reflexivity].
      + destruct (dd_nonuniform (s_dims q)) as [[|]|]; split; congruence.
    - intros [(ms & ls & ds & d & elements & points & ch & MS & NM & TOP & BO & CH & XC & XW & X1 & X2 & X3 & X4 & D & LS & NL & DS & ND & (zx & zy & ZX & ZY & ES) & NE & XS & JD & PT & JO) NU LO SO CO].
      assert (JX : j_description j = mkDescription (option_map fst ch) (match ch with Some (_, w) => w | None => (0, 0, 0, 0)%Q end)
        (dd_length (s_dims q)) (dd_width (s_dims q)) (dd_cell_length (s_dims q)) (dd_cell_width (s_dims q)) (map fst elements) (x_top (j_description j))
        (option_map bottom_of (s_bottom q))).
      { destruct (j_description j) as [a1 a2 a3 a4 a5 a6 a7 a8 a9]. cbn [x_channel x_walls x_chip_length x_chip_width x_cell_length x_cell_width x_stack x_top x_bottom] in *. subst. reflexivity. }
      set (top := x_top (j_description j)) in *.
      destruct (elements_join _ _ _ _ _ _ _ ES) as (es & EM & EE). destruct (elements_split _ _ _ _ _ _ _ EM) as (E1 & E2 & E3).
      assert (XE : map fst elements = map (fun e => fst (snd e)) es) by (rewrite <- EE, map_map; reflexivity).
      unfold StkLoad.actions. apply try_iff. exists ms. split; [apply declare_iff; split; [exact MS|rewrite MS in NM; exact NM]|].
      apply try_iff. exists top. split; [rewrite (optionally_iff _ _ _ (top_means ms)) by (intros; apply top_iff; exact NM); exact TOP|].
      apply try_iff. exists ch. split.
      { rewrite (optionally_iff _ _ _ (fun c (x : channel_decl * (Q * Q * Q * Q)) => channel_means porosity pin_htc ms c (fst x) (snd x))) by (intros; apply channel_iff; exact NM). exact CH. }
      cbv zeta. apply try_iff. exists d. split; [rewrite JX in D; exact D|]. apply do_iff. exists zx. split; [exact ZX|]. apply do_iff. exists zy. split; [exact ZY|].
      apply try_iff. exists ls. split; [apply layers_iff; [exact NM|constructor|]; exists ls; auto|].
      apply try_iff. exists ds. split; [apply dies_iff; [exact NM|exact NL|constructor|]; exists ds; auto|].
      destruct (loaded_ids _ _ LO) as [ID (dc & dr & FI & NC)].
      apply try_iff. exists es. split.
      { apply elements_iff; [exact NL|exact ND|constructor|reflexivity|]. exists es. split; [reflexivity|]. split.
        - assert (CE : match s_channel q with Some _ => true | None => false end = match ch with Some _ => true | None => false end).
          { unfold both in CH. destruct (s_channel q), ch; try contradiction; reflexivity. }
          rewrite <- CE. exact EM.
        - split; [rewrite E1; exact NE|]. rewrite XS, XE in FI. destruct es as [|[i [dc0 z]] es]; [discriminate|]. cbn in FI. injection FI as -> _.
          unfold two_channels, channel_decl_. cbn [fst snd]. unfold is_chan_decl in NC. destruct dc; try reflexivity. discriminate. }
      rewrite <- XE. rewrite JX in LO. apply try_iff. exists (j_loaded j). split; [exact LO|].
      apply try_iff. exists (j_analysis j, j_cores j). split; [apply solver_iff; split; assumption|].
      apply try_iff. exists (j_output j). split.
      { apply points_iff.
        - rewrite ID, XS, XE, E3. exact NE.
        - exists points. split; [exact PT|]. rewrite points_filed. cbn [output_init o_final o_slot o_step app]. exact JO. }
      rewrite <- JX. cbn [fst snd].
      assert (JD' : map (fun e => snd (snd e)) es = j_discretization j) by (rewrite JD, <- EE, map_map; reflexivity). rewrite JD'.
      assert (JN : match dd_nonuniform (s_dims q) with Some b => b | None => false end = j_nonuniform j).
      { destruct (dd_nonuniform (s_dims q)) as [[|]|], (j_nonuniform j); try reflexivity; destruct NU as [N1 N2]; try (symmetry; apply N2; reflexivity); specialize (N1 eq_refl); discriminate. }
      rewrite JN. destruct j. reflexivity.
  Qed.

  (** From the characters of the files. *)
  Theorem C73_file : forall path text f j, fs path = Some text -> describes f text ->
    (parse_stack_file path = Ok (Some j) <-> means (file_value f) j).
  Proof.
    intros path text f j F D. unfold StkLoad.parse_stack_file. rewrite F, (C71_reads f text D). apply C73_meaning.
  Qed.
  (** A file that is accepted is one that means what is made of it. *)
  Theorem C73_accepted : forall path j, parse_stack_file path = Ok (Some j) ->
    exists text q, fs path = Some text /\ read_stack text = Some q /\ means q j.
  Proof.
    intros path j H. unfold StkLoad.parse_stack_file in H. destruct (fs path) as [text|]; [|discriminate]. destruct (read_stack text) as [q|] eqn:R; [|discriminate].
    exists text, q. split; [reflexivity|]. split; [exact R|]. apply C73_meaning. exact H.
  Qed.
  (** What a file means is unique. *)
  Theorem C73_deterministic : forall q j j', means q j -> means q j' -> j = j'.
  Proof. intros q j j' H H'. apply C73_meaning in H. apply C73_meaning in H'. congruence. Qed.

  (** ** To the simulation (with C51) *)
  Notation sane := (sane porosity pin_htc fuel fs).
  (** Values that make sense in the files make sense in what is built, and the
      queues hold the power values of the floorplan files. *)
  Theorem C73_sound : forall q j, means q j -> sane q j ->
    usable (j_description j) (j_loaded j) /\
    Forall2 (fun e l => qrep (fe_powers e) l) (described_elements (j_description j)) (written_powers fs q).
  Proof. intros q j M S. exact (sane_usable _ _ _ _ _ _ q j M S). Qed.
  Lemma quantity_small : forall x n, quantity_of x = Ok n -> (0 <= n < two32)%Z.
  Proof.
    intros [s|s| |s m e] n H; cbn [quantity_of] in H; try discriminate; [injection H as <-; unfold two32; lia|].
    cbv zeta in H. revert H. set (a := if (0 <=? e)%Z then _ else _).
    assert (P : (0 <= a)%Z).
    { subst a. destruct (0 <=? e)%Z eqn:E; [apply Z.mul_nonneg_nonneg; [lia|apply Z.pow_nonneg; lia]|apply Z.div_pos; [lia|apply Z.pow_pos_nonneg; lia]]. }
    clearbody a. intros H. destruct s.
    - destruct (a =? 0)%Z; [injection H as <-; unfold two32; lia|discriminate].
    - destruct (Z.ltb_spec a two32); [injection H as <-; lia|discriminate].
  Qed.
  Lemma slot_small : forall st sl n, parse_times fuel st sl = Ok (Some n) -> (n < two32)%Z.
  Proof.
    intros st sl n H. unfold parse_times in H. destruct (SpecFloat.SFltb _ _); [discriminate|]. destruct (SpecFloat.SFleb _ _); [discriminate|]. destruct (SpecFloat.SFleb _ _); [discriminate|].
    unfold slot_length in H. destruct (scale fuel sl st) as [[a b]| |]; try discriminate. cbn [bind] in H.
    destruct (quantity_of a) as [u| |] eqn:QA; try discriminate. cbn [bind] in H. destruct (quantity_of b) as [v| |] eqn:QB; try discriminate. cbn [bind] in H.
    destruct (Z.eqb_spec v 0) as [E|E]; [discriminate|]. cbn [bind] in H. injection H as <-. apply quantity_small in QA. apply quantity_small in QB.
    apply Z.le_lt_trans with u; [|lia]. apply Z.div_le_upper_bound; [lia|]. assert (1 <= v)%Z as V by lia. clear - QA V. nia.
  Qed.
  (** A transient analysis with a step and at least one step in a slot. *)
  Definition transient_file (q : qfile) (j : project) : Prop :=
    (exists step slot, v_analysis (s_solver q) = Transient step slot /\ (0 < step)%Q) /\ (1 <= an_slot_length (j_analysis j))%Z.
  Lemma transient_fresh : forall q j, means q j -> transient_file q j -> fresh (j_analysis j).
  Proof.
    intros q j M ((step & slot & V & P) & L). destruct M as [_ _ _ (_ & T & A) _]. rewrite V in A. destruct A as (A1 & A2 & A3 & _). apply slot_small in A3.
    unfold fresh. rewrite A1, A2. split; [reflexivity|]. split; [lia|]. split; [exact T|exact P].
  Qed.
  (** The file is accepted and the simulation is built, at the initial
      temperature of the file. *)
  Theorem C73_simulates : forall {PS} factor path text f j (ps : PS), fs path = Some text -> describes f text ->
    means (file_value f) j -> sane (file_value f) j -> transient_file (file_value f) j -> ~ refused (j_description j) (j_loaded j) ->
    parse_stack_file path = Ok (Some j) /\
    exists g s, thermal_data_build factor (j_loaded j) (j_analysis j) ps = Ok (match factor (s_matrix s) with TDICE_SUCCESS => Some (g, s) | TDICE_FAILURE => None end) /\
      assembled g (lo_dims (j_loaded j)) s /\ good_sim (lo_dims (j_loaded j)) s /\ s_an s = j_analysis j /\
      s_temps s = repeat (v_initial (s_solver (file_value f))) (Z.to_nat (d_ncells (lo_dims (j_loaded j)))) /\
      Forall2 (fun e l => qrep (fe_powers e) l) (elements (s_pg s)) (written_powers fs (file_value f)).
  Proof.
    intros PS factor path text f j ps F D M SA TF NR. split; [apply (C73_file _ _ _ _ F D); exact M|].
    destruct (C73_sound _ _ M SA) as [U QS]. pose proof (transient_fresh _ _ M TF) as FR.
    destruct (C51_build factor _ _ _ ps U FR) as (r & E & _ & R). destruct (R NR) as (g & s & -> & A & G & _ & AN & T & _ & EL & _). exists g, s.
    split; [exact E|]. split; [exact A|]. split; [exact G|]. split; [exact AN|]. split; [rewrite T; destruct M as [_ _ _ (I & _) _]; rewrite I; reflexivity|].
    rewrite EL. exact QS.
  Qed.
  Definition channel_free (q : qfile) : Prop := forall id, ~ In (EChannel id) (fst (s_stack q) :: snd (s_stack q)).
  Lemma channel_free_dry : forall q j, means q j -> channel_free q -> dry (j_description j).
  Proof.
    intros q j M C id I. destruct M as [(ms & ls & ds & d & elements & points & ch & _ & _ & _ & _ & _ & _ & _ & _ & _ & _ & _ & _ & _ & _ & _ & _ & (zx & zy & _ & _ & ES) & _ & XS & _) _ _ _ _].
    rewrite XS in I. apply (C id). clear - ES I. induction ES as [|e [dc z] l m H ES IH]; [destruct I|]. destruct I as [I|I]; [|right; apply IH; exact I].
    cbn [fst] in I. subst dc. left. destruct e; cbn [element_means] in H; try contradiction. destruct z; [contradiction|]. destruct H as [-> _]. reflexivity.
  Qed.
  (** Energy, from the files: the heat content changes by the power values of the
      floorplan files (and what was inserted), plus what the coolant and the plugin
      bring, minus what leaves. *)
  Theorem C73_energy : forall {PS} solve plugin factor q j (ps : PS) g s t s1 r s2, means q j -> sane q j -> transient_file q j ->
    thermal_data_build factor (j_loaded j) (j_analysis j) ps = Ok (Some (g, s)) -> in_place solve plugin -> exact solve ->
    let d := lo_dims (j_loaded j) in
    (2 <= d_nrows d)%Z \/ channel_free q ->
    history solve plugin d s t s1 -> Forall went_well t -> small_queues (given (written_powers fs q) t) -> (Z.of_nat (steps_of t) + 1 < two32)%Z ->
    emulate_step solve plugin d s1 = Ok (r, s2) -> done r ->
    let k := Z.to_nat (slots_begun (an_slot_length (j_analysis j)) (Z.of_nat (steps_of t) + 1)) in
    (heat_content s2 - heat_content s1 ==
     an_step (j_analysis j) * (qsum (map (fun l => nth (k - 1) l 0) (given (written_powers fs q) t)) + from_plugin d s2
                   + enthalpy_in d s2 - enthalpy_out d s2 - lost_top d s2 - lost_bottom d s2))%Q.
  Proof.
    intros PS solve plugin factor q j ps g s t s1 r s2 M SA TF E IP EX d NS H W SM B ES DN k. destruct (C73_sound _ _ M SA) as [U QS].
    apply (C51_energy solve plugin factor (j_description j) (j_loaded j) (j_analysis j) ps g s (written_powers fs q) t s1 r s2 U (transient_fresh _ _ M TF) E IP EX); try assumption.
    destruct NS as [NS|NS]; [left; exact NS|right; eapply channel_free_dry; eassumption].
  Qed.
  (** A file whose temperatures are all the same and whose floorplans have no
      power: the chip stays at that temperature. *)
  Definition temperatures_are (q : qfile) (T : Q) : Prop :=
    (v_initial (s_solver q) == T)%Q /\
    (exists h a, s_top q = Some (Convective h a) /\ (a == T)%Q \/ s_top q = None) /\
    (forall b, s_bottom q = Some b -> (b_temperature b == T)%Q) /\
    forall c, s_channel q = Some c ->
      (match c with Chan4 _ _ _ _ _ _ _ _ _ t | Chan2 _ _ _ _ _ _ _ t | Pins _ _ _ _ _ _ _ t => t end == T)%Q.
  Theorem C73_equilibrium : forall {PS} solve plugin factor q j (ps : PS) g s t s' T, means q j -> sane q j -> transient_file q j -> some_channel (j_loaded j) ->
    thermal_data_build factor (j_loaded j) (j_analysis j) ps = Ok (Some (g, s)) -> in_place solve plugin -> exact solve ->
    let d := lo_dims (j_loaded j) in
    (2 <= d_nrows d)%Z \/ channel_free q -> temperatures_are q T ->
    history solve plugin d s t s' -> Forall went_well t -> small_queues (given (written_powers fs q) t) -> (Z.of_nat (steps_of t) < two32)%Z ->
    zeros (given (written_powers fs q) t) -> uniform (v_initial (s_solver q)) (s_temps s').
  Proof.
    intros PS solve plugin factor q j ps g s t s' T M SA TF SC E IP EX d NS (T1 & T2 & T3 & T4) H W SM B Z0. destruct (C73_sound _ _ M SA) as [U QS].
    assert (AI : an_initial (j_analysis j) = v_initial (s_solver q)) by (destruct M as [_ _ _ (I & _) _]; exact I). rewrite <- AI. rewrite <- AI in T1.
    apply (C51_equilibrium solve plugin factor (j_description j) (j_loaded j) (j_analysis j) ps g s (written_powers fs q) t s' U (transient_fresh _ _ M TF) E IP EX); try assumption.
    - destruct NS as [NS|NS]; [left; exact NS|right; eapply channel_free_dry; eassumption].
    - destruct M as [(ms & ls & ds & d' & elements & points & ch & _ & _ & TOP & _) _ _ _ _]. intros l w h m X. rewrite X in TOP.
      destruct T2 as (h' & a & [[ET _]|ET]); rewrite ET in TOP; exact TOP.
    - destruct M as [(ms & ls & ds & d' & elements & points & ch & _ & _ & TOP & BO & CH & XC & _) _ _ _ _]. split; [|split].
      + intros h a X. rewrite X in TOP. destruct T2 as (h' & a' & [[ET EA]|ET]); rewrite ET in TOP; [|contradiction]. destruct TOP as [_ ->]. rewrite EA, T1. reflexivity.
      + intros b X. rewrite BO in X. destruct (s_bottom q) as [b'|] eqn:EB; [|discriminate]. cbn [option_map] in X. injection X as <-. cbn [bs_ambient]. rewrite (T3 b' eq_refl), T1. reflexivity.
      + intros cd X. rewrite XC in X. destruct ch as [[cd' w]|]; [|discriminate]. cbn [option_map fst] in X. injection X as ->. unfold both in CH.
        destruct (s_channel q) as [c|] eqn:EC; [|contradiction]. cbn [fst snd] in CH. specialize (T4 c eq_refl). rewrite T1. rewrite <- T4.
        destruct c, cd; cbn [channel_means] in CH; try contradiction; cbn [decl_tin]; decompose [and] CH; subst; reflexivity.
  Qed.

  (** ** Defect: the names in error messages *)
  (** An unknown material of a heat sink: the message is printed in an array of
      100 characters. *)
  Theorem C73_long_name : forall path text f l w h m p args, fs path = Some text -> describes f text ->
    let q := file_value f in
    NoDup (map m_id (fst (s_materials q) :: snd (s_materials q))) -> s_top q = Some (Pluggable l w h m p args) ->
    ~ In m (map m_id (fst (s_materials q) :: snd (s_materials q))) ->
    if (82 <? List.length m)%nat then parse_stack_file path = UB else parse_stack_file path = Ok None.
  Proof.
    intros path text f l w h m p args F D q N T NI. unfold StkLoad.parse_stack_file. rewrite F, (C71_reads f text D). fold q.
    assert (MM : map fst (map material_of (listed_of (s_materials q))) = map m_id (fst (s_materials q) :: snd (s_materials q))) by (rewrite map_map; reflexivity).
    unfold StkLoad.actions. rewrite (declare_ok _ stack_size material_twice (map material_of (listed_of (s_materials q))) []) by (cbn [app]; rewrite MM; exact N). cbn [bind app].
    rewrite T. cbn [optionally top_of]. unfold known.
    assert (L : lookup m (map material_of (listed_of (s_materials q))) = None) by (apply lookup_none; rewrite MM; exact NI). rewrite L.
    unfold message, unknown_material, stack_size, chars_of. rewrite app_length, map_length. change (List.length (str "Unknown material ")) with 17%nat.
    destruct (Nat.ltb_spec 82 (List.length m)) as [LT|LE]; destruct (Z.ltb_spec (Z.of_nat (17 + List.length m)) 100); try lia; reflexivity.
  Qed.
End Load.
Print Assumptions C73_meaning.
Print Assumptions C73_file.
Print Assumptions C73_accepted.
Print Assumptions C73_deterministic.
Print Assumptions C73_sound.
Print Assumptions C73_simulates.
Print Assumptions C73_energy.
Print Assumptions C73_equilibrium.
Print Assumptions C73_long_name.

(** ** The hypotheses are met *)
From Verif Require Import LayTextSpec PropLayText.
Definition w_file (material : string) : stkfile numeral chars chars := {|
  s_materials := (mkMat (str "SILICON") (Isotropic (int_ [1; 3; 0])) (int_ [1; 6; 2; 8]), []);
  s_top := Some (Pluggable (int_ [4; 0]) (int_ [2; 0]) (int_ [1]) (str material) (str "sink.so") None); s_bottom := None; s_channel := None;
  s_dims := mkDimd (int_ [2; 0]) (int_ [1; 0]) (int_ [5]) (int_ [5]) None;
  s_layers := [mkLayd (str "L") (int_ [2]) (str "SILICON") (Some (str "l.lay"))];
  s_dies := (mkDied (str "D") [Fresh (int_ [1; 0]) (str "SILICON")] (Fresh (int_ [2]) (str "SILICON")) [Declared (str "L")], []);
  s_stack := (EDie (str "TOP") (str "D") (str "f.flp") (Some (int_ [4], int_ [2])), [ELayer (str "BOT") (str "L") None]);
  s_solver := mkSolverd (Transient (int_ [1]) (int_ [2])) (int_ [3; 0; 0]) None;
  s_output := Some (PTflp (str "TOP") (str "o.txt") OQ_AVERAGE (Some OI_SLOT), [PTmap (str "BOT") (str "m.txt") None])
|}%nat.
Definition text_of (f : stkfile numeral chars chars) : chars := spelling (gapped (file_syntax f)) ++ ending_text ([GBlank "010"%char], None).
Lemma text_describes : forall f, file_ok f -> forallb lexm_okb (file_syntax f) = true -> describes f (text_of f).
Proof.
  intros f O L. split; [exact O|apply Forall_forall; intros x J; apply lexm_okb_ok; rewrite forallb_forall in L; apply L, J|].
  destruct (gapped_fits (file_syntax f)) as (A & B & C). exists (gapped (file_syntax f)), ([GBlank "010"%char], None). split; [reflexivity|]. split; [exact A|]. split; [exact B|].
  split; [exact C|]. split; [constructor; [cbn; tauto|constructor]|exact Logic.I].
Qed.
(** The files: the description, its layout and its floorplan. *)
Definition w_disk (material : string) : disk := fun p =>
  if same_string p (name_codes (str "a.stk")) then Some (text_of (w_file material))
  else if same_string p (name_codes (str "l.lay")) then Some lay_text
  else if same_string p (name_codes (str "f.flp")) then Some a_text else None.
Definition w_double (q : Q) : double := SpecFloat.binary_normalize 53 1024 (Qnum q) 0 false.
Definition w_parse (material : string) := parse_stack_file (fun _ _ => 1#2)%Q (fun _ _ => 1%Q) w_double (fun _ _ => true) 10 (w_disk material) (name_codes (str "a.stk")).
Definition w_actions (material : string) := actions (fun _ _ => 1#2)%Q (fun _ _ => 1%Q) w_double (fun _ _ => true) 10 (w_disk material) (file_value (w_file material)).
Lemma w_ok : forall m, file_ok (w_file m).
Proof. intros m. constructor; [|constructor; [|constructor]]; repeat split; try (intros X; discriminate X); try exact Logic.I; try discriminate. Qed.
Lemma w_described : describes (w_file "SILICON") (text_of (w_file "SILICON")).
Proof. apply text_describes; [apply w_ok|vm_compute; reflexivity]. Qed.
Definition w_dims : dims := mkDims 5 5 5 5 5 [2; 2; 2; 10]%Q 4 2 4 64 20 10.
Lemma on_w_dims : forall r, on_chip grid20 r -> on_chip w_dims r.
Proof. intros r H. exact H. Qed.
Lemma w_coefficients : forall els, parse_floorplan_file 10 w_dims a_text = Ok (Some els) -> (coefficients els < two32)%Z.
Proof.
  intros els P. unfold parse_floorplan_file in P. rewrite (C70_reads _ _ a_spelled) in P. revert P. set (x := FlpText.decl_elements 10 w_dims (map element_value [el_a; el_b])).
  assert (K : match x with Ok (Some l) => (coefficients l <? two32)%Z | _ => false end = true) by (vm_compute; reflexivity). clearbody x. intros P.
  destruct x as [[l|]| |]; try discriminate K. cbn [bind] in P. injection P as <-. apply Z.ltb_lt. exact K.
Qed.
Example C73_witness : exists j, w_disk "SILICON" (name_codes (str "a.stk")) = Some (text_of (w_file "SILICON")) /\
  describes (w_file "SILICON") (text_of (w_file "SILICON")) /\ w_parse "SILICON" = Ok (Some j) /\
  let q := file_value (w_file "SILICON") in
  means (fun _ _ => 1#2)%Q (fun _ _ => 1%Q) w_double (fun _ _ => true) 10 (w_disk "SILICON") q j /\
  sane (fun _ _ => 1#2)%Q (fun _ _ => 1%Q) 10 (w_disk "SILICON") q j /\ transient_file q j /\ ~ refused (j_description j) (j_loaded j) /\
  lo_dims (j_loaded j) = w_dims /\ written_powers (w_disk "SILICON") q = [[-150; 2]; []]%Q.
Proof.
  destruct (w_actions "SILICON") as [[j|]| |] eqn:E; [|exfalso; revert E; vm_compute; discriminate..].
  assert (EE : match w_actions "SILICON" with Ok (Some j) => lo_dims (j_loaded j) = w_dims /\ an_slot_length (j_analysis j) = 2%Z /\ lo_channel (j_loaded j) = None /\
     (exists s h m, lo_top (j_loaded j) = Some (SinkPluggable s h m) /\ s_border_rows s = 1%Z /\ s_border_cols s = 2%Z) /\
     List.length (stack_heights None (x_stack (j_description j))) = 4%nat | _ => False end).
  { vm_compute. do 3 (split; [reflexivity|]). split; [|reflexivity]. eexists. eexists. eexists. split; [reflexivity|]. split; reflexivity. }
  rewrite E in EE. destruct EE as (WD & SL & NC & (s & h & m & WT & B1 & B2) & SH).
  assert (M : means (fun _ _ => 1#2)%Q (fun _ _ => 1%Q) w_double (fun _ _ => true) 10 (w_disk "SILICON") (file_value (w_file "SILICON")) j) 
    by (unfold w_actions in E; exact (proj1 (C73_meaning (fun _ _ => 1#2)%Q (fun _ _ => 1%Q) w_double (fun _ _ => true) 10 (w_disk "SILICON") (file_value (w_file "SILICON")) j) E)).
  exists j. split; [reflexivity|]. split; [exact w_described|].
  split; [unfold w_parse; apply (proj2 (C73_file (fun _ _ => 1#2)%Q (fun _ _ => 1%Q) w_double (fun _ _ => true) 10 (w_disk "SILICON") (name_codes (str "a.stk")) (text_of (w_file "SILICON")) (w_file "SILICON") j eq_refl w_described)); exact M|]. cbv zeta.
  split; [exact M|]. split; [|split; [|split; [|split]]].
  - constructor.
    + constructor; [|constructor]. split; vm_compute; reflexivity.
    + intros t X. vm_compute in X. injection X as <-. vm_compute. reflexivity.
    + intros b X. discriminate X.
    + intros c X. discriminate X.
    + vm_compute. auto.
    + split; [|intros _]; vm_compute; discriminate.
    + constructor; [|constructor]. split; [vm_compute; reflexivity|]. intros p text f Y FT R. vm_compute in Y. injection Y as <-. change (Some lay_text = Some text) in FT. injection FT as <-.
      assert (R' : read_layout lay_text = Some (layfile_value a_layfile)) by (apply C72_reads; apply described; vm_compute; reflexivity).
      rewrite R' in R. injection R as <-. constructor; [|constructor]. split; vm_compute; auto.
    + constructor; [|constructor]. constructor; [vm_compute; reflexivity|]. constructor; [vm_compute; reflexivity|]. constructor; [exact Logic.I|constructor].
    + intros id n p z [I|[I|[]]]; [|discriminate I]. injection I as <- <- <- <-. rewrite WD. intros text ds FT R. change (Some a_text = Some text) in FT. injection FT as <-.
      rewrite (C70_reads _ _ a_spelled) in R. assert (ds = map element_value [el_a; el_b]) by congruence. subst ds. split.
      * apply Forall_map. eapply Forall_impl; [|exact a_placed]. intros x [A B]. split; [|exact B]. eapply Forall_impl; [|exact A]. apply on_w_dims.
      * exact w_coefficients.
    + rewrite NC, SH. reflexivity.
    + rewrite WD. reflexivity.
    + intros s' h' m' X. rewrite WT in X. injection X as <- _ _. rewrite WD, B1, B2. split; reflexivity.
    + rewrite WD. vm_compute. discriminate.
  - split; [|rewrite SL; lia]. eexists. eexists. split; [reflexivity|]. reflexivity.
  - intros [(_ & U)|(U & _)]; [|rewrite WD in U; discriminate U]. rewrite NC in U. destruct U as (_ & c & X & _). discriminate X.
  - exact WD.
  - unfold written_powers.
    assert (FD : file_decls (w_disk "SILICON") (name_codes (str "f.flp")) = map element_value [el_a; el_b]).
    { unfold file_decls. assert (DK : w_disk "SILICON" (name_codes (str "f.flp")) = Some a_text) by reflexivity. rewrite DK, (C70_reads _ _ a_spelled). reflexivity. }
    transitivity (map powers_of (file_decls (w_disk "SILICON") (name_codes (str "f.flp")))).
    + generalize (w_disk "SILICON"). intros dk. cbn. apply app_nil_r.
    + rewrite FD. vm_compute. reflexivity.
Qed.
(** A spreader of an unknown material with a name of 83 characters. *)
Definition long_name : string := "sssssssssssssssssssssssssssssssssssssssssssssssssssssssssssssssssssssssssssssssssss".
Theorem C73_long_name_refuted : exists f text fs path, fs path = Some text /\ describes f text /\
  forall porosity pin_htc to_double plugin_starts fuel, parse_stack_file porosity pin_htc to_double plugin_starts fuel fs path = UB.
Proof.
  exists (w_file long_name), (text_of (w_file long_name)), (w_disk long_name), (name_codes (str "a.stk")).
  assert (D : describes (w_file long_name) (text_of (w_file long_name))) by (apply text_describes; [apply w_ok|vm_compute; reflexivity]).
  split; [reflexivity|]. split; [exact D|]. intros por pin tod plu fu.
  assert (N : NoDup (map m_id (fst (s_materials (file_value (w_file long_name))) :: snd (s_materials (file_value (w_file long_name))))))
    by (vm_compute; constructor; [intros []|constructor]).
  assert (NI : ~ In (name_codes (str long_name)) (map m_id (fst (s_materials (file_value (w_file long_name))) :: snd (s_materials (file_value (w_file long_name))))))
    by (vm_compute; intros [X|[]]; discriminate X).
  exact (C73_long_name por pin tod plu fu (w_disk long_name) (name_codes (str "a.stk")) (text_of (w_file long_name)) (w_file long_name)
           _ _ _ (name_codes (str long_name)) _ _ eq_refl D N eq_refl NI).
Qed.
Print Assumptions C73_long_name_refuted.
