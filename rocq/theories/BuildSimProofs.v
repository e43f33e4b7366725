From Coq Require Import ZArith List Bool QArith Qround Lia Lqa.
From Verif Require Import Base QSum Dims DimsSpec DimsProofs Queue QueueProofs Floorplan FloorplanSpec FloorplanProofs FlpMatrixProofs TempProofs
     Stack StackSpec StackProofs StackGridProofs StackAcceptProofs PowerGrid Emulate EmulateSpec Conduct Matrix MatrixSpec CellProofs NodeProofs
     LinkProofs SignProofs CscProofs EnumProofs CountProofs NetProofs BalanceSpec BalanceProofs VectorProofs Build BuildSpec BuildProofs PropMatrix.
Import ListNotations.
Local Open Scope Z_scope.

(** ** The channel of the grids *)
Definition next_channel (c : option channel) (e : stkel) : option channel := match se_kind e with SKChannel x => Some x | _ => c end.
Lemma fold_channel : forall es g b g' b', fold_out thermal_fill_element (g, b) es = Ok (g', b') ->
    tg_channel g' = fold_left next_channel es (tg_channel g).
Proof.
  induction es as [|e es IH]; intros g b g' b' H; cbn [fold_out] in H; [injection H as <- <-; reflexivity|].
  destruct (thermal_fill_element (g, b) e) as [[g1 b1]| |] eqn:E; cbn [bind] in H; try discriminate.
  rewrite (IH _ _ _ _ H). cbn [fold_left]. f_equal. unfold thermal_fill_element in E. unfold next_channel.
  destruct (se_kind e) as [dd|l|c];
    repeat match type of E with bind ?m _ = _ => destruct m; cbn [bind] in E; try discriminate end;
    injection E as <- _; reflexivity.
Qed.
Lemma grid_channel : forall n es top bot e g, thermal_grid_fill (thermal_grid_build n) es top bot = Ok (e, g) ->
    tg_channel g = channel_of_elements es.
Proof.
  intros n es top bot e g H. unfold thermal_grid_fill in H.
  destruct (fold_out thermal_fill_element (thermal_grid_build n, false) (rev es)) as [[g1 b1]| |] eqn:E; cbn [bind] in H; try discriminate.
  pose proof (fold_channel _ _ _ _ _ E) as C. unfold channel_of_elements. change (tg_channel (thermal_grid_build n)) with (@None channel) in C.
  change (tg_channel g = fold_left next_channel (rev es) None).
  enough (tg_channel g = tg_channel g1) by congruence. clear C E. cbv zeta in H.
  repeat first [ match type of H with
         | context [bind (match ?t with _ => _ end) _] => destruct t
         | context [if ?c then Ok None else _] => destruct c
         | context [arr_get ?a ?b] => destruct (arr_get a b)
         | context [arr_set ?a ?b ?c] => destruct (arr_set a b c)
         | match ?t with _ => _ end = _ => destruct t
         end; cbn [bind tg_types tg_channel] in H; try discriminate ];
  try (injection H as _ <-; reflexivity).
Qed.

  Lemma filter_rev_length : forall {A} (f : A -> bool) l, length (filter f (rev l)) = length (filter f l).
  Proof.
    intros A f l. induction l as [|a l IH]; [reflexivity|]. cbn [rev filter]. rewrite filter_app, app_length, IH. cbn [filter].
    destruct (f a); cbn [length]; lia.
  Qed.
  Definition is_bw (t : layer_type) : bool := match t with LT_BOTTOM_WALL => true | _ => false end.
  Lemma filter_repeat_false : forall {A} (f : A -> bool) a n, f a = false -> filter f (repeat a n) = [].
  Proof. intros A f a n H. induction n; cbn; [reflexivity|]. rewrite H. exact IHn. Qed.
  Lemma filter_set : forall {A} (f : A -> bool) (l : list A) n x y, (n < length l)%nat -> f (nth n l y) = false -> f x = false ->
      length (filter f (list_set l n x)) = length (filter f l).
  Proof.
    intros A f l. induction l as [|a l IH]; intros n x y H1 H2 H3; cbn [length] in H1; [lia|]. destruct n as [|n]; cbn [list_set nth filter] in *.
    - rewrite H2, H3. reflexivity.
    - specialize (IH n x y ltac:(lia) H2 H3). destruct (f a); cbn [length]; lia.
  Qed.
  Lemma retype_not_bw : forall top t, t = LT_SOLID \/ t = LT_SOURCE -> is_bw (retype_top top t) = false.
  Proof. intros [[]|] t [->| ->]; reflexivity. Qed.
  Lemma final_count : forall T top bot, (exists t r, T = t :: r /\ (t = LT_SOLID \/ t = LT_SOURCE)) ->
      (exists t r, T = r ++ [t] /\ (t = LT_SOLID \/ t = LT_SOURCE)) ->
      length (filter is_bw (final_types T top bot)) = length (filter is_bw T).
  Proof.
    intros T top bot (t0 & r0 & E0 & K0) (t1 & r1 & E1 & K1). unfold final_types. cbv zeta.
    assert (LT : (0 < length T)%nat) by (rewrite E0; cbn; lia).
    assert (NL : nth (length T - 1) T LT_NONE = t1).
    { rewrite E1 at 2. rewrite app_nth2; rewrite E1, app_length; cbn [length]; [|lia]. replace (length r1 + 1 - 1 - length r1)%nat with O by lia. reflexivity. }
    set (T1 := match top with None => T | Some _ => list_set T (length T - 1) (retype_top top (nth (length T - 1) T LT_NONE)) end).
    assert (length (filter is_bw T1) = length (filter is_bw T)) as F1.
    { unfold T1. destruct top as [tp|]; [|reflexivity]. apply (filter_set is_bw T (length T - 1) _ LT_NONE); [lia| |].
      - rewrite NL. destruct K1 as [-> | ->]; reflexivity.
      - rewrite NL. apply retype_not_bw. exact K1. }
    assert (length T1 = length T) as L1 by (unfold T1; destruct top; rewrite ?list_set_length; reflexivity).
    destruct bot as [bt|]; [|exact F1]. rewrite <- F1.
    assert (is_bw (nth 0 T1 LT_NONE) = false /\ is_bw (fst (retype_bottom (Some bt) (nth 0 T1 LT_NONE))) = false) as (W1 & W2).
    { assert (is_bw (nth 0 T1 LT_NONE) = false) as W.
      { unfold T1. destruct top as [tp|]; [|rewrite E0; destruct K0 as [-> | ->]; reflexivity].
        rewrite list_set_nth by lia. destruct (Nat.eqb_spec 0 (length T - 1)); [rewrite NL; apply retype_not_bw; exact K1|].
        rewrite E0. destruct K0 as [-> | ->]; reflexivity. }
      split; [exact W|]. destruct (nth 0 T1 LT_NONE); reflexivity || discriminate. }
    apply (filter_set is_bw T1 0 _ LT_NONE); [lia|exact W1|exact W2].
  Qed.
Section Chan.
  Variables (ch : option channel) (ds : list stack_decl) (es : list stkel) (hs : list Q).
  Hypothesis D : declared ch.
  Hypothesis B : Z.of_nat (length (stack_heights ch ds)) < two32.
  Hypothesis P : parse_stack ch ds = Ok (Some (es, hs)).

  Lemma laid_channel : forall o bs l c0, laid ch o bs l ->
      fold_left next_channel l c0 = if existsb is_chan_decl bs then ch else c0.
  Proof.
    intros o bs l c0 H. revert c0. induction H as [|o dc bs e l M _ _ H IH]; intro c0; [reflexivity|].
    cbn [fold_left existsb]. rewrite IH. pose proof (made_chan _ _ _ M) as MC. unfold is_channel in MC. unfold next_channel. rewrite <- MC.
    destruct M as (o' & M). destruct (se_kind e) as [dd|ly|c] eqn:K; cbn [orb]; [reflexivity|reflexivity|].
    destruct dc; cbn in M; try discriminate. destruct ch as [c'|]; [|discriminate].
    assert (c' = c) as -> by congruence. destruct (existsb is_chan_decl bs); reflexivity.
  Qed.
  Lemma channel_used : channel_of_elements es = if existsb is_chan_decl ds then ch else None.
  Proof.
    destruct (parse_stack_spec ch ds es hs (declared_ok ch D) B P) as (LD & _).
    unfold channel_of_elements. change (fold_left next_channel (rev es) None = if existsb is_chan_decl ds then ch else None).
    rewrite (laid_channel _ _ _ None LD).
    assert (existsb is_chan_decl (rev ds) = existsb is_chan_decl ds) as ->; [|reflexivity].
    apply eq_true_iff_eq. rewrite !existsb_exists. split; intros (a & I & J); exists a; (split; [|exact J]); apply (in_rev ds a); exact I.
  Qed.

  (** Channels are counted once. *)
  Lemma laid_count : forall o bs l, laid ch o bs l -> length (filter is_channel l) = length (filter is_chan_decl bs).
  Proof.
    intros o bs l H. induction H as [|o dc bs e l M _ _ H IH]; [reflexivity|]. cbn [filter]. rewrite (made_chan _ _ _ M).
    destruct (is_chan_decl dc); cbn [length]; lia.
  Qed.
  Lemma count_eq : count_channels es = Z.of_nat (length (filter is_chan_decl ds)).
  Proof.
    destruct (parse_stack_spec ch ds es hs (declared_ok ch D) B P) as (LD & _). unfold count_channels.
    rewrite <- (filter_rev_length is_channel es), (laid_count _ _ _ LD), filter_rev_length. reflexivity.
  Qed.

  Lemma types_count : forall bs, (forall c, ch = Some c -> ch_model c <> CM_MC_4RM) -> ch <> None ->
      length (filter is_bw (types_of ch bs)) = length (filter is_chan_decl bs).
  Proof.
    intros bs M N. pose proof (declared_ok ch D) as OK. destruct ch as [c|] eqn:EC; [|congruence]. specialize (M c eq_refl). destruct OK as (M0 & _).
    unfold types_of. induction bs as [|dc bs IH]; [reflexivity|]. cbn [flat_map filter]. rewrite filter_app, app_length, IH.
    destruct dc as [id a s b f|id l|id]; cbn [decl_types is_chan_decl].
    - rewrite filter_app. cbn [filter is_bw]. rewrite !filter_repeat_false by reflexivity. reflexivity.
    - reflexivity.
    - cbn [length]. destruct (ch_model c); congruence || reflexivity.
  Qed.
End Chan.

(** ** Connections for any channel model *)
Definition sink_part (R C : Z) (sp : option (Z * Z)) : Z :=
  match sp with Some (sr, sc) => sr * sc + 2 * (sr - 1) * sc + 2 * sr * (sc - 1) + 2 * R * C | None => 0 end.
Lemma number_2rm_gen : forall L R C k m sp, m <> CM_NONE -> m <> CM_MC_4RM ->
    number_of_connections L R C k m sp =
    u32 ((L - 4 * k) * (3 * (R * C) + 2 * ((R - 1) * C) + 2 * (R * (C - 1))) +
         k * (14 * (R * C) + (match m with CM_MC_2RM => 4 | _ => 2 end) * ((R - 1) * C)) + sink_part R C sp).
Proof.
  intros L R C k m sp M1 M2.
  pose proof (Z.div_mod (k * 4) two32 ltac:(discriminate)) as Q1. fold (u32 (k * 4)) in Q1. set (q1 := k * 4 / two32) in *.
  pose proof (Z.div_mod (L - u32 (k * 4)) two32 ltac:(discriminate)) as Q2. fold (u32 (L - u32 (k * 4))) in Q2. set (q2 := (L - u32 (k * 4)) / two32) in *.
  set (tmp := match m with CM_MC_2RM => 4 | _ => 2 end).
  set (X := 3 * (R * C) + 2 * ((R - 1) * C) + 2 * (R * (C - 1))).
  assert (E : forall x y, u32 (x + y * two32) = u32 x) by (intros x y; unfold u32; apply Z.mod_add; discriminate).
  assert (B : forall nlc nle, nlc = u32 (k * 4) -> nle = u32 (L - u32 (k * 4)) ->
    u32 (nle * R * C + 2 * nle * R * C + 2 * nle * (R - 1) * C + 2 * nle * R * (C - 1) + nlc * R * C + 2 * (nlc + k) * R * C + tmp * k * (R - 1) * C) =
    u32 ((L - 4 * k) * X + k * (14 * (R * C) + tmp * ((R - 1) * C)))).
  { intros nlc nle E1 E2. assert (nlc = 4 * k - q1 * two32) as -> by lia. assert (nle = L - 4 * k + (q1 - q2) * two32) as -> by lia.
    rewrite <- (E ((L - 4 * k) * X + k * (14 * (R * C) + tmp * ((R - 1) * C))) ((q1 - q2) * X - 3 * q1 * (R * C))). f_equal. unfold X. ring. }
  unfold number_of_connections.
  assert (forall A, match m with CM_NONE | CM_MC_4RM => A | _ => u32 (u32 (L - u32 (k * 4)) * R * C + 2 * u32 (L - u32 (k * 4)) * R * C + 2 * u32 (L - u32 (k * 4)) * (R - 1) * C + 2 * u32 (L - u32 (k * 4)) * R * (C - 1) + u32 (k * 4) * R * C + 2 * (u32 (k * 4) + k) * R * C + tmp * k * (R - 1) * C) end =
    u32 ((L - 4 * k) * X + k * (14 * (R * C) + tmp * ((R - 1) * C)))) as B2.
  { intros A. rewrite B by reflexivity. destruct m; congruence. }
  cbv zeta. fold tmp. rewrite B2. fold X. unfold sink_part.
  destruct sp as [[sr sc]|]; unfold u32; [|f_equal; try ring; rewrite Z.add_0_r; reflexivity].
  rewrite Zplus_mod_idemp_l, <- Z.add_assoc, Zplus_mod_idemp_l. f_equal; try ring; reflexivity.
Qed.

Lemma forall_queues : forall els, Forall (fun e => exists l, qrep (fe_powers e) l) els -> exists qs, Forall2 (fun e l => qrep (fe_powers e) l) els qs.
Proof. intros els H. induction H as [|e els (l & Q) H (qs & IH)]; [exists []; constructor|]. exists (l :: qs). constructor; assumption. Qed.

Lemma forall2_nth : forall {A B} (R : A -> B -> Prop) l m a b, length l = length m ->
    (forall k, (k < length l)%nat -> R (nth k l a) (nth k m b)) -> Forall2 R l m.
Proof.
  intros A B R l. induction l as [|t ts IH]; intros [|f fs] a b LL FN; try discriminate; [constructor|].
  constructor; [apply (FN O); cbn; lia|]. apply (IH fs a b); [cbn in LL; lia|]. intros k Hk. apply (FN (S k)). cbn. lia.
Qed.

(** ** The simulation built *)
Section Sim.
  Variables (x : description) (lo : loaded) (hs : list Q) (d0 : dims) (ncols : Z).
  Hypothesis F : load_facts x lo hs d0 ncols.
  Hypothesis SO : sound x lo.
  Notation d := (lo_dims lo).
  Notation ch := (lo_channel lo).
  Variable g : tgrid.
  Hypothesis TF : thermal_grid_fill (thermal_grid_build (d_nlayers d)) (lo_elements lo) (lo_top lo) (lo_bottom lo) = Ok (TDICE_SUCCESS, g).

  Lemma D : declared ch. Proof. exact (lf_declared _ _ _ _ _ F). Qed.
  Lemma LB : Z.of_nat (length (stack_heights ch (x_stack x))) < two32. Proof. exact (so_layers _ _ SO). Qed.
  Lemma P : parse_stack ch (x_stack x) = Ok (Some (lo_elements lo, hs)). Proof. exact (lf_stack _ _ _ _ _ F). Qed.
  Lemma GG : good_grid d. Proof. exact (load_good_grid x lo hs d0 ncols F SO). Qed.
  Lemma SP : forall s h m, lo_top lo = Some (SinkPluggable s h m) -> good_spreader d s.
  Proof. exact (fun s h m T => proj1 (load_spreader x lo hs d0 ncols F SO s h m T)). Qed.
  Lemma G : good_tgrid d g.
  Proof. exact (build_good_tgrid _ _ _ _ _ _ _ _ _ _ _ _ _ D LB P (lf_dims _ _ _ _ _ F) GG SP TF). Qed.
  Definition K := grid_facts _ _ _ _ _ _ _ _ _ _ _ _ _ D LB P (lf_dims _ _ _ _ _ F) GG SP TF.

  Lemma sim_channel : forall c, tg_channel g = Some c -> ch = Some c /\ existsb is_chan_decl (x_stack x) = true.
  Proof.
    intros c T. rewrite (grid_channel _ _ _ _ _ _ TF), (channel_used _ _ _ _ D LB P) in T.
    destruct (existsb is_chan_decl (x_stack x)); [auto|discriminate].
  Qed.

  Lemma flow_nonneg : forall fr, (0 <= fr)%Q -> (0 <= flow_rate_um3sec fr)%Q.
  Proof.
    intros fr H. unfold flow_rate_um3sec. apply Qle_shift_div_l; [reflexivity|]. rewrite Qmult_0_l. apply Qmult_le_0_compat; [exact H|discriminate].
  Qed.
  Lemma porosity_facts : forall len wl, (0 < len)%Q -> (0 < wl)%Q -> (0 < len / (wl + len) /\ len / (wl + len) < 1)%Q.
  Proof.
    intros len wl H1 H2. assert (0 < wl + len)%Q as H by lra. split.
    - apply Qlt_shift_div_l; [exact H|]. lra.
    - apply Qlt_shift_div_r; [exact H|]. lra.
  Qed.
  Lemma sound_chan : forall c, ch = Some c ->
      (0 < ch_height c)%Q /\ physical_material (ch_wall c) /\ physical_channel c /\ ch_model c <> CM_NONE /\
      (some_channel lo -> match ch_model c with
        | CM_MC_4RM => (0 <= co_flow_rate c)%Q /\ 0 < ch_nchannels c
        | CM_MC_2RM => (0 <= co_flow_rate c)%Q /\ 0 < ch_nchannels c /\ (0 < ch_length c)%Q
        | CM_PF_INLINE | CM_PF_STAGGERED => (0 <= co_darcy c)%Q
        | CM_NONE => True
        end).
  Proof.
    intros c E. pose proof (lf_channel _ _ _ _ _ F) as LC. pose proof (so_channel _ _ SO) as SC.
    destruct (x_channel x) as [cd|] eqn:XC; [|congruence]. destruct LC as (c' & E' & DC). assert (c' = c) as -> by congruence. clear E'.
    specialize (SC cd eq_refl). unfold some_channel. assert (SCN := fun H : some_channel lo => H c E). destruct cd; cbn in DC, SC.
    - match type of DC with Ok ?a = _ => assert (c = a) as -> by congruence end. cbn.
      destruct SC as ((S1 & S2 & S3 & S4 & S5 & S6) & SM). unfold physical_channel. cbn. split; [exact S1|]. split; [exact SM|]. split; [auto|]. split; [discriminate|]. intros _. split.
      + apply flow_nonneg. assumption.
      + destruct (dims_inv x lo hs d0 ncols F) as (_ & _ & _ & _ & _ & _ & _ & PC).
        pose proof (ncols_eq x lo hs d0 ncols F) as NE. destruct (parse_columns_inv _ _ _ _ _ _ _ _ PC) as (RG & SH).
        assert (exists k, 0 <= k /\ d_ncols d = 2 * k + 3) as (k & K0 & K1).
        { destruct SH as [(U & _)|(U & k & K0 & K1 & _)]; [|eauto]. unfold x_grid in U. rewrite XC in U. destruct (x_walls x) as [[[? ?] ?] ?]. discriminate. }
        pose proof (load_good_grid x lo hs d0 ncols F SO) as (_ & GC & _). rewrite <- NE, u32_id by lia. rewrite K1. replace (2 * k + 3 - 1) with ((k + 1) * 2) by lia. rewrite Z.div_mul by lia. lia.
    - destruct (to_u32 _) as [n| |] eqn:TU in DC; cbn in DC; try discriminate.
      match type of DC with Ok ?a = _ => assert (c = a) as -> by congruence end. cbn [ch_height ch_wall ch_model ch_nchannels co_flow_rate ch_length] in *.
      destruct SC as ((S1 & S2 & S3 & S4 & S5 & S6 & S7) & SM). destruct (porosity_facts _ _ S2 S3) as (Q1 & Q2).
      unfold physical_channel. cbn. split; [exact S1|]. split; [exact SM|]. split; [auto|]. split; [discriminate|]. intros HS. split; [apply flow_nonneg; assumption|]. split; [exact (SCN HS eq_refl)|exact S2].
    - match type of DC with Ok ?a = _ => assert (c = a) as -> by congruence end.
      destruct SC as ((S1 & S2 & S3 & S4 & S5 & S6) & SM). unfold physical_channel. destruct staggered; cbn; (split; [exact S1|]; split; [exact SM|]; split; [auto|]; split; [discriminate|]; intros _; exact S4).
  Qed.

  Lemma used_declared : forall id, In (DeclChannel id) (x_stack x) -> exists c, ch = Some c.
  Proof.
    intros id I. destruct (load_layers x lo hs d0 ncols F SO) as ((_ & _ & _ & _ & A) & _).
    assert (ch <> None) as N by (apply A; exists (DeclChannel id); auto). destruct ch as [c|]; [eauto|congruence].
  Qed.
  Lemma sound_heights : Forall (fun h => 0 < h)%Q (stack_heights ch (x_stack x)).
  Proof.
    apply Forall_forall. intros h I. unfold stack_heights in I. apply in_flat_map in I. destruct I as (dc & I1 & I2).
    pose proof (so_stack _ _ SO) as SS. rewrite Forall_forall in SS. specialize (SS dc I1).
    destruct dc as [id a s b f|id l|id]; cbn [decl_heights sound_decl] in *.
    - destruct SS as (SS & _). change (ly_height s :: map ly_height b) with (map ly_height (s :: b)) in I2. rewrite <- map_app in I2.
      apply in_map_iff in I2. destruct I2 as (l & <- & I2). rewrite Forall_forall in SS. apply (SS l I2).
    - destruct I2 as [<-|[]]. apply SS.
    - apply repeat_spec in I2. subst h. unfold chan_height. destruct (used_declared id I1) as (c & E). rewrite E. apply (sound_chan c E).
  Qed.
  Lemma sound_layers : Forall physical_layer (flat_map (decl_layers ch) (x_stack x)).
  Proof.
    apply Forall_forall. intros l I. apply in_flat_map in I. destruct I as (dc & I1 & I2).
    pose proof (so_stack _ _ SO) as SS. rewrite Forall_forall in SS. specialize (SS dc I1).
    destruct dc as [id a s b f|id l0|id]; cbn [decl_layers sound_decl] in *.
    - destruct SS as (SS & _). rewrite Forall_forall in SS. apply (SS l I2).
    - destruct I2 as [<-|[]]. apply SS.
    - destruct (used_declared id I1) as (c & E). rewrite E in I2. apply repeat_spec in I2. subst l. split; [apply (sound_chan c E)|constructor].
  Qed.

  Lemma sim_physical : physical g d.
  Proof.
    pose proof K as (fs & _ & _ & LY & TT & TB & _). destruct (dims_inv x lo hs d0 ncols F) as (_ & _ & _ & _ & HH & _).
    destruct (load_layers x lo hs d0 ncols F SO) as (_ & HR & _). constructor.
    - rewrite HH, HR. apply Forall_rev. exact sound_heights.
    - rewrite LY. apply Forall_rev. exact sound_layers.
    - intros c T. destruct (sim_channel c T) as (E & _). apply (sound_chan c E).
    - intros h a T. rewrite TT in T. pose proof (lf_top _ _ _ _ _ F) as M. rewrite T in M. unfold make_top in M. pose proof (so_top _ _ SO) as ST.
      destruct (x_top x) as [[h' a'|len wid h' m']|]; try discriminate; [injection M as -> ->; exact ST|].
      destruct (initialize_heat_spreader d0 len wid) as [[]| |]; discriminate.
    - intros b T. rewrite TB, (lf_bottom _ _ _ _ _ F) in T. apply (so_bottom _ _ SO b T).
    - intros s h m T. rewrite TT in T. destruct (load_spreader x lo hs d0 ncols F SO s h m T) as (_ & (Q1 & Q2) & Q3 & Q4). auto.
  Qed.
  Lemma sim_flow : some_channel lo -> physical_flow g.
  Proof. intros SC c T. destruct (sim_channel c T) as (E & _). destruct (sound_chan c E) as (_ & _ & _ & _ & X). exact (X SC). Qed.

  (** Floorplans and queues. *)
  Lemma sound_good : forall f, sound_floorplan d f -> good_floorplan d f.
  Proof.
    intros f (els & E1 & E2 & E3 & _). exists els, f. split; [exact E1|]. split; [exact E2|]. split; [exact E3|]. split; [reflexivity|].
    assert (Forall (good_el d) els) as HE by (eapply Forall_impl; [|exact E1]; intros e He; apply good_element_el; [exact GG|exact He]).
    destruct (fill_floorplan_ok d els GG HE E2) as (f' & Q1 & _ & Q2 & _ & Q3). assert (f' = f) as -> by congruence. rewrite Q2, Q3. auto.
  Qed.
  Lemma sound_queues : forall f, sound_floorplan d f -> Forall (fun e => exists l, qrep (fe_powers e) l) (f_elements f).
  Proof.
    intros f (els & E1 & E2 & E3 & E4).
    assert (Forall (good_el d) els) as HE by (eapply Forall_impl; [|exact E1]; intros e He; apply good_element_el; [exact GG|exact He]).
    destruct (fill_floorplan_ok d els GG HE E2) as (f' & Q1 & _ & Q2 & _ & Q3). assert (f' = f) as -> by congruence. rewrite Q2. exact E4.
  Qed.
  Lemma flps_elements : forall bs, flat_map layer_elements (flps_of ch bs) = flat_map decl_elements bs.
  Proof.
    assert (NN : forall n, flat_map layer_elements (repeat None n) = []) by (induction n; cbn; auto).
    intros bs. unfold flps_of. induction bs as [|dc bs IH]; [reflexivity|]. cbn [flat_map]. rewrite flat_map_app, IH. f_equal.
    destruct dc as [id a s b f|id l|id]; cbn [decl_flps decl_elements].
    - rewrite flat_map_app, NN. cbn [flat_map layer_elements app]. rewrite NN, app_nil_r. reflexivity.
    - reflexivity.
    - apply NN.
  Qed.
  Lemma described_queues : exists qs, Forall2 (fun e l => qrep (fe_powers e) l) (described_elements x) qs.
  Proof.
    apply forall_queues. unfold described_elements. apply Forall_forall. intros e I. apply in_flat_map in I. destruct I as (dc & I1 & I2).
    rewrite <- in_rev in I1. pose proof (so_stack _ _ SO) as SS. rewrite Forall_forall in SS. specialize (SS dc I1).
    destruct dc as [id a s b f|id l|id]; cbn [decl_elements sound_decl] in *; [|destruct I2|destruct I2].
    destruct SS as (_ & SF). pose proof (sound_queues f SF) as Q. rewrite Forall_forall in Q. apply (Q _ I2).
  Qed.

  (** Connections. *)
  Lemma cells_eq : d_ncells d = unknowns g d /\ unknowns g d = chip_cells d + spreader_cells (lo_top lo) /\ 1 <= d_nlayers d.
  Proof.
    pose proof K as (fs & _ & _ & LY & TT & TB & _). destruct (dims_inv x lo hs d0 ncols F) as (_ & _ & _ & _ & _ & _ & NC & _).
    unfold unknowns. rewrite TT. split; [exact NC|]. split; [reflexivity|]. exact (gt_one d g G).
  Qed.
  Lemma grid_sink : spreader_of g = sink_rows (lo_top lo).
  Proof. pose proof K as (fs & _ & _ & LY & TT & TB & _). unfold spreader_of, sink_rows. rewrite TT. destruct (lo_top lo) as [[]|]; reflexivity. Qed.
  Lemma types_eq : tg_types g = final_types (types_of ch (rev (x_stack x))) (lo_top lo) (lo_bottom lo).
  Proof.
    pose proof K as (fs & PT & _). pose proof (power_types _ _ _ _ D LB P (lo_top lo) (lo_bottom lo)) as PT2.
    destruct (load_layers x lo hs d0 ncols F SO) as (_ & _ & _ & NL). rewrite NL in PT. rewrite PT in PT2. congruence.
  Qed.
  Lemma filter_zrange : forall (T : list layer_type) a, 0 <= a ->
      length (filter (fun l => is_bw (nth (Z.to_nat (l - a)) T LT_NONE)) (zrange a (a + Z.of_nat (length T) - 1))) = length (filter is_bw T).
  Proof.
    induction T as [|t T IH]; intros a A.
    - cbn [length]. assert (zrange a (a + Z.of_nat 0 - 1) = []) as ->; [|reflexivity].
      assert (Z.of_nat (length (zrange a (a + Z.of_nat 0 - 1))) = 0) as E by (rewrite zrange_length; lia). destruct (zrange a _); [reflexivity|cbn in E; lia].
    - cbn [length]. rewrite zrange_cons by lia. cbn [filter]. replace (is_bw (nth (Z.to_nat (a - a)) (t :: T) LT_NONE)) with (is_bw t) by (rewrite Z.sub_diag; reflexivity).
      specialize (IH (a + 1) ltac:(lia)). replace (a + 1 + Z.of_nat (length T) - 1) with (a + Z.of_nat (S (length T)) - 1) in IH by lia.
      assert (filter (fun l => is_bw (nth (Z.to_nat (l - a)) (t :: T) LT_NONE)) (zrange (a + 1) (a + Z.of_nat (S (length T)) - 1)) =
              filter (fun l => is_bw (nth (Z.to_nat (l - (a + 1))) T LT_NONE)) (zrange (a + 1) (a + Z.of_nat (S (length T)) - 1))) as ->.
      { apply filter_ext_in. intros l I. apply in_zrange in I. replace (Z.to_nat (l - a)) with (S (Z.to_nat (l - (a + 1)))) by lia. reflexivity. }
      destruct (is_bw t); cbn [length]; rewrite IH; reflexivity.
  Qed.
  Lemma channels_count : forall c, tg_channel g = Some c -> ch_model c <> CM_MC_4RM -> channels_of g d = count_channels (lo_elements lo).
  Proof.
    intros c T M. destruct (sim_channel c T) as (E & _). rewrite (count_eq _ _ _ _ D LB P). unfold channels_of. f_equal.
    rewrite <- (filter_rev_length is_chan_decl), <- (types_count ch (x_stack x) (lo_elements lo) hs D LB P (rev (x_stack x))); [|intros c' E'; congruence|congruence].
    rewrite <- (final_count _ (lo_top lo) (lo_bottom lo) (bottom_solid _ _ _ _ D LB P) (top_solid _ _ _ _ D LB P)), <- types_eq.
    rewrite <- (filter_zrange (tg_types g) 0 ltac:(lia)). rewrite (gt_types d g G). f_equal. apply filter_ext_in. intros l _.
    unfold type_of. rewrite Z.sub_0_r. reflexivity.
  Qed.

  (** Products of the sizes. *)
  Lemma cells_bound : forall an, 7 * d_ncells d < two32 -> total (map (col g d an) (nodes g d)) <= lo_connections lo.
  Proof.
    intros an S7. destruct cells_eq as (N1 & N2 & N3). rewrite (lf_connections _ _ _ _ _ F), <- grid_sink.
    set (L := d_nlayers d). set (R := d_nrows d). set (C := d_ncols d).
    pose proof GG as (R1 & C1 & _). fold R in R1. fold C in C1.
    assert (RC : 1 <= R * C) by (pose proof (Z.mul_le_mono_nonneg 1 R 1 C); lia).
    assert (RC1 : (R - 1) * C = R * C - C) by ring. assert (RC2 : R * (C - 1) = R * C - R) by ring.
    assert (LRC : chip_cells d = L * (R * C)) by (unfold chip_cells; fold L R C; ring).
    assert (L1 : R * C <= L * (R * C)) by (pose proof (Z.mul_le_mono_nonneg_r 1 L (R * C)); lia).
    assert (SPP : 0 <= sink_part R C (spreader_of g) <= 7 * spreader_cells (lo_top lo)).
    { rewrite grid_sink. unfold sink_part, sink_rows, spreader_cells. destruct (lo_top lo) as [[h a|s h m]|] eqn:T; try lia.
      destruct (SP s h m T) as [Q1 Q2 Q3 Q4 _ _ _]. fold R in Q3. fold C in Q4.
      assert (R <= s_nrows s /\ C <= s_ncols s) as (Q5 & Q6) by lia.
      pose proof (Z.mul_le_mono_nonneg R (s_nrows s) C (s_ncols s) ltac:(lia) Q5 ltac:(lia) Q6).
      set (A := s_nrows s * s_ncols s) in *.
      replace (2 * (s_nrows s - 1) * s_ncols s) with (2 * A - 2 * s_ncols s) by (unfold A; ring).
      replace (2 * s_nrows s * (s_ncols s - 1)) with (2 * A - 2 * s_nrows s) by (unfold A; ring).
      assert (s_nrows s <= A) by (unfold A; rewrite <- (Z.mul_1_r (s_nrows s)) at 1; apply Z.mul_le_mono_nonneg_l; lia).
      assert (s_ncols s <= A) by (unfold A; rewrite <- (Z.mul_1_l (s_ncols s)) at 1; apply Z.mul_le_mono_nonneg_r; lia).
      replace (2 * R * C) with (2 * (R * C)) by ring. lia. }
    assert (M4 : forall gg, spreader_of gg = spreader_of g -> meant_4rm gg d = L * (R * C) + 2 * ((L - 1) * (R * C)) + 2 * (L * ((R - 1) * C)) + 2 * (L * (R * (C - 1))) + sink_part R C (spreader_of g)).
    { intros gg E. unfold meant_4rm, sink_part. rewrite E. fold L R C. destruct (spreader_of g) as [[sr sc]|]; ring. }
    assert (P1 : 0 <= (L - 1) * (R * C) /\ 0 <= L * ((R - 1) * C) <= L * (R * C) /\ 0 <= L * (R * (C - 1)) <= L * (R * C)).
    { assert (0 <= (R - 1) * C <= R * C) by (split; [apply Z.mul_nonneg_nonneg; lia|lia]).
      assert (0 <= R * (C - 1) <= R * C) by (split; [apply Z.mul_nonneg_nonneg; lia|lia]).
      fold L in N3. repeat split; try (apply Z.mul_nonneg_nonneg; lia); apply Z.mul_le_mono_nonneg_l; lia. }
    assert (P2 : (L - 1) * (R * C) = L * (R * C) - R * C) by ring.
    assert (SMALL4 : only_4rm g d -> 0 <= meant_4rm g d < two32).
    { intros O. split; [rewrite <- (total_4rm g d an G O); unfold total; lia|]. rewrite (M4 g eq_refl). lia. }
    destruct (existsb is_chan_decl (x_stack x)) eqn:EX.
    - (* used *)
      assert (tg_channel g = ch) as TC.
      { rewrite (grid_channel _ _ _ _ _ _ TF), (channel_used _ _ _ _ D LB P), EX. reflexivity. }
      assert (model_of g = declared_model ch) as MO by (unfold model_of, declared_model; rewrite TC; reflexivity).
      assert (declared_model ch = CM_MC_4RM \/ declared_model ch = CM_NONE \/ (declared_model ch <> CM_NONE /\ declared_model ch <> CM_MC_4RM)) as CASES
        by (destruct (declared_model ch); (left; reflexivity) || (right; left; reflexivity) || (right; right; split; discriminate)).
      assert (only_4rm g d -> declared_model ch = model_of g) as _ by auto.
      destruct CASES as [E|[E|(E1 & E2)]].
      + assert (only_4rm g d) as O.
        { split; [right; congruence|]. intros l Hl. destruct (gt_shape d g G l Hl) as [(Q & _)|(b & j & c & Tc & El & _ & _ & J & Q)]; [left; exact Q|right].
          assert (ch_model c = CM_MC_4RM) as Ec by (unfold declared_model in E; rewrite <- TC, Tc in E; exact E). rewrite Ec in *.
          cbn [expected_channel_types length] in J. assert (j = O) as -> by lia. destruct (Q O LT_CHANNEL_4RM eq_refl) as (Q1 & _). rewrite El. exact Q1. }
        rewrite (total_4rm g d an G O), <- MO. unfold L, R, C. rewrite (number_4rm g d _ O), u32_id by (apply SMALL4; exact O). lia.
      + exfalso. apply existsb_exists in EX. destruct EX as (dc & I & J). destruct dc as [| |id]; try discriminate.
        destruct (used_declared id I) as (c & Ec). destruct (sound_chan c Ec) as (_ & _ & _ & N & _). unfold declared_model in E. rewrite Ec in E. congruence.
      + assert (exists c, tg_channel g = Some c /\ ch_model c <> CM_MC_4RM /\ declared_model ch = ch_model c) as (c & T & M & MM).
        { unfold declared_model in *. destruct ch as [c|] eqn:Ec; [|congruence]. exists c. split; [congruence|]. auto. }
        rewrite (number_2rm_gen L R C _ _ _ E1 E2), <- (channels_count c T M). set (k := channels_of g d).
        pose proof (count_2rm g d an G c T M) as CT.
        set (meant := (L - 4 * k) * (3 * (R * C) + 2 * ((R - 1) * C) + 2 * (R * (C - 1))) +
             k * (14 * (R * C) + match declared_model ch with CM_MC_2RM => 4 | _ => 2 end * ((R - 1) * C)) + sink_part R C (spreader_of g)).
        assert (total (map (col g d an) (nodes g d)) + 2 * (R * C) = meant) as CT2.
        { etransitivity; [exact CT|]. rewrite spreader_part_eq, channels_eq. unfold meant, around, sink_part. rewrite MM. fold k L R C.
          unfold is_2rm. destruct (ch_model c); cbn [b2z]; destruct (spreader_of g) as [[sr sc]|]; ring. }
        assert (0 <= total (map (col g d an) (nodes g d))) as TP by (unfold total; lia).
        assert (0 <= k /\ 4 * k <= L) as (K1 & K2).
        { unfold k. rewrite (channels_count c T M), (count_eq _ _ _ _ D LB P). destruct (load_layers x lo hs d0 ncols F SO) as (_ & HR & _ & NL). split; [lia|].
          unfold L. rewrite NL, HR, rev_length. destruct (sim_channel c T) as (Ec & _).
          assert (chan_layers ch = 4%nat) as C4 by (unfold chan_layers; rewrite Ec; destruct (ch_model c); congruence || reflexivity).
          assert (forall l, 4 * Z.of_nat (length (filter is_chan_decl l)) <= Z.of_nat (length (stack_heights ch l))) as X; [|apply X].
          induction l as [|dc l IH]; [cbn; lia|]. unfold stack_heights in *. cbn [flat_map filter]. rewrite app_length.
          destruct dc as [id a s b f|id l0|id]; cbn [is_chan_decl]; try lia. cbn [length decl_heights]. rewrite repeat_length, C4. lia. }
        assert (meant < two32) as MB.
        { unfold meant. assert ((L - 4 * k) * (3 * (R * C) + 2 * ((R - 1) * C) + 2 * (R * (C - 1))) <= (L - 4 * k) * (7 * (R * C))) by (apply Z.mul_le_mono_nonneg_l; lia).
          assert (k * (14 * (R * C) + match declared_model ch with CM_MC_2RM => 4 | _ => 2 end * ((R - 1) * C)) <= k * (28 * (R * C))) by (apply Z.mul_le_mono_nonneg_l; [lia|]; destruct (declared_model ch); lia).
          assert ((L - 4 * k) * (7 * (R * C)) + k * (28 * (R * C)) = 7 * (L * (R * C))) by ring. lia. }
        rewrite u32_id by lia. lia.
    - (* declared but not used, or no channel *)
      assert (tg_channel g = None) as TC by (rewrite (grid_channel _ _ _ _ _ _ TF), (channel_used _ _ _ _ D LB P), EX; reflexivity).
      assert (only_4rm g d) as O.
      { split; [left; unfold model_of; rewrite TC; reflexivity|]. intros l Hl.
        destruct (gt_shape d g G l Hl) as [(Q & _)|(b & j & c & Tc & _)]; [left; exact Q|congruence]. }
      rewrite (total_4rm g d an G O).
      assert (count_channels (lo_elements lo) = 0) as ->.
      { rewrite (count_eq _ _ _ _ D LB P). assert (filter is_chan_decl (x_stack x) = []) as ->; [|reflexivity].
        destruct (filter is_chan_decl (x_stack x)) as [|dc l] eqn:FE; [reflexivity|]. exfalso.
        assert (In dc (filter is_chan_decl (x_stack x))) as I by (rewrite FE; left; reflexivity). apply filter_In in I.
        assert (existsb is_chan_decl (x_stack x) = true) as X by (apply existsb_exists; exists dc; exact I). congruence. }
      assert (declared_model ch = CM_MC_4RM \/ declared_model ch = CM_NONE \/ (declared_model ch <> CM_NONE /\ declared_model ch <> CM_MC_4RM)) as CASES
        by (destruct (declared_model ch); (left; reflexivity) || (right; left; reflexivity) || (right; right; split; discriminate)).
      assert (forall m, m = CM_MC_4RM \/ m = CM_NONE -> number_of_connections L R C 0 m (spreader_of g) = number_of_connections L R C 0 (model_of g) (spreader_of g)) as NN.
      { intros m E. unfold model_of. rewrite TC. destruct E as [-> | ->]; reflexivity. }
      destruct CASES as [E|[E|(E1 & E2)]].
      + rewrite (NN _ (or_introl E)). unfold L, R, C. rewrite (number_4rm g d 0 O), u32_id by (apply SMALL4; exact O). lia.
      + rewrite (NN _ (or_intror E)). unfold L, R, C. rewrite (number_4rm g d 0 O), u32_id by (apply SMALL4; exact O). lia.
      + rewrite (number_2rm_gen L R C _ _ _ E1 E2). rewrite (M4 g eq_refl).
        assert ((L - 4 * 0) * (3 * (R * C) + 2 * ((R - 1) * C) + 2 * (R * (C - 1))) = 3 * (L * (R * C)) + 2 * (L * ((R - 1) * C)) + 2 * (L * (R * (C - 1)))) as -> by ring.
        rewrite Z.mul_0_l, Z.add_0_r. rewrite u32_id by lia. lia.
  Qed.

  (** Vectors. *)
  Lemma over_layer_ok : forall (f : Z -> Z -> outcome Q) (h : Z -> Z -> Q),
      (forall r c, f r c = Ok (h r c)) -> exists v, over_layer d f = Ok v /\ Z.of_nat (length v) = d_nrows d * d_ncols d.
  Proof.
    intros f h H. unfold over_layer. rewrite (map_out_map _ (fun rc => h (fst rc) (snd rc))) by (intros [r c] _; apply H).
    eexists. split; [reflexivity|]. rewrite map_length. rewrite (coords_eq g d G), prod_length, Nat2Z.inj_mul, !zrange_length.
    pose proof GG as (R1 & C1 & _). lia.
  Qed.
  Lemma zero_layer : Z.of_nat (length (repeat 0%Q (Z.to_nat (get_layer_area d)))) = d_nrows d * d_ncols d /\ get_layer_area d = d_nrows d * d_ncols d.
  Proof.
    pose proof GG as (R1 & C1 & A & _). assert (0 <= d_nrows d * d_ncols d) by (apply Z.mul_nonneg_nonneg; lia).
    rewrite repeat_length. unfold get_layer_area. rewrite u32_id by lia. lia.
  Qed.
  Lemma top_tcs_ok : exists v, top_tcs g d = Ok v /\ Z.of_nat (length v) = d_nrows d * d_ncols d.
  Proof.
    unfold top_tcs. pose proof (gt_one d g G) as N1. destruct (tg_top g) as [[h a|s h m]|]; try (eexists; split; [reflexivity|apply zero_layer]).
    apply (over_layer_ok _ (fun r c => 0 + val (get_conductance_top g d (last_layer d) r c))%Q). intros r c.
    rewrite (last_layer_eq g d G). rewrite (top_ok g d G) at 1 by lia. reflexivity.
  Qed.
  Lemma bottom_tcs_ok : exists v, bottom_tcs g d = Ok v /\ Z.of_nat (length v) = d_nrows d * d_ncols d.
  Proof.
    unfold bottom_tcs. pose proof (gt_one d g G) as N1. destruct (tg_bottom g) as [k|]; [|eexists; split; [reflexivity|apply zero_layer]].
    apply (over_layer_ok _ (fun r c => 0 + val (get_conductance_bottom g d 0 r c))%Q). intros r c.
    rewrite (bottom_ok g d G) at 1 by lia. reflexivity.
  Qed.

  Lemma power_ok : exists pg, power_grid_fill d g (lo_elements lo) (lo_top lo) (lo_bottom lo) = Ok pg /\
      good_pgrid d pg /\ grid_of g d pg /\ elements pg = described_elements x.
  Proof.
    pose proof K as (fs & PT & LF & LY & TT & TB & TC & LT & KK). destruct top_tcs_ok as (vt & ET & VT). destruct bottom_tcs_ok as (vb & EB & VB).
    destruct cells_eq as (N1 & N2 & N3). destruct (load_layers x lo hs d0 ncols F SO) as (ACC & HR & HL & NL).
    destruct (dims_inv x lo hs d0 ncols F) as (A & _ & _ & _ & HH & _).
    pose proof (capacities_eq g d G) as EC. pose proof (nodes_length g d G) as NN.
    assert (LC : Z.of_nat (length (map (ncap g d) (nodes g d))) = d_ncells d) by (rewrite map_length; congruence).
    assert (LC0 : (Z.to_nat (d_ncells d) - length (map (ncap g d) (nodes g d)))%nat = O) by lia.
    unfold power_grid_fill. rewrite PT. cbn [bind]. rewrite EC. cbn [bind]. rewrite ET. cbn [bind]. rewrite EB. cbn [bind].
    rewrite LC, Z.ltb_irrefl, LC0. cbn [repeat]. rewrite app_nil_r.
    eexists. split; [reflexivity|].
    assert (fs = flps_of ch (rev (x_stack x))) as EF.
    { pose proof (power_types _ _ _ _ D LB P (lo_top lo) (lo_bottom lo)) as PT2. rewrite NL in PT. rewrite PT in PT2. congruence. }
    assert (CO : channel_of_elements (lo_elements lo) = tg_channel g) by (symmetry; apply (grid_channel _ _ _ _ _ _ TF)).
    assert (NC32 : d_ncells d < two32) by (pose proof (ac_max _ A); unfold two32; lia).
    split; [|split].
    - unfold good_pgrid. cbn [pg_ncells pg_top pg_ncells_layer pg_sources pg_caps pg_top_tcs pg_bottom_tcs pg_types pg_flps].
      split; [exact GG|]. split; [exact N3|]. split; [rewrite HH; lia|]. split; [congruence|]. split; [exact NC32|]. split.
      { intros s h m T. destruct (SP s h m T) as [Q1 Q2 Q3 Q4 _ _ _]. pose proof GG as (R1 & C1 & _). lia. }
      split; [apply zero_layer|]. split; [rewrite repeat_length; lia|]. split; [exact LC|]. split; [exact VT|]. split; [exact VB|].
      split; [rewrite NL; lia|]. 
      assert (FN : forall k, (k < length hs)%nat -> good_layer d (mkPgrid (d_nlayers d) (d_ncells d) (get_layer_area d) (tg_types g) fs (lo_top lo) (lo_bottom lo) (channel_of_elements (lo_elements lo))
                   (repeat 0%Q (Z.to_nat (d_ncells d))) (map (ncap g d) (nodes g d)) vt vb) (nth k (tg_types g) LT_NONE) (nth k fs None)).
      { intros k Hk. destruct (KK k Hk) as (Q1 & Q2 & Q3 & Q4 & Q5 & Q6 & Q7 & Q8). unfold good_layer. cbn [pg_top pg_bottom pg_channel].
        split; [exact Q1|]. split; [|split; [|split; [|split]]].
        - rewrite Q2. split; [intros (f & S1); apply Q3 in S1; congruence|]. intro N. destruct (nth k fs None) as [f|]; [|congruence]. exists f. apply Q3. reflexivity.
        - intros f E. apply Q3 in E. destruct E as (i & id & a & so & b & E & _). apply nth_error_In in E.
          pose proof (so_stack _ _ SO) as SS. rewrite Forall_forall in SS. specialize (SS _ E). cbn in SS. apply sound_good. tauto.
        - intro E. apply Q5 in E. tauto.
        - intro E. apply Q7 in E. tauto.
        - intros E. rewrite CO. destruct (gt_shape d g G (Z.of_nat k) ltac:(lia)) as [(S1 & _)|(b & j & c & Tc & _)]; [|congruence].
          unfold type_of in S1. rewrite Nat2Z.id in S1. destruct (nth k (tg_types g) LT_NONE); discriminate. }
      apply (forall2_nth _ _ _ LT_NONE None); [congruence|]. rewrite LT. exact FN.
    - constructor; cbn [pg_types pg_top pg_bottom pg_channel pg_caps pg_top_tcs pg_bottom_tcs]; auto.
    - unfold elements. cbn [pg_flps]. rewrite EF, flps_elements. reflexivity.
  Qed.

  Lemma matrix_ok : forall an, 7 * d_ncells d < two32 -> exists m,
      fill_system_matrix (system_matrix_build (d_ncells d) (lo_connections lo)) g an d = Ok m /\ filled g d an m.
  Proof.
    intros an S7. destruct cells_eq as (N1 & N2 & N3). pose proof (cells_bound an S7) as TB.
    pose proof (fill_ok g d an _ (unknowns g d) (lo_connections lo) (columns_ok g d an G)) as FO.
    rewrite map_length in FO. specialize (FO (eq_sym (nodes_length g d G)) TB). rewrite <- N1 in FO.
    eexists. split; [exact FO|]. exists (system_matrix_build (d_ncells d) (lo_connections lo)). split; [|split; [|exact FO]].
    - unfold system_matrix_build. cbn [sm_ptr]. rewrite repeat_length. pose proof (nodes_length g d G). lia.
    - unfold system_matrix_build. cbn [sm_vals sm_rows]. rewrite !repeat_length. reflexivity.
  Qed.
End Sim.
