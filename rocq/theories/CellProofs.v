(** * Cell parameters: defined and positive inside the grid *)
From Coq Require Import ZArith List Bool QArith Lia Lqa.
From Verif Require Import Base QSum Dims DimsSpec DimsProofs Floorplan FloorplanSpec FloorplanProofs Stack StackSpec PowerGrid Emulate EmulateSpec Conduct Matrix MatrixSpec.
Import ListNotations.
Local Open Scope Z_scope.

Definition val (o : outcome Q) : Q := match o with Ok x => x | _ => 0%Q end.

Section Cells.
  Variables (g : tgrid) (d : dims).
  Hypothesis G : good_tgrid d g.

  Lemma last_row_eq : last_row d = d_nrows d - 1.
  Proof. destruct (gt_grid d g G) as (A & _). unfold last_row. apply u32_id. lia. Qed.
  Lemma last_column_eq : last_column d = d_ncols d - 1.
  Proof. destruct (gt_grid d g G) as (_ & A & _). unfold last_column. apply u32_id. lia. Qed.
  Lemma layers_bound : d_nlayers d < two32.
  Proof.
    destruct (gt_grid d g G) as (A & B & C & _). destruct (gt_accepted d g G) as [_ _ _ D E].
    pose proof (gt_one d g G).
    assert (d_nlayers d * 1 <= d_nlayers d * (d_nrows d * d_ncols d)).
    { apply Z.mul_le_mono_nonneg_l; [lia|]. pose proof (Z.mul_pos_pos (d_nrows d) (d_ncols d)). lia. }
    rewrite Z.mul_assoc in *. unfold two32. lia.
  Qed.
  Lemma last_layer_eq : last_layer d = d_nlayers d - 1.
  Proof. pose proof layers_bound. pose proof (gt_one d g G). unfold last_layer. apply u32_id. lia. Qed.

  Lemma get_height : forall l, 0 <= l < d_nlayers d -> get_cell_height d l = Ok (nth (Z.to_nat l) (d_heights d) 0%Q).
  Proof.
    intros l L. unfold get_cell_height. destruct (gt_accepted d g G) as [_ _ A _ _].
    destruct (Z.ltb_spec (Z.of_nat (length (d_heights d))) l); [lia|]. apply arr_get_ok. lia.
  Qed.
  Definition layer_of (l : Z) : layer := nth (Z.to_nat l) (tg_layers g) layer0.
  Definition height (l : Z) : Q := nth (Z.to_nat l) (d_heights d) 0%Q.

  Lemma at_layer_in : forall l k, 0 <= l < d_nlayers d ->
      at_layer g d l k = k (type_of g l) (layer_of l) (height l).
  Proof.
    intros l k L. unfold at_layer. pose proof (gt_types d g G). pose proof (gt_layers d g G).
    destruct (Z.ltb_spec (Z.of_nat (length (tg_types g))) l); [lia|].
    rewrite (arr_get_ok _ l LT_NONE) by lia. cbn [bind]. rewrite (arr_get_ok _ l layer0) by lia. cbn [bind].
    rewrite get_height by lia. reflexivity.
  Qed.

  (** ** The types, case by case *)
  Lemma block_type : forall b j l, in_channel g d b j l ->
      exists ch, tg_channel g = Some ch /\ nth_error (expected_channel_types (ch_model ch)) j = Some (type_of g l).
  Proof.
    intros b j l (ch & C & -> & _ & _ & J & T). exists ch. split; [assumption|].
    destruct (nth_error (expected_channel_types (ch_model ch)) j) as [t|] eqn:E.
    - rewrite (proj1 (T j t E)). reflexivity.
    - apply nth_error_None in E. lia.
  Qed.

  (** A coolant or wall type gives its place in the channel. *)
  Lemma place_of : forall l, 0 <= l < d_nlayers d -> is_solid (type_of g l) = false ->
      exists ch b j, tg_channel g = Some ch /\ l = b + Z.of_nat j /\ 0 < b /\
        b + Z.of_nat (length (expected_channel_types (ch_model ch))) < d_nlayers d /\
        nth_error (expected_channel_types (ch_model ch)) j = Some (type_of g l) /\
        forall i t, nth_error (expected_channel_types (ch_model ch)) i = Some t -> type_of g (b + Z.of_nat i) = t /\
          ly_layout (layer_of (b + Z.of_nat i)) = [].
  Proof.
    intros l L H. destruct (gt_shape d g G l L) as [(S & _)|(b & j & I)]; [congruence|].
    destruct (block_type b j l I) as (ch & C & N). destruct I as (ch' & C' & E & B & B2 & J & T).
    assert (ch' = ch) by congruence. subst ch'. exists ch, b, j. auto 10.
  Qed.

  Lemma channel_some : forall l, 0 <= l < d_nlayers d -> is_solid (type_of g l) = false -> exists ch, tg_channel g = Some ch.
  Proof. intros l L H. destruct (place_of l L H) as (ch & _ & _ & C & _). eauto. Qed.

  Lemma solid_facts : forall l, 0 <= l < d_nlayers d -> is_solid (type_of g l) = true ->
      (to_ambient (type_of g l) = true -> l = d_nlayers d - 1 /\ has_ambient (tg_top g)) /\
      (to_spreader (type_of g l) = true -> l = d_nlayers d - 1) /\
      (to_pcb (type_of g l) = true -> l = 0 /\ tg_bottom g <> None).
  Proof.
    intros l L H. destruct (gt_shape d g G l L) as [(S & A)|(b & j & I)]; [exact A|].
    exfalso. destruct (block_type b j l I) as (ch & C & N).
    destruct (ch_model ch); cbn in N; repeat (destruct j as [|j]; cbn in N; try discriminate; try (injection N as N; rewrite <- N in H; discriminate)).
  Qed.

  (** 4RM: one layer strictly inside the stack. *)
  Lemma place_4rm : forall l, 0 <= l < d_nlayers d -> type_of g l = LT_CHANNEL_4RM ->
      exists ch, tg_channel g = Some ch /\ ch_model ch = CM_MC_4RM /\ 0 < l < d_nlayers d - 1.
  Proof.
    intros l L T. destruct (place_of l L) as (ch & b & j & C & E & B & B2 & N & _); [rewrite T; reflexivity|].
    exists ch. split; [assumption|]. rewrite T in N.
    destruct (ch_model ch); cbn in N, B2; repeat (destruct j as [|j]; cbn in N; try discriminate).
    split; [reflexivity|]. lia.
  Qed.

  (** The other models: four consecutive layers. *)
  Definition wall_of (m : channel_model) : layer_type := match m with CM_MC_2RM => LT_VWALL_CHANNEL | _ => LT_VWALL_PINFINS end.
  Definition cool_of (m : channel_model) : layer_type :=
    match m with CM_MC_2RM => LT_CHANNEL_2RM | CM_PF_INLINE => LT_PINFINS_INLINE | _ => LT_PINFINS_STAGGERED end.
  Definition four (ch : channel) (b : Z) : Prop :=
    tg_channel g = Some ch /\ ch_model ch <> CM_MC_4RM /\ ch_model ch <> CM_NONE /\ 0 < b /\ b + 4 < d_nlayers d /\
    type_of g b = LT_BOTTOM_WALL /\ type_of g (b + 1) = wall_of (ch_model ch) /\
    type_of g (b + 2) = cool_of (ch_model ch) /\ type_of g (b + 3) = LT_TOP_WALL /\ ly_layout (layer_of (b + 1)) = [].

  Lemma place_four : forall l, 0 <= l < d_nlayers d -> is_solid (type_of g l) = false -> type_of g l <> LT_CHANNEL_4RM ->
      exists ch b, four ch b /\
        (l = b /\ type_of g l = LT_BOTTOM_WALL \/ l = b + 1 /\ type_of g l = wall_of (ch_model ch) \/
         l = b + 2 /\ type_of g l = cool_of (ch_model ch) \/ l = b + 3 /\ type_of g l = LT_TOP_WALL).
  Proof.
    intros l L S T. destruct (place_of l L S) as (ch & b & j & C & E & B & B2 & N & A).
    assert (F : ch_model ch <> CM_MC_4RM).
    { intros H. rewrite H in N. repeat (destruct j as [|j]; cbn in N; try discriminate). congruence. }
    assert (F2 : ch_model ch <> CM_NONE) by (intros H; rewrite H in N; destruct j; discriminate).
    exists ch, b. assert (four ch b) as FF.
    { pose proof (A 0%nat) as A0. pose proof (A 1%nat) as A1. pose proof (A 2%nat) as A2. pose proof (A 3%nat) as A3.
      cbn [Z.of_nat] in A0. replace (b + 0) with b in A0 by lia.
      change (Z.of_nat 1) with 1 in A1. change (Z.of_nat 2) with 2 in A2. change (Z.of_nat 3) with 3 in A3.
      unfold four. destruct (ch_model ch); try congruence; cbn in A0, A1, A2, A3, B2; cbn [wall_of cool_of];
        (split; [assumption|]); (split; [discriminate|]); (split; [discriminate|]);
        (split; [assumption|]); (split; [lia|]); destruct (A0 _ eq_refl), (A1 _ eq_refl), (A2 _ eq_refl), (A3 _ eq_refl); auto. }
    split; [exact FF|].
    destruct (ch_model ch); try congruence;
      do 4 (destruct j as [|j]; [cbn in N; injection N as N; rewrite <- N; subst l; cbn; rewrite ?Z.add_0_r; auto 8|]);
      destruct j; discriminate.
  Qed.

  Ltac four_case l L H :=
    let ch := fresh "ch" in let b := fresh "b" in let F := fresh "F" in
    destruct (place_four l L) as (ch & b & F & [(-> & _)|[(-> & _)|[(-> & _)|(-> & _)]]]);
      [rewrite H; reflexivity|rewrite H; discriminate| | | | ].

  Lemma place_bottom : forall l, 0 <= l < d_nlayers d -> type_of g l = LT_BOTTOM_WALL -> exists ch, four ch l.
  Proof.
    intros l L H. destruct (place_four l L) as (ch & b & F & K); [rewrite H; reflexivity|rewrite H; discriminate|].
    exists ch. destruct K as [(-> & _)|[(_ & K)|[(_ & K)|(_ & K)]]]; [assumption| | |];
      rewrite H in K; destruct (ch_model ch); discriminate.
  Qed.
  Lemma place_vwall : forall l, 0 <= l < d_nlayers d -> (type_of g l = LT_VWALL_CHANNEL \/ type_of g l = LT_VWALL_PINFINS) ->
      exists ch, four ch (l - 1) /\ type_of g l = wall_of (ch_model ch).
  Proof.
    intros l L H. destruct (place_four l L) as (ch & b & F & K); [destruct H as [-> | ->]; reflexivity|destruct H as [-> | ->]; discriminate|].
    exists ch. destruct K as [(_ & K)|[(-> & K)|[(_ & K)|(_ & K)]]]; [| |  |];
      try (destruct H as [H|H]; rewrite H in K; destruct (ch_model ch); discriminate).
    replace (b + 1 - 1) with b by lia. auto.
  Qed.
  Lemma place_cool : forall l, 0 <= l < d_nlayers d -> is_coolant (type_of g l) = true -> type_of g l <> LT_CHANNEL_4RM ->
      exists ch, four ch (l - 2) /\ type_of g l = cool_of (ch_model ch).
  Proof.
    intros l L H N. destruct (place_four l L) as (ch & b & F & K); [destruct (type_of g l); try reflexivity; discriminate|assumption|].
    exists ch. destruct K as [(_ & K)|[(_ & K)|[(-> & K)|(_ & K)]]]; [| |  |];
      try (rewrite K in H; destruct (ch_model ch); discriminate).
    replace (b + 2 - 2) with b by lia. auto.
  Qed.
  Lemma place_top : forall l, 0 <= l < d_nlayers d -> type_of g l = LT_TOP_WALL -> exists ch, four ch (l - 3).
  Proof.
    intros l L H. destruct (place_four l L) as (ch & b & F & K); [rewrite H; reflexivity|rewrite H; discriminate|].
    exists ch. destruct K as [(_ & K)|[(_ & K)|[(_ & K)|(-> & K)]]]; [| |  |];
      try (rewrite H in K; destruct (ch_model ch); discriminate).
    replace (b + 3 - 3) with b by lia. auto.
  Qed.

  (** ** All parameters are defined inside the grid *)
  Lemma top_ok : forall l r c, 0 <= l < d_nlayers d -> get_conductance_top g d l r c = Ok (val (get_conductance_top g d l r c)).
  Proof.
    intros l r c L. unfold get_conductance_top. rewrite at_layer_in by assumption. rewrite last_layer_eq.
    destruct (is_solid (type_of g l)) eqn:S.
    - destruct (solid_facts l L S) as (A & B & C). destruct (type_of g l) eqn:T; try discriminate S; try reflexivity.
      + destruct (l =? d_nlayers d - 1); [|destruct (l =? 0)]; reflexivity.
      + destruct (l =? d_nlayers d - 1); [|destruct (l =? 0)]; reflexivity.
      + destruct (A eq_refl) as (_ & hh & t & E). unfold with_top. rewrite E. reflexivity.
      + rewrite (B eq_refl). rewrite Z.eqb_refl. cbn [negb]. destruct (d_nlayers d - 1 =? 0); reflexivity.
      + destruct (A eq_refl) as (_ & hh & t & E). unfold with_top. rewrite E. reflexivity.
      + rewrite (B eq_refl). rewrite Z.eqb_refl. cbn [negb]. destruct (d_nlayers d - 1 =? 0); reflexivity.
    - destruct (channel_some l L S) as (ch & E). unfold with_channel. rewrite E.
      destruct (type_of g l); try discriminate S; try reflexivity. destruct (is_channel_column CM_MC_4RM c); reflexivity.
  Qed.
  Lemma bottom_ok : forall l r c, 0 <= l < d_nlayers d -> get_conductance_bottom g d l r c = Ok (val (get_conductance_bottom g d l r c)).
  Proof.
    intros l r c L. unfold get_conductance_bottom. rewrite at_layer_in by assumption. rewrite last_layer_eq.
    destruct (is_solid (type_of g l)) eqn:S.
    - destruct (solid_facts l L S) as (A & B & C). destruct (type_of g l) eqn:T; try discriminate S; try reflexivity.
      + destruct (l =? 0); [|destruct (l =? d_nlayers d - 1)]; reflexivity.
      + destruct (l =? 0); [|destruct (l =? d_nlayers d - 1)]; reflexivity.
      + destruct (C eq_refl) as (_ & E). unfold with_bottom. destruct (tg_bottom g); [reflexivity|congruence].
      + destruct (C eq_refl) as (_ & E). unfold with_bottom. destruct (tg_bottom g); [reflexivity|congruence].
    - destruct (channel_some l L S) as (ch & E). unfold with_channel. rewrite E.
      destruct (type_of g l); try discriminate S; try reflexivity. destruct (is_channel_column CM_MC_4RM c); reflexivity.
  Qed.
  Lemma convective_ok : forall ch l r c, 0 <= l < d_nlayers d -> get_convective_term ch d l r c = Ok (val (get_convective_term ch d l r c)).
  Proof.
    intros ch l r c L. unfold get_convective_term. destruct (ch_model ch); try reflexivity; rewrite get_height by assumption; reflexivity.
  Qed.
  Lemma ns_ok : forall s l r c, 0 <= l < d_nlayers d -> conductance_ns s g d l r c = Ok (val (conductance_ns s g d l r c)).
  Proof.
    intros s l r c L. unfold conductance_ns. rewrite at_layer_in by assumption.
    destruct (is_solid (type_of g l)) eqn:S.
    - destruct (type_of g l) eqn:T; try discriminate S; reflexivity.
    - destruct (channel_some l L S) as (ch & E). unfold with_channel. rewrite E. rewrite (convective_ok ch) by assumption.
      destruct (type_of g l); try discriminate S; try reflexivity. destruct (is_channel_column CM_MC_4RM c); reflexivity.
  Qed.
  Lemma ew_ok : forall l r c, 0 <= l < d_nlayers d -> conductance_ew g d l r c = Ok (val (conductance_ew g d l r c)).
  Proof.
    intros l r c L. unfold conductance_ew. rewrite at_layer_in by assumption.
    destruct (is_solid (type_of g l)) eqn:S.
    - destruct (type_of g l) eqn:T; try discriminate S; reflexivity.
    - destruct (channel_some l L S) as (ch & E). unfold with_channel. rewrite E.
      destruct (type_of g l); try discriminate S; try reflexivity. destruct (is_channel_column CM_MC_4RM c); reflexivity.
  Qed.
  Lemma capacity_ok : forall l r c, 0 <= l < d_nlayers d -> get_capacity g d l r c = Ok (val (get_capacity g d l r c)).
  Proof.
    intros l r c L. unfold get_capacity. rewrite at_layer_in by assumption.
    destruct (is_solid (type_of g l)) eqn:S.
    - destruct (type_of g l) eqn:T; try discriminate S; reflexivity.
    - destruct (channel_some l L S) as (ch & E). unfold with_channel. rewrite E.
      destruct (type_of g l); try discriminate S; try reflexivity. destruct (is_channel_column CM_MC_4RM c); reflexivity.
  Qed.

  (** ** Positivity *)
  Hypothesis P : physical g d.

  Lemma cell_length_pos : forall c, 0 <= c < d_ncols d -> (0 < get_cell_length d c)%Q.
  Proof.
    intros c C. destruct (gt_grid d g G) as (_ & _ & _ & (A & B & W & K & _) & _). unfold get_cell_length. rewrite last_column_eq.
    destruct (Z.ltb_spec (d_ncols d - 1) c); [lia|].
    destruct (c =? 0); [assumption|]. destruct (c =? d_ncols d - 1); [assumption|]. destruct (Z.odd c); assumption.
  Qed.
  Lemma cell_width_eq : forall r, 0 <= r < d_nrows d -> get_cell_width d r = d_width d.
  Proof. intros r R. unfold get_cell_width. rewrite last_row_eq. destruct (Z.ltb_spec (d_nrows d - 1) r); [lia|reflexivity]. Qed.
  Lemma cell_width_pos : forall r, 0 <= r < d_nrows d -> (0 < get_cell_width d r)%Q.
  Proof. intros r R. rewrite cell_width_eq by assumption. destruct (gt_grid d g G) as (_ & _ & _ & (_ & _ & _ & _ & A) & _). assumption. Qed.
  Lemma height_pos : forall l, 0 <= l < d_nlayers d -> (0 < height l)%Q.
  Proof.
    intros l L. pose proof (ph_heights g d P) as H. rewrite Forall_forall in H. apply H. apply nth_In.
    destruct (gt_accepted d g G). lia.
  Qed.
  Lemma material_pos : forall l r c, 0 <= l < d_nlayers d -> physical_material (material_at d (layer_of l) r c).
  Proof.
    intros l r c L. pose proof (ph_layers g d P) as H. rewrite Forall_forall in H.
    assert (In (layer_of l) (tg_layers g)) as I by (apply nth_In; pose proof (gt_layers d g G); lia).
    destruct (H _ I) as (A & B). unfold material_at. destruct (find _ _) eqn:F; [|assumption].
    apply find_some in F. rewrite Forall_forall in B. apply B. tauto.
  Qed.

  Lemma Qdiv_pos : forall a b, (0 < a -> 0 < b -> 0 < a / b)%Q.
  Proof. intros a b A B. apply Qlt_shift_div_l; [assumption|]. lra. Qed.
  Lemma Qmul_pos : forall a b, (0 < a -> 0 < b -> 0 < a * b)%Q.
  Proof. intros. apply Qmult_lt_0_compat; assumption. Qed.
  Lemma Qhalf_pos : forall a, (0 < a -> 0 < a / 2)%Q.
  Proof. intros. apply Qdiv_pos; [assumption|reflexivity]. Qed.
  Lemma Qadd_pos : forall a b, (0 < a -> 0 < b -> 0 < a + b)%Q.
  Proof. intros. lra. Qed.

  Ltac pos := repeat first [assumption | apply Qdiv_pos | apply Qmul_pos | apply Qhalf_pos | apply Qadd_pos | reflexivity].

  Variables (l r c : Z).
  Hypothesis (L : 0 <= l < d_nlayers d) (R : 0 <= r < d_nrows d) (C : 0 <= c < d_ncols d).

  Lemma channel_phys : forall ch, tg_channel g = Some ch -> physical_channel ch.
  Proof. apply (ph_channel g d P). Qed.

  Lemma four_phys : forall ch b, four ch b -> (0 < co_vhc ch /\ 0 < ch_porosity ch /\ 0 < 1 - ch_porosity ch)%Q /\
      match ch_model ch with CM_MC_2RM => (0 < co_htc_top ch /\ 0 < co_htc_bottom ch)%Q | _ => (0 < ch_htc_pf ch)%Q end.
  Proof.
    intros ch b (E & N1 & N2 & _). destruct (channel_phys ch E) as (V & W). destruct (ch_model ch); try congruence;
      repeat split; try tauto; try lra; destruct W as (W1 & W2 & W3); lra.
  Qed.

  Lemma top_pos : type_of g l <> LT_TOP_WALL -> type_of g l <> LT_BOTTOM_WALL ->
      (l < d_nlayers d - 1 \/ to_ambient (type_of g l) = true \/ to_spreader (type_of g l) = true) ->
      (0 < val (get_conductance_top g d l r c))%Q.
  Proof.
    intros NT NB D. unfold get_conductance_top. rewrite at_layer_in by assumption. rewrite last_layer_eq.
    pose proof (cell_length_pos c C) as P1. pose proof (cell_width_pos r R) as P2. pose proof (height_pos l L) as P3.
    destruct (material_pos l r c L) as (P4 & P5 & P6 & P7).
    destruct (is_solid (type_of g l)) eqn:S.
    - destruct (solid_facts l L S) as (A & B & E).
      assert (LL : (to_ambient (type_of g l) = false -> to_spreader (type_of g l) = false -> (l =? d_nlayers d - 1) = false)).
      { intros F1 F2. apply Z.eqb_neq. destruct D as [D|[D|D]]; [lia|congruence|congruence]. }
      destruct (type_of g l) eqn:T; try discriminate S; cbn [val].
      + rewrite LL by reflexivity. destruct (l =? 0); cbn [val]; pos.
      + rewrite LL by reflexivity. destruct (l =? 0); cbn [val]; pos.
      + destruct (A eq_refl) as (_ & hh & t & EE). unfold with_top. rewrite EE. cbn [val]. pose proof (ph_top g d P _ _ EE). pos.
      + rewrite (B eq_refl). rewrite Z.eqb_refl. cbn [negb]. rewrite <- (B eq_refl). destruct (l =? 0); cbn [val]; pos.
      + pos.
      + destruct (A eq_refl) as (_ & hh & t & EE). unfold with_top. rewrite EE. cbn [val]. pose proof (ph_top g d P _ _ EE). pos.
      + rewrite (B eq_refl). rewrite Z.eqb_refl. cbn [negb]. rewrite <- (B eq_refl). destruct (l =? 0); cbn [val]; pos.
      + pos.
    - destruct (type_of g l) eqn:T; try discriminate S; try congruence.
      + destruct (gt_shape d g G l L) as [(X & _)|(b & j & I)]; [rewrite T in X; discriminate|].
        destruct (block_type b j l I) as (ch & _ & N). rewrite T in N.
        destruct (ch_model ch); cbn in N; repeat (destruct j as [|j]; cbn in N; try discriminate).
      + destruct (place_4rm l L T) as (ch & E & M & _). destruct (channel_phys ch E) as (V & W). rewrite M in W.
        unfold with_channel. rewrite E. destruct (is_channel_column CM_MC_4RM c); cbn [val]; destruct W as (W1 & W2 & W3); pos.
      + destruct (place_cool l L) as (ch & F & K); [rewrite T; reflexivity|rewrite T; discriminate|].
        destruct (four_phys ch _ F) as ((V1 & V2 & V3) & W). destruct F as (E & _). unfold with_channel. rewrite E. cbn [val].
        rewrite T in K. destruct (ch_model ch); try discriminate. destruct W. pos.
      + destruct (place_cool l L) as (ch & F & K); [rewrite T; reflexivity|rewrite T; discriminate|].
        destruct (four_phys ch _ F) as ((V1 & V2 & V3) & W). destruct F as (E & _). unfold with_channel. rewrite E. cbn [val].
        rewrite T in K. destruct (ch_model ch); try discriminate; pos.
      + destruct (place_cool l L) as (ch & F & K); [rewrite T; reflexivity|rewrite T; discriminate|].
        destruct (four_phys ch _ F) as ((V1 & V2 & V3) & W). destruct F as (E & N4 & N0 & _). unfold with_channel. rewrite E. cbn [val].
        rewrite T in K. destruct (ch_model ch); try discriminate; try congruence; pos.
      + destruct (place_vwall l L) as (ch & F & K); [auto|].
        destruct (four_phys ch _ F) as ((V1 & V2 & V3) & W). destruct F as (E & _). unfold with_channel. rewrite E. cbn [val]. pos.
      + destruct (place_vwall l L) as (ch & F & K); [auto|].
        destruct (four_phys ch _ F) as ((V1 & V2 & V3) & W). destruct F as (E & _). unfold with_channel. rewrite E. cbn [val]. pos.
  Qed.

  Lemma bottom_pos : type_of g l <> LT_TOP_WALL -> type_of g l <> LT_BOTTOM_WALL ->
      (0 < l \/ to_pcb (type_of g l) = true) ->
      (0 < val (get_conductance_bottom g d l r c))%Q.
  Proof.
    intros NT NB D. unfold get_conductance_bottom. rewrite at_layer_in by assumption. rewrite last_layer_eq.
    pose proof (cell_length_pos c C) as P1. pose proof (cell_width_pos r R) as P2. pose proof (height_pos l L) as P3.
    destruct (material_pos l r c L) as (P4 & P5 & P6 & P7).
    destruct (is_solid (type_of g l)) eqn:S.
    - destruct (solid_facts l L S) as (A & B & E).
      assert (LL : to_pcb (type_of g l) = false -> (l =? 0) = false).
      { intros F1. apply Z.eqb_neq. destruct D as [D|D]; [lia|congruence]. }
      destruct (type_of g l) eqn:T; try discriminate S; cbn [val]; try solve [pos].
      + rewrite LL by reflexivity. destruct (l =? d_nlayers d - 1); cbn [val]; pos.
      + rewrite LL by reflexivity. destruct (l =? d_nlayers d - 1); cbn [val]; pos.
      + destruct (E eq_refl) as (_ & EE). unfold with_bottom. destruct (tg_bottom g) as [bs|] eqn:EB; [|congruence]. cbn [val]. pose proof (ph_bottom g d P _ EB). pos.
      + destruct (E eq_refl) as (_ & EE). unfold with_bottom. destruct (tg_bottom g) as [bs|] eqn:EB; [|congruence]. cbn [val]. pose proof (ph_bottom g d P _ EB). pos.
    - destruct (type_of g l) eqn:T; try discriminate S; try congruence.
      + destruct (gt_shape d g G l L) as [(X & _)|(b & j & I)]; [rewrite T in X; discriminate|].
        destruct (block_type b j l I) as (ch & _ & N). rewrite T in N.
        destruct (ch_model ch); cbn in N; repeat (destruct j as [|j]; cbn in N; try discriminate).
      + destruct (place_4rm l L T) as (ch & E & M & _). destruct (channel_phys ch E) as (V & W). rewrite M in W.
        unfold with_channel. rewrite E. destruct (is_channel_column CM_MC_4RM c); cbn [val]; destruct W as (W1 & W2 & W3); pos.
      + destruct (place_cool l L) as (ch & F & K); [rewrite T; reflexivity|rewrite T; discriminate|].
        destruct (four_phys ch _ F) as ((V1 & V2 & V3) & W). destruct F as (E & _). unfold with_channel. rewrite E. cbn [val].
        rewrite T in K. destruct (ch_model ch); try discriminate. destruct W. pos.
      + destruct (place_cool l L) as (ch & F & K); [rewrite T; reflexivity|rewrite T; discriminate|].
        destruct (four_phys ch _ F) as ((V1 & V2 & V3) & W). destruct F as (E & _). unfold with_channel. rewrite E. cbn [val].
        rewrite T in K. destruct (ch_model ch); try discriminate; pos.
      + destruct (place_cool l L) as (ch & F & K); [rewrite T; reflexivity|rewrite T; discriminate|].
        destruct (four_phys ch _ F) as ((V1 & V2 & V3) & W). destruct F as (E & N4 & N0 & _). unfold with_channel. rewrite E. cbn [val].
        rewrite T in K. destruct (ch_model ch); try discriminate; try congruence; pos.
      + destruct (place_vwall l L) as (ch & F & K); [auto|].
        destruct (four_phys ch _ F) as ((V1 & V2 & V3) & W). destruct F as (E & _). unfold with_channel. rewrite E. cbn [val]. pos.
      + destruct (place_vwall l L) as (ch & F & K); [auto|].
        destruct (four_phys ch _ F) as ((V1 & V2 & V3) & W). destruct F as (E & _). unfold with_channel. rewrite E. cbn [val]. pos.
  Qed.

  (** North-south in solid columns, east-west in solid and 4RM layers. *)
  Lemma ns_pos : forall s, is_solid (type_of g l) = true \/ type_of g l = LT_CHANNEL_4RM /\ Z.odd c = false ->
      (0 < val (conductance_ns s g d l r c))%Q.
  Proof.
    intros s H. unfold conductance_ns. rewrite at_layer_in by assumption.
    pose proof (cell_length_pos c C) as P1. pose proof (cell_width_pos r R) as P2. pose proof (height_pos l L) as P3.
    destruct (material_pos l r c L) as (P4 & P5 & P6 & P7).
    destruct H as [H|(H & O)].
    - destruct (type_of g l); try discriminate H; cbn [val]; pos.
    - rewrite H. cbn [is_channel_column]. rewrite O. cbn [val]. pos.
  Qed.
  Lemma ew_pos : is_solid (type_of g l) = true \/ type_of g l = LT_CHANNEL_4RM ->
      (0 < val (conductance_ew g d l r c))%Q.
  Proof.
    intros H. unfold conductance_ew. rewrite at_layer_in by assumption.
    pose proof (cell_length_pos c C) as P1. pose proof (cell_width_pos r R) as P2. pose proof (height_pos l L) as P3.
    destruct (material_pos l r c L) as (P4 & P5 & P6 & P7).
    destruct H as [H|H].
    - destruct (type_of g l); try discriminate H; cbn [val]; pos.
    - rewrite H. destruct (place_4rm l L H) as (ch & E & M & _). destruct (channel_phys ch E) as (V & W). rewrite M in W.
      destruct W as (W1 & W2 & W3). unfold with_channel. rewrite E. destruct (is_channel_column CM_MC_4RM c); cbn [val]; pos.
  Qed.
  Lemma capacity_pos : type_of g l <> LT_TOP_WALL -> type_of g l <> LT_BOTTOM_WALL -> (0 < val (get_capacity g d l r c))%Q.
  Proof.
    intros NT NB. unfold get_capacity. rewrite at_layer_in by assumption.
    pose proof (cell_length_pos c C) as P1. pose proof (cell_width_pos r R) as P2. pose proof (height_pos l L) as P3.
    destruct (material_pos l r c L) as (P4 & P5 & P6 & P7).
    destruct (is_solid (type_of g l)) eqn:S.
    - destruct (type_of g l) eqn:T; try discriminate S; cbn [val]; pos.
    - destruct (type_of g l) eqn:T; try discriminate S; try congruence.
      + destruct (gt_shape d g G l L) as [(X & _)|(b & j & I)]; [rewrite T in X; discriminate|].
        destruct (block_type b j l I) as (ch & _ & N). rewrite T in N.
        destruct (ch_model ch); cbn in N; repeat (destruct j as [|j]; cbn in N; try discriminate).
      + destruct (place_4rm l L T) as (ch & E & M & _). destruct (channel_phys ch E) as (V & W).
        unfold with_channel. rewrite E. destruct (is_channel_column CM_MC_4RM c); cbn [val]; pos.
      + destruct (place_cool l L) as (ch & F & K); [rewrite T; reflexivity|rewrite T; discriminate|].
        destruct (four_phys ch _ F) as ((V1 & V2 & V3) & W). destruct F as (E & _). unfold with_channel. rewrite E. cbn [val]. pos.
      + destruct (place_cool l L) as (ch & F & K); [rewrite T; reflexivity|rewrite T; discriminate|].
        destruct (four_phys ch _ F) as ((V1 & V2 & V3) & W). destruct F as (E & _). unfold with_channel. rewrite E. cbn [val]. pos.
      + destruct (place_cool l L) as (ch & F & K); [rewrite T; reflexivity|rewrite T; discriminate|].
        destruct (four_phys ch _ F) as ((V1 & V2 & V3) & W). destruct F as (E & _). unfold with_channel. rewrite E. cbn [val]. pos.
      + destruct (place_vwall l L) as (ch & F & K); [auto|].
        destruct (four_phys ch _ F) as ((V1 & V2 & V3) & W). destruct F as (E & _). unfold with_channel. rewrite E. cbn [val]. pos.
      + destruct (place_vwall l L) as (ch & F & K); [auto|].
        destruct (four_phys ch _ F) as ((V1 & V2 & V3) & W). destruct F as (E & _). unfold with_channel. rewrite E. cbn [val]. pos.
  Qed.
End Cells.
