(** * The connections of the non-uniform heat network, every kind of cell *)
From Coq Require Import ZArith List Bool QArith Qfield Lia Lqa ZifyBool.
From Verif Require Import Base QSum Dims DimsProofs Floorplan FloorplanSpec FloorplanProofs Stack StackSpec StackProofs PowerGrid Emulate Conduct Matrix MatrixSpec CellProofs NonUniform NuMatrix NuMatrixSpec NuMatrixProofs NuTableProofs NuCoeffProofs NuLeaveProofs NuLinkSpec.
Import ListNotations.
Local Open Scope Z_scope.

Lemma Qdiv_pos : forall x y, (0 < x)%Q -> (0 < y)%Q -> (0 < x / y)%Q.
Proof. intros x y X Y. unfold Qdiv. apply Qmult_lt_0_compat; [exact X|apply Qinv_lt_0_compat, Y]. Qed.
Lemma parallel_res : forall v ra rb, (0 < v)%Q -> (0 < ra)%Q -> (0 < rb)%Q -> (parallel_of (v / ra) (v / rb) == v / (ra + rb))%Q.
Proof.
  intros v ra rb V A B. unfold parallel_of. pose proof (Qpos_neq _ V). pose proof (Qpos_neq _ A). pose proof (Qpos_neq _ B).
  assert (N1 : (0 < ra + rb)%Q) by lra. assert (N2 : (0 < v * rb + v * ra)%Q) by nra.
  apply Qpos_neq in N1, N2. field. repeat split; auto; intros E; first [apply N1; rewrite <- E; ring|apply N2; rewrite <- E; ring].
Qed.

Section Links.
  Variables (g : tgrid) (d : dims).
  Hypotheses (G : good_tgrid d g) (PH : physical g d).

  Lemma not_none : forall l, 0 <= l < d_nlayers d -> type_of g l <> LT_NONE.
  Proof.
    intros l L T. destruct (place_four g d G l L) as (ch & b & F & K); [rewrite T; reflexivity|rewrite T; discriminate|]. destruct F as (_ & M4 & MN & _).
    destruct K as [(_ & E)|[(_ & E)|[(_ & E)|(_ & E)]]]; rewrite T in E; destruct (ch_model ch); try discriminate; congruence.
  Qed.
  Lemma model_cool : forall l ch, 0 <= l < d_nlayers d -> tg_channel g = Some ch ->
      (type_of g l = LT_CHANNEL_2RM -> ch_model ch = CM_MC_2RM) /\
      (type_of g l = LT_PINFINS_INLINE \/ type_of g l = LT_PINFINS_STAGGERED -> ch_model ch = CM_PF_INLINE \/ ch_model ch = CM_PF_STAGGERED) /\
      (type_of g l = LT_VWALL_CHANNEL \/ type_of g l = LT_VWALL_PINFINS -> ch_model ch = CM_MC_2RM \/ ch_model ch = CM_PF_INLINE \/ ch_model ch = CM_PF_STAGGERED) /\
      (type_of g l = LT_VWALL_CHANNEL -> ch_model ch = CM_MC_2RM).
  Proof.
    intros l ch L C.
    assert (H : is_solid (type_of g l) = false -> type_of g l <> LT_CHANNEL_4RM -> exists b, 
       (l = b /\ type_of g l = LT_BOTTOM_WALL \/ l = b + 1 /\ type_of g l = wall_of (ch_model ch) \/ l = b + 2 /\ type_of g l = cool_of (ch_model ch) \/ l = b + 3 /\ type_of g l = LT_TOP_WALL) /\ ch_model ch <> CM_MC_4RM /\ ch_model ch <> CM_NONE).
    { intros S T. destruct (place_four g d G l L S T) as (ch' & b & F & K). destruct F as (C' & M4 & MN & _). assert (ch' = ch) by congruence. subst ch'. exists b. repeat split; assumption. }
    repeat split; intros T.
    1: destruct H as (b & K & M4 & MN); [rewrite T; reflexivity|rewrite T; discriminate|]; destruct K as [(_ & E)|[(_ & E)|[(_ & E)|(_ & E)]]]; rewrite T in E; destruct (ch_model ch); try discriminate; auto; congruence.
    3: destruct H as (b & K & M4 & MN); [rewrite T; reflexivity|rewrite T; discriminate|]; destruct K as [(_ & E)|[(_ & E)|[(_ & E)|(_ & E)]]]; rewrite T in E; destruct (ch_model ch); try discriminate; auto; congruence.
    all: destruct T as [T|T]; (destruct H as (b & K & M4 & MN); [rewrite T; reflexivity|rewrite T; discriminate|]; destruct K as [(_ & E)|[(_ & E)|[(_ & E)|(_ & E)]]]; rewrite T in E; destruct (ch_model ch); try discriminate; auto; congruence).
  Qed.

  (** Half a cell, vertically. *)
  Lemma z_spec : forall v c up x, in_stack g d c -> one_material g c -> positive_cell g c -> (0 < v)%Q -> nu_z g d v c up = Ok x ->
      (surface g d c = true -> (x == 0)%Q /\ (resistance_z g d c up == 0)%Q) /\
      (surface g d c = false -> (0 < resistance_z g d c up)%Q /\ (x == v / resistance_z g d c up)%Q).
  Proof.
    intros v c up x I O P V. unfold nu_z, surface, resistance_z. destruct (Z.leb_spec (d_nlayers d) (c_layer c)) as [L|L].
    - unfold with_spreader. destruct (tg_top g) as [[|s h m]|] eqn:T; try discriminate. intros [= <-]. split; [discriminate|]. intros _.
      destruct (ph_spreader g d PH s h m T) as ((H & _) & (_ & _ & _ & K)). assert (H2 : (0 < h / 2)%Q) by (apply half_pos; exact H). split; [apply Qdiv_pos; assumption|].
      pose proof (Qpos_neq _ H). pose proof (Qpos_neq _ K). field. repeat split; assumption.
    - assert (L0 : 0 <= c_layer c < d_nlayers d) by (destruct I; lia). rewrite (nu_layer_in g d G) by exact L0. rewrite (mat_one g d c O). change (height d (c_layer c)) with (cell_height d c).
      change (u32 (d_nlayers d - 1)) with (last_layer d). rewrite (last_layer_eq g d G). fold (at_end d c).
      pose proof (height_pos g d G PH c L0) as HP. pose proof (reach_pos g d G PH c L0) as RP. pose proof (material_pos g d G PH c L0 P) as (_ & _ & _ & KP). pose proof (half_pos _ HP) as H2. unfold cell_material, reach in *.
      pose proof (Qpos_neq _ HP). pose proof (Qpos_neq _ V). pose proof (Qpos_neq _ KP).
      assert (TEQ : forall h k w, (0 < h)%Q -> (0 < k)%Q -> (w == k * v / h)%Q -> (0 < h / k)%Q /\ (w == v / (h / k))%Q).
      { intros h k w Hh Hk E. split; [apply Qdiv_pos; assumption|]. rewrite E. pose proof (Qpos_neq _ Hh). pose proof (Qpos_neq _ Hk). field. split; assumption. }
      assert (FILM : forall k w, (0 < k)%Q -> (w == k * v)%Q -> (0 < 1 / k)%Q /\ (w == v / (1 / k))%Q).
      { intros k w Hk E. split; [apply Qdiv_pos; [reflexivity|assumption]|]. rewrite E. pose proof (Qpos_neq _ Hk). field. assumption. }
      destruct (is_solid (type_of g (c_layer c))) eqn:SO.
      + pose proof (solid_facts g d G (c_layer c) L0 SO) as (_ & F & _).
        destruct (type_of g (c_layer c)) eqn:TT; try discriminate; rewrite ?TT in KP, RP; cbn [is_source] in *; try (rewrite (F eq_refl), Z.eqb_refl; cbn [negb]);
          (intros [= <-]; split; [discriminate|]; intros _; apply TEQ; [try assumption; rewrite <- (F eq_refl); assumption|assumption|try rewrite (F eq_refl); reflexivity]).
      + destruct (channel_some g d G (c_layer c) L0 SO) as (ch & C). unfold with_channel. rewrite C. destruct (model_cool (c_layer c) ch L0 C) as (M2 & MP & MW & _). pose proof (ph_channel g d PH ch C) as (_ & PC).
        destruct (type_of g (c_layer c)) eqn:TT; try discriminate; rewrite ?TT in KP, RP; cbn [is_source] in *.
        * exfalso. exact (not_none (c_layer c) L0 TT).
        * destruct (place_4rm g d G (c_layer c) L0 TT) as (ch' & C' & M4 & _). assert (ch' = ch) by congruence. subst ch'. rewrite M4 in PC. destruct (c_channel c).
          -- intros [= <-]. split; [discriminate|]. intros _. apply FILM; [destruct up; apply PC|reflexivity].
          -- intros [= <-]. split; [discriminate|]. intros _. apply TEQ; [assumption|assumption|reflexivity].
        * rewrite (M2 eq_refl) in PC. intros [= <-]. split; [discriminate|]. intros _. apply FILM; [destruct up; apply PC|reflexivity].
        * intros [= <-]. split; [discriminate|]. intros _. apply FILM; [|reflexivity]. destruct (MP (or_introl eq_refl)) as [M|M]; rewrite M in PC; apply PC.
        * intros [= <-]. split; [discriminate|]. intros _. apply FILM; [|reflexivity]. destruct (MP (or_intror eq_refl)) as [M|M]; rewrite M in PC; apply PC.
        * intros [= <-]. split; [discriminate|]. intros _. assert (PO : (ch_porosity ch < 1)%Q) by (destruct (MW (or_introl eq_refl)) as [M|[M|M]]; rewrite M in PC; apply PC).
          assert (PO' : (0 < 1 - ch_porosity ch)%Q) by lra. split; [apply Qdiv_pos; [apply Qdiv_pos; assumption|assumption]|]. pose proof (Qpos_neq _ PO'). field. repeat split; assumption.
        * intros [= <-]. split; [discriminate|]. intros _. assert (PO : (ch_porosity ch < 1)%Q) by (destruct (MW (or_intror eq_refl)) as [M|[M|M]]; rewrite M in PC; apply PC).
          assert (PO' : (0 < 1 - ch_porosity ch)%Q) by lra. split; [apply Qdiv_pos; [apply Qdiv_pos; assumption|assumption]|]. pose proof (Qpos_neq _ PO'). field. repeat split; assumption.
        * intros [= <-]. split; [split; reflexivity|discriminate].
        * intros [= <-]. split; [split; reflexivity|discriminate].
  Qed.
  Lemma link_z : forall k a b x s, in_stack g d a -> in_stack g d b -> one_material g a -> one_material g b -> positive_cell g a -> positive_cell g b ->
      c_layer a <> c_layer b -> surface g d a && surface g d b = false ->
      k_dir k = 0 -> (0 < k_value k)%Q -> nu_conductance g d k b a = Ok (x, s) ->
      (s == 1)%Q /\ (x == - (k_value k / (resistance_z g d a (c_layer a <? c_layer b)%Z + resistance_z g d b (c_layer b <? c_layer a)%Z)))%Q.
  Proof.
    intros k a b x s IA IB OA OB PA PB NE NS D V. unfold nu_conductance. rewrite D. cbn [Z.eqb].
    assert (UP : negb (c_layer b <? c_layer a) = (c_layer a <? c_layer b)) by lia. rewrite UP.
    destruct (nu_z g d (k_value k) b (c_layer b <? c_layer a)) as [xb| |] eqn:XB; try discriminate. cbn [bind].
    destruct (nu_z g d (k_value k) a (c_layer a <? c_layer b)) as [xa| |] eqn:XA; try discriminate. cbn [bind].
    destruct (z_spec _ _ _ _ IA OA PA V XA) as (SA & RA). destruct (z_spec _ _ _ _ IB OB PB V XB) as (SB & RB).
    destruct (surface g d b) eqn:EB.
    - destruct (SB eq_refl) as (B0 & BR). assert (E0 : Qeq_bool xb 0 = true) by (apply Qeq_bool_iff; exact B0). rewrite E0. intros [= <- <-]. split; [reflexivity|].
      destruct (surface g d a); [discriminate|]. destruct (RA eq_refl) as (PR & E). rewrite E, BR, Qplus_0_r. reflexivity.
    - destruct (RB eq_refl) as (PRB & EXB). assert (NB : (0 < xb)%Q) by (rewrite EXB; apply Qdiv_pos; assumption). destruct (Qeq_bool xb 0) eqn:E0; [apply Qeq_bool_iff in E0; exfalso; exact (Qpos_neq _ NB E0)|].
      destruct (surface g d a) eqn:EA.
      + destruct (SA eq_refl) as (A0 & AR). assert (E1 : Qeq_bool xa 0 = true) by (apply Qeq_bool_iff; exact A0). rewrite E1. intros [= <- <-]. split; [reflexivity|]. rewrite EXB, AR, Qplus_0_l. reflexivity.
      + destruct (RA eq_refl) as (PRA & EXA). assert (NA : (0 < xa)%Q) by (rewrite EXA; apply Qdiv_pos; assumption). destruct (Qeq_bool xa 0) eqn:E1; [apply Qeq_bool_iff in E1; exfalso; exact (Qpos_neq _ NA E1)|].
        intros [= <- <-]. split; [reflexivity|]. rewrite (parallel_comp _ _ _ _ EXB EXA), parallel_res by assumption. rewrite (Qplus_comm (resistance_z g d b _)). reflexivity.
  Qed.

  (** Half a cell along x. *)
  Lemma x_spec : forall v c x, conducts_x g d c -> one_material g c -> positive_cell g c -> (0 < v)%Q -> nu_x g d v c = Ok x ->
      (0 < resistance_x g d c)%Q /\ (x == v * cell_height d c / resistance_x g d c)%Q.
  Proof.
    intros v c x (L & T) O P V X.
    assert (SOLID : c_channel c = false -> solid_cell g d c -> (0 < resistance_x g d c)%Q /\ (x == v * cell_height d c / resistance_x g d c)%Q).
    { intros CH SC. destruct (nu_x_solid g d G v c SC O) as (x' & X' & E). assert (x' = x) by congruence. subst x'. unfold resistance_x. rewrite CH.
      pose proof (material_pos g d G PH c L P) as (_ & KP & _). destruct P as (LP & _). pose proof (half_pos _ LP) as H2. split; [apply Qdiv_pos; assumption|]. rewrite E. pose proof (Qpos_neq _ KP). pose proof (Qpos_neq _ LP). field. split; assumption. }
    destruct T as [(S & CH)|T].
    - apply SOLID; [exact CH|]. repeat split; auto; lia.
    - destruct (c_channel c) eqn:CH; [|apply SOLID; [reflexivity|repeat split; auto; lia]]. unfold nu_x in X. destruct (Z.leb_spec (d_nlayers d) (c_layer c)); [lia|]. rewrite (nu_layer_in g d G) in X by exact L. rewrite T, CH in X.
      destruct (place_4rm g d G (c_layer c) L T) as (ch & C & M4 & _). unfold with_channel in X. rewrite C in X. injection X as <-. change (height d (c_layer c)) with (cell_height d c). unfold resistance_x. rewrite CH, C. pose proof (ph_channel g d PH ch C) as (_ & PC). rewrite M4 in PC. destruct PC as (S & _).
      split; [apply Qdiv_pos; [reflexivity|exact S]|]. pose proof (Qpos_neq _ S). field. assumption.
  Qed.
  Lemma link_x : forall k a b x s, conducts_x g d a -> conducts_x g d b -> one_material g a -> one_material g b -> positive_cell g a -> positive_cell g b -> c_layer a = c_layer b ->
      k_dir k = 1 -> (0 < k_value k)%Q -> nu_conductance g d k b a = Ok (x, s) ->
      (s == 1)%Q /\ (x == - (k_value k * cell_height d a / (resistance_x g d a + resistance_x g d b)))%Q.
  Proof.
    intros k a b x s SA SB OA OB PA PB LE D V. unfold nu_conductance. rewrite D. cbn [Z.eqb Pos.eqb].
    destruct (nu_x g d (k_value k) b) as [xb| |] eqn:XB; try discriminate. cbn [bind]. destruct (nu_x g d (k_value k) a) as [xa| |] eqn:XA; try discriminate. cbn [bind]. intros [= <- <-]. split; [reflexivity|].
    destruct (x_spec _ _ _ SA OA PA V XA) as (RA & EA). destruct (x_spec _ _ _ SB OB PB V XB) as (RB & EB). assert (HE : cell_height d b = cell_height d a) by (unfold cell_height; rewrite LE; reflexivity). rewrite HE in EB.
    destruct SA as (LA & _). pose proof (height_pos g d G PH a LA) as HP. assert (VH : (0 < k_value k * cell_height d a)%Q) by (apply Qmult_lt_0_compat; assumption).
    rewrite (parallel_comp _ _ _ _ EB EA), parallel_res by assumption. rewrite (Qplus_comm (resistance_x g d b)). reflexivity.
  Qed.

  (** Spreader cells side by side. *)
  Lemma link_spreader : forall k a b x s, d_nlayers d <= c_layer a -> d_nlayers d <= c_layer b -> c_channel a = false -> c_channel b = false ->
      nu_conductance g d k b a = Ok (x, s) -> k_dir k = 1 \/ k_dir k = 2 ->
      exists sp h m, tg_top g = Some (SinkPluggable sp h m) /\ (s == 1)%Q /\
        (k_dir k = 1 -> (x == - (s_cell_width sp * h * mt_kx m / s_cell_length sp))%Q) /\
        (k_dir k = 2 -> (x == - (s_cell_length sp * h * mt_ky m / s_cell_width sp))%Q).
  Proof.
    intros k a b x s LA LB CA CB. unfold nu_conductance, nu_x, nu_y. rewrite CA. assert (EA : (d_nlayers d <=? c_layer a) = true) by lia. assert (EB : (d_nlayers d <=? c_layer b) = true) by lia. rewrite EA, EB.
    unfold with_spreader. intros E D. destruct (tg_top g) as [[|sp h m]|] eqn:T; cbn [bind] in E; try (destruct D as [D|D]; rewrite D in E; discriminate).
    exists sp, h, m. split; [reflexivity|]. destruct (ph_spreader g d PH sp h m T) as ((H & SL & SW) & (_ & KX & KY & _)).
    pose proof (Qpos_neq _ H). pose proof (Qpos_neq _ SL). pose proof (Qpos_neq _ SW). pose proof (Qpos_neq _ KX). pose proof (Qpos_neq _ KY).
    destruct D as [D|D]; rewrite D in E; cbn [Z.eqb Pos.eqb] in E; injection E as <- <-; (split; [reflexivity|]); (split; [|]); intros D'; try congruence; try lia.
    - unfold parallel_of, spreader_east_west. pose proof (Qpos_neq _ (Qmult_lt_0_compat _ _ (Qmult_lt_0_compat _ _ KX H) SW)) as N. field. repeat split; auto; intros Z0; apply N; rewrite <- Qmult_assoc in *; lra.
    - unfold parallel_of, spreader_north_south. pose proof (Qpos_neq _ (Qmult_lt_0_compat _ _ (Qmult_lt_0_compat _ _ KY SL) H)) as N. field. repeat split; auto; intros Z0; apply N; lra.
  Qed.
End Links.
