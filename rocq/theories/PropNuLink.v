(** * C57: every kind of connection of the non-uniform heat network *)
From Coq Require Import ZArith List Bool QArith Lia Lqa.
From Verif Require Import Base QSum Dims DimsProofs Floorplan Stack StackSpec PowerGrid Emulate Conduct Matrix MatrixSpec CellProofs NonUniform
  NuMatrix NuMatrixSpec NuMatrixProofs NuTableProofs NuCoeffProofs NuLeaveProofs NuLinkSpec NuLinkProofs PropNuMatrix PropMatrix PropStack.
Import ListNotations.
Local Open Scope Z_scope.

(** One above the other: the area over the sum of the two resistances, whatever
    the cells are made of. *)
Theorem C57_vertical : forall g d an cells cs m k, network g d an cells cs m -> In k cs -> k_dir k = 0 -> (0 < k_value k)%Q ->
    let i := k_node1 k in let j := k_node2 k in let a := at_cell cells i in let b := at_cell cells j in
    c_layer a < c_layer b -> surface g d a && surface g d b = false ->
    exchange m i j (k_value k / (resistance_z g d a true + resistance_z g d b false)).
Proof.
  intros g d an cells cs m k [G PH C GC M] I D V i j a b LT NS. destruct (coefficient_connected g d an cells cs m GC M k I) as (a' & b' & x & s & A & B & X & E1 & E2).
  destruct (arr_at _ _ _ A) as (EA & IA). destruct (arr_at _ _ _ B) as (EB & IB). fold i in EA. fold j in EB. fold a in EA. fold b in EB. subst a' b'.
  destruct (C a IA) as (KA & OA & PA). destruct (C b IB) as (KB & OB & PB). fold i j in E1, E2. unfold exchange.
  destruct (link_z g d G PH k a b x s KA KB OA OB PA PB ltac:(lia) NS D V X) as (ES & EX). rewrite E2, E1, ES, EX. assert (U1 : (c_layer a <? c_layer b) = true) by lia. assert (U2 : (c_layer b <? c_layer a) = false) by lia. rewrite U1, U2. split; ring.
Qed.
Print Assumptions C57_vertical.

(** Side by side along x: solids, and a four-resistor channel with its walls. *)
Theorem C57_across : forall g d an cells cs m k, network g d an cells cs m -> In k cs -> k_dir k = 1 -> (0 < k_value k)%Q ->
    let i := k_node1 k in let j := k_node2 k in let a := at_cell cells i in let b := at_cell cells j in
    conducts_x g d a -> conducts_x g d b -> c_layer a = c_layer b ->
    exchange m i j (k_value k * cell_height d a / (resistance_x g d a + resistance_x g d b)).
Proof.
  intros g d an cells cs m k [G PH C GC M] I D V i j a b SA SB LE. destruct (coefficient_connected g d an cells cs m GC M k I) as (a' & b' & x & s & A & B & X & E1 & E2).
  destruct (arr_at _ _ _ A) as (EA & IA). destruct (arr_at _ _ _ B) as (EB & IB). fold i in EA. fold j in EB. fold a in EA. fold b in EB. subst a' b'.
  destruct (C a IA) as (_ & OA & PA). destruct (C b IB) as (_ & OB & PB). fold i j in E1, E2. unfold exchange.
  destruct (link_x g d G PH k a b x s SA SB OA OB PA PB LE D V X) as (ES & EX). rewrite E2, E1, ES, EX. split; ring.
Qed.
Print Assumptions C57_across.

(** The side walls of two-resistor channels, along the flow: the conductance does
    not depend on the cells. It is that of two blocks in series, for the part of
    the layer that is wall, exactly when the contact is as long as the distance
    of the two centres. *)
Theorem C57_side_walls : forall g d an cells cs m k, network g d an cells cs m -> In k cs -> k_dir k = 2 -> (0 < k_value k)%Q ->
    let i := k_node1 k in let j := k_node2 k in let a := at_cell cells i in let b := at_cell cells j in
    0 <= c_layer a < d_nlayers d -> type_of g (c_layer a) = LT_VWALL_CHANNEL -> c_layer b = c_layer a -> c_channel a = false -> c_channel b = false ->
    exists ch, tg_channel g = Some ch /\ let ky := mt_ky (cell_material g a) in let wall := (1 - ch_porosity ch)%Q in
      exchange m i j (wall * ky * cell_height d a) /\
      let true_value := (wall * in_series (k_value k * cell_height d a) (c_width a / 2) ky (c_width b / 2) ky)%Q in
      (exchange m i j true_value <-> (k_value k == (c_width a + c_width b) / 2)%Q).
Proof.
  intros g d an cells cs m k [G PH C GC M] I D V i j a b LA T LB CA CB. destruct (coefficient_connected g d an cells cs m GC M k I) as (a' & b' & x & s & A & B & X & E1 & E2).
  destruct (arr_at _ _ _ A) as (EA & IA). destruct (arr_at _ _ _ B) as (EB & IB). fold i in EA. fold j in EB. fold a in EA. fold b in EB. subst a' b'. fold i j in E1, E2.
  destruct (C a IA) as (_ & OA & PA). destruct (C b IB) as (_ & OB & PB).
  destruct (place_four g d G (c_layer a) LA) as (ch & b0 & F & _); [rewrite T; reflexivity|rewrite T; discriminate|]. destruct F as (CH & _). exists ch. split; [exact CH|].
  pose proof (model_cool g d G (c_layer a) ch LA CH) as (_ & _ & _ & M2). specialize (M2 T).
  pose proof (ph_channel g d PH ch CH) as (_ & PC). rewrite M2 in PC.
  pose proof (height_pos g d G PH a LA) as HP. pose proof (material_pos g d G PH a LA PA) as (_ & _ & KP & _).
  assert (CM : cell_material g a = ly_mat (cell_layer g a)) by (unfold cell_material; rewrite T; reflexivity).
  assert (PO : (0 < 1 - ch_porosity ch)%Q) by (assert (ch_porosity ch < 1)%Q by apply PC; lra).
  destruct PA as (_ & WA & _). destruct PB as (_ & WB & _).
  assert (EX : (s == 1)%Q /\ (x == - ((1 - ch_porosity ch) * mt_ky (cell_material g a) * cell_height d a))%Q).
  { revert X. unfold nu_conductance. rewrite D. cbn [Z.eqb Pos.eqb]. rewrite CA. set (sg := if Qlt_bool _ _ then _ else _). unfold nu_y. rewrite LB. destruct (Z.leb_spec (d_nlayers d) (c_layer a)); [lia|].
    rewrite !(nu_layer_in g d G) by exact LA. rewrite T. unfold with_channel. rewrite CH. cbn [bind]. rewrite (mat_one g d a OA), <- CM. change (height d (c_layer a)) with (cell_height d a).
    intros [= <- <-]. split; [reflexivity|]. unfold parallel_of. set (q := mt_ky (cell_material g a)) in *. set (h := cell_height d a) in *. set (p := (1 - ch_porosity ch)%Q) in *. set (v := k_value k) in *.
    pose proof (Qpos_neq _ V). assert (N : ~ (q * v * h / (v / 2) * p + q * v * h / (v / 2) * p == 0)%Q).
    { assert (E : (q * v * h / (v / 2) * p + q * v * h / (v / 2) * p == 4 * (q * h * p))%Q) by (field; assumption). rewrite E. apply Qpos_neq. pose proof (Qmult_lt_0_compat _ _ (Qmult_lt_0_compat _ _ KP HP) PO). lra. }
    assert (E : (q * v * h / (v / 2) * p == 2 * (q * h * p))%Q) by (field; assumption). rewrite E in *. pose proof (Qpos_neq _ (Qmult_lt_0_compat _ _ (Qmult_lt_0_compat _ _ KP HP) PO)).
    field. intros Z0. apply N. rewrite <- Z0. ring. }
  destruct EX as (ES & EX). cbv zeta. unfold exchange. rewrite E1, E2, ES, EX.
  set (q := mt_ky (cell_material g a)) in *. set (h := cell_height d a) in *. set (p := (1 - ch_porosity ch)%Q) in *. set (v := k_value k) in *.
  split; [split; ring|]. unfold in_series. pose proof (Qpos_neq _ KP). assert (WS : (0 < c_width a + c_width b)%Q) by lra. pose proof (Qpos_neq _ WS).
  assert (ET : (p * (v * h / (c_width a / 2 / q + c_width b / 2 / q)) == p * q * h * (v * 2 / (c_width a + c_width b)))%Q) by (field; split; auto).
  pose proof (Qmult_lt_0_compat _ _ (Qmult_lt_0_compat _ _ PO KP) HP) as P3. split.
  - intros (E & _). rewrite ET in E. assert (E' : (p * q * h * (v * 2 / (c_width a + c_width b)) == p * q * h * 1)%Q) by lra. apply (proj1 (Qmult_inj_l (v * 2 / (c_width a + c_width b)) 1 (p * q * h) (Qpos_neq _ P3))) in E'.
    assert (E3 : (v * 2 / (c_width a + c_width b) * (c_width a + c_width b) == 1 * (c_width a + c_width b))%Q) by (rewrite E'; reflexivity). assert (E4 : (v * 2 / (c_width a + c_width b) * (c_width a + c_width b) == v * 2)%Q) by (field; assumption).
    rewrite E4 in E3. assert (E5 : (v == (v*2) * (1#2))%Q) by ring. rewrite E5, E3. field.
  - intros E. assert (E' : (v * 2 / (c_width a + c_width b) == 1)%Q) by (rewrite E; field; assumption). rewrite ET, E'. split; ring.
Qed.
Print Assumptions C57_side_walls.

(** Cells of the spreader: blocks of the size of a spreader cell. *)
Theorem C57_spreader : forall g d an cells cs m k sp h mat, network g d an cells cs m -> In k cs ->
    tg_top g = Some (SinkPluggable sp h mat) ->
    let i := k_node1 k in let j := k_node2 k in let a := at_cell cells i in let b := at_cell cells j in
    c_layer a = d_nlayers d -> c_layer b = d_nlayers d -> c_channel a = false -> c_channel b = false ->
    (k_dir k = 1 -> exchange m i j (s_cell_width sp * h * mt_kx mat / s_cell_length sp)) /\
    (k_dir k = 2 -> exchange m i j (s_cell_length sp * h * mt_ky mat / s_cell_width sp)).
Proof.
  intros g d an cells cs m k sp h mat [G PH C GC M] I T i j a b LA LB CA CB. destruct (coefficient_connected g d an cells cs m GC M k I) as (a' & b' & x & s & A & B & X & E1 & E2).
  destruct (arr_at _ _ _ A) as (EA & _). destruct (arr_at _ _ _ B) as (EB & _). fold i in EA. fold j in EB. fold a in EA. fold b in EB. subst a' b'. fold i j in E1, E2. unfold exchange.
  split; intros D; (destruct (link_spreader g d PH k a b x s ltac:(lia) ltac:(lia) CA CB X ltac:(auto)) as (sp' & h' & m' & T' & ES & X1 & X2)); rewrite T in T'; injection T' as <- <- <-; rewrite E2, E1, ES.
  - rewrite (X1 D). split; ring.
  - rewrite (X2 D). split; ring.
Qed.
Print Assumptions C57_spreader.

(** Witness: the four cells of one place of a two-resistor channel: lower wall,
    side wall, coolant and upper wall meet on an area of 50. *)
Definition place (l : Z) (ch : bool) : cell := mkCell l (mkRect 0 0 10 5) 3 1 ch material0.
Definition place_cells : list cell := [place 1 false; place 2 false; place 3 true; place 4 false].
Definition place_conns : list conn := [mkConn 0 1 1 2 50 0; mkConn 0 2 1 3 50 0; mkConn 1 3 2 4 50 0; mkConn 2 3 3 4 50 0].
Lemma place_network : forall t, exists m, network g2rm d2rm (demo_an t) place_cells place_conns m.
Proof.
  intros t. assert (CS : forall c, In c place_cells -> in_stack g2rm d2rm c /\ one_material g2rm c /\ positive_cell g2rm c).
  { intros c I. cbn [place_cells In] in I. destruct I as [<-|[<-|[<-|[<-|[]]]]]; (split; [split; [cbn; lia|cbn; lia]|]); (split; [reflexivity|]); repeat split; try reflexivity; discriminate. }
  assert (GC : good_conns (Z.of_nat (length place_cells)) place_conns).
  { constructor; [cbn; lia| | |vm_compute; reflexivity].
    - cbn. repeat constructor; cbn; intuition congruence.
    - intros c I. cbn [place_conns In] in I. destruct I as [<-|[<-|[<-|[<-|[]]]]]; cbn; lia. }
  destruct (matrix_defined g2rm d2rm g2rm_good (demo_an t) place_cells place_conns) as (m & M); [|exact GC|].
  - rewrite Forall_forall. intros c I. apply CS, I.
  - exists m. constructor; auto; [exact g2rm_good|]. constructor; try discriminate.
    + repeat constructor.
    + repeat constructor; reflexivity.
    + intros ch [= <-]. vm_compute. intuition reflexivity.
Qed.
Example C57_links_witness : forall t, exists m, network g2rm d2rm (demo_an t) place_cells place_conns m /\
    exchange m 2 3 (50 * co_htc_top ch2rm) /\ exchange m 0 2 (50 * co_htc_bottom ch2rm) /\
    exchange m 1 3 (50 * (1 - ch_porosity ch2rm) * mt_kz wmat / (1 # 2)) /\ (0 < co_htc_top ch2rm)%Q /\ ~ (co_htc_top ch2rm == co_htc_bottom ch2rm)%Q.
Proof.
  intros t. destruct (place_network t) as (m & N). exists m. split; [exact N|].
  assert (R : forall x y m i j, (x == y)%Q -> exchange m i j x -> exchange m i j y) by (intros x y m' i j E (A & B); split; [rewrite A, E|rewrite B, E]; reflexivity).
  pose proof (C57_vertical _ _ _ _ _ _ (mkConn 2 3 3 4 50 0) N ltac:(cbn; auto) eq_refl ltac:(reflexivity) ltac:(reflexivity) ltac:(reflexivity)) as E1.
  pose proof (C57_vertical _ _ _ _ _ _ (mkConn 0 2 1 3 50 0) N ltac:(cbn; auto) eq_refl ltac:(reflexivity) ltac:(reflexivity) ltac:(reflexivity)) as E2.
  pose proof (C57_vertical _ _ _ _ _ _ (mkConn 1 3 2 4 50 0) N ltac:(cbn; auto) eq_refl ltac:(reflexivity) ltac:(reflexivity) ltac:(reflexivity)) as E3.
  split; [|split; [|split; [|split]]].
  - refine (R _ _ _ _ _ _ E1). vm_compute. reflexivity.
  - refine (R _ _ _ _ _ _ E2). vm_compute. reflexivity.
  - refine (R _ _ _ _ _ _ E3). vm_compute. reflexivity.
  - vm_compute. reflexivity.
  - vm_compute. discriminate.
Qed.
