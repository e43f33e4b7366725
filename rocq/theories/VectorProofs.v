(** * Vectors of capacities, sink conductances and boundary sources, node by node *)
From Coq Require Import ZArith List Bool QArith Lia Lqa Sorted.
From Verif Require Import Base QSum Dims DimsSpec DimsProofs Floorplan FloorplanSpec FloorplanProofs TempProofs Stack StackSpec StackProofs PowerGrid Emulate EmulateSpec Conduct Matrix MatrixSpec CellProofs NodeProofs LinkProofs SignProofs CscProofs NetProofs EnumProofs BalanceSpec BalanceProofs.
Import ListNotations.
Local Open Scope Z_scope.

Lemma nth_zrange : forall k n x, 0 <= k <= n -> nth (Z.to_nat k) (zrange 0 n) x = k.
Proof.
  intros k n x K. rewrite (zrange_split 0 (k - 1) n) by lia. rewrite app_nth2; pose proof (zrange_length 0 (k - 1)); [|lia].
  replace (k - 1 + 1) with k by lia. replace (Z.to_nat k - length (zrange 0 (k - 1)))%nat with O by lia.
  rewrite zrange_cons by lia. reflexivity.
Qed.

Section Vectors.
  Variables (g : tgrid) (d : dims).
  Hypothesis G : good_tgrid d g.
  Notation NL := (d_nlayers d).
  Notation NR := (d_nrows d).
  Notation NC := (d_ncols d).
  Notation ty := (type_of g).
  Notation ix := (idx g d).

  Lemma nodes_nth : forall n n0, valid g d n -> nth (Z.to_nat (ix n)) (nodes g d) n0 = n.
  Proof.
    intros n n0 V. pose proof (idx_range g d G n V) as R.
    apply (idx_inj g d G); [|assumption|apply (nodes_at g d G); assumption].
    apply in_nodes. apply nth_In. pose proof (nodes_length g d G). lia.
  Qed.
  Lemma qat_nodes : forall (f : node -> Q) n, valid g d n -> qat (map f (nodes g d)) (ix n) = f n.
  Proof.
    intros f n V. unfold qat. pose proof (idx_range g d G n V) as R. pose proof (nodes_length g d G) as L.
    rewrite (nth_indep _ 0%Q (f n)) by (rewrite map_length; lia). rewrite map_nth. f_equal. apply nodes_nth. assumption.
  Qed.
  Lemma map_const : forall {A B} (x : B) (l : list A), map (fun _ => x) l = repeat x (length l).
  Proof. intros A B x l. induction l; cbn; congruence. Qed.

  Lemma coords_in : forall r c, In (r, c) (layer_coords d) <-> 0 <= r < NR /\ 0 <= c < NC.
  Proof.
    intros r c. rewrite (coords_eq g d G), in_prod_iff, !in_zrange. lia.
  Qed.

  Lemma capacities_eq : cells_capacities g d = Ok (map (ncap g d) (nodes g d)).
  Proof.
    unfold cells_capacities. rewrite (last_layer_eq g d G).
    rewrite (map_out_map _ (fun l => map (ncap g d) (layer_nodes d l))).
    - cbn [bind]. f_equal. unfold nodes. rewrite map_app, map_flat_map. f_equal.
      + rewrite flat_map_concat_map. reflexivity.
      + unfold spr_nodes. destruct (tg_top g) as [[h a|s h m]|] eqn:T; try reflexivity.
        rewrite map_map. unfold ncap, spr, sp_h, sp_m. rewrite T. rewrite map_const. f_equal.
        destruct (gt_spreader d g G s h m T) as [A B A2 B2 _ _ _]. destruct (area_facts g d G) as (N1 & N2 & _).
        apply Nat2Z.inj. rewrite prod_length, Nat2Z.inj_mul, !zrange_length, Z2Nat.id by (apply Z.mul_nonneg_nonneg; lia). rewrite !Z.max_r by lia. f_equal; lia.
    - intros l L. rewrite in_zrange in L. unfold over_layer.
      rewrite (map_out_map _ (fun rc => cell_cap g d l (fst rc) (snd rc))).
      + f_equal. unfold layer_nodes. rewrite map_map, (coords_eq g d G). reflexivity.
      + intros [r c] I. cbn [fst snd]. apply coords_in in I. unfold cell_cap. apply (capacity_ok g d G). lia.
  Qed.

  Lemma coords_nth : forall (f : Z -> Z -> Q) r c, 0 <= r < NR -> 0 <= c < NC ->
      nth (Z.to_nat (r * NC + c)) (map (fun rc => f (fst rc) (snd rc)) (layer_coords d)) 0%Q = f r c.
  Proof.
    intros f r c R C. rewrite (coords_eq g d G).
    set (L := list_prod (zrange 0 (NR - 1)) (zrange 0 (NC - 1))).
    assert (map (fun rc => fst rc * NC + snd rc) L = zrange 0 (NR * NC - 1)) as E.
    { unfold L. rewrite map_list_prod. cbn [fst snd]. apply blocks_z; lia. }
    assert (Z.of_nat (length L) = NR * NC) as LL.
    { unfold L. rewrite prod_length, Nat2Z.inj_mul, !zrange_length. lia. }
    assert (0 <= r * NC + c < NR * NC) as B by nia.
    rewrite (nth_indep _ 0%Q ((fun rc => f (fst rc) (snd rc)) (0, 0))) by (rewrite map_length; lia).
    rewrite (map_nth (fun rc => f (fst rc) (snd rc)) L (0, 0)).
    assert (nth (Z.to_nat (r * NC + c)) L (0, 0) = (r, c)) as ->; [|reflexivity].
    assert (fst (nth (Z.to_nat (r * NC + c)) L (0, 0)) * NC + snd (nth (Z.to_nat (r * NC + c)) L (0, 0)) = r * NC + c) as K.
    { pose proof (map_nth (fun rc => fst rc * NC + snd rc) L (0, 0) (Z.to_nat (r * NC + c))) as K. cbv beta in K. rewrite <- K.
      rewrite E. cbn [fst snd]. rewrite nth_zrange by lia. reflexivity. }
    assert (In (nth (Z.to_nat (r * NC + c)) L (0, 0)) L) as I by (apply nth_In; lia).
    destruct (nth (Z.to_nat (r * NC + c)) L (0, 0)) as [r1 c1]. cbn [fst snd] in K.
    unfold L in I. apply in_prod_iff in I. rewrite !in_zrange in I.
    assert (r1 = r) by nia. subst. assert (c1 = c) by lia. subst. reflexivity.
  Qed.

  Lemma top_tcs_at : forall v, top_tcs g d = Ok v -> has_ambient (tg_top g) -> forall r c, 0 <= r < NR -> 0 <= c < NC ->
      (nth (Z.to_nat (r * NC + c)) v 0 == cT g d (NL - 1) r c)%Q.
  Proof.
    intros v H (h & a & T) r c R C. unfold top_tcs in H. rewrite T, (last_layer_eq g d G) in H. unfold over_layer in H.
    pose proof (gt_one d g G) as N1.
    rewrite (map_out_map _ (fun rc => (0 + cT g d (NL - 1) (fst rc) (snd rc))%Q)) in H.
    - injection H as <-. rewrite (coords_nth (fun r c => 0 + cT g d (NL - 1) r c)%Q) by assumption. ring.
    - intros [r1 c1] I. cbn [fst snd]. unfold cT. rewrite (top_ok g d G) by lia. reflexivity.
  Qed.
  Lemma bottom_tcs_at : forall v, bottom_tcs g d = Ok v -> tg_bottom g <> None -> forall r c, 0 <= r < NR -> 0 <= c < NC ->
      (nth (Z.to_nat (r * NC + c)) v 0 == cB g d 0 r c)%Q.
  Proof.
    intros v H B r c R C. unfold bottom_tcs in H. destruct (tg_bottom g) as [k|] eqn:T; [|congruence]. unfold over_layer in H.
    pose proof (gt_one d g G) as N1.
    rewrite (map_out_map _ (fun rc => (0 + cB g d 0 (fst rc) (snd rc))%Q)) in H.
    - injection H as <-. rewrite (coords_nth (fun r c => 0 + cB g d 0 r c)%Q) by assumption. ring.
    - intros [r1 c1] I. cbn [fst snd]. unfold cB. rewrite (bottom_ok g d G) by lia. reflexivity.
  Qed.

  (** Ambient temperature seen by the layer. *)
  Definition amb (l : Z) : Q :=
    if to_ambient (ty l) then match tg_top g with Some k => top_ambient k | None => 0%Q end
    else match tg_bottom g with Some k => bs_ambient k | None => 0%Q end.
  Definition tin : Q := match tg_channel g with Some ch => co_tin ch | None => 0%Q end.

  Lemma wet_convection : forall ch l r c, 0 <= l < NL -> tg_channel g = Some ch ->
      (is_coolant (ty l) && is_channel_column (ch_model ch) c)%bool = wet g (Cell l r c) /\
      (wet g (Cell l r c) = true -> convection ch d l c == cN g d l r c)%Q.
  Proof.
    intros ch l r c L T.
    destruct (is_coolant (ty l)) eqn:C; [|unfold wet; rewrite C; split; [reflexivity|discriminate]].
    assert (exists m, get_convective_term ch d l 0 c = m /\ get_convective_term ch d l r c = m) as (m & M1 & M2).
    { eexists. split; [reflexivity|]. unfold get_convective_term. destruct (ch_model ch); reflexivity. }
    assert ((cN g d l r c == 1 * val (get_convective_term ch d l r c))%Q \/ wet g (Cell l r c) = false) as K.
    { unfold cN, get_conductance_north, conductance_ns. rewrite (at_layer_in g d G) by assumption.
      pose proof (convective_ok g d G ch l r c L) as O. set (v := val (get_convective_term ch d l r c)) in *.
      unfold wet. rewrite C. destruct (type_of g l) eqn:E; try discriminate C; cbn [andb]; unfold with_channel; rewrite ?T;
        try (left; rewrite O; cbn; ring).
      unfold is_channel_column. destruct (Z.odd c); [|right; reflexivity]. left. rewrite O. cbn. ring. }
    assert (is_channel_column (ch_model ch) c = match ty l with LT_CHANNEL_4RM => Z.odd c | _ => true end) as E.
    { destruct (layer_type_eq_4rm (ty l)) as [E|E].
      - destruct (place_4rm g d G l L E) as (ch' & T' & M' & _). assert (ch' = ch) as -> by congruence. rewrite E, M'. reflexivity.
      - destruct (place_cool g d G l L C E) as (ch' & (T' & F & _) & _). assert (ch' = ch) as -> by congruence.
        destruct (type_of g l) eqn:E2; try discriminate C; try congruence; unfold is_channel_column; destruct (ch_model ch); congruence. }
    split; [unfold wet; rewrite E, C; reflexivity|]. intros W. destruct K as [K|K]; [|congruence].
    rewrite K. unfold convection. rewrite M1, M2. unfold val. destruct m; ring.
  Qed.

  Variable pg : pgrid.
  Hypothesis H : grid_of g d pg.
  Lemma boundary_eq : forall l r c, in_grid d l r c ->
      (boundary_source pg d l r c ==
       nsink g d (Cell l r c) * amb l + (if wet g (Cell l r c) && (r =? 0) then 2 * cN g d l r c * tin else 0))%Q.
  Proof.
    intros l r c I. destruct H as [H1 H2 H3 H4 H5 H6 H7].
    unfold boundary_source. rewrite H1, H2, H3, H4. change (nth (Z.to_nat l) (tg_types g) LT_NONE) with (ty l).
    unfold nsink, sink_of, amb. unfold in_grid in I.
    assert (((if is_coolant (ty l) && (r =? 0)%Z then
         match tg_channel g with
         | Some ch => if is_channel_column (ch_model ch) c then 2 * convection ch d l c * co_tin ch else 0
         | None => 0
         end else 0) == (if wet g (Cell l r c) && (r =? 0) then 2 * cN g d l r c * tin else 0))%Q) as ->.
    { unfold tin. destruct (tg_channel g) as [ch|] eqn:T.
      - destruct (wet_convection ch l r c ltac:(lia) T) as (W1 & W2). rewrite <- W1 in *.
        destruct (is_coolant (ty l)); cbn [andb] in *; [|reflexivity].
        destruct (is_channel_column (ch_model ch) c); cbn [andb] in *; destruct (r =? 0); try reflexivity.
        rewrite W2 by reflexivity. reflexivity.
      - destruct (wet g (Cell l r c) && (r =? 0)); destruct (is_coolant (ty l) && (r =? 0)); try ring; try reflexivity. }
    destruct (to_ambient (ty l)) eqn:A.
    - assert (to_pcb (ty l) = false) as B by (destruct (type_of g l); try discriminate A; reflexivity). rewrite B.
      assert (is_solid (ty l) = true) as S1 by (destruct (type_of g l); try discriminate A; reflexivity).
      destruct (solid_facts g d G l ltac:(lia) S1) as (F & _). destruct (F A) as (E & HA).
      rewrite (top_tcs_at (pg_top_tcs pg) H6 HA) by lia. rewrite <- E. ring.
    - destruct (to_pcb (ty l)) eqn:B; [|ring].
      assert (is_solid (ty l) = true) as S1 by (destruct (type_of g l); try discriminate B; reflexivity).
      destruct (solid_facts g d G l ltac:(lia) S1) as (_ & _ & F). destruct (F B) as (E & HA).
      rewrite (bottom_tcs_at (pg_bottom_tcs pg) H7 HA) by lia. rewrite E. ring.
  Qed.
End Vectors.
