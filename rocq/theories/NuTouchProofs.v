(** * Two cells are connected exactly when they touch *)
From Coq Require Import ZArith List Bool QArith Lia ZifyBool Lqa.
From Verif Require Import Base Dims Floorplan FloorplanProofs Stack NonUniform NuSpec NuGeomProofs NuContactProofs NuCountProofs NuPositionProofs NuRangeProofs NuConnProofs NuPairProofs NuGridProofs.
Import ListNotations.
Local Open Scope Z_scope.

Definition layer_types (t : Z) : Prop := t = 0 \/ t = 1 \/ t = 2 \/ t = 3 \/ t = 4.
Lemma kind_types_range : forall e, Forall layer_types (kind_types e).
Proof.
  intros e. destruct e as [x| |m]; cbn [kind_types]; [|repeat apply Forall_cons; try apply Forall_nil; unfold layer_types; tauto|destruct m; repeat apply Forall_cons; try apply Forall_nil; unfold layer_types; tauto]. apply Forall_forall. intros t I. apply repeat_spec in I. unfold layer_types. tauto.
Qed.
Lemma type_range : forall d top es l, layer_types (type_at (grid d top es) l).
Proof.
  intros d top es l. unfold type_at. destruct (Nat.lt_ge_cases l (length (map fst (grid d top es)))) as [L|L]; [|rewrite nth_overflow by exact L; left; reflexivity].
  apply (proj1 (Forall_forall layer_types (map fst (grid d top es)))); [|apply nth_In; exact L]. unfold grid. rewrite map_app, map_fst_layers. apply Forall_app. split.
  - apply Forall_flat_map. apply Forall_forall. intros e _. apply kind_types_range.
  - unfold spreader_layer. destruct (is_pluggable top); repeat apply Forall_cons; try apply Forall_nil. unfold layer_types. cbn. tauto.
Qed.
Lemma along_x_spec : forall t, layer_types t -> along_x t = negb (no_x t).
Proof. intros t [->|[->|[->|[->| ->]]]]; reflexivity. Qed.
Lemma along_y_spec : forall t, layer_types t -> along_y t = negb (no_y t).
Proof. intros t [->|[->|[->|[->| ->]]]]; reflexivity. Qed.

Section Touch.
  Variables (d : dims) (top : option top_sink) (es : list nu_kind).
  Let g := grid d top es.
  Let rs := grid_rects g.
  Let R i := rect_at rs i.
  Hypothesis geo : good_geometry g.

  Lemma cell_range : forall l i, in_layer g l i -> 0 <= i < Z.of_nat (length (grid_cells g)).
  Proof. intros l i. apply in_layer_range. Qed.

  Lemma pair_spec : forall l i j, in_layer g l i -> in_layer g l j -> i < j ->
    let cs := in_layer_pair (type_at g l) (Z.of_nat l) i j (R i) (R j) in
    (forall len, touch_x g i j len -> exists v, cs = [mkConn i j (Z.of_nat l) (Z.of_nat l) v 1] /\ (len <= v)%Q /\ (v == len <-> ~ nested (r_y0 (R i)) (r_y1 (R i)) (r_y0 (R j)) (r_y1 (R j)))%Q) /\
    (forall len, touch_y g i j len -> exists v, cs = [mkConn i j (Z.of_nat l) (Z.of_nat l) v 2] /\ (len <= v)%Q /\ (v == len <-> ~ nested (r_x0 (R i)) (r_x1 (R i)) (r_x0 (R j)) (r_x1 (R j)))%Q) /\
    ((forall len, ~ touch_x g i j len) -> (forall len, ~ touch_y g i j len) -> cs = []).
  Proof.
    intros l i j LI LJ LT cs. destruct geo as (PR & RP & DJ). fold rs in PR, RP, DJ. pose proof (cell_range l i LI) as RI. pose proof (cell_range l j LJ) as RJ.
    destruct (in_layer_spec (type_at g l) (Z.of_nat l) i j (R i) (R j) (PR i RI) (PR j RJ) (DJ l i j LI LJ ltac:(lia)) (RP i j RI RJ)) as (SX & SY & SN).
    pose proof (along_x_spec _ (type_range d top es l)) as AX. pose proof (along_y_spec _ (type_range d top es l)) as AY. fold g in AX, AY.
    split; [|split].
    - intros len (l' & LI' & _ & A & SD). rewrite (in_layer_unique g l' l i LI' LI) in A. rewrite AX in A. specialize (SX len SD). destruct (no_x (type_at g l)); [discriminate|]. exact SX.
    - intros len (l' & LI' & _ & A & SD). rewrite (in_layer_unique g l' l i LI' LI) in A. rewrite AY in A. specialize (SY len SD). destruct (no_y (type_at g l)); [discriminate|]. exact SY.
    - intros NX NY.
      assert (DX : (exists len, side_x (R i) (R j) len) \/ forall len, ~ side_x (R i) (R j) len).
      { unfold side_x. destruct (Qlt_le_dec 0 (common_y (R i) (R j))) as [C|C]; [|right; intros len (_ & L & E); rewrite E in L; apply (Qlt_irrefl 0); apply Qlt_le_trans with (1 := L); exact C].
        destruct (Qeq_dec (r_x1 (R i)) (r_x0 (R j))) as [E|E]; [left; eexists; split; [left; exact E|]; split; [exact C|reflexivity]|].
        destruct (Qeq_dec (r_x1 (R j)) (r_x0 (R i))) as [E'|E']; [left; eexists; split; [right; exact E'|]; split; [exact C|reflexivity]|]. right. intros len ([K|K] & _); contradiction. }
      assert (DY : (exists len, side_y (R i) (R j) len) \/ forall len, ~ side_y (R i) (R j) len).
      { unfold side_y. destruct (Qlt_le_dec 0 (common_x (R i) (R j))) as [C|C]; [|right; intros len (_ & L & E); rewrite E in L; apply (Qlt_irrefl 0); apply Qlt_le_trans with (1 := L); exact C].
        destruct (Qeq_dec (r_y1 (R i)) (r_y0 (R j))) as [E|E]; [left; eexists; split; [left; exact E|]; split; [exact C|reflexivity]|].
        destruct (Qeq_dec (r_y1 (R j)) (r_y0 (R i))) as [E'|E']; [left; eexists; split; [right; exact E'|]; split; [exact C|reflexivity]|]. right. intros len ([K|K] & _); contradiction. }
      destruct DX as [(len & DX)|DX].
      + specialize (SX len DX). destruct (no_x (type_at g l)) eqn:NO; [exact SX|]. exfalso. apply (NX len). exists l. repeat split; try apply LI; try apply LJ; try apply DX. rewrite AX. reflexivity.
      + destruct DY as [(len & DY)|DY].
        * specialize (SY len DY). destruct (no_y (type_at g l)) eqn:NO; [exact SY|]. exfalso. apply (NY len). exists l. repeat split; try apply LI; try apply LJ; try apply DY. rewrite AY. reflexivity.
        * apply SN; assumption.
  Qed.

  Lemma inside_dec : forall a b, proper a -> proper b -> (exists x y, inside a x y /\ inside b x y) \/ disjoint a b.
  Proof.
    intros a b PA PB. pose proof (disjoint_iff a b PA PB) as DI. destruct PA as (AX & AY), PB as (BX & BY).
    destruct (Qlt_le_dec (r_x0 a) (r_x1 b)) as [C1|C1]; [|right; apply DI; unfold meets; intros ((? & ?) & _); lra].
    destruct (Qlt_le_dec (r_x0 b) (r_x1 a)) as [C2|C2]; [|right; apply DI; unfold meets; intros ((? & ?) & _); lra].
    destruct (Qlt_le_dec (r_y0 a) (r_y1 b)) as [C3|C3]; [|right; apply DI; unfold meets; intros (_ & (? & ?)); lra].
    destruct (Qlt_le_dec (r_y0 b) (r_y1 a)) as [C4|C4]; [|right; apply DI; unfold meets; intros (_ & (? & ?)); lra].
    left. destruct (proj1 (meets_point _ _ _ _ AX BX) (conj C1 C2)) as (x & X1 & X2). destruct (proj1 (meets_point _ _ _ _ AY BY) (conj C3 C4)) as (y & Y1 & Y2). exists x, y. unfold inside. auto.
  Qed.

  (** Membership. *)
  Theorem touch_spec : forall c, In c (all_conns d top es rs) ->
    let i := k_node1 c in let j := k_node2 c in i < j /\
    ((exists len, k_dir c = 1 /\ touch_x g i j len /\ (len <= k_value c)%Q /\ (k_value c == len <-> ~ nested (r_y0 (R i)) (r_y1 (R i)) (r_y0 (R j)) (r_y1 (R j)))%Q) \/
     (exists len, k_dir c = 2 /\ touch_y g i j len /\ (len <= k_value c)%Q /\ (k_value c == len <-> ~ nested (r_x0 (R i)) (r_x1 (R i)) (r_x0 (R j)) (r_x1 (R j)))%Q) \/
     (k_dir c = 0 /\ touch_z g i j /\ (k_value c == common_x (R i) (R j) * common_y (R i) (R j))%Q)).
  Proof.
    intros c I. cbv zeta. split; [apply (conn_range d top es rs c I)|]. apply in_all_conns in I. fold g in I. destruct I as [(l & i & j & LI & LJ & LT & I)|(l & a & b & i & j & IK & OT & LI & LJ & I)].
    - pose proof (in_layer_pair_nodes _ _ _ _ _ _ _ I) as ND. unfold nodes in ND. injection ND as E1 E2. rewrite E1, E2. destruct (pair_spec l i j LI LJ LT) as (SX & SY & SN). fold (R i) (R j) in I.
      assert (DX : (exists len, touch_x g i j len) \/ forall len, ~ touch_x g i j len).
      { destruct (along_x (type_at g l)) eqn:A.
        - destruct (Qlt_le_dec 0 (common_y (R i) (R j))) as [C|C]; [|right; intros len (_ & _ & _ & _ & (_ & L & E)); rewrite E in L; apply (Qlt_irrefl 0); apply Qlt_le_trans with (1 := L); exact C].
          destruct (Qeq_dec (r_x1 (R i)) (r_x0 (R j))) as [E|E]; [left; exists (common_y (R i) (R j)), l; split; [exact LI|]; split; [exact LJ|]; split; [exact A|]; split; [left; exact E|]; split; [exact C|reflexivity]|].
          destruct (Qeq_dec (r_x1 (R j)) (r_x0 (R i))) as [E'|E']; [left; exists (common_y (R i) (R j)), l; split; [exact LI|]; split; [exact LJ|]; split; [exact A|]; split; [right; exact E'|]; split; [exact C|reflexivity]|].
          right. intros len (l' & _ & _ & _ & ([K|K] & _)); contradiction.
        - right. intros len (l' & LI' & _ & A' & _). rewrite (in_layer_unique g l' l i LI' LI) in A'. congruence. }
      destruct DX as [(len & DX)|DX].
      + left. destruct (SX len DX) as (v & E & B1 & B2). rewrite E in I. destruct I as [<-|[]]. exists len. cbn [k_dir k_value]. auto.
      + assert (DY : (exists len, touch_y g i j len) \/ forall len, ~ touch_y g i j len).
        { destruct (along_y (type_at g l)) eqn:A.
          - destruct (Qlt_le_dec 0 (common_x (R i) (R j))) as [C|C]; [|right; intros len (_ & _ & _ & _ & (_ & L & E)); rewrite E in L; apply (Qlt_irrefl 0); apply Qlt_le_trans with (1 := L); exact C].
            destruct (Qeq_dec (r_y1 (R i)) (r_y0 (R j))) as [E|E]; [left; exists (common_x (R i) (R j)), l; split; [exact LI|]; split; [exact LJ|]; split; [exact A|]; split; [left; exact E|]; split; [exact C|reflexivity]|].
            destruct (Qeq_dec (r_y1 (R j)) (r_y0 (R i))) as [E'|E']; [left; exists (common_x (R i) (R j)), l; split; [exact LI|]; split; [exact LJ|]; split; [exact A|]; split; [right; exact E'|]; split; [exact C|reflexivity]|].
            right. intros len (l' & _ & _ & _ & ([K|K] & _)); contradiction.
          - right. intros len (l' & LI' & _ & A' & _). rewrite (in_layer_unique g l' l i LI' LI) in A'. congruence. }
        destruct DY as [(len & DY)|DY].
        * right. left. destruct (SY len DY) as (v & E & B1 & B2). rewrite E in I. destruct I as [<-|[]]. exists len. cbn [k_dir k_value]. auto.
        * rewrite (SN DX DY) in I. destruct I.
    - right. right. pose proof (between_pair_nodes _ _ _ _ _ _ I) as ND. unfold nodes in ND. injection ND as E1 E2. rewrite E1, E2. destruct geo as (PR & RP & DJ). fold rs in PR, RP, DJ. pose proof (cell_range a i LI) as RI. pose proof (cell_range b j LJ) as RJ.
      destruct (between_spec (Z.of_nat l) i j (R i) (R j) (PR i RI) (PR j RJ) (RP i j RI RJ)) as (B1 & B2).
      destruct (inside_dec (R i) (R j) (PR i RI) (PR j RJ)) as [IN|DIS]; [|fold (R i) (R j) in I; rewrite (B2 DIS) in I; destruct I].
      destruct (B1 IN) as (v & E & V & _). fold (R i) (R j) in I. rewrite E in I. destruct I as [<-|[]]. cbn [k_dir k_value]. split; [reflexivity|]. split; [|exact V]. exists a, b. repeat split; try apply OT; try apply LI; try apply LJ. exact IN.
  Qed.

  Theorem connected_iff : forall i j, i < j ->
    ((exists c, In c (all_conns d top es rs) /\ k_node1 c = i /\ k_node2 c = j) <->
     (exists len, touch_x g i j len) \/ (exists len, touch_y g i j len) \/ touch_z g i j).
  Proof.
    intros i j LT. split.
    - intros (c & I & E1 & E2). destruct (touch_spec c I) as (_ & H). cbv zeta in H. rewrite E1, E2 in H. destruct H as [(len & _ & H & _)|[(len & _ & H & _)|(_ & H & _)]]; [left; exists len; exact H|right; left; exists len; exact H|right; right; exact H].
    - intros [(len & H)|[(len & H)|H]].
      + pose proof H as (l & LI & LJ & _). destruct (pair_spec l i j LI LJ LT) as (SX & _). destruct (SX len H) as (v & E & _). exists (mkConn i j (Z.of_nat l) (Z.of_nat l) v 1). split; [|split; reflexivity].
        apply in_all_conns. left. exists l, i, j. repeat split; try apply LI; try apply LJ; try exact LT. fold g. fold (R i) (R j). rewrite E. left. reflexivity.
      + pose proof H as (l & LI & LJ & _). destruct (pair_spec l i j LI LJ LT) as (_ & SY & _). destruct (SY len H) as (v & E & _). exists (mkConn i j (Z.of_nat l) (Z.of_nat l) v 2). split; [|split; reflexivity].
        apply in_all_conns. left. exists l, i, j. repeat split; try apply LI; try apply LJ; try exact LT. fold g. fold (R i) (R j). rewrite E. left. reflexivity.
      + destruct H as (a & b & OT & LI & LJ & IN). destruct geo as (PR & RP & DJ). fold rs in PR, RP, DJ. pose proof (cell_range a i LI) as RI. pose proof (cell_range b j LJ) as RJ.
        destruct (key_exists d top es a b) as (l & IK); [apply LJ|right; exact OT|].
        destruct (between_spec (Z.of_nat l) i j (R i) (R j) (PR i RI) (PR j RJ) (RP i j RI RJ)) as (B1 & _). destruct (B1 IN) as (v & E & _). exists (mkConn i j (Z.of_nat l - 1) (Z.of_nat l) v 0). split; [|split; reflexivity].
        apply in_all_conns. right. exists l, a, b, i, j. split; [exact IK|]. split; [exact OT|]. split; [exact LI|]. split; [exact LJ|]. fold (R i) (R j). rewrite E. left. reflexivity.
  Qed.
End Touch.
