(** * Reciprocity of the links *)
From Coq Require Import ZArith List Bool QArith Lia Lqa.
From Verif Require Import Base QSum Dims DimsSpec DimsProofs Floorplan FloorplanSpec FloorplanProofs Stack StackSpec PowerGrid Emulate EmulateSpec Conduct Matrix MatrixSpec CellProofs NodeProofs.
Import ListNotations.
Local Open Scope Z_scope.

Lemma in_pw : forall {A} b (x y : A), In x (pw b y) <-> b = true /\ x = y.
Proof. intros A b x y. unfold pw. destruct b; cbn; split; intros H; try tauto; [destruct H; auto; tauto|destruct H; auto|destruct H; discriminate]. Qed.

Lemma parallel_comm : forall x y, (parallel x y == parallel y x)%Q.
Proof.
  intros x y. unfold parallel. setoid_replace (x + y)%Q with (y + x)%Q by ring. unfold Qdiv.
  rewrite (Qmult_comm x y). reflexivity.
Qed.
Lemma Qeq_bool_pos : forall x, (0 < x)%Q -> Qeq_bool x 0 = false.
Proof. intros x H. destruct (Qeq_bool x 0) eqn:E; [|reflexivity]. apply Qeq_bool_iff in E. lra. Qed.
Lemma guarded_pos : forall x y, (0 < y)%Q -> guarded x y = parallel x y.
Proof. intros x y H. unfold guarded. rewrite Qeq_bool_pos by assumption. reflexivity. Qed.
Lemma guarded_zero : forall x, guarded x 0%Q = x.
Proof. reflexivity. Qed.
Lemma parallel_pos : forall x y, (0 < x -> 0 < y -> 0 < parallel x y)%Q.
Proof. intros x y X Y. unfold parallel. apply Qdiv_pos; [apply Qmul_pos|apply Qadd_pos]; assumption. Qed.

(** Two opposite links. *)
Definition opposite (f f' : flow) : Prop :=
  match f, f' with
  | Cond x, Cond x' => (x' == x)%Q
  | Conv x, Conv x' => (x' == - x)%Q
  | _, _ => False
  end.

Definition layer_type_eq_4rm (t : layer_type) : {t = LT_CHANNEL_4RM} + {t <> LT_CHANNEL_4RM}.
Proof. destruct t; ((left; reflexivity) || (right; discriminate)). Defined.

Section Links.
  Variables (g : tgrid) (d : dims) (an : analysis).
  Hypothesis G : good_tgrid d g.
  Hypothesis P : physical g d.

  Notation NL := (d_nlayers d).
  Notation NR := (d_nrows d).
  Notation NC := (d_ncols d).
  Notation SR := (s_nrows (spr g)).
  Notation SC := (s_ncols (spr g)).
  Notation ty := (type_of g).
  Notation lk n := (all_links (links_of g d an n)).
  Notation cT := (cT g d).
  Notation cB := (cB g d).
  Notation cN := (cN g d).
  Notation cS := (cS g d).
  Notation cE := (cE g d).
  Notation cW := (cW g d).

  Definition solidlike (l c : Z) : Prop := is_solid (ty l) = true \/ ty l = LT_CHANNEL_4RM /\ Z.odd c = false.
  Definition liquid4 (l c : Z) : Prop := ty l = LT_CHANNEL_4RM /\ Z.odd c = true.

  Lemma links_solid : forall l r c, solidlike l c -> links_of g d an (Cell l r c) = solid_links g d an l r c.
  Proof.
    intros l r c [H|(H & O)]; cbn [links_of]; [destruct (ty l); try discriminate H; reflexivity|rewrite H, O; reflexivity].
  Qed.
  Lemma links_liquid4 : forall l r c, liquid4 l c -> links_of g d an (Cell l r c) = liquid4_links g d an l r c.
  Proof. intros l r c (H & O). cbn [links_of]. rewrite H, O. reflexivity. Qed.
  Lemma links_cool : forall ch l r c, ty l = cool_of (ch_model ch) -> links_of g d an (Cell l r c) = liquid2_links g d an l r c.
  Proof. intros ch l r c H. cbn [links_of]. rewrite H. destruct (ch_model ch); reflexivity. Qed.
  Lemma links_vwall : forall ch l r c, ty l = wall_of (ch_model ch) -> links_of g d an (Cell l r c) = vwall_links g d an l r c.
  Proof. intros ch l r c H. cbn [links_of]. rewrite H. destruct (ch_model ch); reflexivity. Qed.
  Lemma links_bottom : forall l r c, ty l = LT_BOTTOM_WALL -> links_of g d an (Cell l r c) = bottom_links g d an l r c.
  Proof. intros l r c H. cbn [links_of]. rewrite H. reflexivity. Qed.
  Lemma links_top : forall l r c, ty l = LT_TOP_WALL -> links_of g d an (Cell l r c) = top_links g d an l r c.
  Proof. intros l r c H. cbn [links_of]. rewrite H. reflexivity. Qed.

  (** What a layer is. *)
  Lemma layer_cases : forall l c, 0 <= l < NL ->
      solidlike l c \/ liquid4 l c /\ 0 < l < NL - 1 \/
      exists ch b, four g d ch b /\ (l = b /\ ty l = LT_BOTTOM_WALL \/ l = b + 1 /\ ty l = wall_of (ch_model ch) \/
         l = b + 2 /\ ty l = cool_of (ch_model ch) \/ l = b + 3 /\ ty l = LT_TOP_WALL).
  Proof.
    intros l c L. unfold solidlike, liquid4. destruct (is_solid (ty l)) eqn:S; [auto|].
    destruct (layer_type_eq_4rm (ty l)) as [T|T].
    - destruct (place_4rm g d G l L T) as (ch & _ & _ & B). destruct (Z.odd c); auto.
    - right. right. apply (place_four g d G l L S T).
  Qed.

  (** ** Facts used in the case analyses *)
  Ltac rng := unfold in_grid in *; lia.
  Lemma cT_wall : forall l r c, 0 <= l < NL -> ty l = LT_TOP_WALL \/ ty l = LT_BOTTOM_WALL -> cT l r c = 0%Q.
  Proof.
    intros l r c L H. unfold NodeProofs.cT, get_conductance_top. rewrite (at_layer_in g d G) by assumption.
    destruct H as [-> | ->]; reflexivity.
  Qed.
  Lemma cB_wall : forall l r c, 0 <= l < NL -> ty l = LT_TOP_WALL \/ ty l = LT_BOTTOM_WALL -> cB l r c = 0%Q.
  Proof.
    intros l r c L H. unfold NodeProofs.cB, get_conductance_bottom. rewrite (at_layer_in g d G) by assumption.
    destruct H as [-> | ->]; reflexivity.
  Qed.
  Lemma vwall_tb : forall ch l r c, 0 <= l < NL -> ty l = wall_of (ch_model ch) -> cT l r c = cB l r c.
  Proof.
    intros ch l r c L H. unfold NodeProofs.cT, NodeProofs.cB, get_conductance_top, get_conductance_bottom.
    rewrite !(at_layer_in g d G) by assumption. rewrite H. destruct (ch_model ch); reflexivity.
  Qed.
  Lemma cT_pos : forall l r c, in_grid d l r c -> ty l <> LT_TOP_WALL -> ty l <> LT_BOTTOM_WALL ->
      (l < NL - 1 \/ to_ambient (ty l) = true \/ to_spreader (ty l) = true) -> (0 < cT l r c)%Q.
  Proof. intros l r c I H1 H2 H3. apply (top_pos g d G P); assumption || rng. Qed.
  Lemma cB_pos : forall l r c, in_grid d l r c -> ty l <> LT_TOP_WALL -> ty l <> LT_BOTTOM_WALL ->
      (0 < l \/ to_pcb (ty l) = true) -> (0 < cB l r c)%Q.
  Proof. intros l r c I H1 H2 H3. apply (bottom_pos g d G P); assumption || rng. Qed.
  Lemma solidlike_not_wall : forall l c, solidlike l c -> ty l <> LT_TOP_WALL /\ ty l <> LT_BOTTOM_WALL.
  Proof. intros l c [H|(H & _)]; destruct (ty l); try discriminate; split; discriminate. Qed.
  Lemma liquid4_not_wall : forall l c, liquid4 l c -> ty l <> LT_TOP_WALL /\ ty l <> LT_BOTTOM_WALL.
  Proof. intros l c (H & _). rewrite H. split; discriminate. Qed.

  (** Convective terms do not depend on the row and are opposite. *)
  Lemma conv_opposite : forall l r r2 c, 0 <= l < NL -> is_coolant (ty l) = true -> (ty l = LT_CHANNEL_4RM -> Z.odd c = true) ->
      (cS l r c == - cN l r2 c)%Q.
  Proof.
    intros l r r2 c L H O. unfold NodeProofs.cS, NodeProofs.cN, get_conductance_south, get_conductance_north, conductance_ns.
    rewrite !(at_layer_in g d G) by assumption.
    assert (K : is_solid (ty l) = false) by (destruct (ty l); try discriminate H; reflexivity).
    destruct (channel_some g d G l L K) as (ch & E). unfold with_channel. rewrite E.
    assert (V : get_convective_term ch d l r c = get_convective_term ch d l r2 c).
    { unfold get_convective_term. destruct (ch_model ch); reflexivity. }
    rewrite V, (convective_ok g d G ch) by assumption. cbn [bind val].
    destruct (ty l); try discriminate H; cbn [is_channel_column]; try (rewrite O by reflexivity); cbn [val]; ring.
  Qed.
  (** A layer of a channel is made of one material. *)
  Lemma vwall_rows : forall ch b r r2 c s, four g d ch b -> 0 <= r < NR -> 0 <= r2 < NR ->
      val (conductance_ns s g d (b + 1) r c) = val (conductance_ns s g d (b + 1) r2 c).
  Proof.
    intros ch b r r2 c s (E & _ & _ & B1 & B2 & _ & T & _ & _ & LY) R R2. unfold conductance_ns.
    rewrite !(at_layer_in g d G) by lia.
    assert (M : forall r, material_at d (layer_of g (b + 1)) r c = ly_mat (layer_of g (b + 1))).
    { intros r0. unfold material_at. rewrite LY. reflexivity. }
    rewrite !M. rewrite (cell_width_eq g d G r R), (cell_width_eq g d G r2 R2). unfold with_channel. rewrite E.
    rewrite T. destruct (ch_model ch); reflexivity.
  Qed.
  Lemma vwall_ns : forall ch b r c s s2, four g d ch b ->
      val (conductance_ns s g d (b + 1) r c) = val (conductance_ns s2 g d (b + 1) r c).
  Proof.
    intros ch b r c s s2 (E & _ & _ & B1 & B2 & _ & T & _ & _ & LY). unfold conductance_ns.
    rewrite !(at_layer_in g d G) by lia. unfold with_channel. rewrite E, T. destruct (ch_model ch); reflexivity.
  Qed.

  Lemma four_unique : forall ch b ch2 b2, four g d ch b -> four g d ch2 b2 ->
      b = b2 \/ b + 4 <= b2 \/ b2 + 4 <= b.
  Proof.
    intros ch b ch2 b2 (E & _ & _ & B1 & B2 & T0 & T1 & T2 & T3 & _) (E' & _ & _ & B1' & B2' & T0' & T1' & T2' & T3' & _).
    assert (K : forall m, wall_of m <> LT_BOTTOM_WALL /\ cool_of m <> LT_BOTTOM_WALL) by (intros []; split; discriminate).
    destruct (Z.eq_dec b2 (b + 1)) as [-> |]; [exfalso; destruct (K (ch_model ch)); congruence|].
    destruct (Z.eq_dec b2 (b + 2)) as [-> |]; [exfalso; destruct (K (ch_model ch)); congruence|].
    destruct (Z.eq_dec b2 (b + 3)) as [-> |]; [exfalso; congruence|].
    destruct (Z.eq_dec b (b2 + 1)) as [-> |]; [exfalso; destruct (K (ch_model ch2)); congruence|].
    destruct (Z.eq_dec b (b2 + 2)) as [-> |]; [exfalso; destruct (K (ch_model ch2)); congruence|].
    destruct (Z.eq_dec b (b2 + 3)) as [-> |]; [exfalso; congruence|].
    lia.
  Qed.


  (** ** What lies above and below *)
  Lemma four_wall_not_solid : forall ch b c j, four g d ch b -> 0 <= j < 4 -> ~ solidlike (b + j) c /\ ty (b + j) <> LT_CHANNEL_4RM.
  Proof.
    intros ch b c j (E & N1 & N2 & B1 & B2 & T0 & T1 & T2 & T3 & _) J.
    assert (K : is_solid (ty (b + j)) = false /\ ty (b + j) <> LT_CHANNEL_4RM).
    { assert (j = 0 \/ j = 1 \/ j = 2 \/ j = 3) as [-> |[-> |[-> | ->]]] by lia.
      - replace (b + 0) with b by lia. rewrite T0. split; [reflexivity|discriminate].
      - rewrite T1. destruct (ch_model ch); split; (reflexivity || discriminate).
      - rewrite T2. destruct (ch_model ch); split; (reflexivity || discriminate).
      - rewrite T3. split; [reflexivity|discriminate]. }
    destruct K as (K1 & K2). split; [|assumption]. intros [H|(H & _)]; congruence.
  Qed.
  Lemma not_both : forall ch b l, four g d ch b -> ty l <> LT_CHANNEL_4RM \/ ~ (0 <= l < NL).
  Proof.
    intros ch b l (E & N1 & _). destruct (layer_type_eq_4rm (ty l)) as [T|T]; [|auto].
    right. intros L. destruct (place_4rm g d G l L T) as (ch2 & E2 & M & _). congruence.
  Qed.
  Lemma above_solid : forall l c, solidlike l c -> 0 <= l -> l + 1 < NL ->
      solidlike (l + 1) c \/ liquid4 (l + 1) c \/ exists ch, four g d ch (l + 1).
  Proof.
    intros l c H L0 L1. destruct (layer_cases (l + 1) c ltac:(lia)) as [K|[(K & _)|(ch & b & F & K)]]; [auto|auto|].
    right. right. exists ch. destruct K as [(-> & _)|K]; [assumption|]. exfalso.
    assert (exists j, 0 <= j < 4 /\ l = b + j) as (j & J & ->).
    { exists (l - b). destruct K as [(K & _)|[(K & _)|(K & _)]]; lia. }
    destruct (four_wall_not_solid ch b c j F J). auto.
  Qed.
  Lemma below_solid : forall l c, solidlike l c -> 0 < l -> l < NL ->
      solidlike (l - 1) c \/ liquid4 (l - 1) c \/ exists ch, four g d ch (l - 4).
  Proof.
    intros l c H L0 L1. destruct (layer_cases (l - 1) c ltac:(lia)) as [K|[(K & _)|(ch & b & F & K)]]; [auto|auto|].
    right. right. exists ch. destruct K as [(K & _)|[(K & _)|[(K & _)|(K & _)]]].
    4:{ replace (l - 4) with b by lia. assumption. }
    all: exfalso; replace l with (b + (l - b)) in H by lia;
      destruct (four_wall_not_solid ch b c (l - b) F ltac:(lia)); auto.
  Qed.
  Lemma above_liquid4 : forall l c, ty l = LT_CHANNEL_4RM -> 0 <= l < NL -> forall l2, 0 <= l2 < NL ->
      solidlike l2 c \/ liquid4 l2 c.
  Proof.
    intros l c H L l2 L2. destruct (layer_cases l2 c L2) as [K|[(K & _)|(ch & b & F & K)]]; [auto|auto|].
    exfalso. destruct (not_both ch b l F); auto.
  Qed.
  Lemma above_top : forall ch b c, four g d ch b -> solidlike (b + 4) c \/ exists ch2, four g d ch2 (b + 4).
  Proof.
    intros ch b c F. pose proof F as (_ & _ & _ & B1 & B2 & _).
    destruct (layer_cases (b + 4) c ltac:(lia)) as [K|[(K & _)|(ch2 & b2 & F2 & K)]]; [auto| |].
    - exfalso. destruct K as (K & _). destruct (not_both ch b (b + 4) F); [auto|lia].
    - right. exists ch2. destruct (four_unique ch b ch2 b2 F F2) as [E|[E|E]].
      + exfalso. destruct K as [(K & _)|[(K & _)|[(K & _)|(K & _)]]]; lia.
      + assert (b2 = b + 4) by (destruct K as [(K & _)|[(K & _)|[(K & _)|(K & _)]]]; lia). subst b2. assumption.
      + exfalso. destruct K as [(K & _)|[(K & _)|[(K & _)|(K & _)]]]; lia.
  Qed.
  Lemma below_bottom : forall ch b c, four g d ch b -> solidlike (b - 1) c \/ exists ch2, four g d ch2 (b - 4).
  Proof.
    intros ch b c F. pose proof F as (_ & _ & _ & B1 & B2 & _).
    destruct (layer_cases (b - 1) c ltac:(lia)) as [K|[(K & _)|(ch2 & b2 & F2 & K)]]; [auto| |].
    - exfalso. destruct K as (K & _). destruct (not_both ch b (b - 1) F); [auto|lia].
    - right. exists ch2. destruct (four_unique ch b ch2 b2 F F2) as [E|[E|E]].
      + exfalso. destruct K as [(K & _)|[(K & _)|[(K & _)|(K & _)]]]; lia.
      + exfalso. destruct K as [(K & _)|[(K & _)|[(K & _)|(K & _)]]]; lia.
      + assert (b2 = b - 4) by (destruct K as [(K & _)|[(K & _)|[(K & _)|(K & _)]]]; lia). subst b2. assumption.
  Qed.

  (** ** Reciprocity *)
  Lemma in_pw_true : forall {A} b (x : A), b = true -> In x (pw b x).
  Proof. intros A b x ->. left. reflexivity. Qed.
  Lemma opp_refl : forall x, opposite (Cond x) (Cond x).
  Proof. intros x. cbn. reflexivity. Qed.
  Lemma opp_eq : forall x y, x = y -> opposite (Cond x) (Cond y).
  Proof. intros x y ->. cbn. reflexivity. Qed.
  Lemma opp_par : forall x y, opposite (Cond (parallel x y)) (Cond (parallel y x)).
  Proof. intros x y. cbn. apply parallel_comm. Qed.

  Definition before_of (n : node) := k_before (links_of g d an n).
  Definition after_of (n : node) := k_after (links_of g d an n).
  Notation reached m n f := (exists f', In (n, f') (before_of m) /\ opposite f f').
  Notation reached' m n f := (exists f', In (n, f') (after_of m) /\ opposite f f').

  Ltac nz := apply negb_true_iff; apply Z.eqb_neq; unfold in_grid in *; lia.
  Ltac inv H := injection H as -> ->.
  Ltac split_in H :=
    repeat match type of H with
    | In _ (_ ++ _) => apply in_app_iff in H; destruct H as [H|H]
    | In _ (pw _ _) => apply in_pw in H; let B := fresh "B" in destruct H as (B & H)
    | In _ (_ :: _) => destruct H as [H|H]; [symmetry in H|]
    | In _ [] => destruct H
    end.
  Ltac neq := repeat match goal with
    | H : negb _ = true |- _ => apply negb_true_iff in H
    | H : (_ && _)%bool = true |- _ => apply andb_true_iff in H; destruct H
    | H : (_ =? _) = false |- _ => apply Z.eqb_neq in H end.

  Lemma solid_same_row : forall l c c2, solidlike l c \/ liquid4 l c -> solidlike l c2 \/ liquid4 l c2.
  Proof.
    intros l c c2 [[H|(H & _)]|(H & _)]; [left; left; assumption| |]; unfold solidlike, liquid4; destruct (Z.odd c2); auto.
  Qed.

  (* East-west *)
  Lemma west_link : forall l r c, solidlike l c \/ liquid4 l c -> c <> 0 ->
      In (Cell l r (c - 1), Cond (parallel (cW l r c) (cE l r (c - 1)))) (before_of (Cell l r c)).
  Proof.
    intros l r c K C. unfold before_of. destruct K as [K|K]; [rewrite links_solid by assumption|rewrite links_liquid4 by assumption];
      cbn [k_before solid_links liquid4_links]; rewrite !in_app_iff; right; right; apply in_pw_true; nz.
  Qed.
  Lemma east_link : forall l r c, solidlike l c \/ liquid4 l c -> c <> NC - 1 ->
      In (Cell l r (c + 1), Cond (parallel (cE l r c) (cW l r (c + 1)))) (after_of (Cell l r c)).
  Proof.
    intros l r c K C. unfold after_of. destruct K as [K|K]; [rewrite links_solid by assumption|rewrite links_liquid4 by assumption];
      cbn [k_after solid_links liquid4_links]; rewrite !in_app_iff; left; apply in_pw_true; nz.
  Qed.

  Lemma opp_guarded : forall x y, (0 < x)%Q -> (0 < y)%Q -> opposite (Cond (guarded x y)) (Cond (guarded y x)).
  Proof. intros x y X Y. rewrite !guarded_pos by assumption. apply opp_par. Qed.
  Lemma opp_guarded_l : forall x y, (0 < y)%Q -> opposite (Cond (guarded x y)) (Cond (parallel y x)).
  Proof. intros x y Y. rewrite guarded_pos by assumption. apply opp_par. Qed.
  Lemma opp_guarded_r : forall x y, (0 < y)%Q -> opposite (Cond (parallel y x)) (Cond (guarded x y)).
  Proof. intros x y Y. rewrite guarded_pos by assumption. apply opp_par. Qed.

  Lemma down_solid : forall l r c, solidlike l c -> l <> 0 ->
      In (Cell (l - 1) r c, Cond (guarded (cB l r c) (cT (l - 1) r c))) (before_of (Cell l r c)).
  Proof.
    intros l r c K L. unfold before_of. rewrite links_solid by assumption. cbn [k_before solid_links].
    rewrite !in_app_iff. left. apply in_pw_true. nz.
  Qed.
  Lemma down_liquid4 : forall l r c, liquid4 l c -> l <> 0 ->
      In (Cell (l - 1) r c, Cond (parallel (cB l r c) (cT (l - 1) r c))) (before_of (Cell l r c)).
  Proof.
    intros l r c K L. unfold before_of. rewrite links_liquid4 by assumption. cbn [k_before liquid4_links].
    rewrite !in_app_iff. left. apply in_pw_true. nz.
  Qed.
  Lemma up_solid : forall l r c, solidlike l c -> l <> NL - 1 ->
      In (Cell (l + 1) r c, Cond (guarded (cT l r c) (cB (l + 1) r c))) (after_of (Cell l r c)).
  Proof.
    intros l r c K L. unfold after_of. rewrite links_solid by assumption. cbn [k_after solid_links].
    rewrite !in_app_iff. right; right; left. apply in_pw_true. nz.
  Qed.
  Lemma up_liquid4 : forall l r c, liquid4 l c -> l <> NL - 1 ->
      In (Cell (l + 1) r c, Cond (parallel (cT l r c) (cB (l + 1) r c))) (after_of (Cell l r c)).
  Proof.
    intros l r c K L. unfold after_of. rewrite links_liquid4 by assumption. cbn [k_after liquid4_links].
    rewrite !in_app_iff. right; right. apply in_pw_true. nz.
  Qed.
  Lemma four_b : forall ch b, four g d ch b -> ty b = LT_BOTTOM_WALL.
  Proof. intros ch b (_ & _ & _ & _ & _ & T & _). assumption. Qed.
  Lemma four_t : forall ch b, four g d ch b -> ty (b + 3) = LT_TOP_WALL.
  Proof. intros ch b (_ & _ & _ & _ & _ & _ & _ & _ & T & _). assumption. Qed.
  Lemma four_w : forall ch b, four g d ch b -> ty (b + 1) = wall_of (ch_model ch).
  Proof. intros ch b (_ & _ & _ & _ & _ & _ & T & _). assumption. Qed.
  Lemma four_c : forall ch b, four g d ch b -> ty (b + 2) = cool_of (ch_model ch).
  Proof. intros ch b (_ & _ & _ & _ & _ & _ & _ & T & _). assumption. Qed.
  Lemma four_r : forall ch b, four g d ch b -> 0 < b /\ b + 4 < NL.
  Proof. intros ch b (_ & _ & _ & A & B & _). auto. Qed.

  (* Solid layer under layer l+1. *)
  Lemma solid_up : forall l r c, in_grid d l r c -> l <> NL - 1 -> solidlike l c ->
      reached (Cell (l + 1) r c) (Cell l r c) (Cond (guarded (cT l r c) (cB (l + 1) r c))).
  Proof.
    intros l r c I L K. destruct (solidlike_not_wall l c K) as (W1 & W2).
    assert (T : (0 < cT l r c)%Q) by (apply cT_pos; (assumption || (left; rng))).
    destruct (above_solid l c K) as [K2|[K2|(ch & F)]]; [rng|rng| | |].
    - destruct (solidlike_not_wall _ _ K2) as (V1 & V2).
      eexists. split; [pose proof (down_solid (l + 1) r c K2 ltac:(rng)) as D; replace (l + 1 - 1) with l in D by lia; exact D|].
      apply opp_guarded; [assumption|]. apply cB_pos; (assumption || rng || (left; rng)).
    - destruct (liquid4_not_wall _ _ K2) as (V1 & V2).
      eexists. split; [pose proof (down_liquid4 (l + 1) r c K2 ltac:(rng)) as D; replace (l + 1 - 1) with l in D by lia; exact D|].
      apply opp_guarded_l. apply cB_pos; (assumption || rng || (left; rng)).
    - exists (Cond (cT l r c)). split.
      + unfold before_of. rewrite links_bottom by (apply (four_b ch); assumption). cbn [k_before bottom_links].
        left. replace (l + 1 - 1) with l by lia. reflexivity.
      + rewrite (cB_wall (l + 1)) by (try rng; right; apply (four_b ch); assumption). rewrite guarded_zero. apply opp_refl.
  Qed.
  (* Solid layer over layer l-1. *)
  Lemma solid_down : forall l r c, in_grid d l r c -> l <> 0 -> solidlike l c ->
      reached' (Cell (l - 1) r c) (Cell l r c) (Cond (guarded (cB l r c) (cT (l - 1) r c))).
  Proof.
    intros l r c I L K. destruct (solidlike_not_wall l c K) as (W1 & W2).
    assert (T : (0 < cB l r c)%Q) by (apply cB_pos; (assumption || (left; rng))).
    destruct (below_solid l c K) as [K2|[K2|(ch & F)]]; [rng|rng| | |].
    - destruct (solidlike_not_wall _ _ K2) as (V1 & V2).
      eexists. split; [pose proof (up_solid (l - 1) r c K2 ltac:(rng)) as D; replace (l - 1 + 1) with l in D by lia; exact D|].
      apply opp_guarded; [assumption|]. apply cT_pos; (assumption || rng || (left; rng)).
    - destruct (liquid4_not_wall _ _ K2) as (V1 & V2).
      eexists. split; [pose proof (up_liquid4 (l - 1) r c K2 ltac:(rng)) as D; replace (l - 1 + 1) with l in D by lia; exact D|].
      apply opp_guarded_l. apply cT_pos; (assumption || rng || (left; rng)).
    - pose proof (four_t _ _ F) as T3. replace (l - 4 + 3) with (l - 1) in T3 by lia.
      exists (Cond (cB l r c)). split.
      + unfold after_of. rewrite links_top by assumption. cbn [k_after top_links].
        left. replace (l - 1 + 1) with l by lia. reflexivity.
      + rewrite (cT_wall (l - 1)) by (try rng; left; assumption). rewrite guarded_zero. apply opp_refl.
  Qed.
  Lemma liquid4_up : forall l r c, in_grid d l r c -> l <> NL - 1 -> liquid4 l c ->
      reached (Cell (l + 1) r c) (Cell l r c) (Cond (parallel (cT l r c) (cB (l + 1) r c))).
  Proof.
    intros l r c I L K. destruct (liquid4_not_wall l c K) as (W1 & W2).
    assert (T : (0 < cT l r c)%Q) by (apply cT_pos; (assumption || (left; rng))).
    destruct (above_liquid4 l c (proj1 K) ltac:(rng) (l + 1) ltac:(rng)) as [K2|K2].
    - eexists. split; [pose proof (down_solid (l + 1) r c K2 ltac:(rng)) as D; replace (l + 1 - 1) with l in D by lia; exact D|].
      apply opp_guarded_r. assumption.
    - eexists. split; [pose proof (down_liquid4 (l + 1) r c K2 ltac:(rng)) as D; replace (l + 1 - 1) with l in D by lia; exact D|].
      apply opp_par.
  Qed.
  Lemma liquid4_down : forall l r c, in_grid d l r c -> l <> 0 -> liquid4 l c ->
      reached' (Cell (l - 1) r c) (Cell l r c) (Cond (parallel (cB l r c) (cT (l - 1) r c))).
  Proof.
    intros l r c I L K. destruct (liquid4_not_wall l c K) as (W1 & W2).
    assert (T : (0 < cB l r c)%Q) by (apply cB_pos; (assumption || (left; rng))).
    destruct (above_liquid4 l c (proj1 K) ltac:(rng) (l - 1) ltac:(rng)) as [K2|K2].
    - eexists. split; [pose proof (up_solid (l - 1) r c K2 ltac:(rng)) as D; replace (l - 1 + 1) with l in D by lia; exact D|].
      apply opp_guarded_r. assumption.
    - eexists. split; [pose proof (up_liquid4 (l - 1) r c K2 ltac:(rng)) as D; replace (l - 1 + 1) with l in D by lia; exact D|].
      apply opp_par.
  Qed.

  Lemma coolant_4 : forall l c, liquid4 l c -> is_coolant (ty l) = true /\ (ty l = LT_CHANNEL_4RM -> Z.odd c = true).
  Proof. intros l c (H & O). rewrite H. auto. Qed.
  Lemma coolant_2 : forall ch l c, ty l = cool_of (ch_model ch) -> is_coolant (ty l) = true /\ (ty l = LT_CHANNEL_4RM -> Z.odd c = true).
  Proof. intros ch l c ->. destruct (ch_model ch); split; (reflexivity || discriminate). Qed.

  Lemma opp_conv : forall l r r2 c, 0 <= l < NL -> is_coolant (ty l) = true /\ (ty l = LT_CHANNEL_4RM -> Z.odd c = true) ->
      opposite (Conv (cN l r c)) (Conv (cS l r2 c)) /\ opposite (Conv (cS l r c)) (Conv (cN l r2 c)).
  Proof.
    intros l r r2 c L (H & O). cbn. split; [apply conv_opposite; assumption|].
    rewrite (conv_opposite l r r2 c L H O). ring.
  Qed.

  Ltac fin := repeat match goal with |- context [?a - 1 + 1] => replace (a - 1 + 1) with a by lia
                                   | |- context [?a + 1 - 1] => replace (a + 1 - 1) with a by lia end.

  (** Links of each kind of cell towards cells of greater index. *)
  Lemma after_before_cell : forall l r c m f, in_grid d l r c -> In (m, f) (after_of (Cell l r c)) ->
      valid g d m /\ reached m (Cell l r c) f.
  Proof.
    intros l r c m f I H. destruct (layer_cases l c ltac:(rng)) as [K|[(K & LL)|(ch & b & F & K)]].
    - unfold after_of in H. rewrite links_solid in H by assumption. cbn [k_after solid_links] in H. split_in H; neq; inv H.
      + split; [cbn; rng|]. eexists. split.
        * pose proof (west_link l r (c + 1) (solid_same_row l c (c + 1) (or_introl K)) ltac:(rng)) as D. replace (c + 1 - 1) with c in D by lia. exact D.
        * apply opp_par.
      + split; [cbn; rng|]. unfold before_of. rewrite links_solid by assumption. cbn [k_before solid_links]. eexists. split.
        * rewrite !in_app_iff. right. left. apply in_pw. split; [nz|]. fin. reflexivity.
        * fin. apply opp_par.
      + split; [cbn; rng|]. apply solid_up; assumption.
      + destruct K as [K|(K & _)]; [|rewrite K in *; discriminate].
        destruct (solid_facts g d G l ltac:(rng) K) as (_ & S & _). pose proof (S B) as E.
        assert (HS : has_spreader (tg_top g)) by (apply (gt_linked d g G); rewrite <- E; assumption).
        destruct (spr_good g d G HS) as (GS & ES).
        destruct (spreader_roundtrip d (spr g) l r c (gt_accepted d g G) GS I) as (_ & U & _).
        pose proof GS as [G1 G2 G3 G4 G5 G6 G7].
        split; [cbn; split; [assumption|rng]|]. eexists. split.
        * unfold before_of. cbn [links_of spreader_links k_before]. rewrite !in_app_iff. left. apply in_pw. split; [exact U|].
          replace (r + s_border_rows (spr g) - s_border_rows (spr g)) with r by lia.
          replace (c + s_border_cols (spr g) - s_border_cols (spr g)) with c by lia. rewrite <- E. reflexivity.
        * apply opp_refl.
    - unfold after_of in H. rewrite links_liquid4 in H by assumption. cbn [k_after liquid4_links] in H. split_in H; neq; inv H.
      + split; [cbn; rng|]. eexists. split.
        * pose proof (west_link l r (c + 1) (solid_same_row l c (c + 1) (or_intror K)) ltac:(rng)) as D. replace (c + 1 - 1) with c in D by lia. exact D.
        * apply opp_par.
      + split; [cbn; rng|]. unfold before_of. rewrite links_liquid4 by assumption. cbn [k_before liquid4_links]. eexists. split.
        * rewrite !in_app_iff. right. left. apply in_pw. split; [nz|]. fin. reflexivity.
        * apply opp_conv; [rng|apply coolant_4; assumption].
      + split; [cbn; rng|]. apply liquid4_up; assumption.
    - pose proof (four_r _ _ F) as (B1 & B2). unfold after_of in H. destruct K as [(-> & T)|[(-> & T)|[(-> & T)|(-> & T)]]].
      + rewrite links_bottom in H by assumption. cbn [k_after bottom_links] in H. split_in H; neq; inv H.
        * split; [cbn; rng|]. unfold before_of. rewrite (links_vwall ch) by (apply four_w; assumption). cbn [k_before vwall_links].
          eexists. split; [left; fin; reflexivity|]. apply opp_eq. apply (vwall_tb ch); [rng|apply four_w; assumption].
        * split; [cbn; rng|]. unfold before_of. rewrite (links_cool ch) by (apply four_c; assumption). cbn [k_before liquid2_links].
          eexists. split; [left; replace (b + 2 - 2) with b by lia; reflexivity|]. apply opp_refl.
      + rewrite (links_vwall ch) in H by assumption. cbn [k_after vwall_links] in H. split_in H; neq; inv H.
        * split; [cbn; rng|]. unfold before_of. rewrite (links_vwall ch) by assumption. cbn [k_before vwall_links].
          eexists. split; [right; apply in_pw; split; [apply andb_true_iff; split; [assumption|nz]|fin; reflexivity]|].
          replace (cS (b + 1) (r + 1) c) with (cS (b + 1) r c) by (apply (vwall_rows ch); (assumption || rng)).
          replace (cN (b + 1) (r + 1) c) with (cN (b + 1) r c) by (apply (vwall_rows ch); (assumption || rng)). apply opp_par.
        * split; [cbn; rng|]. unfold before_of. replace (b + 1 + 2) with (b + 3) by lia. rewrite links_top by (apply (four_t ch); assumption).
          cbn [k_before top_links]. replace (b + 3 - 2) with (b + 1) by lia. eexists. split; [left; reflexivity|]. apply opp_refl.
      + rewrite (links_cool ch) in H by assumption. cbn [k_after liquid2_links] in H. split_in H; neq; inv H.
        * split; [cbn; rng|]. unfold before_of. rewrite (links_cool ch) by assumption. cbn [k_before liquid2_links].
          eexists. split; [right; apply in_pw; split; [nz|fin; reflexivity]|]. apply opp_conv; [rng|apply (coolant_2 ch); assumption].
        * split; [cbn; rng|]. unfold before_of. replace (b + 2 + 1) with (b + 3) by lia. rewrite links_top by (apply (four_t ch); assumption).
          cbn [k_before top_links]. replace (b + 3 - 1) with (b + 2) by lia. eexists. split; [right; left; reflexivity|]. apply opp_refl.
      + rewrite links_top in H by assumption. cbn [k_after top_links] in H. split_in H; neq; inv H.
        split; [cbn; rng|]. replace (b + 3 + 1) with (b + 4) by lia. destruct (above_top ch b c F) as [K2|(ch2 & F2)].
        * pose proof (down_solid (b + 4) r c K2 ltac:(rng)) as D. replace (b + 4 - 1) with (b + 3) in D by lia.
          eexists. split; [exact D|]. rewrite (cT_wall (b + 3)) by (try rng; left; assumption). rewrite guarded_zero. apply opp_refl.
        * unfold before_of. rewrite links_bottom by (apply (four_b ch2); assumption). cbn [k_before bottom_links].
          replace (b + 4 - 1) with (b + 3) by lia. eexists. split; [left; reflexivity|]. apply opp_eq.
          rewrite (cB_wall (b + 4)) by (try rng; right; apply (four_b ch2); assumption).
          rewrite (cT_wall (b + 3)) by (try rng; left; assumption). reflexivity.
  Qed.
  Lemma before_after_cell : forall l r c m f, in_grid d l r c -> In (m, f) (before_of (Cell l r c)) ->
      valid g d m /\ reached' m (Cell l r c) f.
  Proof.
    intros l r c m f I H. destruct (layer_cases l c ltac:(rng)) as [K|[(K & LL)|(ch & b & F & K)]].
    - unfold before_of in H. rewrite links_solid in H by assumption. cbn [k_before solid_links] in H. split_in H; neq; inv H.
      + split; [cbn; rng|]. apply solid_down; assumption.
      + split; [cbn; rng|]. unfold after_of. rewrite links_solid by assumption. cbn [k_after solid_links]. eexists. split.
        * rewrite !in_app_iff. right. left. apply in_pw. split; [nz|]. fin. reflexivity.
        * fin. apply opp_par.
      + split; [cbn; rng|]. eexists. split.
        * pose proof (east_link l r (c - 1) (solid_same_row l c (c - 1) (or_introl K)) ltac:(rng)) as D. replace (c - 1 + 1) with c in D by lia. exact D.
        * apply opp_par.
    - unfold before_of in H. rewrite links_liquid4 in H by assumption. cbn [k_before liquid4_links] in H. split_in H; neq; inv H.
      + split; [cbn; rng|]. apply liquid4_down; assumption.
      + split; [cbn; rng|]. unfold after_of. rewrite links_liquid4 by assumption. cbn [k_after liquid4_links]. eexists. split.
        * rewrite !in_app_iff. right. left. apply in_pw. split; [nz|]. fin. reflexivity.
        * apply opp_conv; [rng|apply coolant_4; assumption].
      + split; [cbn; rng|]. eexists. split.
        * pose proof (east_link l r (c - 1) (solid_same_row l c (c - 1) (or_intror K)) ltac:(rng)) as D. replace (c - 1 + 1) with c in D by lia. exact D.
        * apply opp_par.
    - pose proof (four_r _ _ F) as (B1 & B2). unfold before_of in H. destruct K as [(-> & T)|[(-> & T)|[(-> & T)|(-> & T)]]].
      + rewrite links_bottom in H by assumption. cbn [k_before bottom_links] in H. split_in H; neq; inv H.
        split; [cbn; rng|]. destruct (below_bottom ch b c F) as [K2|(ch2 & F2)].
        * pose proof (up_solid (b - 1) r c K2 ltac:(rng)) as D. replace (b - 1 + 1) with b in D by lia.
          eexists. split; [exact D|]. rewrite (cB_wall b) by (try rng; right; assumption). rewrite guarded_zero. apply opp_refl.
        * pose proof (four_t _ _ F2) as T3. replace (b - 4 + 3) with (b - 1) in T3 by lia.
          unfold after_of. rewrite links_top by assumption. cbn [k_after top_links]. fin.
          eexists. split; [left; reflexivity|]. apply opp_eq.
          rewrite (cB_wall b) by (try rng; right; assumption). rewrite (cT_wall (b - 1)) by (try rng; left; assumption). reflexivity.
      + rewrite (links_vwall ch) in H by assumption. cbn [k_before vwall_links] in H. split_in H; neq; inv H.
        * split; [cbn; rng|]. unfold after_of. fin. rewrite links_bottom by (apply (four_b ch); assumption). cbn [k_after bottom_links].
          eexists. split; [left; reflexivity|]. apply opp_eq. symmetry. apply (vwall_tb ch); [rng|assumption].
        * split; [cbn; rng|]. unfold after_of. rewrite (links_vwall ch) by assumption. cbn [k_after vwall_links].
          eexists. split; [rewrite in_app_iff; left; apply in_pw; split; [apply andb_true_iff; split; [assumption|nz]|fin; reflexivity]|].
          replace (cS (b + 1) (r - 1) c) with (cS (b + 1) r c) by (apply (vwall_rows ch); (assumption || rng)).
          replace (cN (b + 1) (r - 1) c) with (cN (b + 1) r c) by (apply (vwall_rows ch); (assumption || rng)). apply opp_par.
      + rewrite (links_cool ch) in H by assumption. cbn [k_before liquid2_links] in H. split_in H; neq; inv H.
        * split; [cbn; rng|]. unfold after_of. replace (b + 2 - 2) with b by lia. rewrite links_bottom by (apply (four_b ch); assumption).
          cbn [k_after bottom_links]. eexists. split; [right; left; reflexivity|]. apply opp_refl.
        * split; [cbn; rng|]. unfold after_of. rewrite (links_cool ch) by assumption. cbn [k_after liquid2_links].
          eexists. split; [rewrite in_app_iff; left; apply in_pw; split; [nz|fin; reflexivity]|]. apply opp_conv; [rng|apply (coolant_2 ch); assumption].
      + rewrite links_top in H by assumption. cbn [k_before top_links] in H. split_in H; neq; inv H.
        * split; [cbn; rng|]. unfold after_of. replace (b + 3 - 2) with (b + 1) by lia. rewrite (links_vwall ch) by (apply four_w; assumption).
          cbn [k_after vwall_links]. eexists. split; [rewrite in_app_iff; right; left; replace (b + 1 + 2) with (b + 3) by lia; reflexivity|]. apply opp_refl.
        * split; [cbn; rng|]. unfold after_of. replace (b + 3 - 1) with (b + 2) by lia. rewrite (links_cool ch) by (apply four_c; assumption).
          cbn [k_after liquid2_links]. eexists. split; [rewrite in_app_iff; right; left; replace (b + 2 + 1) with (b + 3) by lia; reflexivity|]. apply opp_refl.
  Qed.

  Lemma after_before : forall n m f, valid g d n -> In (m, f) (after_of n) -> valid g d m /\ reached m n f.
  Proof.
    intros [l r c|r c] m f V H; [apply after_before_cell; assumption|].
    destruct V as (HS & R & C). unfold after_of in H. cbn [links_of spreader_links k_after] in H. split_in H; neq; inv H.
    - split; [cbn; split; [assumption|lia]|]. unfold before_of. cbn [links_of spreader_links k_before]. eexists. split.
      + rewrite !in_app_iff. right. right. apply in_pw. split; [nz|]. fin. reflexivity.
      + apply opp_refl.
    - split; [cbn; split; [assumption|lia]|]. unfold before_of. cbn [links_of spreader_links k_before]. eexists. split.
      + rewrite !in_app_iff. right. left. apply in_pw. split; [nz|]. fin. reflexivity.
      + apply opp_refl.
  Qed.
  Lemma before_after : forall n m f, valid g d n -> In (m, f) (before_of n) -> valid g d m /\ reached' m n f.
  Proof.
    intros [l r c|r c] m f V H; [apply before_after_cell; assumption|].
    destruct V as (HS & R & C). unfold before_of in H. cbn [links_of spreader_links k_before] in H. split_in H; neq; inv H.
    - destruct (under_coords g d G HS r c R C B) as (R2 & C2). pose proof (gt_one d g G).
      split; [cbn; rng|].
      assert (T : to_spreader (ty (NL - 1)) = true) by (apply (gt_linked d g G); assumption).
      assert (K : solidlike (NL - 1) (c - s_border_cols (spr g))).
      { left. destruct (ty (NL - 1)); try discriminate T; reflexivity. }
      unfold after_of. rewrite links_solid by assumption. cbn [k_after solid_links]. eexists. split.
      + rewrite !in_app_iff. right. right. right. apply in_pw. split; [exact T|].
        replace (r - s_border_rows (spr g) + s_border_rows (spr g)) with r by lia.
        replace (c - s_border_cols (spr g) + s_border_cols (spr g)) with c by lia. reflexivity.
      + apply opp_refl.
    - split; [cbn; split; [assumption|lia]|]. unfold after_of. cbn [links_of spreader_links k_after]. eexists. split.
      + rewrite !in_app_iff. right. apply in_pw. split; [nz|]. fin. reflexivity.
      + apply opp_refl.
    - split; [cbn; split; [assumption|lia]|]. unfold after_of. cbn [links_of spreader_links k_after]. eexists. split.
      + rewrite !in_app_iff. left. apply in_pw. split; [nz|]. fin. reflexivity.
      + apply opp_refl.
  Qed.
  Lemma reciprocal : forall n m f, valid g d n -> In (m, f) (lk n) -> valid g d m /\ exists f', In (n, f') (lk m) /\ opposite f f'.
  Proof.
    intros n m f V H. unfold all_links in H. apply in_app_iff in H. destruct H as [H|H].
    - destruct (before_after n m f V H) as (V2 & f' & H2 & O). split; [assumption|]. exists f'. split; [apply in_app_iff; auto|assumption].
    - destruct (after_before n m f V H) as (V2 & f' & H2 & O). split; [assumption|]. exists f'. split; [apply in_app_iff; auto|assumption].
  Qed.
End Links.
