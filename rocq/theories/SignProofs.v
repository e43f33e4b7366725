(** * Signs of the conductances and order of the row indexes *)
From Coq Require Import ZArith List Bool QArith Lia Lqa Sorted.
From Verif Require Import Base QSum Dims DimsSpec DimsProofs Floorplan FloorplanSpec FloorplanProofs Stack StackSpec PowerGrid Emulate EmulateSpec Conduct Matrix MatrixSpec CellProofs NodeProofs LinkProofs.
Import ListNotations.
Local Open Scope Z_scope.

Lemma Qnn : forall x, (0 < x -> 0 <= x)%Q.
Proof. intros x H. lra. Qed.
Lemma parallel_nonneg : forall x y, (0 <= x -> 0 <= y -> 0 <= parallel x y)%Q.
Proof.
  intros x y X Y. unfold parallel. apply Qle_lt_or_eq in X. apply Qle_lt_or_eq in Y.
  destruct X as [X|X]; [destruct Y as [Y|Y]|].
  - apply Qnn. apply parallel_pos; assumption.
  - rewrite <- Y. setoid_replace (x * 0 / (x + 0))%Q with 0%Q; [lra|]. unfold Qdiv. ring.
  - rewrite <- X. setoid_replace (0 * y / (0 + y))%Q with 0%Q; [lra|]. unfold Qdiv. ring.
Qed.
Lemma guarded_nonneg : forall x y, (0 <= x -> 0 <= y -> 0 <= guarded x y)%Q.
Proof. intros x y X Y. unfold guarded. destruct (Qeq_bool y 0); [assumption|apply parallel_nonneg; assumption]. Qed.

Section Signs.
  Variables (g : tgrid) (d : dims) (an : analysis).
  Hypothesis G : good_tgrid d g.
  Hypothesis P : physical g d.

  Notation NL := (d_nlayers d).
  Notation NR := (d_nrows d).
  Notation NC := (d_ncols d).
  Notation SR := (s_nrows (spr g)).
  Notation SC := (s_ncols (spr g)).
  Notation ty := (type_of g).
  Notation lk n := (all_links (links_of g d an n)).
  Notation cT := (cT g d).
  Notation cB := (cB g d).
  Notation cN := (cN g d).
  Notation cS := (cS g d).
  Notation cE := (cE g d).
  Notation cW := (cW g d).
  Ltac rng := unfold in_grid in *; lia.

  Lemma wall_dec : forall t, {t = LT_TOP_WALL \/ t = LT_BOTTOM_WALL} + {t <> LT_TOP_WALL /\ t <> LT_BOTTOM_WALL}.
  Proof. intros []; ((right; split; discriminate) || (left; auto)). Qed.
  Lemma cT_nonneg : forall l r c, in_grid d l r c -> l < NL - 1 -> (0 <= cT l r c)%Q.
  Proof.
    intros l r c I L. destruct (wall_dec (ty l)) as [W|(W1 & W2)].
    - rewrite (cT_wall g d G) by (assumption || rng). lra.
    - apply Qnn. apply (cT_pos g d G P); auto.
  Qed.
  Lemma cB_nonneg : forall l r c, in_grid d l r c -> 0 < l -> (0 <= cB l r c)%Q.
  Proof.
    intros l r c I L. destruct (wall_dec (ty l)) as [W|(W1 & W2)].
    - rewrite (cB_wall g d G) by (assumption || rng). lra.
    - apply Qnn. apply (cB_pos g d G P); auto.
  Qed.
  Lemma guarded_pos2 : forall x y, (0 < x -> 0 <= y -> 0 < guarded x y)%Q.
  Proof.
    intros x y X Y. unfold guarded. destruct (Qeq_bool y 0) eqn:E; [assumption|].
    apply parallel_pos; [assumption|]. apply Qeq_bool_neq in E. lra.
  Qed.
  Lemma wall_ns_nonneg : forall ch b r c s, four g d ch b -> 0 <= r < NR -> 0 <= c < NC ->
      (0 <= val (conductance_ns s g d (b + 1) r c))%Q.
  Proof.
    intros ch b r c s F R C. pose proof (four_r g d ch b F) as (B1 & B2).
    pose proof (four_phys g d P (b + 1) r c ltac:(lia) R C ch b F) as ((_ & _ & Q3) & _).
    unfold conductance_ns. rewrite (at_layer_in g d G) by lia. pose proof F as (E & _ & _ & _ & _ & _ & T & _).
    unfold with_channel. rewrite E, T.
    pose proof (cell_length_pos g d G c C) as P1. pose proof (cell_width_pos g d G r R) as P2.
    pose proof (height_pos g d G P (b + 1) ltac:(lia)) as P3.
    destruct (material_pos g d G P (b + 1) r c ltac:(lia)) as (P4 & P5 & P6 & P7).
    destruct (ch_model ch); cbn [wall_of val]; try lra.
    apply Qnn. repeat first [assumption | apply Qdiv_pos | apply Qmul_pos | apply Qhalf_pos | reflexivity].
  Qed.

  Lemma tb_pos : has_spreader (tg_top g) -> (0 < tb g /\ 0 < lns g /\ 0 < lew g)%Q.
  Proof.
    intros (s & h & m & E). destruct (ph_spreader g d P s h m E) as ((P1 & P2 & P3) & P4 & P5 & P6 & P7).
    unfold tb, lns, lew, spr, sp_h, sp_m. rewrite E.
    unfold spreader_top_bottom, spreader_north_south, spreader_east_west.
    repeat split; repeat first [assumption | apply parallel_pos | apply Qdiv_pos | apply Qmul_pos | apply Qhalf_pos | reflexivity].
  Qed.

  Ltac inv H := injection H as -> ->.
  Ltac split_in H :=
    repeat match type of H with
    | In _ (_ ++ _) => apply in_app_iff in H; destruct H as [H|H]
    | In _ (pw _ _) => apply in_pw in H; let B := fresh "B" in destruct H as (B & H)
    | In _ (_ :: _) => destruct H as [H|H]; [symmetry in H|]
    | In _ [] => destruct H
    end.
  Ltac neq := repeat match goal with
    | H : negb _ = true |- _ => apply negb_true_iff in H
    | H : (_ && _)%bool = true |- _ => apply andb_true_iff in H; destruct H
    | H : (_ =? _) = false |- _ => apply Z.eqb_neq in H end.

  Lemma ns_solid : forall l r c s, in_grid d l r c -> solidlike g l c -> (0 < val (conductance_ns s g d l r c))%Q.
  Proof. intros l r c s I K. apply (ns_pos g d G P); (rng || assumption). Qed.
  Lemma ew_solid : forall l r c, in_grid d l r c -> solidlike g l c \/ liquid4 g l c -> (0 < val (conductance_ew g d l r c))%Q.
  Proof.
    intros l r c I K. apply (ew_pos g d G P); try rng. destruct K as [[K|(K & _)]|(K & _)]; auto.
  Qed.

  Definition flow_pos (f : flow) : Prop := match f with Cond x => (0 < x)%Q | Conv _ => True end.
  Definition flow_nonneg (f : flow) : Prop := match f with Cond x => (0 <= x)%Q | Conv _ => True end.

  Lemma solid_links_pos : forall l r c m f, in_grid d l r c -> solidlike g l c ->
      In (m, f) (all_links (solid_links g d an l r c)) -> exists x, f = Cond x /\ (0 < x)%Q.
  Proof.
    intros l r c m f I K H. destruct (solidlike_not_wall g l c K) as (W1 & W2).
    assert (K' : forall c2, solidlike g l c2 \/ liquid4 g l c2) by (intros c2; apply (solid_same_row g l c c2); auto).
    unfold all_links, solid_links in H. cbn [k_before k_after] in H.
    split_in H; neq; inv H; eexists; (split; [reflexivity|]).
    - apply guarded_pos2; [apply (cB_pos g d G P); (assumption || (left; rng))|apply cT_nonneg; rng].
    - apply parallel_pos; apply ns_solid; (assumption || rng).
    - apply parallel_pos; apply ew_solid; (auto || rng).
    - apply parallel_pos; apply ew_solid; (auto || rng).
    - apply parallel_pos; apply ns_solid; (assumption || rng).
    - apply guarded_pos2; [apply (cT_pos g d G P); (assumption || (left; rng))|apply cB_nonneg; rng].
    - destruct K as [K|(K & _)]; [|rewrite K in *; discriminate].
      destruct (solid_facts g d G l ltac:(rng) K) as (_ & S & _). pose proof (S B) as E.
      assert (HS : has_spreader (tg_top g)) by (apply (gt_linked d g G); rewrite <- E; assumption).
      destruct (tb_pos HS) as (T1 & _). apply parallel_pos; [assumption|]. apply (cT_pos g d G P); auto.
  Qed.
  Lemma spreader_links_pos : forall r c m f, valid g d (Spr r c) ->
      In (m, f) (lk (Spr r c)) -> exists x, f = Cond x /\ (0 < x)%Q.
  Proof.
    intros r c m f (HS & R & C) H. destruct (tb_pos HS) as (T1 & T2 & T3). unfold all_links in H. cbn [links_of spreader_links k_before k_after] in H.
    split_in H; neq; inv H; eexists; (split; [reflexivity|]); try assumption.
    destruct (under_coords g d G HS r c R C B) as (R2 & C2). pose proof (gt_one d g G).
    assert (T : to_spreader (ty (NL - 1)) = true) by (apply (gt_linked d g G); assumption).
    apply parallel_pos; [assumption|]. apply (cT_pos g d G P); [rng| | |auto]; intros W; rewrite W in T; discriminate.
  Qed.
  (** In a stack without coolant every link is a positive conductance. *)
  Lemma solid_stack_pos : solid_stack g d -> forall n m f, valid g d n -> In (m, f) (lk n) -> exists x, f = Cond x /\ (0 < x)%Q.
  Proof.
    intros SS [l r c|r c] m f V H; [|eapply spreader_links_pos; eassumption].
    assert (K : solidlike g l c) by (left; apply SS; destruct V; assumption).
    rewrite (links_solid g d an l r c K) in H. eapply solid_links_pos; eassumption.
  Qed.
  (** In every stack conductances are not negative. *)
  Lemma links_nonneg : forall n m x, valid g d n -> In (m, Cond x) (lk n) -> (0 <= x)%Q.
  Proof.
    intros [l r c|r c] m x V H.
    2:{ destruct (spreader_links_pos r c m _ V H) as (y & E & Y). injection E as ->. lra. }
    assert (I : in_grid d l r c) by exact V.
    destruct (layer_cases g d G l c ltac:(rng)) as [K|[(K & LL)|(ch & b & F & K)]].
    - rewrite (links_solid g d an l r c K) in H. destruct (solid_links_pos l r c m _ I K H) as (y & E & Y). injection E as ->. lra.
    - rewrite (links_liquid4 g d an l r c K) in H. unfold all_links, liquid4_links in H. cbn [k_before k_after] in H.
      assert (K' : forall c2, solidlike g l c2 \/ liquid4 g l c2) by (intros c2; apply (solid_same_row g l c c2); auto).
      split_in H; neq; first [discriminate H | injection H as -> ->].
      + apply parallel_nonneg; [apply cB_nonneg; rng|apply cT_nonneg; rng].
      + apply parallel_nonneg; apply Qnn; apply ew_solid; (auto || rng).
      + apply parallel_nonneg; apply Qnn; apply ew_solid; (auto || rng).
      + apply parallel_nonneg; [apply cT_nonneg; rng|apply cB_nonneg; rng].
    - pose proof (four_r g d _ _ F) as (B1 & B2). destruct K as [(-> & T)|[(-> & T)|[(-> & T)|(-> & T)]]].
      + rewrite links_bottom in H by assumption. unfold all_links, bottom_links in H. cbn [k_before k_after] in H.
        split_in H; neq; first [discriminate H | injection H as -> ->]; (apply cT_nonneg; rng) || (apply cB_nonneg; rng).
      + rewrite (links_vwall g d an ch) in H by assumption. unfold all_links, vwall_links in H. cbn [k_before k_after] in H.
        split_in H; neq; first [discriminate H | injection H as -> ->].
        * apply cB_nonneg; rng.
        * apply parallel_nonneg; apply (wall_ns_nonneg ch); (assumption || rng).
        * apply parallel_nonneg; apply (wall_ns_nonneg ch); (assumption || rng).
        * apply cT_nonneg; rng.
      + rewrite (links_cool g d an ch) in H by assumption. unfold all_links, liquid2_links in H. cbn [k_before k_after] in H.
        split_in H; neq; first [discriminate H | injection H as -> ->]; (apply cT_nonneg; rng) || (apply cB_nonneg; rng).
      + rewrite links_top in H by assumption. unfold all_links, top_links in H. cbn [k_before k_after] in H.
        split_in H; neq; first [discriminate H | injection H as -> ->]; (apply cT_nonneg; rng) || (apply cB_nonneg; rng).
  Qed.
End Signs.

(** ** Order *)
Section Order.
  Variables (g : tgrid) (d : dims) (an : analysis).
  Hypothesis G : good_tgrid d g.
  Notation NL := (d_nlayers d).
  Notation NR := (d_nrows d).
  Notation NC := (d_ncols d).
  Notation SR := (s_nrows (spr g)).
  Notation SC := (s_ncols (spr g)).
  Notation ix := (idx g d).

  Definition below (a : node) (L : list (node * flow)) : Prop := Forall (fun p => ix a < ix (fst p)) L.
  Definition above (a : node) (L : list (node * flow)) : Prop := Forall (fun p => ix (fst p) < ix a) L.
  Definition sorted (L : list (node * flow)) : Prop := StronglySorted Z.lt (map (fun p => ix (fst p)) L).

  Lemma sorted_pw : forall b n f L, (b = true -> below n L) -> sorted L -> sorted (pw b (n, f) ++ L).
  Proof.
    intros b n f L H S. destruct b; [|exact S]. cbn [pw app]. unfold sorted. cbn [map]. constructor; [exact S|].
    specialize (H eq_refl). unfold below in H. rewrite Forall_forall in H. apply Forall_forall. intros y Hy. apply in_map_iff in Hy.
    destruct Hy as (p & <- & Hp). apply H. assumption.
  Qed.
  Lemma sorted_cons : forall n f L, below n L -> sorted L -> sorted ((n, f) :: L).
  Proof. intros n f L H S. apply (sorted_pw true n f L); auto. Qed.
  Lemma sorted_one : forall n f, sorted [(n, f)].
  Proof. intros. unfold sorted. cbn. constructor; constructor. Qed.
  Lemma sorted_nil : sorted [].
  Proof. constructor. Qed.
  Lemma sorted_pw1 : forall b n f, sorted (pw b (n, f)).
  Proof. intros [] n f; [apply sorted_one|apply sorted_nil]. Qed.
  Lemma below_app : forall n L M, below n L -> below n M -> below n (L ++ M).
  Proof. intros. apply Forall_app. auto. Qed.
  Lemma below_pw : forall n b m f, (b = true -> ix n < ix m) -> below n (pw b (m, f)).
  Proof. intros n [] m f H; constructor; [apply H; reflexivity|constructor]. Qed.
  Lemma below_cons : forall n m f L, ix n < ix m -> below n L -> below n ((m, f) :: L).
  Proof. intros. constructor; assumption. Qed.
  Lemma below_nil : forall n, below n [].
  Proof. constructor. Qed.
  Lemma above_app : forall n L M, above n L -> above n M -> above n (L ++ M).
  Proof. intros. apply Forall_app. auto. Qed.
  Lemma above_pw : forall n b m f, (b = true -> ix m < ix n) -> above n (pw b (m, f)).
  Proof. intros n [] m f H; constructor; [apply H; reflexivity|constructor]. Qed.
  Lemma above_cons : forall n m f L, ix m < ix n -> above n L -> above n ((m, f) :: L).
  Proof. intros. constructor; assumption. Qed.
  Lemma above_nil : forall n, above n [].
  Proof. constructor. Qed.

  Lemma area_facts : 1 <= NR /\ 1 <= NC /\ NC <= NR * NC /\ (2 <= NR -> 2 * NC <= NR * NC).
  Proof.
    destruct (gt_grid d g G) as (A & B & C & _). assert (1 <= NR) by lia. assert (1 <= NC) by lia.
    split; [assumption|]. split; [assumption|]. split.
    - pose proof (Z.mul_le_mono_nonneg_r 1 NR NC ltac:(lia) ltac:(lia)). lia.
    - intros H2. apply Z.mul_le_mono_nonneg_r; lia.
  Qed.
  Lemma chip_lt : forall l r c, in_grid d l r c -> ix (Cell l r c) < NL * NR * NC.
  Proof.
    intros l r c (L & R & C). cbn [idx].
    assert (r * NC + c < NR * NC).
    { pose proof (Z.mul_le_mono_nonneg_r r (NR - 1) NC ltac:(lia) ltac:(lia)). lia. }
    pose proof (Z.mul_le_mono_nonneg_r l (NL - 1) (NR * NC) ltac:(pose proof area_facts; lia) ltac:(lia)). lia.
  Qed.

  Ltac rng := unfold in_grid in *; lia.
  Ltac neq := repeat match goal with
    | H : negb _ = true |- _ => apply negb_true_iff in H
    | H : (_ && _)%bool = true |- _ => apply andb_true_iff in H; destruct H
    | H : (_ =? _) = false |- _ => apply Z.eqb_neq in H end.
  Ltac step := first
    [ apply sorted_pw | apply sorted_cons | apply sorted_nil | apply sorted_one | apply sorted_pw1
    | apply below_app | apply below_pw | apply below_cons | apply below_nil
    | apply above_app | apply above_pw | apply above_cons | apply above_nil | intros ?].

  Lemma order_cell : forall l r c, in_grid d l r c -> forall k,
      In k [solid_links g d an l r c; liquid4_links g d an l r c; liquid2_links g d an l r c; bottom_links g d an l r c; top_links g d an l r c; vwall_links g d an l r c] ->
      (to_spreader (type_of g l) = true -> has_spreader (tg_top g)) ->
      sorted (k_before k) /\ above (Cell l r c) (k_before k) /\ sorted (k_after k) /\ below (Cell l r c) (k_after k).
  Proof.
    intros l r c I k H HS. destruct area_facts as (A1 & A2 & A3 & A4).
    assert (SP : forall l2 r2 c2 r3 c3, in_grid d l2 r2 c2 -> 0 <= r3 -> 0 <= c3 -> 0 <= SC -> ix (Cell l2 r2 c2) < ix (Spr r3 c3)).
    { intros l2 r2 c2 r3 c3 I2 R3 C3 S. pose proof (chip_lt l2 r2 c2 I2). cbn [idx] in *.
      pose proof (Z.mul_nonneg_nonneg r3 SC R3 S). lia. }
    assert (SPS : to_spreader (type_of g l) = true -> 0 <= s_border_rows (spr g) /\ 0 <= s_border_cols (spr g) /\ 0 <= SC).
    { intros T. destruct (spr_good g d G (HS T)) as ([G1 G2 G3 G4 G5 G6 G7] & _). lia. }
    destruct H as [<-|[<-|[<-|[<-|[<-|[<-|[]]]]]]]; unfold solid_links, liquid4_links, liquid2_links, bottom_links, top_links, vwall_links; cbn [k_before k_after];
      repeat split; repeat step; neq; try (cbn [idx]; rng);
      destruct (SPS ltac:(assumption)) as (S1 & S2 & S3); apply SP; rng.
  Qed.

  (** Neighbours exist. *)
  Ltac split_in H :=
    repeat match type of H with
    | In _ (_ ++ _) => apply in_app_iff in H; destruct H as [H|H]
    | In _ (pw _ _) => apply in_pw in H; let B := fresh "B" in destruct H as (B & H)
    | In _ (_ :: _) => destruct H as [H|H]; [symmetry in H|]
    | In _ [] => destruct H
    end.
  Lemma links_valid : forall n m f, valid g d n -> In (m, f) (all_links (links_of g d an n)) -> valid g d m.
  Proof.
    intros [l r c|r c] m f V H.
    - assert (I : in_grid d l r c) by exact V. unfold all_links in H.
      destruct (layer_cases g d G l c ltac:(rng)) as [K|[(K & LL)|(ch & b & F & K)]].
      + rewrite (links_solid g d an l r c K) in H. cbn [k_before k_after solid_links] in H.
        split_in H; neq; injection H as -> ->; try (cbn; rng).
        destruct K as [K|(K & _)]; [|rewrite K in *; discriminate].
        destruct (solid_facts g d G l ltac:(rng) K) as (_ & S & _). pose proof (S B) as E.
        assert (HS : has_spreader (tg_top g)) by (apply (gt_linked d g G); rewrite <- E; assumption).
        destruct (spr_good g d G HS) as ([G1 G2 G3 G4 G5 G6 G7] & _). cbn. split; [assumption|rng].
      + rewrite (links_liquid4 g d an l r c K) in H. cbn [k_before k_after liquid4_links] in H.
        split_in H; neq; injection H as -> ->; cbn; rng.
      + pose proof (four_r g d _ _ F) as (B1 & B2). destruct K as [(-> & T)|[(-> & T)|[(-> & T)|(-> & T)]]].
        * rewrite links_bottom in H by assumption. cbn [k_before k_after bottom_links] in H. split_in H; neq; injection H as -> ->; cbn; rng.
        * rewrite (links_vwall g d an ch) in H by assumption. cbn [k_before k_after vwall_links] in H. split_in H; neq; injection H as -> ->; cbn; rng.
        * rewrite (links_cool g d an ch) in H by assumption. cbn [k_before k_after liquid2_links] in H. split_in H; neq; injection H as -> ->; cbn; rng.
        * rewrite links_top in H by assumption. cbn [k_before k_after top_links] in H. split_in H; neq; injection H as -> ->; cbn; rng.
    - destruct V as (HS & R & C). unfold all_links in H. cbn [links_of spreader_links k_before k_after] in H.
      split_in H; neq; injection H as -> ->; try (cbn; split; [assumption|lia]).
      destruct (under_coords g d G HS r c R C B). pose proof (gt_one d g G). cbn. rng.
  Qed.
End Order.
