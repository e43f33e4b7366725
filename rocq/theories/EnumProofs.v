(** * The assembled matrix, node by node *)
From Coq Require Import ZArith List Bool QArith Lia Lqa Sorted.
From Verif Require Import Base QSum Dims DimsSpec DimsProofs Floorplan FloorplanSpec FloorplanProofs TempProofs Stack StackSpec PowerGrid Emulate EmulateSpec Conduct Matrix MatrixSpec CellProofs NodeProofs LinkProofs SignProofs CscProofs NetProofs.
Import ListNotations.
Local Open Scope Z_scope.

(** ** Row-major enumeration *)
Lemma zrange_split : forall a b c, a <= b + 1 -> b <= c -> zrange a c = zrange a b ++ zrange (b + 1) c.
Proof.
  intros a b c. pattern a. apply (zrange_ind _ b); clear a.
  - intros a Ha H1 H2. rewrite (zrange_nil a b) by lia. replace a with (b + 1) by lia. reflexivity.
  - intros a Ha IH H1 H2. rewrite (zrange_cons a c), (zrange_cons a b) by lia. cbn [app]. f_equal. apply IH; lia.
Qed.
Lemma zrange_plus : forall k a b, map (fun i => k + i) (zrange a b) = zrange (k + a) (k + b).
Proof.
  intros k a b. unfold zrange. rewrite map_map. replace (k + b - (k + a) + 1) with (b - a + 1) by lia.
  apply map_ext. intros i. lia.
Qed.
Lemma blocks : forall W, 0 <= W -> forall n, flat_map (fun i => map (fun j => i * W + j) (zrange 0 (W - 1))) (zrange 0 (Z.of_nat n - 1)) = zrange 0 (Z.of_nat n * W - 1).
Proof.
  intros W HW n. induction n as [|n IH]; [reflexivity|].
  rewrite (zrange_split 0 (Z.of_nat n - 1) (Z.of_nat (S n) - 1)) by lia. rewrite flat_map_app, IH.
  replace (Z.of_nat (S n) - 1) with (Z.of_nat n) by lia. replace (Z.of_nat n - 1 + 1) with (Z.of_nat n) by lia.
  rewrite (zrange_cons (Z.of_nat n)), (zrange_nil (Z.of_nat n + 1)) by lia. cbn [flat_map]. rewrite app_nil_r, zrange_plus.
  pose proof (Z.mul_nonneg_nonneg (Z.of_nat n) W ltac:(lia) HW).
  rewrite (zrange_split 0 (Z.of_nat n * W - 1) (Z.of_nat (S n) * W - 1)) by lia. f_equal. f_equal; lia.
Qed.
Lemma blocks_z : forall W H, 0 <= W -> 0 <= H -> flat_map (fun i => map (fun j => i * W + j) (zrange 0 (W - 1))) (zrange 0 (H - 1)) = zrange 0 (H * W - 1).
Proof. intros W H HW HH. rewrite <- (Z2Nat.id H) by assumption. apply blocks. assumption. Qed.
Lemma map_list_prod : forall {A B C} (f : A * B -> C) l m, map f (list_prod l m) = flat_map (fun a => map (fun b => f (a, b)) m) l.
Proof.
  intros A B C f l m. induction l as [|a l IH]; [reflexivity|]. cbn [list_prod flat_map]. rewrite map_app, map_map, IH. reflexivity.
Qed.
Lemma map_flat_map : forall {A B C} (f : B -> C) (h : A -> list B) l, map f (flat_map h l) = flat_map (fun a => map f (h a)) l.
Proof. intros A B C f h l. induction l as [|a l IH]; [reflexivity|]. cbn [flat_map]. rewrite map_app, IH. reflexivity. Qed.
Lemma flat_map_ext_in : forall {A B} (f h : A -> list B) l, (forall a, In a l -> f a = h a) -> flat_map f l = flat_map h l.
Proof.
  intros A B f h l H. induction l as [|a l IH]; [reflexivity|]. cbn [flat_map]. rewrite (H a (or_introl eq_refl)), IH; [reflexivity|].
  intros x Hx. apply H. right. assumption.
Qed.

Section Enum.
  Variables (g : tgrid) (d : dims) (an : analysis).
  Hypothesis G : good_tgrid d g.

  Notation NL := (d_nlayers d).
  Notation NR := (d_nrows d).
  Notation NC := (d_ncols d).
  Notation SR := (s_nrows (spr g)).
  Notation SC := (s_ncols (spr g)).
  Notation ty := (type_of g).
  Notation ix := (idx g d).
  Notation lks n := (links_of g d an n).
  Notation lk n := (all_links (links_of g d an n)).
  Ltac rng := unfold in_grid in *; lia.

  Definition layer_nodes (l : Z) : list node :=
    map (fun rc => Cell l (fst rc) (snd rc)) (list_prod (zrange 0 (NR - 1)) (zrange 0 (NC - 1))).
  Definition spr_nodes : list node :=
    match tg_top g with
    | Some (SinkPluggable s _ _) => map (fun rc => Spr (fst rc) (snd rc)) (list_prod (zrange 0 (s_nrows s - 1)) (zrange 0 (s_ncols s - 1)))
    | _ => []
    end.
  Definition nodes : list node := flat_map layer_nodes (zrange 0 (NL - 1)) ++ spr_nodes.

  Lemma in_nodes : forall n, In n nodes <-> valid g d n.
  Proof.
    intros n. unfold nodes. rewrite in_app_iff, in_flat_map. split.
    - intros [(l & L & H)|H].
      + unfold layer_nodes in H. apply in_map_iff in H. destruct H as ((r & c) & <- & H). apply in_prod_iff in H.
        rewrite !in_zrange in *. cbn in *. rng.
      + unfold spr_nodes in H. destruct (tg_top g) as [[h a|s h m]|] eqn:E; try (destruct H).
        apply in_map_iff in H. destruct H as ((r & c) & <- & H). apply in_prod_iff in H. rewrite !in_zrange in H.
        cbn [valid fst snd]. unfold spr. rewrite E. split; [exists s, h, m; reflexivity|]. lia.
    - destruct n as [l r c|r c]; intros V.
      + left. exists l. cbn in V. split; [apply in_zrange; rng|]. unfold layer_nodes. apply in_map_iff. exists (r, c).
        split; [reflexivity|]. apply in_prod_iff. rewrite !in_zrange. rng.
      + right. destruct V as ((s & h & m & E) & R & C). unfold spr_nodes. unfold spr in R, C. rewrite E in *.
        apply in_map_iff. exists (r, c). split; [reflexivity|]. apply in_prod_iff. rewrite !in_zrange. lia.
  Qed.

  Lemma unknowns_pos : 0 < unknowns g d.
  Proof.
    unfold unknowns, chip_cells. destruct (area_facts g d G) as (A1 & A2 & A3 & _). pose proof (gt_one d g G).
    pose proof (Z.mul_pos_pos NL NR ltac:(lia) ltac:(lia)). pose proof (Z.mul_pos_pos (NL * NR) NC ltac:(lia) ltac:(lia)).
    unfold spreader_cells. destruct (tg_top g) as [[h a|s h m]|] eqn:E; try lia.
    destruct (gt_spreader d g G s h m E). pose proof (Z.mul_nonneg_nonneg (s_nrows s) (s_ncols s)). lia.
  Qed.

  Lemma idx_nodes : map ix nodes = zrange 0 (unknowns g d - 1).
  Proof.
    destruct (area_facts g d G) as (A1 & A2 & A3 & _). pose proof (gt_one d g G) as N1.
    assert (CH : map ix (flat_map layer_nodes (zrange 0 (NL - 1))) = zrange 0 (NL * (NR * NC) - 1)).
    { rewrite map_flat_map. rewrite <- (blocks_z (NR * NC) NL) by lia. apply flat_map_ext_in. intros l _.
      unfold layer_nodes. rewrite map_map, map_list_prod. rewrite <- (blocks_z NC NR) by lia. rewrite map_flat_map.
      apply flat_map_ext_in. intros r _. rewrite map_map. apply map_ext. intros c. cbn [idx fst snd]. ring. }
    unfold nodes. rewrite map_app, CH. unfold unknowns, chip_cells.
    assert (SP : map ix spr_nodes = zrange (NL * NR * NC) (NL * NR * NC + spreader_cells (tg_top g) - 1)).
    { unfold spr_nodes, spreader_cells. destruct (tg_top g) as [[h a|s h m]|] eqn:E; try (symmetry; apply zrange_nil; lia).
      destruct (gt_spreader d g G s h m E) as [G1 G2 G3 G4 G5 G6 G7].
      replace (zrange (NL * NR * NC) (NL * NR * NC + s_nrows s * s_ncols s - 1))
        with (map (fun i => NL * NR * NC + i) (zrange 0 (s_nrows s * s_ncols s - 1))) by (rewrite zrange_plus; f_equal; lia).
      rewrite <- (blocks_z (s_ncols s) (s_nrows s)) by lia. rewrite map_map, map_list_prod, map_flat_map.
      apply flat_map_ext_in. intros r _. rewrite map_map. apply map_ext. intros c. cbn [idx fst snd]. unfold spr. rewrite E. ring. }
    rewrite SP. pose proof (Z.mul_nonneg_nonneg NL (NR * NC) ltac:(lia) ltac:(lia)).
    assert (0 <= spreader_cells (tg_top g)).
    { unfold spreader_cells. destruct (tg_top g) as [[h a|s h m]|] eqn:E; try lia.
      destruct (gt_spreader d g G s h m E). pose proof (Z.mul_nonneg_nonneg (s_nrows s) (s_ncols s)). lia. }
    rewrite (zrange_split 0 (NL * (NR * NC) - 1) (NL * NR * NC + spreader_cells (tg_top g) - 1)) by lia.
    f_equal. f_equal. lia.
  Qed.

  Lemma nodes_length : Z.of_nat (length nodes) = unknowns g d.
  Proof. rewrite <- (map_length ix), idx_nodes, zrange_length. pose proof unknowns_pos. lia. Qed.
  Lemma nodes_NoDup : NoDup nodes.
  Proof. apply (NoDup_map_inv ix). rewrite idx_nodes. apply zrange_NoDup. Qed.
  Lemma idx_inj : forall a b, valid g d a -> valid g d b -> ix a = ix b -> a = b.
  Proof.
    intros a b A B E. apply in_nodes in A, B. pose proof (zrange_NoDup 0 (unknowns g d - 1)) as N. rewrite <- idx_nodes in N.
    clear G. induction nodes as [|n l IH]; [destruct A|]. cbn [map] in N. inversion N as [|? ? N1 N2]; subst.
    destruct A as [->|A]; destruct B as [->|B]; [reflexivity| | |auto].
    - exfalso. apply N1. rewrite E. apply in_map. assumption.
    - exfalso. apply N1. rewrite <- E. apply in_map. assumption.
  Qed.
  Lemma idx_range : forall a, valid g d a -> 0 <= ix a < unknowns g d.
  Proof.
    intros a A. apply in_nodes in A. apply (in_map ix) in A. rewrite idx_nodes in A. apply in_zrange in A. lia.
  Qed.
  Lemma nodes_at : forall j n0, 0 <= j < unknowns g d -> ix (nth (Z.to_nat j) nodes n0) = j.
  Proof.
    intros j n0 J. pose proof nodes_length as LN. pose proof (map_nth ix nodes n0 (Z.to_nat j)) as M.
    rewrite idx_nodes in M. rewrite <- M. unfold zrange.
    rewrite (nth_indep _ (ix n0) (0 + Z.of_nat 0)) by (rewrite map_length, seq_length; lia).
    rewrite (map_nth (fun i => 0 + Z.of_nat i)), seq_nth by lia. lia.
  Qed.
  Lemma node_of : forall i, 0 <= i < unknowns g d -> exists n, valid g d n /\ ix n = i.
  Proof.
    intros i I. assert (H : In i (map ix nodes)) by (rewrite idx_nodes; apply in_zrange; lia).
    apply in_map_iff in H. destruct H as (n & E & H). exists n. split; [apply in_nodes; assumption|assumption].
  Qed.

  (** ** All columns *)
  Definition col (n : node) : column := realise g d n (lks n).
  Lemma coords_eq : layer_coords d = list_prod (zrange 0 (NR - 1)) (zrange 0 (NC - 1)).
  Proof. unfold layer_coords. rewrite (last_row_eq g d G), (last_column_eq g d G). reflexivity. Qed.
  Lemma typed : forall l, 0 <= l < NL -> ty l <> LT_NONE.
  Proof.
    intros l L E. destruct (layer_cases g d G l 0 L) as [K|[(K & _)|(ch & b & F & K)]].
    - destruct K as [K|(K & _)]; rewrite E in K; discriminate.
    - destruct K as (K & _). congruence.
    - destruct K as [(_ & K)|[(_ & K)|[(_ & K)|(_ & K)]]]; rewrite E in K; destruct (ch_model ch); discriminate.
  Qed.
  Lemma layer_columns_ok : forall l, 0 <= l < NL -> layer_columns g d an l = Ok (map col (layer_nodes l)).
  Proof.
    intros l L. unfold layer_columns. rewrite (type_get g d G) by assumption. cbn [bind].
    assert (E : over_layer d (fun r c => add_column g d an (ty l) l r c) = Ok (map col (layer_nodes l))).
    { unfold over_layer. rewrite coords_eq. unfold layer_nodes. rewrite map_map. apply map_out_map. intros (r & c) H.
      apply in_prod_iff in H. rewrite !in_zrange in H. cbn [fst snd]. apply (column_ok g d an G). rng. }
    pose proof (typed l L). destruct (ty l); try exact E; congruence.
  Qed.
  Lemma columns_ok : matrix_columns g d an = Ok (map col nodes).
  Proof.
    unfold matrix_columns. rewrite (gt_types d g G).
    rewrite (map_out_map _ (fun l => map col (layer_nodes l))) by (intros l H; apply in_zrange in H; apply layer_columns_ok; lia).
    cbn [bind].
    assert (S : spreader_columns g d an = Ok (map col spr_nodes)).
    { unfold spreader_columns, spr_nodes. destruct (tg_top g) as [[h a|s h m]|] eqn:E; try reflexivity.
      rewrite map_map. apply map_out_map. intros (r & c) H. apply in_prod_iff in H. rewrite !in_zrange in H. cbn [fst snd].
      assert (V : valid g d (Spr r c)).
      { split; [exists s, h, m; assumption|]. unfold spr. rewrite E. lia. }
      pose proof (spreader_ok g d an G r c V) as K. unfold spr, sp_h, sp_m in K. rewrite E in K. exact K. }
    rewrite S. cbn [bind]. unfold nodes. rewrite map_app. rewrite flat_map_concat_map, concat_map, map_map. reflexivity.
  Qed.

  (** ** Order inside a column *)
  Lemma column_order : forall n, valid g d n ->
      sorted g d (k_before (lks n)) /\ above g d n (k_before (lks n)) /\ sorted g d (k_after (lks n)) /\ below g d n (k_after (lks n)).
  Proof.
    intros [l r c|r c] V.
    - assert (I : in_grid d l r c) by exact V. apply (order_cell g d an G l r c I).
      + cbn [links_of]. destruct (ty l); cbn [In]; try tauto. destruct (Z.odd c); tauto.
      + intros T. apply (gt_linked d g G). destruct (solid_facts g d G l ltac:(rng)) as (_ & S & _).
        * destruct (ty l); try discriminate T; reflexivity.
        * rewrite <- (S T). assumption.
    - destruct V as (HS & R & C). destruct (spr_good g d G HS) as ([G1 G2 G3 G4 G5 G6 G7] & E).
      assert (A2 : 2 <= SC \/ SC = 1) by lia.
      assert (U : under g d r c = true -> idx g d (Cell (NL - 1) (r - s_border_rows (spr g)) (c - s_border_cols (spr g))) < NL * NR * NC).
      { intros U. destruct (under_coords g d G HS r c R C U). apply (chip_lt g d G). pose proof (gt_one d g G). rng. }
      assert (RS : r <> 0 -> SC <= r * SC).
      { intros R0. pose proof (Z.mul_le_mono_nonneg_r 1 r SC ltac:(lia) ltac:(lia)). lia. }
      assert (RP : 0 <= r * SC) by (apply Z.mul_nonneg_nonneg; lia).
      cbn [links_of spreader_links k_before k_after].
      repeat split;
        repeat first [ apply sorted_pw | apply sorted_nil | apply sorted_one | apply sorted_pw1
               | apply below_app | apply below_pw | apply below_nil | apply above_app | apply above_pw | apply above_nil | intros ?];
        repeat match goal with
          | H : negb _ = true |- _ => apply negb_true_iff in H
          | H : (_ =? _) = false |- _ => apply Z.eqb_neq in H end;
        try (specialize (U ltac:(assumption))); try (specialize (RS ltac:(assumption))); cbn [idx] in *; lia.
  Qed.
  Lemma col_rows : forall n, map fst (entries (col n)) = map (fun p => ix (fst p)) (k_before (lks n)) ++ ix n :: map (fun p => ix (fst p)) (k_after (lks n)).
  Proof.
    intros n. unfold entries, col, realise. cbn [c_before c_self c_after]. rewrite map_app. cbn [map fst]. rewrite !map_map.
    f_equal; [|f_equal]; apply map_ext; intros (m & [x|x]); reflexivity.
  Qed.
  Lemma ssorted_app : forall (a b : list Z) x, StronglySorted Z.lt a -> StronglySorted Z.lt b ->
      Forall (fun y => y < x) a -> Forall (fun y => x < y) b -> StronglySorted Z.lt (a ++ x :: b).
  Proof.
    intros a b x A B LA LB. induction A as [|y a A IH F]; cbn [app].
    - constructor; assumption.
    - inversion LA; subst. constructor; [apply IH; assumption|]. apply Forall_app. split; [assumption|].
      constructor; [assumption|]. apply (Forall_impl _ (P := fun y => x < y)); [|assumption]. intros; lia.
  Qed.
  Lemma col_sorted : forall n, valid g d n -> StronglySorted Z.lt (map fst (entries (col n))).
  Proof.
    intros n V. destruct (column_order n V) as (S1 & A1 & S2 & B2). rewrite col_rows. apply ssorted_app; [exact S1|exact S2| |].
    - apply Forall_map. exact A1.
    - apply Forall_map. exact B2.
  Qed.
  Lemma ssorted_NoDup : forall l, StronglySorted Z.lt l -> NoDup l.
  Proof.
    intros l H. induction H as [|a l H IH F]; constructor; [|assumption]. intros I. rewrite Forall_forall in F. specialize (F a I). lia.
  Qed.
  Lemma links_NoDup : forall n, valid g d n -> NoDup (n :: map fst (lk n)).
  Proof.
    intros n V. apply (NoDup_map_inv ix). pose proof (ssorted_NoDup _ (col_sorted n V)) as N. rewrite col_rows in N.
    apply NoDup_remove in N. cbn [map]. constructor; unfold all_links; rewrite map_map, map_app; tauto.
  Qed.

  (** ** Coefficients *)
  Definition fval (f : flow) : Q := match f with Cond x => (- x)%Q | Conv v => v end.
  Definition fdiag (f : flow) : Q := match f with Cond x => x | Conv _ => 0%Q end.
  Definition fconv (f : flow) : Q := match f with Cond _ => 0%Q | Conv v => v end.
  Definition diag_of (n : node) : Q := (k_base (lks n) + qsum (map (fun p => fdiag (snd p)) (lk n)) + k_extra (lks n))%Q.

  Lemma diagonal_eq : forall n, diagonal (col n) = diag_of n.
  Proof.
    intros n. unfold diagonal, diag_of, items, col, realise, all_links. cbn [c_base c_extra c_before c_after].
    rewrite <- map_app, map_map. f_equal. f_equal. f_equal. apply map_ext. intros (m & [x|x]); reflexivity.
  Qed.
  Lemma in_entries : forall n i v, In (i, v) (entries (col n)) <->
      (i = ix n /\ v = diag_of n) \/ exists m f, In (m, f) (lk n) /\ i = ix m /\ v = fval f.
  Proof.
    intros n i v. unfold entries. rewrite diagonal_eq. rewrite in_app_iff. unfold all_links.
    unfold col, realise. cbn [In c_before c_self c_after]. rewrite !in_map_iff. split.
    - intros [(it & E & I)|[E|(it & E & I)]].
      + apply in_map_iff in I. destruct I as ((m & f) & <- & I). right. exists m, f. rewrite in_app_iff.
        destruct f; injection E as <- <-; auto.
      + injection E as <- <-. auto.
      + apply in_map_iff in I. destruct I as ((m & f) & <- & I). right. exists m, f. rewrite in_app_iff.
        destruct f; injection E as <- <-; auto.
    - intros [(-> & ->)|(m & f & I & -> & ->)]; [auto|]. apply in_app_iff in I.
      destruct I as [I|I]; [left|right; right]; exists (real g d (m, f)); (split; [destruct f; reflexivity|apply in_map; assumption]).
  Qed.
  Lemma entry_sum_in : forall es i v, NoDup (map fst es) -> In (i, v) es -> (entry_sum es i == v)%Q.
  Proof.
    intros es i v N I. unfold entry_sum. rewrite (qsum_single _ es (i, v)).
    - cbn [fst snd]. rewrite Z.eqb_refl. reflexivity.
    - apply (NoDup_map_inv fst). assumption.
    - assumption.
    - intros (j & w) J NE. cbn [fst snd]. destruct (Z.eqb_spec j i) as [->|]; [|reflexivity]. exfalso. apply NE. f_equal.
      clear NE. induction es as [|p es IH]; [destruct I|]. cbn [map] in N. inversion N as [|? ? N1 N2]; subst.
      destruct I as [->|I]; destruct J as [J|J]; [congruence| | |auto].
      + exfalso. apply N1. apply (in_map fst) in J. exact J.
      + exfalso. apply N1. subst p. apply (in_map fst) in I. exact I.
  Qed.
  Lemma entry_sum_out : forall es i, ~ In i (map fst es) -> (entry_sum es i == 0)%Q.
  Proof.
    intros es i N. unfold entry_sum. apply qsum_zero. intros (j & v) J. cbn [fst snd]. destruct (Z.eqb_spec j i) as [->|]; [|reflexivity].
    exfalso. apply N. apply (in_map fst) in J. exact J.
  Qed.

  Variables (rt : list Z) (vt : list Q).
  Notation M := (stored (map col nodes) rt vt).
  Notation N := (unknowns g d).

  Lemma coeff_col : forall a b, valid g d b -> coefficient M (ix a) (ix b) = entry_sum (entries (col b)) (ix a).
  Proof.
    intros a b B. pose proof (idx_range b B) as R. rewrite (coefficient_sum _ rt vt (ix a) (ix b) (col b)).
    2:{ rewrite map_length, nodes_length. assumption. }
    rewrite (map_nth col). f_equal. f_equal. f_equal.
    apply idx_inj; [apply in_nodes; apply nth_In; pose proof nodes_length; lia|assumption|apply nodes_at; assumption].
  Qed.
  Lemma coeff_diag : forall a, valid g d a -> (coefficient M (ix a) (ix a) == diag_of a)%Q.
  Proof.
    intros a A. rewrite coeff_col by assumption. apply entry_sum_in; [apply ssorted_NoDup; apply col_sorted; assumption|].
    apply in_entries. left. auto.
  Qed.
  Lemma coeff_link : forall a b f, valid g d b -> In (a, f) (lk b) -> (coefficient M (ix a) (ix b) == fval f)%Q.
  Proof.
    intros a b f B H. rewrite coeff_col by assumption. apply entry_sum_in; [apply ssorted_NoDup; apply col_sorted; assumption|].
    apply in_entries. right. exists a, f. auto.
  Qed.
  Lemma coeff_none : forall a b, valid g d a -> valid g d b -> a <> b -> ~ In a (map fst (lk b)) -> (coefficient M (ix a) (ix b) == 0)%Q.
  Proof.
    intros a b A B NE H. rewrite coeff_col by assumption. apply entry_sum_out. intros I. apply in_map_iff in I.
    destruct I as ((i & v) & E & I). cbn [fst] in E. subst i. apply in_entries in I.
    destruct I as [(E & _)|(m & f & I & E & _)].
    - apply NE. apply idx_inj; assumption.
    - apply H. pose proof (links_valid g d an G b m f B I) as V. apply in_map_iff. exists (m, f).
      split; [cbn; symmetry; apply idx_inj; assumption|assumption].
  Qed.

  Lemma sum_nodes : forall (f : Z -> Q), (qsum (map f (zrange 0 (N - 1))) == qsum (map (fun n => f (ix n)) nodes))%Q.
  Proof. intros f. rewrite <- idx_nodes, map_map. reflexivity. Qed.

  (** The sum of column [b]. *)
  Lemma column_formula : forall b, valid g d b ->
      (qsum (map (fun i => coefficient M i (ix b)) (zrange 0 (N - 1))) ==
       k_base (lks b) + k_extra (lks b) + qsum (map (fun p => fconv (snd p)) (lk b)))%Q.
  Proof.
    intros b B. rewrite sum_nodes.
    rewrite (qsum_support _ (b :: map fst (lk b)) nodes).
    - cbn [map]. rewrite qsum_cons, map_map. rewrite coeff_diag by assumption. unfold diag_of.
      rewrite (qsum_ext (fun p => coefficient M (ix (fst p)) (ix b))%Q (fun p => fconv (snd p) + - fdiag (snd p))%Q).
      + rewrite qsum_plus, qsum_opp. ring.
      + intros (a & f) H. cbn [fst snd]. rewrite (coeff_link a b f B H). destruct f; cbn [fdiag fconv fval]; ring.
    - apply links_NoDup. assumption.
    - apply nodes_NoDup.
    - intros a [<-|H]; [apply in_nodes; assumption|]. apply in_map_iff in H. destruct H as ((m & f) & <- & H).
      apply in_nodes. apply (links_valid g d an G b m f B H).
    - intros a A NI. apply in_nodes in A. apply coeff_none; [assumption|assumption| |].
      + intros ->. apply NI. left. reflexivity.
      + intros H. apply NI. right. assumption.
  Qed.

  Lemma matrix_csc : length rt = length vt -> csc N M /\ zat (sm_ptr M) N = total (map col nodes).
  Proof.
    intros LT. assert (LN : len (map col nodes) = N) by (rewrite map_length; apply nodes_length).
    pose proof (stored_csc (map col nodes) rt vt) as S. rewrite LN in S. apply S; [|assumption].
    intros j c J E.
    assert (exists n, nth_error nodes (Z.to_nat j) = Some n /\ col n = c) as (n & En & <-).
    { destruct (nth_error nodes (Z.to_nat j)) as [n|] eqn:F.
      - exists n. split; [reflexivity|]. rewrite (map_nth_error col _ _ F) in E. congruence.
      - exfalso. apply nth_error_None in F. pose proof nodes_length. lia. }
    assert (V : valid g d n) by (apply in_nodes; eapply nth_error_In; eassumption).
    split; [|split].
    - cbn [col realise c_self]. rewrite <- (nodes_at j n J). f_equal. symmetry. apply nth_error_nth. assumption.
    - apply col_sorted. assumption.
    - apply Forall_forall. intros (i & v) H. cbn [fst]. apply in_entries in H. destruct H as [(-> & _)|(m & f & H & -> & _)].
      + apply idx_range. assumption.
      + apply idx_range. apply (links_valid g d an G n m f V H).
  Qed.
  Hypothesis P : physical g d.
  (** The coefficient of row [a] in the column of a neighbour. *)
  Lemma coeff_back : forall a b f, valid g d a -> In (b, f) (lk a) ->
      (coefficient M (ix a) (ix b) == match f with Cond x => - x | Conv v => - v end)%Q.
  Proof.
    intros a b f A H. destruct (reciprocal g d an G P a b f A H) as (B & f' & H' & O).
    rewrite (coeff_link a b f' B H'). destruct f as [x|x], f' as [y|y]; cbn in O; try contradiction; cbn [fval]; rewrite O; reflexivity.
  Qed.

  (** Row [a] of the product of the matrix with the temperatures [x]. *)
  Definition heat_out (x : list Q) (a : node) : Q :=
    ((k_base (lks a) + k_extra (lks a)) * qat x (ix a) +
     qsum (map (fun p => match snd p with
                         | Cond y => y * (qat x (ix a) - qat x (ix (fst p)))
                         | Conv v => - v * qat x (ix (fst p)) end) (lk a)))%Q.

  Lemma row_formula : forall x a, valid g d a -> (row_times M N x (ix a) == heat_out x a)%Q.
  Proof.
    intros x a A. unfold row_times. rewrite sum_nodes.
    rewrite (qsum_support _ (a :: map fst (lk a)) nodes).
    - cbn [map]. rewrite qsum_cons, map_map. rewrite coeff_diag by assumption. unfold diag_of, heat_out.
      set (T := fun n => qat x (ix n)). fold (T a).
      rewrite (qsum_ext (fun p => coefficient M (ix a) (ix (fst p)) * qat x (ix (fst p)))%Q
                        (fun p => match snd p with Cond y => y * (T a - T (fst p)) | Conv v => - v * T (fst p) end + - (fdiag (snd p) * T a))%Q).
      + rewrite qsum_plus, qsum_opp, qsum_scale_r. unfold T. ring.
      + intros (b & f) H. cbn [fst snd]. rewrite (coeff_back a b f A H). fold (T b). destruct f; cbn [fdiag]; ring.
    - apply links_NoDup. assumption.
    - apply nodes_NoDup.
    - intros b [<-|H]; [apply in_nodes; assumption|]. apply in_map_iff in H. destruct H as ((m & f) & <- & H).
      apply in_nodes. apply (reciprocal g d an G P a m f A H).
    - intros b B NI. apply in_nodes in B. rewrite coeff_none; [ring|assumption|assumption| |].
      + intros ->. apply NI. left. reflexivity.
      + intros H. apply in_map_iff in H. destruct H as ((m & f) & E & H). cbn in E. subst m.
        destruct (reciprocal g d an G P b a f B H) as (_ & f' & H' & _). apply NI. right. apply in_map_iff. exists (b, f'). auto.
  Qed.

End Enum.
