(** * How many coefficients the matrix has *)
From Coq Require Import ZArith List Bool QArith Lia Lqa Sorted.
From Verif Require Import Base QSum Dims DimsSpec DimsProofs Floorplan FloorplanSpec FloorplanProofs TempProofs Stack StackSpec PowerGrid Emulate EmulateSpec Conduct Matrix MatrixSpec CellProofs NodeProofs LinkProofs SignProofs CscProofs NetProofs EnumProofs.
Import ListNotations.
Local Open Scope Z_scope.

Definition zsum (l : list Z) : Z := fold_right Z.add 0 l.
Definition b2z (b : bool) : Z := if b then 1 else 0.

Lemma zsum_cons : forall x l, zsum (x :: l) = x + zsum l.
Proof. reflexivity. Qed.
Lemma zsum_app : forall a b, zsum (a ++ b) = zsum a + zsum b.
Proof. induction a as [|x a IH]; intros b; [reflexivity|]. cbn [app]. rewrite !zsum_cons, IH. lia. Qed.
Lemma zsum_ext : forall {A} (f h : A -> Z) l, (forall x, In x l -> f x = h x) -> zsum (map f l) = zsum (map h l).
Proof. intros A f h l H. f_equal. apply map_ext_in. assumption. Qed.
Lemma zsum_plus : forall {A} (f h : A -> Z) l, zsum (map (fun x => f x + h x) l) = zsum (map f l) + zsum (map h l).
Proof. intros A f h l. induction l as [|a l IH]; [reflexivity|]. cbn [map]. rewrite !zsum_cons, IH. lia. Qed.
Lemma zsum_const : forall {A} k (l : list A), zsum (map (fun _ => k) l) = k * len l.
Proof. intros A k l. induction l as [|a l IH]; [cbn; lia|]. cbn [map length]. rewrite !zsum_cons, IH. lia. Qed.
Lemma zsum_scale : forall {A} (f : A -> Z) k (l : list A), zsum (map (fun x => k * f x) l) = k * zsum (map f l).
Proof. intros A f k l. induction l as [|a l IH]; [cbn; lia|]. cbn [map]. rewrite !zsum_cons, IH. lia. Qed.
Lemma zsum_flat : forall {A B} (f : B -> Z) (h : A -> list B) l, zsum (map f (flat_map h l)) = zsum (map (fun a => zsum (map f (h a))) l).
Proof. intros A B f h l. induction l as [|a l IH]; [reflexivity|]. cbn [flat_map map]. rewrite map_app, zsum_app, IH. reflexivity. Qed.

Lemma sum_prod : forall (f : Z -> Z -> Z) l m, zsum (map (fun rc => f (fst rc) (snd rc)) (list_prod l m)) = zsum (map (fun r => zsum (map (f r) m)) l).
Proof. intros f l m. rewrite map_list_prod, flat_map_concat_map. induction l as [|a l IH]; [reflexivity|]. cbn [map concat]. rewrite zsum_app, IH. reflexivity. Qed.

Lemma sum_zero : forall {A} (f : A -> Z) l, (forall x, In x l -> f x = 0) -> zsum (map f l) = 0.
Proof. intros A f l H. rewrite (zsum_ext f (fun _ => 0)) by assumption. rewrite zsum_const. lia. Qed.
(** How often [x] differs from one value of the range. *)
Lemma sum_neq : forall n k, 0 <= k < n -> zsum (map (fun x => b2z (negb (x =? k))) (zrange 0 (n - 1))) = n - 1.
Proof.
  intros n k K. rewrite (zrange_split 0 (k - 1) (n - 1)), (zrange_cons (k - 1 + 1) (n - 1)) by lia.
  rewrite map_app, zsum_app. cbn [map]. rewrite zsum_cons. replace (k - 1 + 1) with k by lia. rewrite Z.eqb_refl. cbn [negb b2z].
  rewrite (zsum_ext _ (fun _ => 1) (zrange 0 (k - 1))).
  2:{ intros x Hx. apply in_zrange in Hx. replace (x =? k) with false by (symmetry; apply Z.eqb_neq; lia). reflexivity. }
  rewrite (zsum_ext _ (fun _ => 1) (zrange (k + 1) (n - 1))).
  2:{ intros x Hx. apply in_zrange in Hx. replace (x =? k) with false by (symmetry; apply Z.eqb_neq; lia). reflexivity. }
  rewrite !zsum_const, !zrange_length. lia.
Qed.
(** Shifting an indicator that vanishes at the borders. *)
Lemma shift_sum : forall (f : Z -> Z) k n, 0 <= k -> 0 <= n -> (forall x, - k <= x < 0 -> f x = 0) -> (forall x, n - k <= x < n -> f x = 0) ->
    zsum (map (fun x => f (x - k)) (zrange 0 (n - 1))) = zsum (map f (zrange 0 (n - 1))).
Proof.
  intros f k n K N L H. destruct (Z_lt_ge_dec n k) as [C|C].
  - rewrite !sum_zero; [reflexivity| |].
    + intros x Hx. apply in_zrange in Hx. apply H. lia.
    + intros x Hx. apply in_zrange in Hx. apply L. lia.
  - rewrite (zrange_split 0 (k - 1) (n - 1)) at 1 by lia. rewrite (zrange_split 0 (n - k - 1) (n - 1)) at 1 by lia.
    rewrite !map_app, !zsum_app.
    rewrite (sum_zero _ (zrange 0 (k - 1))) by (intros x Hx; apply in_zrange in Hx; apply L; lia).
    rewrite (sum_zero _ (zrange (n - k - 1 + 1) (n - 1))) by (intros x Hx; apply in_zrange in Hx; apply H; lia).
    replace (zrange (k - 1 + 1) (n - 1)) with (map (fun i => k + i) (zrange 0 (n - k - 1))) by (rewrite zrange_plus; f_equal; lia).
    rewrite map_map. rewrite (zsum_ext (fun x => f (k + x - k)) f) by (intros; f_equal; lia). lia.
Qed.

Section Count.
  Variables (g : tgrid) (d : dims) (an : analysis).
  Hypothesis G : good_tgrid d g.
  Notation NL := (d_nlayers d).
  Notation NR := (d_nrows d).
  Notation NC := (d_ncols d).
  Notation SR := (s_nrows (spr g)).
  Notation SC := (s_ncols (spr g)).
  Notation ty := (type_of g).
  Notation lk n := (all_links (links_of g d an n)).
  Ltac rng := unfold in_grid in *; lia.

  Lemma pw_len : forall {A} b (x : A), len (pw b x) = b2z b.
  Proof. intros A [] x; reflexivity. Qed.

  Definition weight (n : node) : Z := 1 + len (lk n).
  Lemma entries_weight : forall n, len (entries (col g d an n)) = weight n.
  Proof.
    intros n. unfold entries, col, realise, weight, all_links. cbn [c_before c_after c_self].
    rewrite app_length. cbn [length]. rewrite !map_length, app_length. lia.
  Qed.
  Lemma total_weight : total (map (col g d an) (nodes g d)) = zsum (map weight (nodes g d)).
  Proof.
    unfold total, all_entries. induction (nodes g d) as [|n l IH]; [reflexivity|].
    cbn [map flat_map]. rewrite zsum_cons, app_length, Nat2Z.inj_add, IH, entries_weight. reflexivity.
  Qed.

  Notation A := (NR * NC).
  Definition around : Z := 2 * ((NR - 1) * NC) + 2 * (NR * (NC - 1)).
  Definition planar (r c : Z) : Z := b2z (negb (r =? 0)) + b2z (negb (r =? NR - 1)) + (b2z (negb (c =? 0)) + b2z (negb (c =? NC - 1))).

  Lemma sum_rows : forall k, 0 <= k < NR ->
      zsum (map (fun r => zsum (map (fun _ : Z => b2z (negb (r =? k))) (zrange 0 (NC - 1)))) (zrange 0 (NR - 1))) = (NR - 1) * NC.
  Proof.
    intros k K. destruct (area_facts g d G) as (A1 & A2 & _).
    rewrite (zsum_ext _ (fun r => NC * b2z (negb (r =? k)))).
    2:{ intros r _. rewrite zsum_const, zrange_length. lia. }
    rewrite zsum_scale, sum_neq by assumption. lia.
  Qed.
  Lemma sum_cols : forall k, 0 <= k < NC ->
      zsum (map (fun r : Z => zsum (map (fun c => b2z (negb (c =? k))) (zrange 0 (NC - 1)))) (zrange 0 (NR - 1))) = NR * (NC - 1).
  Proof.
    intros k K. destruct (area_facts g d G) as (A1 & A2 & _). rewrite sum_neq by assumption. rewrite zsum_const, zrange_length. lia.
  Qed.
  Lemma sum_cells : forall k, zsum (map (fun _ : Z => zsum (map (fun _ : Z => k) (zrange 0 (NC - 1)))) (zrange 0 (NR - 1))) = k * A.
  Proof.
    intros k. destruct (area_facts g d G) as (A1 & A2 & _). rewrite !zsum_const, !zrange_length. rewrite !Z.max_r by lia. ring_simplify. ring.
  Qed.
  Definition over_cells (f : Z -> Z -> Z) : Z := zsum (map (fun r => zsum (map (f r) (zrange 0 (NC - 1)))) (zrange 0 (NR - 1))).
  Lemma over_plus : forall f h, over_cells (fun r c => f r c + h r c) = over_cells f + over_cells h.
  Proof.
    intros f h. unfold over_cells. rewrite <- zsum_plus. apply zsum_ext. intros r _. apply zsum_plus.
  Qed.
  Lemma over_ext : forall f h, (forall r c, 0 <= r < NR -> 0 <= c < NC -> f r c = h r c) -> over_cells f = over_cells h.
  Proof.
    intros f h H. unfold over_cells. apply zsum_ext. intros r R. apply zsum_ext. intros c C. apply in_zrange in R, C. apply H; lia.
  Qed.
  Lemma over_const : forall k, over_cells (fun _ _ => k) = k * A.
  Proof. apply sum_cells. Qed.
  Lemma over_rows : over_cells (fun r _ => b2z (negb (r =? 0)) + b2z (negb (r =? NR - 1))) = 2 * ((NR - 1) * NC).
  Proof.
    destruct (area_facts g d G) as (A1 & A2 & _). rewrite over_plus. unfold over_cells. rewrite !sum_rows by lia. lia.
  Qed.
  Lemma over_planar : over_cells planar = around.
  Proof.
    destruct (area_facts g d G) as (A1 & A2 & _). unfold planar. rewrite over_plus, over_rows, over_plus. unfold over_cells.
    rewrite !sum_cols by lia. unfold around. lia.
  Qed.

  Definition layer_weight (l : Z) : Z := zsum (map weight (layer_nodes d l)).
  Lemma layer_weight_over : forall l, layer_weight l = over_cells (fun r c => weight (Cell l r c)).
  Proof. intros l. unfold layer_weight, layer_nodes. rewrite map_map. apply (sum_prod (fun r c => weight (Cell l r c))). Qed.

  Lemma sl_len : forall l r c, len (all_links (solid_links g d an l r c)) =
      b2z (negb (l =? 0)) + b2z (negb (l =? NL - 1)) + b2z (to_spreader (ty l)) + planar r c.
  Proof.
    intros. unfold all_links, solid_links, planar. cbn [k_before k_after]. rewrite !app_length, !Nat2Z.inj_add, !pw_len. lia.
  Qed.
  Lemma ll_len : forall l r c, len (all_links (liquid4_links g d an l r c)) =
      b2z (negb (l =? 0)) + b2z (negb (l =? NL - 1)) + planar r c.
  Proof.
    intros. unfold all_links, liquid4_links, planar. cbn [k_before k_after]. rewrite !app_length, !Nat2Z.inj_add, !pw_len. lia.
  Qed.
  Lemma solid_weight : forall l, 0 <= l < NL -> is_solid (ty l) = true \/ ty l = LT_CHANNEL_4RM ->
      layer_weight l = (1 + b2z (negb (l =? 0)) + b2z (negb (l =? NL - 1)) + b2z (to_spreader (ty l))) * A + around.
  Proof.
    intros l L K. rewrite layer_weight_over, <- over_planar, <- over_const, <- over_plus. apply over_ext. intros r c R C. unfold weight.
    assert (solidlike g l c \/ liquid4 g l c) as [H|H].
    { unfold solidlike, liquid4. destruct K as [K|K]; [auto|]. destruct (Z.odd c); auto. }
    - rewrite (links_solid g d an l r c H), sl_len. lia.
    - rewrite (links_liquid4 g d an l r c H), ll_len. destruct H as (-> & _). cbn [to_spreader b2z]. lia.
  Qed.
  Lemma bottom_weight : forall l, ty l = LT_BOTTOM_WALL -> layer_weight l = 4 * A.
  Proof.
    intros l T. rewrite layer_weight_over, <- over_const. apply over_ext. intros r c R C. unfold weight.
    rewrite links_bottom by assumption. reflexivity.
  Qed.
  Lemma top_weight : forall l, ty l = LT_TOP_WALL -> layer_weight l = 4 * A.
  Proof.
    intros l T. rewrite layer_weight_over, <- over_const. apply over_ext. intros r c R C. unfold weight.
    rewrite links_top by assumption. reflexivity.
  Qed.
  Lemma cool_weight : forall ch l, ty l = cool_of (ch_model ch) -> layer_weight l = 3 * A + 2 * ((NR - 1) * NC).
  Proof.
    intros ch l T. rewrite layer_weight_over, <- over_rows, <- over_const, <- over_plus. apply over_ext. intros r c R C. unfold weight.
    rewrite (links_cool g d an ch) by assumption. unfold all_links, liquid2_links. cbn [k_before k_after app length].
    rewrite !app_length. cbn [length]. rewrite !Nat2Z.inj_succ, !Nat2Z.inj_add, !pw_len. cbn [Z.of_nat]. lia.
  Qed.
  Lemma vwall_weight : forall ch l, tg_channel g = Some ch -> ty l = wall_of (ch_model ch) ->
      layer_weight l = 3 * A + b2z (is_2rm (ch_model ch)) * (2 * ((NR - 1) * NC)).
  Proof.
    intros ch l E T.
    assert (C2 : chan_2rm g = is_2rm (ch_model ch)) by (unfold chan_2rm; rewrite E; reflexivity).
    rewrite layer_weight_over.
    assert (W : forall r c, weight (Cell l r c) = 3 + b2z (is_2rm (ch_model ch)) * (b2z (negb (r =? 0)) + b2z (negb (r =? NR - 1)))).
    { intros r c. unfold weight. rewrite (links_vwall g d an ch) by assumption. unfold all_links, vwall_links. rewrite C2.
      cbn [k_before k_after app length]. rewrite !app_length. cbn [length]. rewrite !Nat2Z.inj_succ, !Nat2Z.inj_add, !pw_len. cbn [Z.of_nat].
      destruct (is_2rm (ch_model ch)); cbn [andb b2z]; lia. }
    destruct (is_2rm (ch_model ch)) eqn:E2; cbn [b2z] in *.
    - rewrite Z.mul_1_l, <- over_rows, <- over_const, <- over_plus. apply over_ext. intros r c _ _. rewrite W. lia.
    - rewrite Z.mul_0_l, Z.add_0_r, <- over_const. apply over_ext. intros r c _ _. rewrite W. lia.
  Qed.

  Lemma sum_single : forall {B} (f : B -> Z) x l, NoDup l -> In x l -> (forall y, In y l -> y <> x -> f y = 0) -> zsum (map f l) = f x.
  Proof.
    intros B f x l N. induction N as [|a l Na N IH]; intros I H; [destruct I|]. cbn [map]. rewrite zsum_cons.
    destruct I as [->|I].
    - rewrite (sum_zero f l); [lia|]. intros y Y. apply H; [right; assumption|]. intros ->. contradiction.
    - rewrite IH; [|assumption|intros y Y; apply H; right; assumption]. rewrite (H a); [lia|left; reflexivity|]. intros ->. contradiction.
  Qed.

  (** The layer carrying the spreader. *)
  Lemma spreader_layer : has_spreader (tg_top g) -> zsum (map (fun l => b2z (to_spreader (ty l))) (zrange 0 (NL - 1))) = 1.
  Proof.
    intros HS. pose proof (gt_one d g G). apply (gt_linked d g G) in HS.
    rewrite (sum_single _ (NL - 1)); [rewrite HS; reflexivity|apply zrange_NoDup|apply in_zrange; lia|].
    intros l L NE. apply in_zrange in L. destruct (to_spreader (ty l)) eqn:E; [|reflexivity]. exfalso. apply NE.
    destruct (solid_facts g d G l ltac:(lia)) as (_ & S & _); [destruct (ty l); try discriminate E; reflexivity|auto].
  Qed.
  Lemma no_spreader_layer : ~ has_spreader (tg_top g) -> zsum (map (fun l => b2z (to_spreader (ty l))) (zrange 0 (NL - 1))) = 0.
  Proof.
    intros HS. apply sum_zero. intros l L. apply in_zrange in L. destruct (to_spreader (ty l)) eqn:E; [|reflexivity]. exfalso. apply HS.
    apply (gt_linked d g G). destruct (solid_facts g d G l ltac:(lia)) as (_ & S & _); [destruct (ty l); try discriminate E; reflexivity|].
    rewrite <- (S E). assumption.
  Qed.

  (** The spreader. *)
  Lemma spreader_weight : has_spreader (tg_top g) ->
      zsum (map weight (spr_nodes g)) = SR * SC + 2 * ((SR - 1) * SC) + 2 * (SR * (SC - 1)) + A.
  Proof.
    intros HS. destruct (spr_good g d G HS) as (GS & E). pose proof GS as [G1 G2 G3 G4 G5 G6 G7].
    destruct (area_facts g d G) as (A1 & A2 & _).
    unfold spr_nodes. rewrite E. rewrite map_map. rewrite (sum_prod (fun r c => weight (Spr r c))).
    rewrite (zsum_ext _ (fun r => SC + SC * b2z (negb (r =? 0)) + SC * b2z (negb (r =? SR - 1)) + 2 * (SC - 1) + zsum (map (fun c => b2z (under g d r c)) (zrange 0 (SC - 1))))).
    2:{ intros r R. rewrite (zsum_ext _ (fun c => (1 + b2z (negb (r =? 0)) + b2z (negb (r =? SR - 1))) + b2z (negb (c =? 0)) + b2z (negb (c =? SC - 1)) + b2z (under g d r c))).
        - rewrite !zsum_plus, !sum_neq, !zsum_const, zrange_length by lia. rewrite Z.max_r by lia. ring.
        - intros c C. unfold weight, all_links. cbn [links_of spreader_links k_before k_after].
          rewrite !app_length, !Nat2Z.inj_add, !pw_len. lia. }
    rewrite !zsum_plus, !zsum_scale, !sum_neq, !zsum_const, zrange_length by lia. rewrite Z.max_r by lia.
    assert (U : zsum (map (fun r => zsum (map (fun c => b2z (under g d r c)) (zrange 0 (SC - 1)))) (zrange 0 (SR - 1))) = A).
    { rewrite (zsum_ext _ (fun r => if (s_border_rows (spr g) <=? r) && (r <? s_border_rows (spr g) + NR) then NC else 0)).
      - rewrite (zrange_split 0 (s_border_rows (spr g) - 1) (SR - 1)) by lia.
        rewrite (zrange_split _ (s_border_rows (spr g) + NR - 1) (SR - 1)) by lia. rewrite !map_app, !zsum_app.
        rewrite (sum_zero _ (zrange 0 _)).
        2:{ intros x X. apply in_zrange in X. replace (s_border_rows (spr g) <=? x) with false by (symmetry; apply Z.leb_gt; lia). reflexivity. }
        rewrite (sum_zero _ (zrange (_ + NR - 1 + 1) _)).
        2:{ intros x X. apply in_zrange in X. replace (x <? s_border_rows (spr g) + NR) with false by (symmetry; apply Z.ltb_ge; lia). rewrite andb_false_r. reflexivity. }
        rewrite (zsum_ext _ (fun _ => NC)).
        2:{ intros x X. apply in_zrange in X. replace (s_border_rows (spr g) <=? x) with true by (symmetry; apply Z.leb_le; lia).
            replace (x <? s_border_rows (spr g) + NR) with true by (symmetry; apply Z.ltb_lt; lia). reflexivity. }
        rewrite zsum_const, zrange_length. rewrite Z.max_r by lia. ring.
      - intros r R. apply in_zrange in R.
        assert (UI : forall c, 0 <= c < SC -> under g d r c = (s_border_rows (spr g) <=? r) && (r <? s_border_rows (spr g) + NR) && ((s_border_cols (spr g) <=? c) && (c <? s_border_cols (spr g) + NC))).
        { intros c C. apply eq_true_iff_eq. rewrite !andb_true_iff, !Z.leb_le, !Z.ltb_lt. unfold under.
          rewrite (underneath_iff d (spr g) r c (gt_accepted d g G) GS ltac:(lia) C). split.
          - intros (r0 & c0 & ? & ? & -> & ->). lia.
          - intros ((? & ?) & ? & ?). exists (r - s_border_rows (spr g)), (c - s_border_cols (spr g)). lia. }
        rewrite (zsum_ext _ (fun c => b2z ((s_border_rows (spr g) <=? r) && (r <? s_border_rows (spr g) + NR)) * b2z ((s_border_cols (spr g) <=? c) && (c <? s_border_cols (spr g) + NC)))).
        2:{ intros c C. apply in_zrange in C. rewrite UI by lia. destruct ((s_border_rows (spr g) <=? r) && (r <? s_border_rows (spr g) + NR)); reflexivity || (cbn [andb b2z]; lia). }
        rewrite zsum_scale.
        assert (V : zsum (map (fun c => b2z ((s_border_cols (spr g) <=? c) && (c <? s_border_cols (spr g) + NC))) (zrange 0 (SC - 1))) = NC).
        { rewrite (zrange_split 0 (s_border_cols (spr g) - 1) (SC - 1)) by lia.
          rewrite (zrange_split _ (s_border_cols (spr g) + NC - 1) (SC - 1)) by lia. rewrite !map_app, !zsum_app.
          rewrite (sum_zero _ (zrange 0 _)).
          2:{ intros x X. apply in_zrange in X. replace (s_border_cols (spr g) <=? x) with false by (symmetry; apply Z.leb_gt; lia). reflexivity. }
          rewrite (sum_zero _ (zrange (_ + NC - 1 + 1) _)).
          2:{ intros x X. apply in_zrange in X. replace (x <? s_border_cols (spr g) + NC) with false by (symmetry; apply Z.ltb_ge; lia). rewrite andb_false_r. reflexivity. }
          rewrite (zsum_ext _ (fun _ => 1)).
          2:{ intros x X. apply in_zrange in X. replace (s_border_cols (spr g) <=? x) with true by (symmetry; apply Z.leb_le; lia).
              replace (x <? s_border_cols (spr g) + NC) with true by (symmetry; apply Z.ltb_lt; lia). reflexivity. }
          rewrite zsum_const, zrange_length. lia. }
        rewrite V. destruct ((s_border_rows (spr g) <=? r) && (r <? s_border_rows (spr g) + NR)); cbn [b2z]; lia. }
    rewrite U. ring.
  Qed.

  Lemma node_total : zsum (map weight (nodes g d)) = zsum (map layer_weight (zrange 0 (NL - 1))) + zsum (map weight (spr_nodes g)).
  Proof. unfold nodes. rewrite map_app, zsum_app, zsum_flat. reflexivity. Qed.

  Definition spreader_part : Z :=
    match tg_top g with
    | Some (SinkPluggable s _ _) => s_nrows s * s_ncols s + 2 * ((s_nrows s - 1) * s_ncols s) + 2 * (s_nrows s * (s_ncols s - 1)) + 2 * A
    | _ => 0
    end.
  Lemma spreader_total : zsum (map weight (spr_nodes g)) + A * zsum (map (fun l => b2z (to_spreader (ty l))) (zrange 0 (NL - 1))) = spreader_part.
  Proof.
    unfold spreader_part. destruct (tg_top g) as [[h a|s h m]|] eqn:E.
    - rewrite no_spreader_layer; [unfold spr_nodes; rewrite E; cbn; lia|]. intros (s & h2 & m & E2). congruence.
    - assert (HS : has_spreader (tg_top g)) by (exists s, h, m; assumption). rewrite spreader_weight, spreader_layer by assumption.
      unfold spr. rewrite E. lia.
    - rewrite no_spreader_layer; [unfold spr_nodes; rewrite E; cbn; lia|]. intros (s & h2 & m & E2). congruence.
  Qed.

  (** Stacks of solid and 4RM layers. *)
  Lemma count_4rm : (forall l, 0 <= l < NL -> is_solid (ty l) = true \/ ty l = LT_CHANNEL_4RM) ->
      total (map (col g d an) (nodes g d)) =
      NL * NR * NC + 2 * (NL - 1) * NR * NC + 2 * NL * (NR - 1) * NC + 2 * NL * NR * (NC - 1) + spreader_part.
  Proof.
    intros K. pose proof (gt_one d g G) as N1. rewrite total_weight, node_total, <- spreader_total.
    rewrite (zsum_ext layer_weight (fun l => (A + around) + A * b2z (negb (l =? 0)) + A * b2z (negb (l =? NL - 1)) + A * b2z (to_spreader (ty l)))).
    2:{ intros l L. apply in_zrange in L. rewrite (solid_weight l) by (try apply K; lia). ring. }
    rewrite !zsum_plus, !zsum_scale, !sum_neq, !zsum_const, zrange_length by lia. rewrite Z.max_r by lia. unfold around. ring.
  Qed.

  (** Number of channels of the two-resistor or pin-fin models. *)
  Definition channels2 : Z := zsum (map (fun l => match ty l with LT_BOTTOM_WALL => 1 | _ => 0 end) (zrange 0 (NL - 1))).
  Lemma ends_solid : is_solid (ty 0) = true /\ is_solid (ty (NL - 1)) = true.
  Proof.
    pose proof (gt_one d g G) as N1.
    split.
    - destruct (layer_cases g d G 0 0 ltac:(lia)) as [K|[(K & L)|(ch & b & F & K)]]; [|lia|].
      + destruct K as [K|(K & _)]; [assumption|]. destruct (place_4rm g d G 0 ltac:(lia) K) as (_ & _ & _ & B). lia.
      + pose proof (four_r g d ch b F). destruct K as [(K & _)|[(K & _)|[(K & _)|(K & _)]]]; lia.
    - destruct (layer_cases g d G (NL - 1) 0 ltac:(lia)) as [K|[(K & L)|(ch & b & F & K)]]; [|lia|].
      + destruct K as [K|(K & _)]; [assumption|]. destruct (place_4rm g d G (NL - 1) ltac:(lia) K) as (_ & _ & _ & B). lia.
      + pose proof (four_r g d ch b F). destruct K as [(K & _)|[(K & _)|[(K & _)|(K & _)]]]; lia.
  Qed.
  Lemma type_neg : forall x, x < 0 -> ty x = ty 0.
  Proof. intros x X. unfold type_of. replace (Z.to_nat x) with 0%nat by lia. reflexivity. Qed.
  Definition isb (l : Z) : Z := match ty l with LT_BOTTOM_WALL => 1 | _ => 0 end.
  Lemma isb_shift : forall k, 0 <= k <= 3 -> zsum (map (fun l => isb (l - k)) (zrange 0 (NL - 1))) = channels2.
  Proof.
    intros k K. pose proof (gt_one d g G) as N1. change channels2 with (zsum (map isb (zrange 0 (NL - 1)))).
    assert (Z0 : forall l, l < 0 -> isb l = 0).
    { intros l L. unfold isb. rewrite type_neg by assumption. destruct ends_solid as (S & _). destruct (ty 0); try reflexivity; discriminate. }
    apply shift_sum; [lia|lia|intros; apply Z0; lia|].
    intros x X. destruct (Z_lt_ge_dec x 0); [auto|]. unfold isb. destruct (ty x) eqn:E; try reflexivity.
    destruct (place_bottom g d G x ltac:(lia) E) as (ch & F). pose proof (four_r g d ch x F). lia.
  Qed.
  Definition iss (l : Z) : Z := b2z (is_solid (ty l)).

  Lemma count_2rm : forall ch, tg_channel g = Some ch -> ch_model ch <> CM_MC_4RM ->
      total (map (col g d an) (nodes g d)) + 2 * A =
      (NL - 4 * channels2) * (3 * A + around) + channels2 * (14 * A + (2 + 2 * b2z (is_2rm (ch_model ch))) * ((NR - 1) * NC)) + spreader_part.
  Proof.
    intros ch E NM. pose proof (gt_one d g G) as N1. rewrite total_weight, node_total, <- spreader_total.
    set (W := 2 * ((NR - 1) * NC)). set (vw := 3 * A + b2z (is_2rm (ch_model ch)) * W).
    (* one layer *)
    assert (ONE : forall l, 0 <= l < NL ->
      layer_weight l = (iss l * (A + around) + A * b2z (negb (l =? 0)) * iss l + A * b2z (negb (l =? NL - 1)) * iss l) + A * b2z (to_spreader (ty l))
        + 4 * A * isb (l - 0) + vw * isb (l - 1) + (3 * A + W) * isb (l - 2) + 4 * A * isb (l - 3)
      /\ iss l + isb (l - 0) + isb (l - 1) + isb (l - 2) + isb (l - 3) = 1).
    { intros l L.
      assert (IB : forall x, x < 0 -> isb x = 0).
      { intros x X. unfold isb. rewrite type_neg by assumption. destruct ends_solid as (S & _). destruct (ty 0); try reflexivity; discriminate. }
      assert (NB : forall x, 0 <= x < NL -> isb x <> 0 -> exists ch2, four g d ch2 x).
      { intros x X Y. unfold isb in Y. destruct (ty x) eqn:T; try congruence. apply (place_bottom g d G x X T). }
      assert (IB1 : forall x, isb x = 0 \/ isb x = 1) by (intros x; unfold isb; destruct (ty x); auto).
      assert (ZERO : forall j k, 0 <= j < 4 -> 0 <= k <= 3 -> j <> k -> forall b ch2, four g d ch2 b -> l = b + j -> isb (l - k) = 0).
      { intros j k J K JK b ch2 F EL. destruct (Z_lt_ge_dec (l - k) 0); [auto|].
        destruct (IB1 (l - k)) as [Y|Y]; [assumption|]. destruct (NB (l - k)) as (ch3 & F3); [lia|lia|].
        destruct (four_unique g d ch2 b ch3 (l - k) F F3); lia. }
      destruct (layer_cases g d G l 0 L) as [K|[(K & _)|(ch2 & b & F & K)]].
      - assert (SL : is_solid (ty l) = true).
        { destruct K as [K|(K & _)]; [assumption|]. destruct (place_4rm g d G l L K) as (ch3 & E3 & M3 & _). congruence. }
        assert (ZS : forall k, 0 <= k <= 3 -> isb (l - k) = 0).
        { intros k KK. destruct (Z_lt_ge_dec (l - k) 0); [auto|]. destruct (IB1 (l - k)) as [Y|Y]; [assumption|].
          destruct (NB (l - k)) as (ch3 & F3); [lia|lia|]. destruct (four_wall_not_solid g d ch3 (l - k) 0 k F3 ltac:(lia)) as (N & _).
          exfalso. apply N. replace (l - k + k) with l by lia. left. assumption. }
        rewrite (solid_weight l L) by auto. unfold iss. rewrite SL, !ZS by lia. cbn [b2z]. split; [ring|lia].
      - destruct K as (K & _). destruct (place_4rm g d G l L K) as (ch3 & E3 & M3 & _). congruence.
      - assert (ch2 = ch) by (destruct F as (E2 & _); congruence). subst ch2.
        assert (NS : iss l = 0 /\ to_spreader (ty l) = false).
        { unfold iss. destruct K as [(_ & ->)|[(_ & ->)|[(_ & ->)|(_ & ->)]]]; try (split; reflexivity); destruct (ch_model ch); split; reflexivity. }
        destruct NS as (-> & ->). pose proof (four_b g d _ _ F) as TB.
        assert (OneB : isb b = 1) by (unfold isb; rewrite TB; reflexivity).
        destruct K as [(EL & T)|[(EL & T)|[(EL & T)|(EL & T)]]].
        + rewrite (ZERO 0 1 ltac:(lia) ltac:(lia) ltac:(lia) b ch F), (ZERO 0 2 ltac:(lia) ltac:(lia) ltac:(lia) b ch F), (ZERO 0 3 ltac:(lia) ltac:(lia) ltac:(lia) b ch F) by lia.
          rewrite (bottom_weight l T). replace (l - 0) with b by lia. rewrite OneB. cbn [b2z]. split; [ring|lia].
        + rewrite (ZERO 1 0 ltac:(lia) ltac:(lia) ltac:(lia) b ch F), (ZERO 1 2 ltac:(lia) ltac:(lia) ltac:(lia) b ch F), (ZERO 1 3 ltac:(lia) ltac:(lia) ltac:(lia) b ch F) by lia.
          rewrite (vwall_weight ch l E T). replace (l - 1) with b by lia. rewrite OneB. cbn [b2z]. split; [unfold vw, W; ring|lia].
        + rewrite (ZERO 2 0 ltac:(lia) ltac:(lia) ltac:(lia) b ch F), (ZERO 2 1 ltac:(lia) ltac:(lia) ltac:(lia) b ch F), (ZERO 2 3 ltac:(lia) ltac:(lia) ltac:(lia) b ch F) by lia.
          rewrite (cool_weight ch l T). replace (l - 2) with b by lia. rewrite OneB. cbn [b2z]. split; [unfold W; ring|lia].
        + rewrite (ZERO 3 0 ltac:(lia) ltac:(lia) ltac:(lia) b ch F), (ZERO 3 1 ltac:(lia) ltac:(lia) ltac:(lia) b ch F), (ZERO 3 2 ltac:(lia) ltac:(lia) ltac:(lia) b ch F) by lia.
          rewrite (top_weight l T). replace (l - 3) with b by lia. rewrite OneB. cbn [b2z]. split; [ring|lia]. }
    rewrite (zsum_ext layer_weight _ (zrange 0 (NL - 1))) by (intros l L; apply in_zrange in L; exact (proj1 (ONE l ltac:(lia)))).
    rewrite !zsum_plus, !zsum_scale, !isb_shift by lia.
    (* the solid layers *)
    assert (SS : zsum (map iss (zrange 0 (NL - 1))) + 4 * channels2 = NL).
    { assert (X : zsum (map (fun l => iss l + isb (l - 0) + isb (l - 1) + isb (l - 2) + isb (l - 3)) (zrange 0 (NL - 1))) = NL).
      { rewrite (zsum_ext _ (fun _ => 1)) by (intros l L; apply in_zrange in L; exact (proj2 (ONE l ltac:(lia)))).
        rewrite zsum_const, zrange_length. lia. }
      rewrite !zsum_plus, !isb_shift in X by lia. lia. }
    destruct ends_solid as (S0 & S1).
    assert (E0 : forall k, (k = 0 \/ k = NL - 1) -> zsum (map (fun l => A * b2z (negb (l =? k)) * iss l) (zrange 0 (NL - 1))) = A * (NL - 4 * channels2 - 1)).
    { intros k K.
      assert (KR : iss k = 1) by (destruct K as [-> | ->]; unfold iss; rewrite ?S0, ?S1; reflexivity).
      assert (X : zsum (map (fun l => A * b2z (negb (l =? k)) * iss l) (zrange 0 (NL - 1))) + A * zsum (map (fun l => b2z (l =? k)) (zrange 0 (NL - 1))) = A * zsum (map iss (zrange 0 (NL - 1)))).
      { rewrite <- !zsum_scale, <- zsum_plus. apply zsum_ext. intros l L. destruct (Z.eqb_spec l k) as [->|]; cbn [negb b2z]; [rewrite KR; ring|ring]. }
      rewrite (sum_single (fun l => b2z (l =? k)) k) in X;
        [|apply zrange_NoDup|apply in_zrange; lia|intros y _ Y; replace (y =? k) with false by (symmetry; apply Z.eqb_neq; assumption); reflexivity].
      rewrite Z.eqb_refl in X. cbn [b2z] in X. replace (zsum (map iss (zrange 0 (NL - 1)))) with (NL - 4 * channels2) in X by lia. lia. }
    rewrite !E0 by auto.
    rewrite (zsum_ext (fun x => iss x * (A + around)) (fun x => (A + around) * iss x)) by (intros; ring). rewrite zsum_scale.
    replace (zsum (map iss (zrange 0 (NL - 1)))) with (NL - 4 * channels2) by lia. unfold vw, W. ring.
  Qed.
End Count.
