(** * The equation of one step at every cell, and sums over all cells *)
From Coq Require Import ZArith List Bool QArith Lia Lqa Sorted Permutation.
From Verif Require Import Base QSum Dims DimsSpec DimsProofs Queue QueueProofs Floorplan FloorplanSpec FloorplanProofs FlpMatrixProofs TempProofs Stack StackSpec StackProofs PowerGrid Emulate EmulateSpec SourceProofs LayerProofs SourceVectorProofs EmulateProofs HistoryProofs Conduct Matrix MatrixSpec CellProofs NodeProofs LinkProofs SignProofs CscProofs NetProofs EnumProofs BalanceSpec BalanceProofs VectorProofs.
Import ListNotations.
Local Open Scope Z_scope.

(** ** The shares of an element add up to one *)
Lemma layer_offset : forall d r c, good_grid d -> 0 <= r < d_nrows d -> 0 <= c < d_ncols d -> offset_in_layer d r c = r * d_ncols d + c.
Proof.
  intros d r c (A & B & C & _) R K. unfold offset_in_layer. rewrite (u32_id (r * d_ncols d)) by nia. apply u32_id. nia.
Qed.
Lemma offsets_range : forall d, good_grid d ->
    map (fun rc => offset_in_layer d (fst rc) (snd rc)) (layer_cells d) = zrange 0 (d_nrows d * d_ncols d - 1).
Proof.
  intros d G. unfold layer_cells. rewrite map_list_prod. cbn [fst snd].
  pose proof G as (A & B & _).
  rewrite <- (blocks_z (d_ncols d) (d_nrows d)) by lia.
  apply flat_map_ext_in. intros r R. rewrite in_zrange in R. apply map_ext_in. intros c C. rewrite in_zrange in C.
  apply layer_offset; [assumption|lia|lia].
Qed.

Lemma weights_total : forall es n, (forall x, In x es -> 0 <= fst x < n) ->
    (qsum (map (fun k => FloorplanProofs.weight k es) (zrange 0 (n - 1))) == qsum (map snd es))%Q.
Proof.
  intros es n H. unfold FloorplanProofs.weight. rewrite qsum_swap. apply qsum_ext. intros x X. specialize (H x X).
  rewrite (qsum_single _ (zrange 0 (n - 1)) (fst x)).
  - rewrite Z.eqb_refl. reflexivity.
  - apply zrange_NoDup.
  - rewrite in_zrange. lia.
  - intros y _ N. destruct (fst x =? y) eqn:E; [apply Z.eqb_eq in E; congruence|reflexivity].
Qed.

Lemma shares_one : forall d e, good_grid d -> good_element d e ->
    (qsum (map (fun rc => covered_by d e (fst rc) (snd rc) / area_of e) (layer_cells d)) == 1)%Q.
Proof.
  intros d e G E. pose proof (good_element_el d e G E) as GE.
  rewrite <- (element_sum d e G GE).
  rewrite <- (weights_total (fill_element d e) (d_nrows d * d_ncols d)).
  - rewrite <- (offsets_range d G), map_map. apply qsum_ext. intros [r c] I. cbn [fst snd].
    unfold layer_cells in I. rewrite in_prod_iff, !in_zrange in I. symmetry. apply element_weight; auto; lia.
  - intros x X. apply (element_rows d e x G GE X).
Qed.
Lemma share_nonneg : forall d e r c, good_grid d -> good_element d e -> (0 <= covered_by d e r c / area_of e)%Q.
Proof.
  intros d e r c G E. pose proof (good_element_el d e G E) as [A B _].
  unfold Qdiv. apply Qmult_le_0_compat.
  - apply qsum_nonneg. intros a _. apply covered_nonneg.
  - apply Qinv_le_0_compat. rewrite <- A. lra.
Qed.

(** The elements of a good power grid. *)
Definition nice (d : dims) (e : flpel) : Prop := exists e0, good_element d e0 /\ fe_ics e = fe_ics e0.
Lemma nice_share : forall d e, good_grid d -> nice d e ->
    (qsum (map (fun rc => covered_by d e (fst rc) (snd rc) / area_of e) (layer_cells d)) == 1)%Q /\
    forall r c, (0 <= covered_by d e r c / area_of e)%Q.
Proof.
  intros d e G (e0 & E & I).
  assert (area_of e = area_of e0) as A by (unfold area_of; rewrite I; reflexivity).
  assert (forall r c, covered_by d e r c = covered_by d e0 r c) as B by (intros; unfold covered_by; rewrite I; reflexivity).
  split.
  - rewrite <- (shares_one d e0 G E). apply qsum_ext. intros x _. rewrite A, B. reflexivity.
  - intros r c. rewrite A, B. apply share_nonneg; assumption.
Qed.

Lemma located_good : forall d pg fs ts l x, Forall2 (good_layer d pg) ts fs -> In x (located_from l fs) ->
    l <= fst x < l + Z.of_nat (length ts) /\ nice d (snd x).
Proof.
  intros d pg fs. induction fs as [|o fs IH]; intros ts l x F I; [destruct I|].
  inversion F as [|t o' ts' fs' T F']; subst. cbn [located_from] in I. apply in_app_iff in I. cbn [length]. destruct I as [I|I].
  - apply in_map_iff in I. destruct I as (e & <- & I). cbn [fst snd]. split; [lia|].
    destruct o as [f|]; [|destruct I]. cbn [layer_elements] in I.
    destruct T as (_ & _ & T & _). destruct (T f eq_refl) as (els & f0 & Ge & _ & _ & _ & Ei & _).
    apply (in_map fe_ics) in I. rewrite Ei in I. apply in_map_iff in I. destruct I as (e0 & E0 & I).
    exists e0. split; [rewrite Forall_forall in Ge; apply Ge; assumption|congruence].
  - destruct (IH ts' (l + 1) x F' I) as (A & B). split; [lia|exact B].
Qed.

(** ** Sums over the layers *)
Lemma sum_layer_prod : forall d f, (sum_layer d f == qsum (map (fun rc => f (fst rc) (snd rc)) (layer_cells d)))%Q.
Proof.
  intros d f. unfold sum_layer, layer_cells. rewrite map_list_prod.
  rewrite <- (map_id (flat_map _ _)). rewrite qsum_flat_map. apply qsum_ext. intros r _. rewrite map_id. reflexivity.
Qed.
Lemma sum_layer_ext : forall d f h, (forall r c, 0 <= r < d_nrows d -> 0 <= c < d_ncols d -> (f r c == h r c)%Q) ->
    (sum_layer d f == sum_layer d h)%Q.
Proof.
  intros d f h H. unfold sum_layer. apply qsum_ext. intros r R. apply qsum_ext. intros c C. rewrite in_zrange in R, C. apply H; lia.
Qed.
Lemma sum_layer_plus : forall d f h, (sum_layer d (fun r c => f r c + h r c) == sum_layer d f + sum_layer d h)%Q.
Proof.
  intros. unfold sum_layer. rewrite <- qsum_plus. apply qsum_ext. intros. apply qsum_plus.
Qed.
Lemma sum_layer_scale : forall d f k, (sum_layer d (fun r c => k * f r c) == k * sum_layer d f)%Q.
Proof.
  intros. unfold sum_layer. rewrite <- qsum_scale. apply qsum_ext. intros. apply qsum_scale.
Qed.
Lemma sum_layer_zero : forall d, (sum_layer d (fun _ _ => 0) == 0)%Q.
Proof. intros. unfold sum_layer. apply qsum_zero. intros. apply qsum_zero. reflexivity. Qed.

Definition sum_stack (d : dims) (f : Z -> Z -> Z -> Q) : Q :=
  qsum (map (fun l => sum_layer d (f l)) (zrange 0 (d_nlayers d - 1))).
Lemma sum_stack_ext : forall d f h, (forall l r c, in_grid d l r c -> (f l r c == h l r c)%Q) -> (sum_stack d f == sum_stack d h)%Q.
Proof.
  intros d f h H. unfold sum_stack. apply qsum_ext. intros l L. rewrite in_zrange in L. apply sum_layer_ext. intros. apply H.
  unfold in_grid. lia.
Qed.
Lemma sum_stack_plus : forall d f h, (sum_stack d (fun l r c => f l r c + h l r c) == sum_stack d f + sum_stack d h)%Q.
Proof.
  intros. unfold sum_stack. rewrite <- qsum_plus. apply qsum_ext. intros. apply sum_layer_plus.
Qed.

(** Powers spread over the stack. *)
Lemma powers_total : forall d pg powers, good_pgrid d pg -> length powers = length (located_elements pg) ->
    (sum_stack d (fun l r c => qsum (map (located_share d l r c) (combine (located_elements pg) powers))) == qsum powers)%Q.
Proof.
  intros d pg powers G L.
  assert (forall x, In x (located_elements pg) -> 0 <= fst x < d_nlayers d /\ nice d (snd x)) as K.
  { intros x X. destruct G as (_ & _ & _ & _ & _ & _ & _ & _ & _ & _ & _ & T & F).
    pose proof (located_good d pg (pg_flps pg) (pg_types pg) 0 x F X) as K. rewrite T in K. exact K. }
  pose proof G as (GG & _).
  transitivity (qsum (map (fun x => snd x) (combine (located_elements pg) powers))).
  - unfold sum_stack.
    rewrite (qsum_ext _ (fun l => qsum (map (fun x => sum_layer d (fun r c => located_share d l r c x)) (combine (located_elements pg) powers)))).
    + rewrite qsum_swap. apply qsum_ext. intros [x p] I.
      destruct (K x (in_combine_l _ _ _ _ I)) as (R & N).
      rewrite (qsum_single _ (zrange 0 (d_nlayers d - 1)) (fst x)).
      * unfold located_share. cbn [fst snd]. rewrite Z.eqb_refl. rewrite sum_layer_prod.
        rewrite (qsum_ext _ (fun rc => p * (covered_by d (snd x) (fst rc) (snd rc) / area_of (snd x)))%Q).
        -- rewrite qsum_scale. destruct (nice_share d (snd x) GG N) as (E & _). rewrite E. ring.
        -- intros rc _. unfold Qdiv. ring.
      * apply zrange_NoDup.
      * rewrite in_zrange. lia.
      * intros y _ Ny. unfold located_share. cbn [fst snd]. destruct (fst x =? y) eqn:E; [apply Z.eqb_eq in E; congruence|]. apply sum_layer_zero.
    + intros l _. unfold sum_layer.
      rewrite (qsum_ext _ (fun r => qsum (map (fun x => qsum (map (fun c => located_share d l r c x) (zrange 0 (d_ncols d - 1)))) (combine (located_elements pg) powers))))
        by (intros r _; apply qsum_swap).
      apply qsum_swap.
  - assert (map (fun x : Z * flpel * Q => snd x) (combine (located_elements pg) powers) = powers) as ->; [|reflexivity].
    clear -L. revert powers L. induction (located_elements pg) as [|a l IH]; intros [|p ps] L; try discriminate; cbn; [reflexivity|].
    f_equal. apply IH. cbn in L. lia.
Qed.

Section Step.
  Variables (g : tgrid) (d : dims) (an : analysis).
  Hypothesis G : good_tgrid d g.
  Notation NL := (d_nlayers d).
  Notation NR := (d_nrows d).
  Notation NC := (d_ncols d).
  Notation ty := (type_of g).
  Notation ix := (idx g d).

  (** A sum over the nodes. *)
  Lemma nodes_sum : forall f : node -> Q,
      (qsum (map f (nodes g d)) == sum_stack d (fun l r c => f (Cell l r c)) + qsum (map f (spr_nodes g)))%Q.
  Proof.
    intros f. unfold nodes. rewrite map_app, qsum_app, qsum_flat_map. apply Qplus_comp; [|reflexivity].
    unfold sum_stack. apply qsum_ext. intros l _. rewrite sum_layer_prod. unfold layer_nodes. rewrite map_map. reflexivity.
  Qed.

  (** Heat exchanged through the sinks. *)
  Lemma sink_sum : forall f : Z -> Z -> Z -> Q,
      (sum_stack d (fun l r c => sink_of g d l r c * f l r c) ==
       match tg_top g with Some (SinkTop _ _) => sum_layer d (fun r c => cT g d (NL - 1)%Z r c * f (NL - 1)%Z r c) | _ => 0 end +
       match tg_bottom g with Some _ => sum_layer d (fun r c => cB g d 0%Z r c * f 0%Z r c) | None => 0 end)%Q.
  Proof.
    intros f. pose proof (gt_one d g G) as N1.
    rewrite (sum_stack_ext d _ (fun l r c => (if to_ambient (ty l) then cT g d l r c * f l r c else 0) + (if to_pcb (ty l) then cB g d l r c * f l r c else 0))%Q).
    - rewrite sum_stack_plus. apply Qplus_comp.
      + unfold sum_stack. destruct (tg_top g) as [[h a|s h m]|] eqn:T.
        * rewrite (qsum_single _ (zrange 0 (NL - 1)) (NL - 1)).
          -- rewrite (gt_ambient d g G) by (rewrite T; exists h, a; reflexivity). reflexivity.
          -- apply zrange_NoDup.
          -- rewrite in_zrange. lia.
          -- intros l L N. rewrite in_zrange in L. destruct (to_ambient (ty l)) eqn:A; [|apply sum_layer_zero].
             assert (is_solid (ty l) = true) as S1 by (destruct (type_of g l); try discriminate A; reflexivity).
             destruct (solid_facts g d G l ltac:(lia) S1) as (F & _). destruct (F A). congruence.
        * apply qsum_zero. intros l L. rewrite in_zrange in L. destruct (to_ambient (ty l)) eqn:A; [|apply sum_layer_zero].
          assert (is_solid (ty l) = true) as S1 by (destruct (type_of g l); try discriminate A; reflexivity).
          destruct (solid_facts g d G l ltac:(lia) S1) as (F & _). destruct (F A) as (_ & (h' & a' & E)). congruence.
        * apply qsum_zero. intros l L. rewrite in_zrange in L. destruct (to_ambient (ty l)) eqn:A; [|apply sum_layer_zero].
          assert (is_solid (ty l) = true) as S1 by (destruct (type_of g l); try discriminate A; reflexivity).
          destruct (solid_facts g d G l ltac:(lia) S1) as (F & _). destruct (F A) as (_ & (h' & a' & E)). congruence.
      + unfold sum_stack. destruct (tg_bottom g) as [k|] eqn:T.
        * rewrite (qsum_single _ (zrange 0 (NL - 1)) 0).
          -- rewrite (gt_pcb d g G) by congruence. reflexivity.
          -- apply zrange_NoDup.
          -- rewrite in_zrange. lia.
          -- intros l L N. rewrite in_zrange in L. destruct (to_pcb (ty l)) eqn:A; [|apply sum_layer_zero].
             assert (is_solid (ty l) = true) as S1 by (destruct (type_of g l); try discriminate A; reflexivity).
             destruct (solid_facts g d G l ltac:(lia) S1) as (_ & _ & F). destruct (F A). congruence.
        * apply qsum_zero. intros l L. rewrite in_zrange in L. destruct (to_pcb (ty l)) eqn:A; [|apply sum_layer_zero].
          assert (is_solid (ty l) = true) as S1 by (destruct (type_of g l); try discriminate A; reflexivity).
          destruct (solid_facts g d G l ltac:(lia) S1) as (_ & _ & F). destruct (F A). congruence.
    - intros l r c _. unfold sink_of. destruct (to_ambient (ty l)) eqn:A; [|destruct (to_pcb (ty l)); ring].
      assert (to_pcb (ty l) = false) as -> by (destruct (type_of g l); try discriminate A; reflexivity). ring.
  Qed.
End Step.
