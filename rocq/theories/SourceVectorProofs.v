From Coq Require Import ZArith List Bool QArith Lia Lqa.
From Verif Require Import Base QSum Dims DimsSpec DimsProofs Queue QueueProofs Floorplan FloorplanSpec
     FloorplanProofs FlpMatrixProofs TempProofs Stack StackSpec StackProofs PowerGrid Emulate EmulateSpec SourceProofs LayerProofs.
Import ListNotations.
Local Open Scope Z_scope.

(** Share of cell (l,r,c) of a located element. *)
Definition located_share (d : dims) (l r c : Z) (x : Z * flpel * Q) : Q :=
  (if Z.eqb (fst (fst x)) l then snd x * covered_by d (snd (fst x)) r c / area_of (snd (fst x)) else 0)%Q.

Lemma located_app_layer : forall d l r c els hs rest hrest, length hs = length els ->
    (qsum (map (located_share d l r c) (combine (map (pair l) els ++ rest) (hs ++ hrest))) ==
     qsum (map (share d r c) (combine hs els)) + qsum (map (located_share d l r c) (combine rest hrest)))%Q.
Proof.
  intros d l r c. induction els as [|e els IH]; intros [|h hs] rest hrest L; cbn [length] in L; try lia.
  - cbn [map app combine]. rewrite qsum_nil. ring.
  - cbn [map app combine]. rewrite !qsum_cons, IH by lia.
    unfold located_share at 1. cbn [fst snd]. rewrite Z.eqb_refl. unfold share at 2. cbn [fst snd]. ring.
Qed.
Lemma located_other_layer : forall d k l r c els hs rest hrest, length hs = length els -> l <> k ->
    (qsum (map (located_share d k r c) (combine (map (pair l) els ++ rest) (hs ++ hrest))) ==
     qsum (map (located_share d k r c) (combine rest hrest)))%Q.
Proof.
  intros d k l r c. induction els as [|e els IH]; intros [|h hs] rest hrest L N; cbn [length] in L; try lia.
  - cbn [map app combine]. reflexivity.
  - cbn [map app combine]. rewrite !qsum_cons, IH by (lia || exact N).
    unfold located_share at 1. cbn [fst snd]. rewrite (proj2 (Z.eqb_neq l k)) by exact N. ring.
Qed.
Lemma located_above : forall d k r c fs l hs, k < l ->
    (qsum (map (located_share d k r c) (combine (located_from l fs) hs)) == 0)%Q.
Proof.
  intros d k r c. induction fs as [|f fs IH]; intros l hs H; [cbn; reflexivity|].
  cbn [located_from]. 
  assert (A : forall els hs, (qsum (map (located_share d k r c) (combine (map (pair l) els ++ located_from (l + 1) fs) hs)) == 0)%Q).
  { induction els as [|e els IHe]; intros [|h hs']; cbn [map app combine]; try reflexivity.
    - destruct (located_from (l+1) fs); reflexivity.
    - apply IH. lia.
    - rewrite qsum_cons, IHe. unfold located_share. cbn [fst snd]. rewrite (proj2 (Z.eqb_neq l k)) by lia. ring. }
  apply A.
Qed.

Lemma qreps_flat : forall fs qs, qreps (flat_map layer_elements fs) qs ->
    match fs with
    | [] => qs = []
    | f :: fs' => exists q1 q2, qs = q1 ++ q2 /\ qreps (layer_elements f) q1 /\ qreps (flat_map layer_elements fs') q2
    end.
Proof.
  intros [|f fs] qs F; cbn [flat_map] in F; [inversion F; reflexivity|].
  apply Forall2_app_inv_l in F. destruct F as (q1 & q2 & A & B & C). eauto 6.
Qed.

Lemma F2_length : forall {A B} (R : A -> B -> Prop) a b, Forall2 R a b -> length a = length b.
Proof. intros A B R a b F. induction F; cbn; congruence. Qed.

Lemma Forall2_app' : forall {A B} (R : A -> B -> Prop) a a' b b', Forall2 R a b -> Forall2 R a' b' -> Forall2 R (a ++ a') (b ++ b').
Proof. intros. apply Forall2_app; assumption. Qed.

Lemma nth_layer : forall {A} (a b : list A) i n d, length a = n -> nth (n + i) (a ++ b) d = nth i b d.
Proof. intros A a b i n d <-. rewrite app_nth2 by lia. f_equal. lia. Qed.

Lemma skipn_exact : forall {A} n (x y : list A), length x = n -> skipn n (x ++ y) = y.
Proof. intros A n x y <-. rewrite skipn_app, skipn_all, Nat.sub_diag. reflexivity. Qed.
Lemma firstn_exact : forall {A} n (x y : list A), length x = n -> firstn n (x ++ y) = x.
Proof. intros A n x y <-. rewrite firstn_app, firstn_all, Nat.sub_diag. cbn [firstn]. apply app_nil_r. Qed.

Lemma update_layers_spec : forall pg d, sized d pg -> forall ts fs, Forall2 (good_layer d pg) ts fs ->
    forall l qs n y, qreps (flat_map layer_elements fs) qs ->
    0 <= l -> l + Z.of_nat (length ts) <= Z.of_nat (length (d_heights d)) ->
    Z.of_nat n = area d ->
    exists fs' s',
      update_layers pg d l ts fs (repeat 0%Q (length ts * n) ++ y) =
        Ok (if fst (fst (take_heads qs)) then TDICE_SUCCESS else TDICE_FAILURE, fs', s' ++ y) /\
      length s' = (length ts * n)%nat /\ Forall2 (good_layer d pg) ts fs' /\
      Forall2 (fun a b => Forall2 same_element (layer_elements a) (layer_elements b)) fs fs' /\
      qreps (flat_map layer_elements fs') (snd (fst (take_heads qs))) /\
      (fst (fst (take_heads qs)) = true ->
       forall k r c, (k < length ts)%nat -> 0 <= r < d_nrows d -> 0 <= c < d_ncols d ->
         (nth (k * n + Z.to_nat (r * d_ncols d + c)) s' 0 ==
          boundary_of pg d (nth k ts LT_NONE) (l + Z.of_nat k) r c +
          qsum (map (located_share d (l + Z.of_nat k) r c) (combine (located_from l fs) (snd (take_heads qs)))))%Q).
Proof.
  intros pg d SZ ts fs F. pose proof SZ as (G & _). destruct (area_ok d G) as [EA PA].
  induction F as [|t f ts fs GL F IH]; intros l qs n y Q Hl Hb Hn.
  - cbn [flat_map] in Q. inversion Q. subst qs. exists [], []. cbn [length Nat.mul repeat app update_layers take_heads fst snd flat_map].
    repeat (split; [first [reflexivity|constructor]|]). intros _ k r c Hk. cbn in Hk. lia.
  - apply qreps_flat in Q. destruct Q as (q1 & q2 & -> & Q1 & Q2).
    cbn [length] in Hb.
    destruct (update_layer_spec pg d l t f q1 n (repeat 0%Q (length ts * n) ++ y) SZ GL Q1 ltac:(lia) Hn)
      as (f' & x' & E & Lx & GL' & SE & QQ & W).
    cbn [length Nat.mul]. rewrite repeat_app, <- app_assoc. cbn [update_layers]. rewrite E. cbn [bind].
    rewrite take_heads_app. pose proof (take_heads_lengths q1) as [L1 L2].
    destruct (take_heads q1) as [[ok a'] h] eqn:T1. cbn [fst snd] in *.
    destruct ok.
    + replace (Z.to_nat (get_layer_area d)) with n by lia.
      rewrite (skipn_exact n x' _ Lx), (firstn_exact n x' _ Lx).
      destruct (IH (l + 1) q2 n y Q2 ltac:(lia) ltac:(lia) Hn) as (fs' & s' & E2 & L & GL2 & SE2 & QQ2 & W2).
      rewrite E2. cbn [bind]. destruct (take_heads q2) as [[ok2 b'] h2] eqn:T2. cbn [fst snd] in *.
      exists (f' :: fs'), (x' ++ s'). split.
      { rewrite app_assoc. reflexivity. }
      split; [rewrite app_length; lia|]. split; [constructor; assumption|]. split; [constructor; assumption|].
      split; [cbn [flat_map]; apply Forall2_app; assumption|].
      intros B k r c Hk Hr Hc. specialize (L2 eq_refl).
      assert (LH : length h = length (layer_elements f)) by (rewrite L2; symmetry; apply (F2_length _ _ _ Q1)).
      destruct (cell_index d r c G Hr Hc) as [I _]. cbn [located_from].
      destruct k as [|k].
      * cbn [Nat.mul Nat.add nth]. replace (l + Z.of_nat 0) with l by lia. rewrite app_nth1 by lia.
        rewrite (W eq_refl r c Hr Hc). rewrite located_app_layer by exact LH. rewrite located_above by lia. ring.
      * cbn [Nat.mul nth]. rewrite <- Nat.add_assoc. rewrite nth_layer by exact Lx.
        rewrite (W2 B k r c ltac:(cbn in Hk; lia) Hr Hc). replace (l + 1 + Z.of_nat k) with (l + Z.of_nat (S k)) by lia.
        rewrite located_other_layer by (exact LH || lia). reflexivity.
    + eexists (f' :: fs), (x' ++ repeat 0%Q (length ts * n)). split; [rewrite <- app_assoc; reflexivity|].
      split; [rewrite app_length, repeat_length; lia|]. split; [constructor; assumption|].
      split; [constructor; [assumption|]; clear; induction fs; constructor; auto using same_element_refl|].
      split; [cbn [flat_map]; apply Forall2_app; assumption|]. discriminate.
Qed.

Lemma located_same : forall fs fs' l,
    Forall2 (fun a b => Forall2 same_element (layer_elements a) (layer_elements b)) fs fs' ->
    map (fun x => (fst x, fe_id (snd x), fe_ics (snd x))) (located_from l fs') =
    map (fun x => (fst x, fe_id (snd x), fe_ics (snd x))) (located_from l fs).
Proof.
  intros fs fs' l F. revert l. induction F as [|a b fs fs' H F IH]; intro l; [reflexivity|].
  cbn [located_from]. rewrite !map_app, IH. f_equal.
  induction H as [|e e' x x' [H1 H2] H IHx]; [reflexivity|]. cbn [map fst snd]. rewrite H1, H2, IHx. reflexivity.
Qed.

Lemma expected_same : forall pg pg' d ps l r c, same_fields pg pg' -> expected_source pg' d ps l r c = expected_source pg d ps l r c.
Proof.
  intros pg pg' d ps l r c (_ & _ & _ & T & TO & BO & CH & _ & TT & BT & LO).
  unfold expected_source. f_equal.
  - unfold boundary_source. rewrite T, TO, BO, CH, TT, BT. reflexivity.
  - f_equal. revert LO ps. generalize (located_elements pg) as a. generalize (located_elements pg') as b.
    induction b as [|x b IH]; intros [|y a] H ps; cbn [map] in H; try discriminate; [reflexivity|].
    destruct ps as [|p ps]; [reflexivity|]. cbn [combine map fst snd]. injection H as H1 H2 H3 H4.
    rewrite (IH a H4 ps). rewrite H1. unfold covered_by, area_of. rewrite H3. reflexivity.
Qed.

Lemma same_fields_refl : forall pg, same_fields pg pg.
Proof. intro pg. unfold same_fields. repeat (split; [reflexivity|]). reflexivity. Qed.
Lemma same_fields_trans : forall a b c, same_fields a b -> same_fields b c -> same_fields a c.
Proof.
  intros a b c (A1&A2&A3&A4&A5&A6&A7&A8&A9&A10&A11) (B1&B2&B3&B4&B5&B6&B7&B8&B9&B10&B11).
  unfold same_fields. repeat (split; [congruence|]). congruence.
Qed.

Lemma good_pgrid_sized : forall d pg, good_pgrid d pg -> sized d pg.
Proof. intros d pg (A & B & C & D & E & F & H & I & J & K & L & M & N). unfold sized. auto. Qed.

Lemma located_elements_length : forall l fs, length (located_from l fs) = length (flat_map layer_elements fs).
Proof. intros l fs. revert l. induction fs as [|f fs IH]; intro l; [reflexivity|]. cbn [located_from flat_map]. rewrite !app_length, map_length, IH. reflexivity. Qed.

Lemma good_layer_pg : forall d pg pg' t f, pg_top pg' = pg_top pg -> pg_bottom pg' = pg_bottom pg -> pg_channel pg' = pg_channel pg ->
    good_layer d pg t f -> good_layer d pg' t f.
Proof. intros d pg pg' t f A B C H. unfold good_layer in *. rewrite A, B, C. exact H. Qed.

(** Source update: it succeeds iff no queue is empty. *)
Lemma update_source_vector_spec : forall pg d qs, good_pgrid d pg -> queued pg qs ->
    exists pg', update_source_vector pg d = Ok (if fst (fst (take_heads qs)) then TDICE_SUCCESS else TDICE_FAILURE, pg') /\
      good_pgrid d pg' /\ same_fields pg pg' /\ queued pg' (snd (fst (take_heads qs))) /\
      (fst (fst (take_heads qs)) = true ->
        dissipates pg' d (snd (take_heads qs)) /\
        forall i, chip_cells d <= i < pg_ncells pg -> nth (Z.to_nat i) (pg_sources pg') 0%Q = 0%Q).
Proof.
  intros pg d qs GP Q. pose proof (good_pgrid_sized d pg GP) as SZ.
  pose proof GP as (G & NL & LH & NC & NC2 & SP & NCL & LS & LC & LT & LB & LTY & FL).
  destruct (area_ok d G) as [EA PA]. unfold update_source_vector.
  assert (CC : chip_cells d = Z.of_nat (length (pg_types pg)) * area d) by (unfold chip_cells; rewrite LTY; ring).
  set (n := Z.to_nat (area d)).
  set (m := Z.to_nat (spreader_cells (pg_top pg))).
  assert (SC : 0 <= spreader_cells (pg_top pg)).
  { unfold spreader_cells. destruct (pg_top pg) as [[|s0 h0 m0]|]; try lia. destruct (SP _ _ _ eq_refl). nia. }
  assert (Z0 : map (fun _ => 0%Q) (firstn (Z.to_nat (pg_ncells pg)) (pg_sources pg)) ++ skipn (Z.to_nat (pg_ncells pg)) (pg_sources pg)
               = repeat 0%Q (length (pg_types pg) * n) ++ repeat 0%Q m).
  { rewrite firstn_all2 by lia. rewrite skipn_all2 by lia. rewrite app_nil_r, <- repeat_app.
    replace (length (pg_types pg) * n + m)%nat with (length (pg_sources pg)) by (unfold n, m; nia).
    clear. induction (pg_sources pg) as [|x s IH]; [reflexivity|]. cbn. f_equal. exact IH. }
  rewrite Z0.
  destruct (update_layers_spec pg d SZ (pg_types pg) (pg_flps pg) FL 0 qs n (repeat 0%Q m) Q ltac:(lia) ltac:(lia) ltac:(unfold n; lia))
    as (fs' & s' & E & L & GL & SE & QQ & W).
  rewrite E. cbn [bind]. eexists. split; [reflexivity|].
  assert (SF : same_fields pg (set_sources pg fs' (s' ++ repeat 0%Q m))).
  { unfold same_fields. repeat (split; [reflexivity|]). apply located_same. exact SE. }
  split; [|split; [exact SF|split; [exact QQ|]]].
  - unfold good_pgrid, set_sources. cbn [pg_nlayers pg_ncells pg_ncells_layer pg_types pg_flps pg_top pg_bottom pg_channel pg_sources pg_caps pg_top_tcs pg_bottom_tcs].
    repeat (split; [first [assumption|rewrite app_length, repeat_length, L; unfold n, m; nia]|]).
    exact GL.
  - intro B. split.
    + intros l r c Hl Hr Hc. rewrite (expected_same _ _ _ _ _ _ _ SF). unfold at_cell. cbn [set_sources pg_sources].
      destruct (cell_index d r c G Hr Hc) as [I _].
      replace (Z.to_nat (l * area d + r * d_ncols d + c)) with (Z.to_nat l * n + Z.to_nat (r * d_ncols d + c))%nat by (unfold n; nia).
      assert (Z.to_nat l < length (pg_types pg))%nat as Hk by lia.
      rewrite app_nth1 by (rewrite L; unfold n; nia).
      rewrite (W B (Z.to_nat l) r c Hk Hr Hc). replace (0 + Z.of_nat (Z.to_nat l)) with l by lia. reflexivity.
    + intros i Hi. cbn [set_sources pg_sources]. rewrite app_nth2 by (rewrite L; unfold n; nia). apply nth_repeat0.
Qed.

(** ** Inserting power values *)
Lemma insert_loop_spec : forall els qs vs pv, qreps els qs -> qrep pv vs ->
    Forall (fun l => 2 * Z.of_nat (length l) < two32) qs ->
    exists els' pv', insert_loop els pv = Ok (if (length els <=? length vs)%nat then TDICE_SUCCESS else TDICE_FAILURE, els', pv') /\
      Forall2 same_element els els' /\ qreps els' (give qs vs) /\ qrep pv' (skipn (length els) vs).
Proof.
  intros els qs vs pv F. revert vs pv. induction F as [|e l els qs R F IH]; intros vs pv V S2.
  - exists [], pv. cbn. split; [reflexivity|]. split; [constructor|]. split; [constructor|exact V].
  - cbn [insert_loop]. rewrite (qrep_empty _ _ V). destruct vs as [|v vs].
    + exists (e :: els), pv. cbn [length Nat.leb give skipn]. split; [reflexivity|]. split; [apply same_element_refl|].
      split; [constructor; assumption|exact V].
    + inversion S2 as [|? ? S3 S4]. subst. destruct (queue_get_spec _ _ _ V) as (pv1 & E & V1). rewrite E. cbn [bind fst snd].
      destruct (queue_put_spec _ _ v R S3) as (q' & E2 & R2). rewrite E2. cbn [bind].
      destruct (IH vs pv1 V1 S4) as (els' & pv' & E3 & S5 & Q & V2). rewrite E3. cbn [bind].
      eexists. exists pv'. split; [reflexivity|]. split; [constructor; [split; reflexivity|exact S5]|].
      cbn [give skipn length]. split; [constructor; [exact R2|exact Q]|exact V2].
Qed.

Lemma give_nil : forall b, give b [] = b.
Proof. destruct b; reflexivity. Qed.
Lemma give_app : forall a b vs, give (a ++ b) vs = give a vs ++ give b (skipn (length a) vs).
Proof.
  induction a as [|l a IH]; intros b vs; [reflexivity|]. destruct vs as [|v vs].
  - cbn [app give length skipn]. rewrite give_nil. reflexivity.
  - cbn [app give length skipn]. rewrite IH. reflexivity.
Qed.
Lemma give_length : forall a vs, length (give a vs) = length a.
Proof. induction a as [|l a IH]; intros [|v vs]; cbn [give length]; auto. Qed.

Lemma insert_layers_spec : forall pg d ts fs, Forall2 (good_layer d pg) ts fs ->
    forall qs vs pv, qreps (flat_map layer_elements fs) qs -> qrep pv vs ->
    Forall (fun l => 2 * Z.of_nat (length l) < two32) qs ->
    exists fs' pv', insert_layers ts fs pv =
        Ok (if (length qs <=? length vs)%nat then TDICE_SUCCESS else TDICE_FAILURE, fs', pv') /\
      Forall2 (good_layer d pg) ts fs' /\
      Forall2 (fun a b => Forall2 same_element (layer_elements a) (layer_elements b)) fs fs' /\
      qreps (flat_map layer_elements fs') (give qs vs) /\ qrep pv' (skipn (length qs) vs).
Proof.
  intros pg d ts fs F. induction F as [|t f ts fs GL F IH]; intros qs vs pv Q V S2.
  - cbn [flat_map] in Q. inversion Q. subst qs. exists [], pv. cbn. repeat (split; [first [reflexivity|constructor]|]). exact V.
  - apply qreps_flat in Q. destruct Q as (q1 & q2 & -> & Q1 & Q2). apply Forall_app in S2. destruct S2 as [SA SB].
    pose proof GL as (NN & SRC & GF & _).
    destruct (is_source t) eqn:IS.
    + destruct f as [f|]; [|exfalso; apply (proj1 SRC eq_refl); reflexivity]. cbn [layer_elements] in Q1.
      destruct (insert_loop_spec _ _ vs pv Q1 V SA) as (els' & pv1 & E & SE & QQ & V1).
      pose proof (F2_length _ _ _ Q1) as LQ.
      pose proof (GF f eq_refl) as (els & f0 & GE & C & E0 & M & I & LB).
      assert (GF' : good_floorplan d (mkFlp (f_nelements f) els' (f_bpowers f) (f_matrix f))).
      { exists els, f0. cbn [f_matrix f_elements f_bpowers]. rewrite (same_elements_ics _ _ SE). auto 10. }
      assert (X : insert_layers (t :: ts) (Some f :: fs) pv =
        do r <- insert_power_values_floorplan f pv ;
        let '(e, f1, pv1) := r in
        match e with
        | TDICE_FAILURE => Ok (TDICE_FAILURE, Some f1 :: fs, pv1)
        | TDICE_SUCCESS => do r2 <- insert_layers ts fs pv1 ; let '(e2, fs2, pv2) := r2 in Ok (e2, Some f1 :: fs2, pv2)
        end) by (destruct t; try discriminate IS; reflexivity).
      rewrite X. unfold insert_power_values_floorplan. rewrite E. cbn [bind]. rewrite app_length.
      assert (LE : length (f_elements f) = length q1) by exact LQ.
      rewrite LE in *. rewrite give_app.
      destruct (length q1 <=? length vs)%nat eqn:B1.
      * apply Nat.leb_le in B1.
        destruct (IH q2 (skipn (length q1) vs) pv1 Q2 V1 SB) as (fs' & pv' & E2 & GL2 & SE2 & QQ2 & V2).
        rewrite E2. cbn [bind]. eexists. exists pv'. split.
        { refine (f_equal2 (fun a b => Ok (a, b, pv')) _ eq_refl). rewrite skipn_length.
          destruct (Nat.leb_spec (length q2) (length vs - length q1)), (Nat.leb_spec (length q1 + length q2) (length vs)); (reflexivity || lia). }
        split; [constructor; [|exact GL2]; apply (good_layer_change d pg t f _ GL GF')|].
        split; [constructor; [exact SE|exact SE2]|]. cbn [flat_map layer_elements f_elements].
        split; [apply Forall2_app; assumption|]. rewrite skipn_skipn' in V2. rewrite Nat.add_comm. exact V2.
      * apply Nat.leb_gt in B1. unfold power in *. eexists. exists pv1. split.
        { refine (f_equal2 (fun a b => Ok (a, b, pv1)) _ eq_refl).
          destruct (Nat.leb_spec (length q1 + length q2) (length vs)); (reflexivity || lia). }
        split; [constructor; [|exact F]; apply (good_layer_change d pg t f _ GL GF')|].
        split; [constructor; [exact SE|]; clear; induction fs; constructor; auto using same_element_refl|].
        match goal with |- context [give q2 ?z] => replace z with (@nil Q) by (symmetry; apply skipn_all2; lia) end. rewrite give_nil. cbn [flat_map layer_elements f_elements].
        split; [apply Forall2_app; assumption|].
        match goal with |- qrep _ ?z => replace z with (@nil Q) by (symmetry; apply skipn_all2; lia) end.
        match type of V1 with qrep _ ?z => replace z with (@nil Q) in V1 by (symmetry; apply skipn_all2; lia) end. exact V1.
    + destruct f as [f|]; [exfalso; pose proof (proj2 SRC ltac:(discriminate)); congruence|]. cbn [layer_elements] in Q1.
      inversion Q1. subst q1. cbn [app].
      destruct (IH q2 vs pv Q2 V SB) as (fs' & pv' & E2 & GL2 & SE2 & QQ2 & V2).
      assert (X : insert_layers (t :: ts) (None :: fs) pv =
         do r2 <- insert_layers ts fs pv ; let '(e2, fs2, pv2) := r2 in Ok (e2, None :: fs2, pv2))
        by (destruct t; try discriminate IS; try congruence; reflexivity).
      rewrite X, E2. cbn [bind]. exists (None :: fs'), pv'. split; [reflexivity|].
      split; [constructor; assumption|]. split; [constructor; [constructor|assumption]|]. split; [exact QQ2|exact V2].
Qed.

Lemma insert_power_values_spec : forall pg d qs vs pv, good_pgrid d pg -> queued pg qs -> qrep pv vs ->
    Forall (fun l => 2 * Z.of_nat (length l) < two32) qs ->
    exists pg' pv', insert_power_values pg pv = Ok (if (length qs <=? length vs)%nat then TDICE_SUCCESS else TDICE_FAILURE, pg', pv') /\
      good_pgrid d pg' /\ same_fields pg pg' /\ queued pg' (give qs vs) /\ qrep pv' (skipn (length qs) vs) /\
      pg_sources pg' = pg_sources pg.
Proof.
  intros pg d qs vs pv GP Q V S2.
  pose proof GP as (G & NL & LH & NC & NC2 & SP & NCL & LS & LC & LT & LB & LTY & FL).
  destruct (insert_layers_spec pg d _ _ FL qs vs pv Q V S2) as (fs' & pv' & E & GL & SE & QQ & V2).
  unfold insert_power_values. rewrite E. cbn [bind]. eexists. exists pv'. split; [reflexivity|].
  split; [|split; [|split; [exact QQ|split; [exact V2|reflexivity]]]].
  - unfold good_pgrid, set_sources. cbn [pg_nlayers pg_ncells pg_ncells_layer pg_types pg_flps pg_top pg_bottom pg_channel pg_sources pg_caps pg_top_tcs pg_bottom_tcs].
    repeat (split; [assumption|]). exact GL.
  - unfold same_fields. repeat (split; [reflexivity|]). apply located_same. exact SE.
Qed.
