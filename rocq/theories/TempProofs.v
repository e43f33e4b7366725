From Coq Require Import ZArith List Bool QArith Qabs Qround Qminmax Lia Lqa.
From Verif Require Import Base QSum Dims DimsSpec DimsProofs Queue QueueProofs Floorplan FloorplanSpec FloorplanProofs FlpMatrixProofs.
Import ListNotations.
Local Open Scope Z_scope.

(** ** accepted dimension sections give good grids *)
Lemma parsed_good_grid : forall L W cl cw s hs sc d,
    parse_dims L W cl cw s hs sc = Ok (Some d) -> 0 <= sc -> hs <> [] ->
    1 <= d_nrows d -> 1 <= d_ncols d -> positive_sizes L W cl cw s -> good_grid d.
Proof.
  intros L W cl cw s hs sc d H Hsc Hh Hr Hc P.
  destruct (parse_dims_inv _ _ _ _ _ _ _ _ H Hsc) as (A & Ew & _ & _ & Eh & _ & _ & Hcol).
  pose proof (parse_regular _ _ _ _ _ _ _ _ H Hsc Hc) as [_ R].
  destruct A as [A1 A2 A3 A4 A5]. rewrite Eh in A3.
  assert (1 <= d_nlayers d) by (rewrite A3; destruct hs; [congruence|cbn [length]; lia]).
  assert (d_nrows d * d_ncols d <= d_nlayers d * d_nrows d * d_ncols d).
  { replace (d_nlayers d * d_nrows d * d_ncols d) with (d_nlayers d * (d_nrows d * d_ncols d)) by ring.
    assert (0 <= d_nrows d * d_ncols d) by (apply Z.mul_nonneg_nonneg; lia).
    pose proof (Z.mul_le_mono_nonneg_r 1 (d_nlayers d) (d_nrows d * d_ncols d) ltac:(lia) ltac:(lia)). lia. }
  assert (0 < d_first d /\ 0 < d_last d /\ 0 < d_wall d /\ 0 < d_chan d)%Q as Hp.
  { destruct (parse_columns_inv _ _ _ _ _ _ _ _ Hcol) as [_ [(E & E1 & E2 & E3 & E4 & _)|(E & _)]].
    - destruct P as [(_ & _ & P & _) _]. rewrite E1, E2, E3, E4. auto.
    - rewrite E in P. destruct P as [_ P]. tauto. }
  destruct P as [(_ & _ & _ & P) _].
  unfold good_grid. rewrite Ew. unfold two32 in *. repeat split; try lia; try tauto. 
Qed.

Lemma coefficients_spec : forall d els, Forall (good_el d) els ->
    coefficients els = Z.of_nat (length (concat (map (fill_element d) els))).
Proof.
  intros d els H. unfold coefficients. induction H as [|e t E H IH]; [reflexivity|].
  cbn [flat_map map concat]. rewrite map_app, fold_right_app, app_length, Nat2Z.inj_add, <- IH.
  clear IH. unfold fill_element. pose proof (ge_ics d e E) as Hi. revert Hi. generalize (fe_area e).
  induction (fe_ics e) as [|a ics IH2]; intros area Hi; [reflexivity|].
  inversion Hi; subst. cbn [map fold_right flat_map]. rewrite app_length, Nat2Z.inj_add.
  rewrite (fill_icel_length d area a) by assumption.
  rewrite (IH2 area) by assumption. lia.
Qed.

Lemma fill_floorplan_ok : forall d els, good_grid d -> Forall (good_el d) els -> coefficients els < two32 ->
    exists f, fill_floorplan els d = Ok f /\
      f_matrix f = mkFlpMatrix (d_nrows d * d_ncols d) (Z.of_nat (length els)) (coefficients els)
        (0 :: column_pointers 0 (map (fill_element d) els))
        (map fst (concat (map (fill_element d) els))) (map snd (concat (map (fill_element d) els))) /\
      f_elements f = els /\ f_nelements f = Z.of_nat (length els) /\
      length (f_bpowers f) = length els.
Proof.
  intros d els G H Hc. unfold fill_floorplan, flpmatrix_fill, flpmatrix_build.
  cbn [fm_nnz fm_ncols fm_nrows].
  rewrite (count_nnz_spec d els H). rewrite (coefficients_spec d els H) in *.
  rewrite (u32_id (Z.of_nat _)) by lia.
  rewrite !Z.leb_refl. cbn [andb bind]. eexists. split; [reflexivity|].
  cbn [f_matrix f_elements f_nelements f_bpowers]. rewrite repeat_length, Nat2Z.id.
  unfold get_layer_area. pose proof G as (G1 & G2 & G3 & _). rewrite (u32_id (d_nrows d * d_ncols d)) by lia.
  auto.
Qed.

Lemma multiply_ok : forall d els f x b, good_grid d -> Forall (good_el d) els -> coefficients els < two32 ->
    fill_floorplan els d = Ok f ->
    Z.of_nat (length x) = d_nrows d * d_ncols d -> length b = length els ->
    exists x', flpmatrix_multiply (f_matrix f) x b = Ok x' /\ length x' = length x /\
      (forall r c, 0 <= r < d_nrows d -> 0 <= c < d_ncols d ->
         (nth (Z.to_nat (r * d_ncols d + c)) x' 0 ==
         nth (Z.to_nat (r * d_ncols d + c)) x 0 +
         qsum (map (fun pe => fst pe * covered_by d (snd pe) r c / area_of (snd pe)) (combine b els)))%Q) /\
      (qsum x' == qsum x + qsum b)%Q.
Proof.
  intros d els f x b G H Hc Hf Hx Hb.
  destruct (fill_floorplan_ok d els G H Hc) as (f' & E & Em & _).
  assert (f' = f) as -> by congruence. rewrite Em.
  assert (forall b els, Forall (good_el d) els -> length b = length els ->
           (qsum (map (fun bc => fst bc * qsum (map snd (snd bc))) (combine b (map (fill_element d) els))) == qsum b)%Q) as Hs.
  { clear - G. intros b els H. revert b. induction H as [|e t E H IH]; intros b Hb.
    - destruct b; [reflexivity|discriminate].
    - destruct b as [|p b]; [discriminate|]. cbn [map combine]. rewrite !qsum_cons.
      cbn [fst snd]. rewrite IH by (cbn in Hb; lia). rewrite (element_sum d e G E). ring. }
  assert (forall r c b els, 0 <= r < d_nrows d -> 0 <= c < d_ncols d -> Forall (good_el d) els -> length b = length els ->
           (qsum (map (column_effect (offset_in_layer d r c)) (combine b (map (fill_element d) els))) ==
           qsum (map (fun pe => fst pe * covered_by d (snd pe) r c / area_of (snd pe)) (combine b els)))%Q) as Hw.
  { clear - G. intros r c b els Hr Hc H. revert b. induction H as [|e t E H IH]; intros b Hb.
    - destruct b; reflexivity.
    - destruct b as [|p b]; [discriminate|]. cbn [map combine]. rewrite !qsum_cons.
      rewrite IH by (cbn in Hb; lia). unfold column_effect. cbn [fst snd].
      rewrite (element_weight d e r c G E Hr Hc). unfold Qdiv. ring. }
  pose proof G as (G1 & G2 & G3 & _).
  unfold flpmatrix_multiply. cbn [fm_nrows fm_ncols fm_nnz].
  assert (1 <= d_nrows d * d_ncols d) by (pose proof (Z.mul_le_mono_nonneg 1 (d_nrows d) 1 (d_ncols d)); lia).
  destruct (Z.eqb_spec (d_nrows d * d_ncols d) 0) as [?|_]; [lia|]. cbn [orb].
  destruct (Z.eqb_spec (Z.of_nat (length els)) 0) as [E0|Hne].
  { assert (els = []) as -> by (destruct els; [reflexivity|cbn in E0; lia]).
    destruct b; [|discriminate]. cbn [orb]. exists x. cbn [combine map].
    split; [reflexivity|]. split; [reflexivity|]. rewrite !qsum_nil. split; [intros; ring|ring]. }
  destruct (Z.eqb_spec (coefficients els) 0) as [E0|_].
  { (* no coefficient although there are elements: impossible, every element has one *)
    exfalso. rewrite (coefficients_spec d els H) in E0.
    destruct H as [|e t E1 H]; [cbn in Hne; lia|].
    cbn [map concat] in E0. rewrite app_length in E0.
    pose proof (element_sum d e G E1) as S1.
    destruct (fill_element d e); [|cbn in E0; lia].
    cbn [map] in S1. rewrite qsum_nil in S1. lra. }
  cbn [orb].
  set (m := mkFlpMatrix _ _ _ _ _ _).
  destruct (multiply_loop_spec m (map (fill_element d) els) b) with (post := map (fill_element d) els) (pre := @nil (list (Z * Q))) (x := x)
    as (x' & E1 & L & W & Sm); try reflexivity.
  { rewrite <- (coefficients_spec d els H). exact Hc. }
  { rewrite map_length. exact Hb. }
  { apply Forall_forall. intros col Hcol. apply in_map_iff in Hcol. destruct Hcol as (e & <- & He).
    rewrite Forall_forall in H. apply Forall_forall. intros y Hy. rewrite Hx.
    apply (element_rows d e y G (H e He) Hy). }
  rewrite map_length in E1. cbn [length] in E1. change (Z.of_nat 0) with 0 in E1.
  exists x'. split; [exact E1|]. split; [exact L|]. cbn [length skipn] in W, Sm. split.
  - intros r c Hr Hc2. rewrite W.
    destruct (layer_offset d r c G Hr Hc2) as [O1 O2]. rewrite O1 in O2.
    rewrite Z2Nat.id by lia. rewrite <- O1. rewrite (Hw r c b els Hr Hc2 H Hb). rewrite O1. reflexivity.
  - rewrite Sm. rewrite (Hs b els H Hb). reflexivity.
Qed.

(** ** C34, C35: temperatures *)
Lemma icel_cells_in : forall d a k, good_grid d -> in_cells d a ->
    (In k (icel_cells d a) <-> exists r c, 0 <= r < d_nrows d /\ 0 <= c < d_ncols d /\ overlaps d a r c /\ k = r * d_ncols d + c).
Proof.
  intros d a k G I. unfold icel_cells. rewrite in_flat_map. pose proof (icc_c d a I). pose proof (icc_r d a I). split.
  - intros (r & Hr & H1). apply in_map_iff in H1. destruct H1 as (c & <- & Hc). apply in_zrange in Hr, Hc.
    exists r, c. split; [lia|]. split; [lia|]. split; [apply overlaps_iff; auto; lia|].
    apply layer_offset; auto; lia.
  - intros (r & c & Hr & Hc & O & ->). apply (overlaps_iff d a r c G I Hr Hc) in O.
    exists r. split; [apply in_zrange; lia|]. apply in_map_iff. exists c. split; [apply layer_offset; auto|].
    apply in_zrange. lia.
Qed.

Lemma read_all_ok : forall t cells, Forall (fun k => 0 <= k < Z.of_nat (length t)) cells ->
    read_all t cells = Ok (map (fun k => nth (Z.to_nat k) t 0%Q) cells).
Proof.
  intros t cells H. induction H as [|k ks Hk H IH]; [reflexivity|].
  cbn [read_all map]. rewrite (arr_get_ok t k 0%Q) by exact Hk. cbn [bind]. rewrite IH. reflexivity.
Qed.

Lemma icel_cells_bound : forall d a (t : list Q), good_grid d -> in_cells d a -> d_nrows d * d_ncols d <= Z.of_nat (length t) ->
    Forall (fun k => 0 <= k < Z.of_nat (length t)) (icel_cells d a).
Proof.
  intros d a t G I Ht. apply Forall_forall. intros k Hk. apply (icel_cells_in d a k G I) in Hk.
  destruct Hk as (r & c & Hr & Hc & _ & ->).
  destruct (layer_offset d r c G Hr Hc) as [E B]. rewrite <- E. lia.
Qed.

Lemma qmax_ge : forall a b, (a <= qmax a b)%Q /\ (b <= qmax a b)%Q /\ (qmax a b = a \/ qmax a b = b).
Proof.
  intros a b. unfold qmax. destruct (Qlt_bool b a) eqn:E.
  - apply Qlt_bool_iff in E. repeat split; auto; lra.
  - apply Qlt_bool_false in E. repeat split; auto; lra.
Qed.
Lemma qmin_le : forall a b, (qmin a b <= a)%Q /\ (qmin a b <= b)%Q /\ (qmin a b = a \/ qmin a b = b).
Proof.
  intros a b. unfold qmin. destruct (Qlt_bool a b) eqn:E.
  - apply Qlt_bool_iff in E. repeat split; auto; lra.
  - apply Qlt_bool_false in E. repeat split; auto; lra.
Qed.

Lemma fold_max : forall f : Q -> Q -> Q,
    (forall a b, (a <= f a b)%Q /\ (b <= f a b)%Q /\ (f a b = a \/ f a b = b)) ->
    forall l v, (v <= fold_left f l v)%Q /\ (forall x, In x l -> (x <= fold_left f l v)%Q) /\
                (fold_left f l v = v \/ In (fold_left f l v) l).
Proof.
  intros f Hf. induction l as [|x l IH]; intros v.
  - cbn. repeat split; [lra|tauto|auto].
  - cbn [fold_left]. destruct (IH (f v x)) as (A & B & C). destruct (Hf v x) as (D & E & F).
    split; [lra|]. split.
    + intros y [->|Hy]; [lra|auto].
    + destruct C as [->|C]; [|right; right; exact C]. destruct F as [->| ->]; [left; reflexivity|right; left; reflexivity].
Qed.
Lemma fold_min : forall f : Q -> Q -> Q,
    (forall a b, (f a b <= a)%Q /\ (f a b <= b)%Q /\ (f a b = a \/ f a b = b)) ->
    forall l v, (fold_left f l v <= v)%Q /\ (forall x, In x l -> (fold_left f l v <= x)%Q) /\
                (fold_left f l v = v \/ In (fold_left f l v) l).
Proof.
  intros f Hf. induction l as [|x l IH]; intros v.
  - cbn. repeat split; [lra|tauto|auto].
  - cbn [fold_left]. destruct (IH (f v x)) as (A & B & C). destruct (Hf v x) as (D & E & F).
    split; [lra|]. split.
    + intros y [->|Hy]; [lra|auto].
    + destruct C as [->|C]; [|right; right; exact C]. destruct F as [->| ->]; [left; reflexivity|right; left; reflexivity].
Qed.

(** extreme over the cells of one rectangle *)
Definition rect_cell (d : dims) (a : icel) (r c : Z) : Prop :=
  0 <= r < d_nrows d /\ 0 <= c < d_ncols d /\ overlaps d a r c.

Lemma sw_cell : forall d a, good_grid d -> in_cells d a -> rect_cell d a (ic_sw_row a) (ic_sw_col a).
Proof.
  intros d a G I. pose proof (icc_c d a I). pose proof (icc_r d a I).
  split; [lia|]. split; [lia|]. apply overlaps_iff; auto; lia.
Qed.

Lemma icel_max_ok : forall d a (t : list Q), good_grid d -> in_cells d a -> d_nrows d * d_ncols d <= Z.of_nat (length t) ->
    exists m, icel_max d a t = Ok m /\
      (forall r c, rect_cell d a r c -> (temp d t r c <= m)%Q) /\
      (exists r c, rect_cell d a r c /\ temp d t r c = m).
Proof.
  intros d a t G I Ht. pose proof (sw_cell d a G I) as (S1 & S2 & S3).
  destruct (layer_offset d _ _ G S1 S2) as [O1 O2].
  unfold icel_max. rewrite (arr_get_ok t _ 0%Q) by lia. cbn [bind].
  rewrite (read_all_ok t _ (icel_cells_bound d a t G I Ht)). cbn [bind].
  eexists. split; [reflexivity|].
  destruct (fold_max qmax qmax_ge (map (fun k => nth (Z.to_nat k) t 0%Q) (icel_cells d a))
             (nth (Z.to_nat (offset_in_layer d (ic_sw_row a) (ic_sw_col a))) t 0%Q)) as (A & B & C).
  split.
  - intros r c (Hr & Hc & O). apply B. apply in_map_iff. exists (r * d_ncols d + c). split; [reflexivity|].
    apply (icel_cells_in d a _ G I). exists r, c. auto.
  - destruct C as [C|C].
    + exists (ic_sw_row a), (ic_sw_col a). split; [exact (conj S1 (conj S2 S3))|]. rewrite C, O1. reflexivity.
    + apply in_map_iff in C. destruct C as (k & C & Hk). apply (icel_cells_in d a k G I) in Hk.
      destruct Hk as (r & c & Hr & Hc & O & ->). exists r, c. split; [exact (conj Hr (conj Hc O))|]. exact C.
Qed.
Lemma icel_min_ok : forall d a (t : list Q), good_grid d -> in_cells d a -> d_nrows d * d_ncols d <= Z.of_nat (length t) ->
    exists m, icel_min d a t = Ok m /\
      (forall r c, rect_cell d a r c -> (m <= temp d t r c)%Q) /\
      (exists r c, rect_cell d a r c /\ temp d t r c = m).
Proof.
  intros d a t G I Ht. pose proof (sw_cell d a G I) as (S1 & S2 & S3).
  destruct (layer_offset d _ _ G S1 S2) as [O1 O2].
  unfold icel_min. rewrite (arr_get_ok t _ 0%Q) by lia. cbn [bind].
  rewrite (read_all_ok t _ (icel_cells_bound d a t G I Ht)). cbn [bind].
  eexists. split; [reflexivity|].
  destruct (fold_min qmin qmin_le (map (fun k => nth (Z.to_nat k) t 0%Q) (icel_cells d a))
             (nth (Z.to_nat (offset_in_layer d (ic_sw_row a) (ic_sw_col a))) t 0%Q)) as (A & B & C).
  split.
  - intros r c (Hr & Hc & O). apply B. apply in_map_iff. exists (r * d_ncols d + c). split; [reflexivity|].
    apply (icel_cells_in d a _ G I). exists r, c. auto.
  - destruct C as [C|C].
    + exists (ic_sw_row a), (ic_sw_col a). split; [exact (conj S1 (conj S2 S3))|]. rewrite C, O1. reflexivity.
    + apply in_map_iff in C. destruct C as (k & C & Hk). apply (icel_cells_in d a k G I) in Hk.
      destruct Hk as (r & c & Hr & Hc & O & ->). exists r, c. split; [exact (conj Hr (conj Hc O))|]. exact C.
Qed.

Lemma map_out_ok : forall {A B} (f : A -> outcome B) (P : A -> B -> Prop) l,
    Forall (fun a => exists b, f a = Ok b /\ P a b) l ->
    exists bs, map_out f l = Ok bs /\ Forall2 P l bs.
Proof.
  intros A B f P l H. induction H as [|a l (b & E & Pb) H (bs & IH & F)].
  - exists []. split; [reflexivity|constructor].
  - exists (b :: bs). cbn [map_out]. rewrite E. cbn [bind]. rewrite IH. split; [reflexivity|constructor; auto].
Qed.

Lemma max_step : forall a b : Q, (a <= (if Qlt_bool a b then b else a))%Q /\ (b <= (if Qlt_bool a b then b else a))%Q /\
   ((if Qlt_bool a b then b else a) = a \/ (if Qlt_bool a b then b else a) = b).
Proof.
  intros a b. destruct (Qlt_bool a b) eqn:E.
  - apply Qlt_bool_iff in E. repeat split; auto; lra.
  - apply Qlt_bool_false in E. repeat split; auto; lra.
Qed.
Lemma min_step : forall a b : Q, ((if Qlt_bool b a then b else a) <= a)%Q /\ ((if Qlt_bool b a then b else a) <= b)%Q /\
   ((if Qlt_bool b a then b else a) = a \/ (if Qlt_bool b a then b else a) = b).
Proof.
  intros a b. destruct (Qlt_bool b a) eqn:E.
  - apply Qlt_bool_iff in E. repeat split; auto; lra.
  - apply Qlt_bool_false in E. repeat split; auto; lra.
Qed.

Lemma max_combine : forall d t (ics : list icel) (a : icel) m ms (f : Q -> Q -> Q),
    (forall a b, (a <= f a b)%Q /\ (b <= f a b)%Q /\ (f a b = a \/ f a b = b)) ->
    ((forall r c, rect_cell d a r c -> (temp d t r c <= m)%Q) /\ (exists r c, rect_cell d a r c /\ temp d t r c = m)) ->
    Forall2 (fun a m => (forall r c, rect_cell d a r c -> (temp d t r c <= m)%Q) /\
                        (exists r c, rect_cell d a r c /\ temp d t r c = m)) ics ms ->
    (forall b r c, In b (a :: ics) -> rect_cell d b r c -> (temp d t r c <= fold_left f ms m)%Q) /\
    (exists b r c, In b (a :: ics) /\ rect_cell d b r c /\ temp d t r c = fold_left f ms m).
Proof.
  intros d t ics a m ms f Hf [H1 (r0 & c0 & H2 & H3)] H.
  destruct (fold_max f Hf ms m) as (A & B & C). split.
  - intros b r c [<-|Hb] Hcell; [specialize (H1 r c Hcell); lra|].
    assert (exists mb, In mb ms /\ (temp d t r c <= mb)%Q) as (mb & M1 & M2).
    { clear - H Hb Hcell. induction H as [|x y l l' [P _] H IH]; [destruct Hb|].
      destruct Hb as [->|Hb]; [exists y; split; [left; reflexivity|auto]|].
      destruct (IH Hb) as (mb & Q1 & Q2). exists mb. split; [right; exact Q1|exact Q2]. }
    specialize (B mb M1). lra.
  - destruct C as [C|C]; [exists a, r0, c0; split; [left; reflexivity|]; split; [exact H2|congruence]|].
    assert (exists b r c, In b ics /\ rect_cell d b r c /\ temp d t r c = fold_left f ms m) as (b & r & c & Q1 & Q2 & Q3).
    { clear - H C. revert C. generalize (fold_left f ms m). intros v C.
      induction H as [|x y l l' [_ (r & c & P1 & P2)] H IH]; [destruct C|].
      destruct C as [->|C]; [exists x, r, c; split; [left; reflexivity|auto]|].
      destruct (IH C) as (b & r' & c' & Q1 & Q2). exists b, r', c'. split; [right; exact Q1|exact Q2]. }
    exists b, r, c. split; [right; exact Q1|auto].
Qed.
Lemma min_combine : forall d t (ics : list icel) (a : icel) m ms (f : Q -> Q -> Q),
    (forall a b, (f a b <= a)%Q /\ (f a b <= b)%Q /\ (f a b = a \/ f a b = b)) ->
    ((forall r c, rect_cell d a r c -> (m <= temp d t r c)%Q) /\ (exists r c, rect_cell d a r c /\ temp d t r c = m)) ->
    Forall2 (fun a m => (forall r c, rect_cell d a r c -> (m <= temp d t r c)%Q) /\
                        (exists r c, rect_cell d a r c /\ temp d t r c = m)) ics ms ->
    (forall b r c, In b (a :: ics) -> rect_cell d b r c -> (fold_left f ms m <= temp d t r c)%Q) /\
    (exists b r c, In b (a :: ics) /\ rect_cell d b r c /\ temp d t r c = fold_left f ms m).
Proof.
  intros d t ics a m ms f Hf [H1 (r0 & c0 & H2 & H3)] H.
  destruct (fold_min f Hf ms m) as (A & B & C). split.
  - intros b r c [<-|Hb] Hcell; [specialize (H1 r c Hcell); lra|].
    assert (exists mb, In mb ms /\ (mb <= temp d t r c)%Q) as (mb & M1 & M2).
    { clear - H Hb Hcell. induction H as [|x y l l' [P _] H IH]; [destruct Hb|].
      destruct Hb as [->|Hb]; [exists y; split; [left; reflexivity|auto]|].
      destruct (IH Hb) as (mb & Q1 & Q2). exists mb. split; [right; exact Q1|exact Q2]. }
    specialize (B mb M1). lra.
  - destruct C as [C|C]; [exists a, r0, c0; split; [left; reflexivity|]; split; [exact H2|congruence]|].
    assert (exists b r c, In b ics /\ rect_cell d b r c /\ temp d t r c = fold_left f ms m) as (b & r & c & Q1 & Q2 & Q3).
    { clear - H C. revert C. generalize (fold_left f ms m). intros v C.
      induction H as [|x y l l' [_ (r & c & P1 & P2)] H IH]; [destruct C|].
      destruct C as [->|C]; [exists x, r, c; split; [left; reflexivity|auto]|].
      destruct (IH C) as (b & r' & c' & Q1 & Q2). exists b, r', c'. split; [right; exact Q1|exact Q2]. }
    exists b, r, c. split; [right; exact Q1|auto].
Qed.

Lemma flpel_extremes : forall d e t, good_grid d -> good_el d e -> fe_ics e <> [] ->
    d_nrows d * d_ncols d <= Z.of_nat (length t) ->
    exists hi lo, flpel_max d e t = Ok hi /\ flpel_min d e t = Ok lo /\
      (exists g, flpel_gradient d e t = Ok g /\ (g == hi - lo)%Q) /\
      (forall r c, cell_of d e r c -> (lo <= temp d t r c <= hi)%Q) /\
      (exists r c, cell_of d e r c /\ temp d t r c = hi) /\
      (exists r c, cell_of d e r c /\ temp d t r c = lo).
Proof.
  intros d e t G E Hn Ht. pose proof (ge_ics d e E) as Hi.
  unfold flpel_max, flpel_min, flpel_gradient.
  destruct (fe_ics e) as [|a rest] eqn:Ei; [congruence|]. inversion Hi as [|? ? I Hr]; subst.
  destruct (icel_max_ok d a t G I Ht) as (m & Em & Pm). destruct (icel_min_ok d a t G I Ht) as (n & En & Pn).
  destruct (map_out_ok (fun a => icel_max d a t) (fun a m => (forall r c, rect_cell d a r c -> (temp d t r c <= m)%Q) /\
                        (exists r c, rect_cell d a r c /\ temp d t r c = m)) rest) as (ms & Ems & Fms).
  { eapply Forall_impl; [|exact Hr]. intros b Ib. apply icel_max_ok; auto. }
  destruct (map_out_ok (fun a => icel_min d a t) (fun a m => (forall r c, rect_cell d a r c -> (m <= temp d t r c)%Q) /\
                        (exists r c, rect_cell d a r c /\ temp d t r c = m)) rest) as (ns & Ens & Fns).
  { eapply Forall_impl; [|exact Hr]. intros b Ib. apply icel_min_ok; auto. }
  rewrite Em, En. cbn [bind]. rewrite Ems, Ens. cbn [bind].
  destruct (max_combine d t rest a m ms _ max_step Pm Fms) as [A1 (b1 & r1 & c1 & A2 & A3 & A4)].
  destruct (min_combine d t rest a n ns _ min_step Pn Fns) as [B1 (b2 & r2 & c2 & B2 & B3 & B4)].
  destruct (max_combine d t rest a m ms _ qmax_ge Pm Fms) as [C1 (b3 & r3 & c3 & C2 & C3 & C4)].
  destruct (min_combine d t rest a n ns _ qmin_le Pn Fns) as [D1 (b4 & r4 & c4 & D2 & D3 & D4)].
  set (hi := fold_left (fun max tmp => if Qlt_bool max tmp then tmp else max) ms m) in *.
  set (lo := fold_left (fun min tmp => if Qlt_bool tmp min then tmp else min) ns n) in *.
  exists hi, lo. split; [reflexivity|]. split; [reflexivity|]. split; [|split; [|split]].
  - eexists. split; [reflexivity|].
    pose proof (A1 _ _ _ C2 C3). pose proof (C1 _ _ _ A2 A3). pose proof (B1 _ _ _ D2 D3). pose proof (D1 _ _ _ B2 B3).
    rewrite C4, A4, B4, D4 in *. lra.
  - intros r c (Hr1 & Hc1 & b & Hb & O). rewrite Ei in Hb. split; [apply (B1 b)|apply (A1 b)]; auto; split; auto.
  - exists r1, c1. split; [|exact A4]. destruct A3 as (X & Y & Z0). split; [exact X|]. split; [exact Y|].
    exists b1. rewrite Ei. auto.
  - exists r2, c2. split; [|exact B4]. destruct B3 as (X & Y & Z0). split; [exact X|]. split; [exact Y|].
    exists b2. rewrite Ei. auto.
Qed.

Lemma fold_plus : forall l x, (fold_left Qplus l x == x + qsum l)%Q.
Proof.
  induction l as [|y l IH]; intros x; cbn [fold_left]; [rewrite qsum_nil; ring|].
  rewrite IH, qsum_cons. ring.
Qed.

(** cells of a rectangle as coordinates *)
Definition rect_cells (a : icel) : list (Z * Z) :=
  list_prod (zrange (ic_sw_row a) (ic_ne_row a)) (zrange (ic_sw_col a) (ic_ne_col a)).

Lemma rect_cells_in : forall d a r c, good_grid d -> in_cells d a -> (In (r, c) (rect_cells a) <-> rect_cell d a r c).
Proof.
  intros d a r c G I. unfold rect_cells. rewrite in_prod_iff, !in_zrange.
  pose proof (icc_c d a I). pose proof (icc_r d a I). split.
  - intros [H1 H2]. split; [lia|]. split; [lia|]. apply overlaps_iff; auto; lia.
  - intros (H1 & H2 & O). apply (overlaps_iff d a r c G I H1 H2) in O. lia.
Qed.
Lemma list_prod_NoDup : forall {A B} (l : list A) (m : list B), NoDup l -> NoDup m -> NoDup (list_prod l m).
Proof.
  intros A B l m Hl Hm. induction Hl as [|x l Hx Hl IH]; [constructor|]. cbn [list_prod].
  assert (forall l1 l2 : list (A * B), NoDup l1 -> NoDup l2 -> (forall z, In z l1 -> ~ In z l2) -> NoDup (l1 ++ l2)) as K.
  { clear. induction l1 as [|z l1 IH]; intros l2 H1 H2 H; [exact H2|]. inversion H1; subst. cbn. constructor.
    - rewrite in_app_iff. intros [K|K]; [contradiction|]. apply (H z); [left; reflexivity|exact K].
    - apply IH; auto. intros y Hy. apply H. right. exact Hy. }
  apply K; [|exact IH|].
  - apply FinFun.Injective_map_NoDup; [intros y z E; congruence|exact Hm].
  - intros z Hz Hz2. apply in_map_iff in Hz. destruct Hz as (y & <- & _). apply in_prod_iff in Hz2. tauto.
Qed.

Lemma icel_cells_prod : forall d a, icel_cells d a = map (fun rc => offset_in_layer d (fst rc) (snd rc)) (rect_cells a).
Proof.
  intros d a. unfold icel_cells, rect_cells. induction (zrange (ic_sw_row a) (ic_ne_row a)) as [|r rs IH]; [reflexivity|].
  cbn [flat_map list_prod]. rewrite map_app, IH, map_map. reflexivity.
Qed.

Lemma icel_avg_ok : forall d a (t : list Q), good_grid d -> in_cells d a -> d_nrows d * d_ncols d <= Z.of_nat (length t) ->
    exists m, icel_avg d a t = Ok m /\
      (m == qsum (map (fun rc => temp d t (fst rc) (snd rc)) (rect_cells a)) / qz (Z.of_nat (length (rect_cells a))))%Q.
Proof.
  intros d a t G I Ht. unfold icel_avg. rewrite (read_all_ok t _ (icel_cells_bound d a t G I Ht)). cbn [bind].
  eexists. split; [reflexivity|]. rewrite fold_plus, map_length. rewrite icel_cells_prod, map_map, map_length.
  rewrite (qsum_ext _ (fun rc => temp d t (fst rc) (snd rc))).
  - unfold Qdiv. ring.
  - intros [r c] H. apply (rect_cells_in d a r c G I) in H. destruct H as (H1 & H2 & _). cbn [fst snd].
    destruct (layer_offset d r c G H1 H2) as [-> _]. reflexivity.
Qed.

(** ** C45 *)
Lemma axis_meet : forall p q, (0 < p + q)%Q ->
    (Qlt_bool EPSILON (Qabs (- p * q)) = true /\ Qlt_bool (- p * q) 0 = true <->
     0 < p /\ 0 < q /\ EPSILON < p * q)%Q.
Proof.
  intros p q H. rewrite !Qlt_bool_iff. split.
  - intros [H1 H2].
    assert (0 < p * q)%Q as H3 by lra.
    assert (0 < p)%Q as Hp.
    { destruct (Qlt_le_dec 0 p) as [L|L]; [exact L|]. exfalso.
      assert (0 < q)%Q by lra.
      assert (0 <= (- p) * q)%Q by (apply Qmult_le_0_compat; lra). lra. }
    assert (0 < q)%Q as Hq.
    { destruct (Qlt_le_dec 0 q) as [L|L]; [exact L|]. exfalso.
      assert (0 <= p * (- q))%Q by (apply Qmult_le_0_compat; lra). lra. }
    split; [exact Hp|]. split; [exact Hq|].
    rewrite Qabs_neg in H1 by lra. lra.
  - intros (Hp & Hq & He). assert (0 < p * q)%Q by (apply Qmult_lt_0_compat; auto).
    rewrite Qabs_neg by lra. split; lra.
Qed.

Global Instance Qlt_bool_Proper : Proper (Qeq ==> Qeq ==> eq) Qlt_bool.
Proof. intros a a' Ha b b' Hb. unfold Qlt_bool. rewrite Ha, Hb. reflexivity. Qed.

Lemma check_intersection_iff : forall a b,
    (0 < ic_len a /\ 0 < ic_wid a /\ 0 < ic_len b /\ 0 < ic_wid b)%Q ->
    (check_intersection a b = true <->
     rectangles_meet a b /\
     (EPSILON < (ic_x b + ic_len b - ic_x a) * (ic_x a + ic_len a - ic_x b))%Q /\
     (EPSILON < (ic_y b + ic_wid b - ic_y a) * (ic_y a + ic_wid a - ic_y b))%Q).
Proof.
  intros a b (A1 & A2 & B1 & B2). unfold check_intersection, rectangles_meet. cbv zeta.
  set (p := (ic_x b + ic_len b - ic_x a)%Q). set (q := (ic_x a + ic_len a - ic_x b)%Q).
  set (p' := (ic_y b + ic_wid b - ic_y a)%Q). set (q' := (ic_y a + ic_wid a - ic_y b)%Q).
  assert ((ic_x a - ic_x b - ic_len b) * q == - p * q)%Q as Ex by (unfold p; ring).
  assert ((ic_y a - ic_y b - ic_wid b) * q' == - p' * q')%Q as Ey by (unfold p'; ring).
  rewrite Ex, Ey.
  pose proof (axis_meet p q ltac:(unfold p, q; lra)) as HX.
  pose proof (axis_meet p' q' ltac:(unfold p', q'; lra)) as HY.
  rewrite !andb_true_iff.
  assert ((ic_x a < ic_x b + ic_len b)%Q <-> (0 < p)%Q) as K1 by (unfold p; split; lra).
  assert ((ic_x b < ic_x a + ic_len a)%Q <-> (0 < q)%Q) as K2 by (unfold q; split; lra).
  assert ((ic_y a < ic_y b + ic_wid b)%Q <-> (0 < p')%Q) as K3 by (unfold p'; split; lra).
  assert ((ic_y b < ic_y a + ic_wid a)%Q <-> (0 < q')%Q) as K4 by (unfold q'; split; lra).
  rewrite K1, K2, K3, K4. tauto.
Qed.

Lemma check_intersection_sym : forall a b, check_intersection a b = check_intersection b a.
Proof.
  intros a b. unfold check_intersection. cbv zeta.
  assert ((ic_x a - ic_x b - ic_len b) * (ic_x a + ic_len a - ic_x b) ==
          (ic_x b - ic_x a - ic_len a) * (ic_x b + ic_len b - ic_x a))%Q as -> by ring.
  assert ((ic_y a - ic_y b - ic_wid b) * (ic_y a + ic_wid a - ic_y b) ==
          (ic_y b - ic_y a - ic_wid a) * (ic_y b + ic_wid b - ic_y a))%Q as -> by ring.
  reflexivity.
Qed.

Lemma check_location_iff : forall a d,
    check_location a d = true <->
    (ic_x a < 0 \/ d_chip_length d + EPSILON < ic_x a + ic_len a \/
     ic_y a < 0 \/ d_chip_width d + EPSILON < ic_y a + ic_wid a)%Q.
Proof.
  intros a d. unfold check_location. rewrite !orb_true_iff, !Qlt_bool_iff.
  split; intros H.
  - destruct H as [[[H|H]|H]|H]; [left; exact H|right; left; lra|right; right; left; exact H|right; right; right; lra].
  - destruct H as [H|[H|[H|H]]]; [left; left; left; exact H|left; left; right; lra|left; right; exact H|right; lra].
Qed.
