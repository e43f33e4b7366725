From Coq Require Import ZArith List Bool QArith Qround Qminmax Lia Lqa.
From Verif Require Import Base QSum Dims DimsSpec DimsProofs Queue QueueProofs Floorplan FloorplanSpec FloorplanProofs.
Import ListNotations.
Local Open Scope Z_scope.

Lemma layer_offset : forall d r c, good_grid d -> 0 <= r < d_nrows d -> 0 <= c < d_ncols d ->
    offset_in_layer d r c = r * d_ncols d + c /\ 0 <= offset_in_layer d r c < d_nrows d * d_ncols d.
Proof.
  intros d r c (A & B & C & _) Hr Hc. unfold offset_in_layer.
  assert (r * d_ncols d + d_ncols d <= d_nrows d * d_ncols d).
  { replace (r * d_ncols d + d_ncols d) with ((r + 1) * d_ncols d) by ring.
    apply Z.mul_le_mono_nonneg_r; lia. }
  assert (0 <= r * d_ncols d) by (apply Z.mul_nonneg_nonneg; lia).
  rewrite (u32_id (r * d_ncols d)) by lia. rewrite u32_id by lia. lia.
Qed.

Lemma layer_offset_inj : forall d r c r' c', good_grid d ->
    0 <= r < d_nrows d -> 0 <= c < d_ncols d -> 0 <= r' < d_nrows d -> 0 <= c' < d_ncols d ->
    offset_in_layer d r c = offset_in_layer d r' c' -> r = r' /\ c = c'.
Proof.
  intros d r c r' c' G Hr Hc Hr' Hc' E.
  destruct (layer_offset d r c G Hr Hc) as [E1 _]. destruct (layer_offset d r' c' G Hr' Hc') as [E2 _].
  rewrite E1, E2 in E.
  destruct (Z.div_mod_unique (d_ncols d) r r' c c') as [A B]; lia.
Qed.

Lemma common_zero : forall a b x y, (b <= x \/ y <= a)%Q -> (common a b x y == 0)%Q.
Proof.
  intros a b x y H. unfold common. rewrite Q.max_l; [reflexivity|].
  destruct H as [H|H].
  - pose proof (Q.le_min_l b y). pose proof (Q.le_max_r a x). lra.
  - pose proof (Q.le_min_r b y). pose proof (Q.le_max_l a x). lra.
Qed.
Lemma common_nonneg : forall a b x y, (0 <= common a b x y)%Q.
Proof. intros. unfold common. apply Q.le_max_l. Qed.
Lemma covered_nonneg : forall d a r c, (0 <= covered d a r c)%Q.
Proof. intros. unfold covered. apply Qmult_le_0_compat; apply common_nonneg. Qed.

Lemma covered_outside : forall d a r c, ~ overlaps d a r c -> (covered d a r c == 0)%Q.
Proof.
  intros d a r c H. unfold covered.
  destruct (Qlt_le_dec (west d c) (ic_x a + ic_len a)) as [A|A];
    [|rewrite (common_zero (west d c)) by auto; ring].
  destruct (Qlt_le_dec (ic_x a) (east d c)) as [B|B];
    [|rewrite (common_zero (west d c)) by auto; ring].
  destruct (Qlt_le_dec (south d r) (ic_y a + ic_wid a)) as [C|C];
    [|rewrite (common_zero (south d r)) by auto; ring].
  destruct (Qlt_le_dec (ic_y a) (north d r)) as [D|D];
    [|rewrite (common_zero (south d r)) by auto; ring].
  exfalso. apply H. unfold overlaps. auto.
Qed.

Lemma weight_table : forall d area a r c, good_grid d -> in_cells d a ->
    0 <= r < d_nrows d -> 0 <= c < d_ncols d ->
    (weight (offset_in_layer d r c) (icel_table d area a) == covered d a r c / area)%Q.
Proof.
  intros d area a r c G I Hr Hc.
  unfold weight, icel_table, icel_entries. rewrite qsum_flat_map.
  pose proof (overlaps_iff d a r c G I Hr Hc) as O.
  pose proof (icc_c d a I) as Ic. pose proof (icc_r d a I) as Ir.
  assert (forall r' c', In r' (zrange (ic_sw_row a) (ic_ne_row a)) ->
            In c' (zrange (ic_sw_col a) (ic_ne_col a)) ->
            offset_in_layer d r' c' = offset_in_layer d r c -> r' = r /\ c' = c) as Inj.
  { intros r' c' Hr' Hc' E. apply in_zrange in Hr', Hc'.
    apply (layer_offset_inj d r' c' r c G) in E; auto; lia. }
  destruct (Z_le_dec (ic_sw_row a) r) as [A1|A1];
    [destruct (Z_le_dec r (ic_ne_row a)) as [A2|A2];
      [destruct (Z_le_dec (ic_sw_col a) c) as [A3|A3];
       [destruct (Z_le_dec c (ic_ne_col a)) as [A4|A4]|]|]|].
  1: { rewrite (qsum_single _ _ r (zrange_NoDup _ _)).
       - rewrite map_map. rewrite (qsum_single _ _ c (zrange_NoDup _ _)).
         + cbn [fst snd]. rewrite Z.eqb_refl. reflexivity.
         + apply in_zrange. lia.
         + intros c' Hc' Hne. cbn [fst snd].
           destruct (Z.eqb_spec (offset_in_layer d r c') (offset_in_layer d r c)) as [E|_]; [|reflexivity].
           exfalso. apply Hne. eapply Inj; [|exact Hc'|exact E]. apply in_zrange. lia.
       - apply in_zrange. lia.
       - intros r' Hr' Hne. apply qsum_zero. intros e He. apply in_map_iff in He.
         destruct He as (c' & <- & Hc'). cbn [fst snd].
         destruct (Z.eqb_spec (offset_in_layer d r' c') (offset_in_layer d r c)) as [E|_]; [|reflexivity].
         exfalso. apply Hne. eapply Inj; eauto. }
  all: rewrite (covered_outside d a r c) by (rewrite O; lia).
  all: rewrite qsum_zero; [unfold Qdiv; ring|].
  all: intros r' Hr'; apply qsum_zero; intros e He; apply in_map_iff in He;
       destruct He as (c' & <- & Hc'); cbn [fst snd];
       destruct (Z.eqb_spec (offset_in_layer d r' c') (offset_in_layer d r c)) as [E|_]; [|reflexivity];
       exfalso; destruct (Inj r' c' Hr' Hc' E) as [-> ->]; apply in_zrange in Hr', Hc'; lia.
Qed.

(** rows of the coefficients are inside the layer *)
Lemma table_rows : forall d area a e, good_grid d -> in_cells d a -> In e (icel_table d area a) ->
    0 <= fst e < d_nrows d * d_ncols d /\ (0 < area -> 0 <= snd e)%Q.
Proof.
  intros d area a e G I H. unfold icel_table, icel_entries in H. apply in_flat_map in H.
  destruct H as (r & Hr & H). apply in_map_iff in H. destruct H as (c & <- & Hc).
  apply in_zrange in Hr, Hc. pose proof (icc_c d a I) as Ic. pose proof (icc_r d a I) as Ir.
  cbn [fst snd]. split; [apply layer_offset; auto; lia|].
  intros Ha. unfold Qdiv. apply Qmult_le_0_compat; [apply covered_nonneg|].
  apply Qlt_le_weak, Qinv_lt_0_compat, Ha.
Qed.

Lemma entries_in : forall l1 l2 e, Forall2 entry_eq l1 l2 -> In e l1 -> exists e', In e' l2 /\ entry_eq e e'.
Proof.
  intros l1 l2 e H. induction H as [|x y l1 l2 E H IH]; intros Hin; [destruct Hin|].
  destruct Hin as [->|Hin]; [exists y; split; [left; reflexivity|exact E]|].
  destruct (IH Hin) as (e' & A & B). exists e'. split; [right; exact A|exact B].
Qed.

(** ** from the parser to [in_cells] *)
Lemma search_le_mono : forall f x fuel i s k, search_le fuel f x i = Ok s -> search_le (fuel + k) f x i = Ok s.
Proof.
  intros f x. induction fuel as [|n IH]; intros i s k H; [discriminate|].
  cbn [search_le Nat.add] in *. destruct (Qle_bool (f (u32 (i + 1))) x); auto.
Qed.
Lemma search_lt_mono : forall f x fuel i s k, search_lt fuel f x i = Ok s -> search_lt (fuel + k) f x i = Ok s.
Proof.
  intros f x. induction fuel as [|n IH]; intros i s k H; [discriminate|].
  cbn [search_lt Nat.add] in *. destruct (Qlt_bool (f (u32 (i + 1))) x); auto.
Qed.
Lemma align_mono : forall fuel a d b k, align_to_grid fuel a d = Ok b -> align_to_grid (fuel + k) a d = Ok b.
Proof.
  intros fuel a d b k H. unfold align_to_grid in *.
  destruct (search_le fuel (get_cell_location_x d) (ic_x a) 0) as [s| |] eqn:E1; cbn [bind] in H; try discriminate.
  rewrite (search_le_mono _ _ _ _ _ k E1). cbn [bind].
  destruct (search_lt fuel (get_cell_location_x d) (ic_x a + ic_len a) (u32 (s - 1))) as [s2| |] eqn:E2; cbn [bind] in H; try discriminate.
  rewrite (search_lt_mono _ _ _ _ _ k E2). cbn [bind].
  destruct (search_le fuel (get_cell_location_y d) (ic_y a) 0) as [s3| |] eqn:E3; cbn [bind] in H; try discriminate.
  rewrite (search_le_mono _ _ _ _ _ k E3). cbn [bind].
  destruct (search_lt fuel (get_cell_location_y d) (ic_y a + ic_wid a) (u32 (s3 - 1))) as [s4| |] eqn:E4; cbn [bind] in H; try discriminate.
  rewrite (search_lt_mono _ _ _ _ _ k E4). cbn [bind]. exact H.
Qed.

Lemma recorded_in_cells : forall d a, good_grid d -> placed d a -> recorded d a -> in_cells d a.
Proof.
  intros d a G P (fuel & H). unfold parse_rectangle in H.
  destruct (align_to_grid fuel _ d) as [b| |] eqn:E; cbn [bind] in H; try discriminate.
  destruct (check_location b d); [discriminate|]. assert (b = a) as -> by congruence.
  apply (align_mono _ _ _ _ (Z.to_nat (d_nrows d + d_ncols d))) in E.
  destruct (align_spec d (mkIcel (ic_x a) (ic_y a) (ic_len a) (ic_wid a) 0 0 0 0)
             (fuel + Z.to_nat (d_nrows d + d_ncols d)) G P ltac:(lia)) as (b & E2 & _ & _ & _ & _ & I).
  rewrite E in E2. assert (a = b) as -> by congruence. exact I.
Qed.

(** ** elements *)
Lemma fold_area : forall ics x,
    (fold_left (fun s a => s + ic_len a * ic_wid a) ics x == x + qsum (map (fun a => ic_len a * ic_wid a) ics))%Q.
Proof.
  induction ics as [|a t IH]; intros x; cbn [fold_left map]; [rewrite qsum_nil; ring|].
  rewrite IH, qsum_cons. ring.
Qed.

Record good_el (d : dims) (e : flpel) : Prop := {
  ge_area : (fe_area e == area_of e)%Q;
  ge_pos : (0 < fe_area e)%Q;
  ge_ics : Forall (in_cells d) (fe_ics e)
}.

Lemma area_pos : forall d ics, Forall (in_cells d) ics -> ics <> [] ->
    (0 < qsum (map (fun a => ic_len a * ic_wid a) ics))%Q.
Proof.
  intros d ics H. induction H as [|a t I H IH]; intros Hn; [congruence|].
  cbn [map]. rewrite qsum_cons. destruct (icc_p d a I) as [P1 P2].
  assert (0 < ic_len a * ic_wid a)%Q by (apply Qmult_lt_0_compat; auto).
  destruct t as [|b t]; [cbn [map]; rewrite qsum_nil; lra|].
  specialize (IH ltac:(discriminate)). lra.
Qed.

Lemma good_element_el : forall d e, good_grid d -> good_element d e -> good_el d e.
Proof.
  intros d e G (id & ics & q & -> & Hn & H).
  assert (Forall (in_cells d) ics) as Hi.
  { eapply Forall_impl; [|exact H]. cbn. intros a [A B]. apply recorded_in_cells; auto. }
  constructor; cbn [make_element fe_area fe_ics].
  - rewrite fold_area. unfold area_of. cbn [make_element fe_ics]. ring.
  - rewrite fold_area. pose proof (area_pos d ics Hi Hn). lra.
  - exact Hi.
Qed.

Lemma fill_element_table : forall d e, good_grid d -> good_el d e ->
    Forall2 entry_eq (fill_element d e) (flat_map (icel_table d (fe_area e)) (fe_ics e)).
Proof.
  intros d e G [_ _ H]. unfold fill_element. induction H as [|a t I H IH]; [constructor|].
  cbn [flat_map]. apply Forall2_app; [apply fill_icel_spec; auto|exact IH].
Qed.

Lemma element_sum : forall d e, good_grid d -> good_el d e -> (qsum (map snd (fill_element d e)) == 1)%Q.
Proof.
  intros d e G E. rewrite (entries_sum _ _ (fill_element_table d e G E)). rewrite qsum_flat_map.
  rewrite (qsum_ext _ (fun a => (ic_len a * ic_wid a) * / fe_area e)%Q).
  - rewrite qsum_scale_r. fold (area_of e). destruct E as [A P _]. rewrite <- A. field. lra.
  - intros a Ha. destruct E as [_ _ H]. rewrite Forall_forall in H.
    rewrite (icel_table_sum d _ a G (H a Ha)). reflexivity.
Qed.

Lemma element_weight : forall d e r c, good_grid d -> good_el d e ->
    0 <= r < d_nrows d -> 0 <= c < d_ncols d ->
    (weight (offset_in_layer d r c) (fill_element d e) == covered_by d e r c / area_of e)%Q.
Proof.
  intros d e r c G E Hr Hc. rewrite (weight_eq _ _ _ (fill_element_table d e G E)).
  unfold weight. rewrite qsum_flat_map. destruct E as [A P H]. rewrite <- A. unfold covered_by, Qdiv.
  rewrite <- qsum_scale_r. apply qsum_ext. intros a Ha. rewrite Forall_forall in H.
  apply (weight_table d (fe_area e) a r c G (H a Ha) Hr Hc).
Qed.

Lemma element_rows : forall d e x, good_grid d -> good_el d e -> In x (fill_element d e) ->
    0 <= fst x < d_nrows d * d_ncols d /\ (0 <= snd x)%Q.
Proof.
  intros d e x G E H. destruct (entries_in _ _ _ (fill_element_table d e G E) H) as (y & Hy & [F S]).
  apply in_flat_map in Hy. destruct Hy as (a & Ha & Hy). destruct E as [_ P Hi].
  rewrite Forall_forall in Hi. destruct (table_rows d _ a y G (Hi a Ha) Hy) as [R V].
  rewrite F, S. split; [exact R|]. apply V, P.
Qed.

(** ** counting *)
Lemma flat_map_length_const : forall {A B} (f : A -> list B) n l,
    (forall x, In x l -> length (f x) = n) -> length (flat_map f l) = (length l * n)%nat.
Proof.
  intros A B f n. induction l as [|x t IH]; intros H; [reflexivity|].
  cbn [flat_map length]. rewrite app_length, IH, (H x); [lia|left; reflexivity|intros; apply H; right; auto].
Qed.

Lemma Forall2_len : forall {A B} (R : A -> B -> Prop) l1 l2, Forall2 R l1 l2 -> length l1 = length l2.
Proof. intros A B R l1 l2 H. induction H; cbn; congruence. Qed.

Lemma fill_columns_length : forall d a area w r cols x, length (fill_columns d a area w r cols x) = length cols.
Proof. intros d a area w r. induction cols as [|c t IH]; intros x; cbn [fill_columns length]; auto. Qed.
Lemma fill_rows_length : forall d a area rows y,
    length (fill_rows d a area rows y) = (length rows * length (zrange (ic_sw_col a) (ic_ne_col a)))%nat.
Proof.
  intros d a area. induction rows as [|r t IH]; intros y; [reflexivity|].
  cbn [fill_rows length]. rewrite app_length, fill_columns_length, IH. lia.
Qed.
Lemma fill_icel_length : forall d area a, in_cells d a ->
    Z.of_nat (length (fill_icel d area a)) =
    (ic_ne_row a - ic_sw_row a + 1) * (ic_ne_col a - ic_sw_col a + 1).
Proof.
  intros d area a I. unfold fill_icel. rewrite fill_rows_length, Nat2Z.inj_mul, !zrange_length.
  pose proof (icc_c d a I). pose proof (icc_r d a I). rewrite !Z.max_r by lia. reflexivity.
Qed.

Lemma u32_add_mul : forall n x y, u32 (u32 n + u32 (u32 x * u32 y)) = u32 (n + x * y).
Proof.
  intros. unfold u32. rewrite <- Z.mul_mod by (unfold two32; lia).
  rewrite <- Z.add_mod by (unfold two32; lia). reflexivity.
Qed.

Lemma count_ics : forall d area ics n, Forall (in_cells d) ics ->
    fold_left (fun n a =>
      u32 (n + u32 (u32 (ic_ne_row a - ic_sw_row a + 1) * u32 (ic_ne_col a - ic_sw_col a + 1)))) ics (u32 n)
    = u32 (n + Z.of_nat (length (flat_map (fill_icel d area) ics))).
Proof.
  intros d area ics n H. revert n. induction H as [|a t I H IH]; intros n; cbn [fold_left flat_map length].
  - f_equal. lia.
  - rewrite u32_add_mul, IH, app_length, Nat2Z.inj_add, (fill_icel_length d area a I). f_equal. lia.
Qed.

Lemma count_nnz_spec : forall d els, Forall (good_el d) els ->
    count_nnz els = u32 (Z.of_nat (length (concat (map (fill_element d) els)))).
Proof.
  intros d els H. unfold count_nnz. change 0 with (u32 0) at 1.
  assert (forall n, fold_left (fun n e =>
      fold_left (fun n a =>
        u32 (n + u32 (u32 (ic_ne_row a - ic_sw_row a + 1) * u32 (ic_ne_col a - ic_sw_col a + 1))))
        (fe_ics e) n) els (u32 n) = u32 (n + Z.of_nat (length (concat (map (fill_element d) els))))) as G.
  { induction H as [|e t E H IH]; intros n; cbn [fold_left map concat length].
    - f_equal. lia.
    - rewrite (count_ics d (fe_area e) _ _ (ge_ics d e E)), IH, app_length, Nat2Z.inj_add.
      change (flat_map (fill_icel d (fe_area e)) (fe_ics e)) with (fill_element d e). f_equal. lia. }
  rewrite G. reflexivity.
Qed.

(** ** column pointers *)
Lemma column_pointers_length : forall cols l, length (column_pointers l cols) = length cols.
Proof. induction cols as [|c t IH]; intros l; cbn [column_pointers length]; auto. Qed.

Lemma column_pointers_nth : forall cols l j,
    0 <= l -> l + Z.of_nat (length (concat cols)) < two32 -> (j <= length cols)%nat ->
    nth j (l :: column_pointers l cols) 0 = l + Z.of_nat (length (concat (firstn j cols))).
Proof.
  induction cols as [|c t IH]; intros l j Hl Ht Hj.
  - destruct j as [|j]; [cbn; lia|cbn in Hj; lia].
  - destruct j as [|j]; [cbn [nth firstn concat length]; lia|].
    cbn [concat] in Ht. rewrite app_length in Ht. cbn [length] in Hj.
    change (nth (S j) (l :: column_pointers l (c :: t)) 0)
      with (nth j (u32 (l + Z.of_nat (length c)) :: column_pointers (u32 (l + Z.of_nat (length c))) t) 0).
    rewrite (u32_id (l + Z.of_nat (length c))) by lia.
    rewrite IH by lia. cbn [firstn concat]. rewrite app_length. lia.
Qed.

(** ** the product *)
Lemma qsum_list_set : forall l n v, (n < length l)%nat ->
    (qsum (list_set l n v) == qsum l - nth n l 0 + v)%Q.
Proof.
  induction l as [|h t IH]; intros n v H; [cbn in H; lia|].
  destruct n as [|n]; cbn [list_set nth].
  - rewrite !qsum_cons. ring.
  - rewrite !qsum_cons, IH by (cbn in H; lia). ring.
Qed.

Lemma arr_get_mid : forall {A} (l r : list A) x, arr_get (l ++ x :: r) (Z.of_nat (length l)) = Ok x.
Proof.
  intros A l r x. rewrite (arr_get_ok _ _ x) by (rewrite app_length; cbn; lia).
  rewrite Nat2Z.id, nth_middle. reflexivity.
Qed.

Lemma axpy_spec : forall m b post seg pre x,
    fm_rows m = map fst (pre ++ seg ++ post) -> fm_vals m = map snd (pre ++ seg ++ post) ->
    Forall (fun e => 0 <= fst e < Z.of_nat (length x)) seg ->
    exists x', axpy_loop (length seg) m b (Z.of_nat (length pre)) (Z.of_nat (length pre + length seg)) x = Ok x' /\
      length x' = length x /\
      (forall k, nth k x' 0 == nth k x 0 + b * weight (Z.of_nat k) seg)%Q /\
      (qsum x' == qsum x + b * qsum (map snd seg))%Q.
Proof.
  intros m b post. induction seg as [|e seg IH]; intros pre x Hr Hv Hf.
  - exists x. split; [reflexivity|]. split; [reflexivity|]. split.
    + intros k. unfold weight. cbn [map]. rewrite qsum_nil. ring.
    + cbn [map]. rewrite qsum_nil. ring.
  - inversion Hf as [|? ? He Hf']; subst. cbn [length axpy_loop].
    destruct (Z.ltb_spec (Z.of_nat (length pre)) (Z.of_nat (length pre + S (length seg)))) as [_|?]; [|lia].
    rewrite Hr, Hv. rewrite !map_app. cbn [app map].
    pose proof (arr_get_mid (map fst pre) (map fst seg ++ map fst post) (fst e)) as G1.
    rewrite map_length in G1. rewrite G1. cbn [bind]. clear G1.
    pose proof (arr_get_mid (map snd pre) (map snd seg ++ map snd post) (snd e)) as G1.
    rewrite map_length in G1. rewrite G1. cbn [bind]. clear G1.
    rewrite (arr_get_ok x _ 0%Q) by lia. cbn [bind]. rewrite arr_set_ok by lia. cbn [bind].
    set (x1 := list_set x (Z.to_nat (fst e)) (nth (Z.to_nat (fst e)) x 0 + b * snd e)%Q).
    destruct (IH (pre ++ [e]) x1) as (x' & E & L & W & Sm).
    + rewrite Hr, <- app_assoc. reflexivity.
    + rewrite Hv, <- app_assoc. reflexivity.
    + unfold x1. rewrite list_set_length. exact Hf'.
    + exists x'. rewrite app_length in E. cbn [length] in E.
      replace (Z.of_nat (length pre) + 1) with (Z.of_nat (length pre + 1)) by lia.
      replace (length pre + S (length seg))%nat with (length pre + 1 + length seg)%nat by lia.
      split; [exact E|]. split; [rewrite L; unfold x1; apply list_set_length|]. split.
      * intros k. rewrite W. unfold weight. cbn [map]. rewrite qsum_cons. unfold x1.
        destruct (Z.eqb_spec (fst e) (Z.of_nat k)) as [Ek|Ek].
        -- replace (Z.to_nat (fst e)) with k by lia. rewrite list_set_nth_same by lia. ring.
        -- rewrite list_set_nth_other by lia. ring.
      * rewrite Sm. cbn [map]. rewrite qsum_cons. unfold x1. rewrite qsum_list_set by lia. ring.
Qed.

Lemma axpy_fuel_irrelevant : forall m b i i1 x n, n = Z.to_nat (i1 - i) ->
    axpy_loop n m b i i1 x = axpy_loop (Z.to_nat (i1 - i)) m b i i1 x.
Proof. intros; subst; reflexivity. Qed.

Definition column_effect (k : Z) (bc : Q * list (Z * Q)) : Q := (fst bc * weight k (snd bc))%Q.

Lemma multiply_loop_spec : forall m cols b,
    fm_colptr m = 0 :: column_pointers 0 cols ->
    fm_rows m = map fst (concat cols) -> fm_vals m = map snd (concat cols) ->
    Z.of_nat (length (concat cols)) < two32 -> length b = length cols ->
    forall post pre x, cols = pre ++ post ->
    Forall (Forall (fun e => 0 <= fst e < Z.of_nat (length x))) post ->
    exists x', multiply_loop m b (zrange (Z.of_nat (length pre)) (Z.of_nat (length cols) - 1)) x = Ok x' /\
      length x' = length x /\
      (forall k, nth k x' 0 == nth k x 0 + qsum (map (column_effect (Z.of_nat k)) (combine (skipn (length pre) b) post)))%Q /\
      (qsum x' == qsum x + qsum (map (fun bc => fst bc * qsum (map snd (snd bc))) (combine (skipn (length pre) b) post)))%Q.
Proof.
  intros m cols b Hp Hr Hv Ht Hb. induction post as [|col post IH]; intros pre x Hc Hf.
  - rewrite app_nil_r in Hc. subst pre. rewrite zrange_nil by lia.
    exists x. split; [reflexivity|]. split; [reflexivity|].
    rewrite combine_nil. cbn [map]. rewrite qsum_nil. split; [intros k; ring|ring].
  - inversion Hf as [|? ? H1 H2]; subst.
    rewrite app_length in *. cbn [length] in *.
    rewrite zrange_cons by lia. cbn [multiply_loop].
    rewrite (arr_get_ok b _ 0%Q) by lia. cbn [bind]. rewrite Nat2Z.id.
    set (bj := nth (length pre) b 0%Q).
    assert (skipn (length pre) b = bj :: skipn (length (pre ++ [col])) b) as Hs.
    { rewrite app_length. cbn [length]. unfold bj.
      rewrite <- (firstn_skipn (length pre) b) at 2.
      rewrite app_nth2 by (rewrite firstn_length; lia). rewrite firstn_length, Nat.min_l by lia.
      rewrite Nat.sub_diag. replace (length pre + 1)%nat with (1 + length pre)%nat by lia.
      assert (forall (l : list Q) n, (n < length l)%nat -> skipn n l = nth 0 (skipn n l) 0%Q :: skipn (1 + n) l) as K.
      { clear. induction l as [|h t IH]; intros n Hn; [cbn in Hn; lia|].
        destruct n; [reflexivity|]. cbn [skipn Nat.add] in *. apply IH. cbn in Hn. lia. }
      apply K. lia. }
    rewrite Hs. cbn [combine map]. rewrite !qsum_cons.
    assert (pre ++ col :: post = (pre ++ [col]) ++ post) as Hc2 by (rewrite <- app_assoc; reflexivity).
    assert (Z.of_nat (length pre) + 1 = Z.of_nat (length (pre ++ [col]))) as Hl
      by (rewrite app_length; cbn; lia).
    destruct (Qeq_bool bj 0) eqn:Ez.
    + apply Qeq_bool_iff in Ez.
      destruct (IH (pre ++ [col]) x Hc2 H2) as (x' & E & L & W & Sm).
      exists x'. rewrite Hl. split; [exact E|]. split; [exact L|]. split.
      * intros k. rewrite qsum_cons, W. change (column_effect (Z.of_nat k) (bj, col)) with (bj * weight (Z.of_nat k) col)%Q. rewrite Ez. ring.
      * rewrite Sm. cbn [fst snd]. rewrite Ez. ring.
    + set (cols := pre ++ col :: post) in *.
      rewrite Hp. rewrite (arr_get_ok _ _ 0) by (cbn [length]; rewrite column_pointers_length; unfold cols; rewrite app_length; cbn; lia).
      cbn [bind]. rewrite (arr_get_ok _ _ 0) by (cbn [length]; rewrite column_pointers_length; unfold cols; rewrite app_length; cbn; lia).
      cbn [bind]. rewrite !column_pointers_nth; try lia.
      2: { unfold cols. rewrite app_length. cbn. lia. }
      2: { unfold cols. rewrite app_length. cbn. lia. }
      rewrite Nat2Z.id.
      assert (firstn (length pre) cols = pre) as F1.
      { unfold cols. rewrite firstn_app, Nat.sub_diag, firstn_all. cbn. apply app_nil_r. }
      assert (firstn (Z.to_nat (Z.of_nat (length pre) + 1)) cols = pre ++ [col]) as F2.
      { unfold cols. replace (Z.to_nat (Z.of_nat (length pre) + 1)) with (length pre + 1)%nat by lia.
        rewrite firstn_app. rewrite firstn_all2 by lia. replace (length pre + 1 - length pre)%nat with 1%nat by lia.
        reflexivity. }
      rewrite F1, F2. rewrite concat_app. cbn [concat]. rewrite app_nil_r, app_length.
      destruct (axpy_spec m bj (concat post) col (concat pre) x) as (x1 & E1 & L1 & W1 & S1).
      { rewrite Hr. unfold cols. rewrite concat_app. reflexivity. }
      { rewrite Hv. unfold cols. rewrite concat_app. reflexivity. }
      { exact H1. }
      replace (0 + Z.of_nat (length (concat pre))) with (Z.of_nat (length (concat pre))) by lia.
      replace (0 + Z.of_nat (length (concat pre) + length col)) with (Z.of_nat (length (concat pre) + length col)) by lia.
      replace (Z.to_nat (Z.of_nat (length (concat pre) + length col) - Z.of_nat (length (concat pre)))) with (length col) by lia.
      rewrite E1. cbn [bind].
      destruct (IH (pre ++ [col]) x1 Hc2) as (x' & E & L & W & Sm).
      { rewrite L1. exact H2. }
      exists x'. rewrite Hl. split; [exact E|]. split; [congruence|]. split.
      * intros k. rewrite qsum_cons, W, W1. change (column_effect (Z.of_nat k) (bj, col)) with (bj * weight (Z.of_nat k) col)%Q. ring.
      * rewrite Sm, S1. cbn [fst snd]. ring.
Qed.
