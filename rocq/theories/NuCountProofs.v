(** * Numbering of the cells of the non-uniform grid *)
From Coq Require Import ZArith List Bool QArith Lia.
From Verif Require Import Base Dims Floorplan FloorplanProofs Stack NonUniform NuSpec NuGeomProofs.
Import ListNotations.
Local Open Scope Z_scope.

Lemma u32_add_l : forall a b, u32 (u32 a + b) = u32 (a + b).
Proof. intros. unfold u32. apply Zplus_mod_idemp_l. Qed.
Lemma u32_add_r : forall a b, u32 (a + u32 b) = u32 (a + b).
Proof. intros. unfold u32. apply Zplus_mod_idemp_r. Qed.
Lemma u32_mul_l : forall a b, u32 (u32 a * b) = u32 (a * b).
Proof. intros. unfold u32. apply Zmult_mod_idemp_l. Qed.
Lemma u32_mul_r : forall a b, u32 (a * u32 b) = u32 (a * b).
Proof. intros. unfold u32. apply Zmult_mod_idemp_r. Qed.
Lemma u32_idem : forall a, u32 (u32 a) = u32 a.
Proof. intros. unfold u32. apply Z.mod_mod. discriminate. Qed.

(** ** Counting *)
(** The elements once their discretisation is written into them. *)
Definition fill_el (x : nu_die) (e : nu_el) : nu_el := mkNuEl (set_discr (ne_first e) (resolved (nd_dx x) (nd_dy x) (ne_first e))) (ne_others e).
Definition with_els (x : nu_die) (els : list nu_el) : nu_die := mkNuDie (nd_layers x) (nd_offset x) (nd_dx x) (nd_dy x) els.
Definition fill (e : nu_kind) : nu_kind := match e with NuDie x => NuDie (with_els x (map (fill_el x) (nd_els x))) | _ => e end.

Lemma resolved_discretisation : forall x e, resolved (nd_dx x) (nd_dy x) (ne_first e) = discretisation x e.
Proof. intros x e. unfold resolved, discretisation. destruct (ni_dx (ne_first e) =? 0), (ni_dy (ne_first e) =? 0); reflexivity. Qed.

Lemma discretisation_good : forall x e, good_factors (nd_dx x) (nd_dy x) -> good_factors (ni_dx (ne_first e)) (ni_dy (ne_first e)) ->
    0 <= fst (discretisation x e) /\ 0 <= snd (discretisation x e).
Proof. intros x e (A & B) (C & D). unfold discretisation. destruct (_ || _); cbn; lia. Qed.

Lemma element_cells_length : forall x src l e, good_factors (nd_dx x) (nd_dy x) -> good_factors (ni_dx (ne_first e)) (ni_dy (ne_first e)) ->
    Z.of_nat (length (element_cells x src l e)) = fst (discretisation x e) * snd (discretisation x e).
Proof.
  intros x src l e A B. destruct (discretisation_good x e A B). unfold element_cells. rewrite map_length. unfold element_rects. apply cut_length; assumption.
Qed.

Definition els_count (x : nu_die) (els : list nu_el) : Z := fold_right (fun e n => fst (discretisation x e) * snd (discretisation x e) + n) 0 els.

Lemma els_count_length : forall x src l els, good_factors (nd_dx x) (nd_dy x) -> Forall (fun e => good_factors (ni_dx (ne_first e)) (ni_dy (ne_first e))) els ->
    Z.of_nat (length (flat_map (element_cells x src l) els)) = els_count x els.
Proof.
  intros x src l els A B. induction B as [|e els B1 B IH]; [reflexivity|]. cbn [flat_map els_count fold_right]. rewrite app_length, Nat2Z.inj_add, element_cells_length by assumption. fold (els_count x els). lia.
Qed.

Lemma count_elements_spec : forall x els acc, count_elements (nd_dx x) (nd_dy x) els acc = (map (fill_el x) els, match els with [] => acc | _ => u32 (acc + els_count x els) end).
Proof.
  intros x els. induction els as [|e els IH]; intros acc; [reflexivity|]. cbn [count_elements]. rewrite IH. cbn [fst snd map]. f_equal.
  rewrite resolved_discretisation. cbn [els_count fold_right]. fold (els_count x els).
  destruct els as [|e' els']; [cbn [els_count fold_right]; rewrite u32_add_r; f_equal; lia|]. rewrite u32_add_l, Z.add_shuffle0, u32_add_r. f_equal. lia.
Qed.

Lemma die_layers_count : forall x ls i, good_factors (nd_dx x) (nd_dy x) -> Forall (fun e => good_factors (ni_dx (ne_first e)) (ni_dy (ne_first e))) (nd_els x) ->
    Z.of_nat (length (grid_cells (die_layers x i ls))) = els_count x (nd_els x) * Z.of_nat (length ls).
Proof.
  intros x ls. induction ls as [|l ls IH]; intros i A B; [cbn; lia|]. cbn [die_layers grid_cells flat_map snd]. rewrite app_length, Nat2Z.inj_add, els_count_length by assumption.
  fold (grid_cells (die_layers x (i + 1) ls)). rewrite IH by assumption. cbn [length]. lia.
Qed.

Lemma zrange_count : forall n, 0 <= n -> Z.of_nat (length (zrange 0 (n - 1))) = n.
Proof. intros n H. unfold zrange. rewrite map_length, seq_length. lia. Qed.

Lemma channel_cells_count : forall d co, 0 <= d_ncols d -> 0 <= d_nrows d -> Z.of_nat (length (channel_cells d co)) = d_ncols d * d_nrows d.
Proof. intros d co A B. unfold channel_cells. rewrite map_length. apply zrange_count. apply Z.mul_nonneg_nonneg; assumption. Qed.

Definition kind_count (d : dims) (e : nu_kind) : Z := Z.of_nat (length (grid_cells (kind_layers d e))).

Lemma count_element_spec : forall d e acc, good_kind e -> good_factors (d_ncols d) (d_nrows d) ->
    count_element d e acc = (fill e, u32 (acc + kind_count d e)).
Proof.
  intros d e acc G (C & R). unfold count_element, kind_count. destruct e as [x|dx dy|m].
  - destruct G as (G1 & G2). cbn [fill kind_layers]. rewrite count_elements_spec. cbn [fst snd]. unfold with_els. f_equal.
    rewrite die_layers_count by assumption. rewrite rev_length. cbn [nu_nlayers].
    destruct (nd_els x) as [|e els]; [cbn [els_count fold_right]; rewrite Z.mul_0_l; rewrite u32_add_r; reflexivity|].
    rewrite u32_add_r. rewrite <- u32_add_r, u32_mul_l, u32_add_r. reflexivity.
  - destruct G as (G1 & G2). cbn [fill kind_layers grid_cells flat_map snd]. rewrite app_nil_r. unfold plain_cells. rewrite map_length. rewrite cut_length by (cbn; lia). cbn [fst snd]. rewrite u32_add_r. reflexivity.
  - cbn [fill]. f_equal. assert (K : forall a, u32 (acc + u32 (u32 (a * d_nrows d) * d_ncols d)) = u32 (acc + a * (d_ncols d * d_nrows d))).
    { intros a. rewrite u32_add_r, <- u32_add_r, u32_mul_l, u32_add_r. f_equal. ring. }
    cbn [nu_nlayers]. rewrite K. cbn in G.
    destruct m; try congruence; cbn [kind_layers channel_layers grid_cells flat_map snd]; repeat (rewrite app_length || rewrite Nat2Z.inj_add); rewrite !channel_cells_count by lia; cbn [length]; f_equal; lia.
Qed.

Lemma grid_cells_app : forall a b, grid_cells (a ++ b) = grid_cells a ++ grid_cells b.
Proof. intros. unfold grid_cells. rewrite !flat_map_concat_map, map_app, concat_app. reflexivity. Qed.

Definition stack_count (d : dims) (es : list nu_kind) : Z := fold_right (fun e n => kind_count d e + n) 0 es.
Lemma stack_count_app : forall d a b, stack_count d (a ++ b) = stack_count d a + stack_count d b.
Proof. intros d a b. induction a as [|e a IH]; [reflexivity|]. cbn. fold (stack_count d (a ++ b)) (stack_count d a). lia. Qed.
Lemma stack_count_rev : forall d es, stack_count d (rev es) = stack_count d es.
Proof. intros d es. induction es as [|e es IH]; [reflexivity|]. cbn [rev]. rewrite stack_count_app, IH. cbn. fold (stack_count d es). lia. Qed.
Lemma stack_count_length : forall d es, Z.of_nat (length (grid_cells (flat_map (kind_layers d) es))) = stack_count d es.
Proof.
  intros d es. induction es as [|e es IH]; [reflexivity|]. cbn [flat_map stack_count fold_right]. rewrite grid_cells_app, app_length, Nat2Z.inj_add, IH. reflexivity.
Qed.

Lemma count_stack_spec : forall d es acc, Forall good_kind es -> good_factors (d_ncols d) (d_nrows d) ->
    count_stack d es acc = (map fill es, match es with [] => acc | _ => u32 (acc + stack_count d es) end).
Proof.
  intros d es. induction es as [|e es IH]; intros acc G F; [reflexivity|]. inversion G; subst. cbn [count_stack]. rewrite count_element_spec by assumption. cbn [fst snd]. rewrite IH by assumption. cbn [fst snd map]. f_equal.
  cbn [stack_count fold_right]. fold (stack_count d es). destruct es; [cbn [stack_count fold_right]; rewrite Z.add_0_r; reflexivity|]. rewrite u32_add_l. f_equal. lia.
Qed.

Lemma spreader_count : forall d top, good_factors (d_ncols d) (d_nrows d) -> Z.of_nat (length (grid_cells (spreader_layer d top))) = if is_pluggable top then d_ncols d * d_nrows d else 0.
Proof.
  intros d top (A & B). unfold spreader_layer. destruct (is_pluggable top); [|reflexivity]. cbn [grid_cells flat_map snd]. rewrite app_nil_r. unfold plain_cells. rewrite map_length, cut_length by (cbn; lia). reflexivity.
Qed.

(** The number computed in advance. *)
Theorem update_spec : forall d top es, Forall good_kind es -> good_factors (d_ncols d) (d_nrows d) -> top <> None ->
    update_number_of_cells d top es = Ok (map fill es, u32 (Z.of_nat (length (grid_cells (grid d top es))))).
Proof.
  intros d top es G F T. unfold update_number_of_cells. rewrite count_stack_spec by assumption. cbn [fst snd].
  unfold grid. rewrite grid_cells_app, app_length, Nat2Z.inj_add, stack_count_length, stack_count_rev, spreader_count by exact F.
  set (m := match es with [] => 0 | _ => u32 (0 + stack_count d es) end). assert (M : m = u32 (stack_count d es)) by (unfold m; destruct es; reflexivity). rewrite M. clear m M.
  destruct top as [[a b|a b c]|]; [| |congruence]; cbn [spreader_present is_pluggable bind].
  - rewrite Z.add_0_r. reflexivity.
  - rewrite u32_add_l, u32_add_r. rewrite (Z.mul_comm (d_nrows d)). reflexivity.
Qed.

(** Writing the discretisation down does not change the grid. *)
Lemma discretisation_fill : forall x els e, discretisation (with_els x els) (fill_el x e) = discretisation x e.
Proof.
  intros x els e. unfold fill_el. rewrite resolved_discretisation. unfold discretisation at 1. unfold with_els. cbn [ne_first set_discr ni_dx ni_dy nd_dx nd_dy].
  unfold discretisation. destruct ((ni_dx (ne_first e) =? 0) || (ni_dy (ne_first e) =? 0)) eqn:E; cbn [fst snd]; [destruct ((nd_dx x =? 0) || (nd_dy x =? 0)); reflexivity|]. rewrite E. reflexivity.
Qed.
Lemma element_cells_fill : forall x els src l e, element_cells (with_els x els) src l (fill_el x e) = element_cells x src l e.
Proof. intros. unfold element_cells, element_rects. rewrite discretisation_fill. reflexivity. Qed.

Lemma flat_fill : forall x all src l els, flat_map (element_cells (with_els x all) src l) (map (fill_el x) els) = flat_map (element_cells x src l) els.
Proof. intros x all src l els. induction els as [|e els IH]; [reflexivity|]. cbn [map flat_map]. rewrite IH, element_cells_fill. reflexivity. Qed.

Lemma die_layers_fill : forall x ls i, die_layers (with_els x (map (fill_el x) (nd_els x))) i ls = die_layers x i ls.
Proof.
  intros x ls. induction ls as [|l ls IH]; intros i; [reflexivity|]. cbn [die_layers]. rewrite IH. f_equal. f_equal. exact (flat_fill x (map (fill_el x) (nd_els x)) (i =? nd_offset x) l (nd_els x)).
Qed.
Lemma kind_layers_fill : forall d e, kind_layers d (fill e) = kind_layers d e.
Proof. intros d e. destruct e; [|reflexivity|reflexivity]. cbn [fill kind_layers]. cbn [with_els nd_layers]. apply (die_layers_fill d0). Qed.
Lemma grid_fill : forall d top es, grid d top (map fill es) = grid d top es.
Proof.
  intros d top es. unfold grid. f_equal. rewrite <- map_rev. induction (rev es) as [|e l IH]; [reflexivity|]. cbn [map flat_map]. rewrite IH, kind_layers_fill. reflexivity.
Qed.
Lemma good_fill : forall e, good_kind e -> good_kind (fill e).
Proof.
  intros e G. destruct e as [x| |]; [|exact G|exact G]. destruct G as (A & B). split; [exact A|]. cbn [with_els nd_els]. apply Forall_map. eapply Forall_impl; [|exact B]. intros e H.
  cbn [fill_el ne_first set_discr ni_dx ni_dy]. unfold resolved. destruct (_ && _); cbn [fst snd]; [exact H|exact A].
Qed.
Lemma total_fill : forall es, total_layers (map fill es) = total_layers es.
Proof. induction es as [|e es IH]; [reflexivity|]. cbn. fold (total_layers (map fill es)) (total_layers es). rewrite IH. destruct e; reflexivity. Qed.
Lemma ok_fill : forall d top es, nu_stack_ok d top es -> nu_stack_ok d top (map fill es).
Proof.
  intros d top es (A & B & C & D & E & F & G). unfold nu_stack_ok. rewrite total_fill, grid_fill. repeat split; auto; try apply C; try apply F. apply Forall_map. eapply Forall_impl; [|exact A]. exact good_fill.
Qed.

(** ** Creating the cells *)
Lemma number_app : forall hs a b l, number hs l (a ++ b) = number hs l a ++ number hs (l + length a) b.
Proof.
  intros hs a. induction a as [|L a IH]; intros b l; [cbn; rewrite Nat.add_0_r; reflexivity|]. cbn [app number length]. rewrite IH, <- app_assoc. f_equal. f_equal. f_equal. lia.
Qed.
Lemma number_length : forall hs g l, length (number hs l g) = length (grid_cells g).
Proof. intros hs g. induction g as [|L g IH]; intros l; [reflexivity|]. cbn. rewrite !app_length, map_length, IH. reflexivity. Qed.

Lemma zsum_S : forall hs l, (l < length hs)%nat -> zsum hs (S l) = (zsum hs l + nth l hs 0)%Q.
Proof.
  intros hs l H. unfold zsum. replace (firstn (S l) hs) with (firstn l hs ++ [nth l hs 0%Q]); [rewrite fold_left_app; reflexivity|].
  revert l H. induction hs as [|h hs IH]; intros l H; [cbn in H; lia|]. destruct l; [reflexivity|]. cbn [firstn nth app]. f_equal. apply IH. cbn in H. lia.
Qed.

Section At.
  Variables (hs : list Q) (N : nat).

  (** The state once the layers [g] are stored. *)
  Definition st_at (g : list nlayer) (st : nstate) : Prop :=
    ns_cells st = number hs 0 g /\
    ns_records st = map (fun l => first_cell g (S l)) (seq 0 (length g)) ++ repeat 0 (N - length g) /\
    ns_types st = map (fun L : nlayer => fst L) g ++ repeat 0 (N - length g) /\
    ns_layer st = Z.of_nat (length g) /\ ns_z st = zsum hs (length g) /\ (length g <= N)%nat.

  Lemma list_set_at : forall {A} (a b : list A) x y n, n = length a -> list_set (a ++ x :: b) n y = a ++ y :: b.
  Proof. intros A a b x y n ->. induction a as [|z a IH]; [reflexivity|]. cbn. rewrite IH. reflexivity. Qed.

  Lemma first_cell_prefix : forall g h l, (l <= length g)%nat -> first_cell (g ++ h) l = first_cell g l.
  Proof. intros g h l H. unfold first_cell. rewrite firstn_app. replace (l - length g)%nat with 0%nat by lia. cbn. rewrite app_nil_r. reflexivity. Qed.
  Lemma first_cell_all : forall g, first_cell g (length g) = Z.of_nat (length (grid_cells g)).
  Proof. intros g. unfold first_cell. rewrite firstn_all. reflexivity. Qed.

  Lemma push_spec : forall g st cs type L, st_at g st -> (length g < N)%nat -> (length g < length hs)%nat -> Z.of_nat N < two32 ->
      cs = map (cell_of hs (length g)) L -> forall ncells, Z.of_nat (length (grid_cells (g ++ [(type, L)]))) <= ncells ->
      exists st', push_layer ncells st cs type (nth (length g) hs 0%Q) = Ok st' /\ st_at (g ++ [(type, L)]) st'.
  Proof.
    intros g st cs type L (C & R & T & LY & ZZ & LE) LT LH NW -> ncells B. unfold push_layer.
    assert (CC : ns_cells st ++ map (cell_of hs (length g)) L = number hs 0 (g ++ [(type, L)])) by (rewrite number_app, C; cbn; rewrite app_nil_r; reflexivity).
    rewrite CC. rewrite number_length. destruct (Z.leb_spec (Z.of_nat (length (grid_cells (g ++ [(type, L)])))) ncells) as [_|?]; [|lia].
    rewrite LY. replace (N - length g)%nat with (S (N - S (length g))) in R, T by lia. cbn [repeat] in R, T.
    rewrite arr_set_ok by (rewrite R, app_length, map_length, seq_length; cbn [length]; lia).
    rewrite arr_set_ok by (rewrite T, app_length, map_length; cbn [length]; lia). cbn [bind].
    eexists. split; [reflexivity|]. rewrite Nat2Z.id.
    unfold st_at. cbn [ns_cells ns_records ns_types ns_layer ns_z]. rewrite app_length. cbn [length]. rewrite Nat.add_1_r. split; [reflexivity|]. split; [|split; [|split; [|split]]].
    - rewrite R. rewrite list_set_at by (rewrite map_length, seq_length; reflexivity). rewrite seq_S, map_app, <- app_assoc. f_equal.
      + apply map_ext_in. intros l I. apply in_seq in I. rewrite first_cell_prefix by lia. reflexivity.
      + cbn [map app]. f_equal. cbn [Nat.add]. replace (S (length g)) with (length (g ++ [(type, L)])) by (rewrite app_length; cbn; lia). rewrite first_cell_all. reflexivity.
    - rewrite T. rewrite list_set_at by (rewrite map_length; reflexivity). rewrite map_app, <- app_assoc. reflexivity.
    - rewrite u32_id by (unfold two32 in *; lia). lia.
    - rewrite ZZ. symmetry. apply zsum_S. exact LH.
    - lia.
  Qed.
End At.

(** Elements of a die in one layer. *)
Fixpoint ranged (x : nu_die) (base : Z) (els : list nu_el) : list nu_el :=
  match els with
  | [] => []
  | e :: t => let n := fst (discretisation x e) * snd (discretisation x e) in
              mkNuEl (set_range (ne_first e) base (base + n - 1)) (ne_others e) :: ranged x (base + n) t
  end.

Definition positive_els (x : nu_die) (els : list nu_el) : Prop := Forall (fun e => 0 < fst (discretisation x e) /\ 0 < snd (discretisation x e)) els.

Lemma u32_minus : forall a b, 0 <= a - b < two32 -> u32 (a - b) = a - b.
Proof. intros. apply u32_id. assumption. Qed.

Lemma position_elements_cells : forall x src mk lmat els base, good_factors (nd_dx x) (nd_dy x) -> Forall (fun e => good_factors (ni_dx (ne_first e)) (ni_dy (ne_first e))) els ->
    els_count x els < two32 ->
    fst (position_elements (nd_dx x) (nd_dy x) src mk lmat base els) =
    flat_map (fun e => map (fun r => mk r (if src then match ni_mat (ne_first e) with Some m => m | None => lmat end else lmat)) (element_rects x e)) els.
Proof.
  intros x src mk lmat els. induction els as [|e els IH]; intros base A B T; [reflexivity|]. inversion B; subst. destruct (discretisation_good x e A H1) as (D1 & D2).
  cbn [els_count fold_right] in T. fold (els_count x els) in T.
  assert (0 <= els_count x els) by (rewrite <- (els_count_length x true (mkLayer 0 material0 [])) by assumption; lia).
  pose proof (Z.mul_nonneg_nonneg _ _ D1 D2).
  cbn [position_elements]. fold (discretisation x e). rewrite (u32_id (fst (discretisation x e) * snd (discretisation x e))) by lia. cbn [fst flat_map].
  rewrite IH by (assumption || lia). f_equal. unfold element_rects, cut, indexes. rewrite map_map. reflexivity.
Qed.

Lemma position_elements_other : forall x mk lmat els base, snd (position_elements (nd_dx x) (nd_dy x) false mk lmat base els) = els.
Proof. intros x mk lmat els. induction els as [|e els IH]; intros base; [reflexivity|]. cbn [position_elements snd]. rewrite IH. reflexivity. Qed.

Lemma position_elements_source : forall x mk lmat els base, good_factors (nd_dx x) (nd_dy x) -> Forall (fun e => good_factors (ni_dx (ne_first e)) (ni_dy (ne_first e))) els -> positive_els x els ->
    0 <= base -> base + els_count x els < two32 ->
    snd (position_elements (nd_dx x) (nd_dy x) true mk lmat base els) = ranged x base els.
Proof.
  intros x mk lmat els. induction els as [|e els IH]; intros base A B P LB T; [reflexivity|]. inversion B; subst. inversion P; subst. destruct H3 as (D1 & D2).
  cbn [els_count fold_right] in T. fold (els_count x els) in T.
  assert (0 <= els_count x els) by (rewrite <- (els_count_length x true (mkLayer 0 material0 [])) by assumption; lia).
  pose proof (Z.mul_pos_pos _ _ D1 D2).
  cbn [position_elements]. fold (discretisation x e). rewrite (u32_id (fst (discretisation x e) * snd (discretisation x e))) by lia. cbn [snd ranged].
  rewrite (u32_id (base + _)) by lia. rewrite IH by (assumption || lia). rewrite !u32_minus by lia. f_equal. f_equal. f_equal. lia.
Qed.

(** Ranges do not change the cells. *)
Definition same_el (x : nu_die) (e e' : nu_el) : Prop := discretisation x e' = discretisation x e /\ rect_of (ne_first e') = rect_of (ne_first e) /\ ni_mat (ne_first e') = ni_mat (ne_first e) /\
   element_rects x e' = element_rects x e /\ ni_dx (ne_first e') = ni_dx (ne_first e) /\ ni_dy (ne_first e') = ni_dy (ne_first e).
Lemma ranged_same : forall x els base, Forall2 (same_el x) els (ranged x base els).
Proof. intros x els. induction els as [|e els IH]; intros base; [constructor|]. cbn [ranged]. constructor; [|apply IH]. repeat split. Qed.
Lemma same_refl : forall x els, Forall2 (same_el x) els els.
Proof. intros x els. induction els; constructor; [repeat split|assumption]. Qed.
Lemma same_flat : forall x els els' (f : list rect -> option material -> list cell), Forall2 (same_el x) els els' ->
    flat_map (fun e => f (element_rects x e) (ni_mat (ne_first e))) els' = flat_map (fun e => f (element_rects x e) (ni_mat (ne_first e))) els.
Proof. intros x els els' f S. induction S as [|e e' els els' E S IH]; [reflexivity|]. cbn [flat_map]. rewrite IH. destruct E as (_ & _ & E1 & E2 & _). rewrite E1, E2. reflexivity. Qed.
Lemma same_count : forall x els els', Forall2 (same_el x) els els' -> els_count x els' = els_count x els.
Proof. intros x els els' S. induction S as [|e e' els els' E S IH]; [reflexivity|]. cbn [els_count fold_right]. fold (els_count x els) (els_count x els'). rewrite IH. destruct E as (-> & _). reflexivity. Qed.
Lemma same_good : forall x els els', Forall2 (same_el x) els els' -> Forall (fun e => good_factors (ni_dx (ne_first e)) (ni_dy (ne_first e))) els -> Forall (fun e => good_factors (ni_dx (ne_first e)) (ni_dy (ne_first e))) els'.
Proof. intros x els els' S. induction S as [|e e' els els' E S IH]; [constructor|]. intros F. inversion F; subst. destruct E as (_ & _ & _ & _ & E1 & E2). constructor; [rewrite E1, E2; assumption|auto]. Qed.
