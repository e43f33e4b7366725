(** * get_cell_position creates the cells of the grid in order *)
From Coq Require Import ZArith List Bool QArith Lia ZifyBool.
From Verif Require Import Base Dims Floorplan FloorplanProofs Stack NonUniform NuSpec NuGeomProofs NuCountProofs.
Import ListNotations.
Local Open Scope Z_scope.

  Lemma die_layers_length : forall x ls i, length (die_layers x i ls) = length ls.
  Proof. intros x ls. induction ls as [|l ls IH]; intros i; [reflexivity|]. cbn. rewrite IH. reflexivity. Qed.

  Lemma cells_mono : forall a b : list nlayer, (length (grid_cells a) <= length (grid_cells (a ++ b)))%nat.
  Proof. intros. rewrite grid_cells_app, app_length. lia. Qed.

Section Position.
  Variables (d : dims) (past : Q) (ncells : Z) (N : nat).
  Hypothesis nw : Z.of_nat N < two32.
  Hypothesis cw : ncells < two32.
  Hypothesis hn : (length (d_heights d) < N)%nat.
  Let hs := d_heights d ++ [past].

  Lemma get_height : forall g st, st_at hs N g st -> (length g < length (d_heights d))%nat -> arr_get (d_heights d) (ns_layer st) = Ok (nth (length g) hs 0%Q).
  Proof.
    intros g st (_ & _ & _ & E & _) L. rewrite E. rewrite arr_get_ok with (d := 0%Q) by lia. rewrite Nat2Z.id. unfold hs. rewrite app_nth1 by exact L. reflexivity.
  Qed.

  (** Elements of a die once its source layer is done. *)
  Definition ranges (x : nu_die) (g : list nlayer) (index : Z) (ls : list layer) (els : list nu_el) : list nu_el :=
    if (index <=? nd_offset x) && (nd_offset x <? index + Z.of_nat (length ls))
    then ranged x (first_cell (g ++ die_layers x index ls) (length g + Z.to_nat (nd_offset x - index))) els else els.

  Lemma position_die_spec : forall x, good_factors (nd_dx x) (nd_dy x) -> Forall (fun e => good_factors (ni_dx (ne_first e)) (ni_dy (ne_first e))) (nd_els x) ->
    (0 <= nd_offset x < Z.of_nat (length (nd_layers x)) -> positive_els x (nd_els x)) ->
    forall ls index els g st, st_at hs N g st -> Forall2 (same_el x) (nd_els x) els -> (index <= nd_offset x -> els = nd_els x) ->
    0 <= index -> index + Z.of_nat (length ls) = Z.of_nat (length (nd_layers x)) ->
    (length g + length ls <= length (d_heights d))%nat ->
    Z.of_nat (length (grid_cells (g ++ die_layers x index ls))) <= ncells ->
    exists st', position_die d ncells x ls index els st = Ok (ranges x g index ls els, st') /\ st_at hs N (g ++ die_layers x index ls) st'.
  Proof.
    intros x A B POS ls. induction ls as [|l ls IH]; intros index els g st ST SM FRESH I0 IL LEN CNT.
    - exists st. cbn [position_die die_layers]. rewrite app_nil_r. split; [|exact ST]. unfold ranges. cbn [length]. replace ((index <=? nd_offset x) && (nd_offset x <? index + Z.of_nat 0)) with false by lia. reflexivity.
    - cbn [length] in LEN, IL. cbn [position_die]. rewrite (get_height g st ST) by lia. cbn [bind].
      set (src := index =? nd_offset x).
      set (L := (0, flat_map (element_cells x src l) (nd_els x)) : nlayer).
      assert (EQ : g ++ die_layers x index (l :: ls) = (g ++ [L]) ++ die_layers x (index + 1) ls) by (rewrite <- app_assoc; reflexivity).
      rewrite EQ in *. pose proof (cells_mono (g ++ [L]) (die_layers x (index + 1) ls)) as MONO.
      assert (CL : Z.of_nat (length (grid_cells g)) + els_count x (nd_els x) <= ncells).
      { assert (Z.of_nat (length (grid_cells (g ++ [L]))) = Z.of_nat (length (grid_cells g)) + els_count x (nd_els x)).
        { rewrite grid_cells_app, app_length, Nat2Z.inj_add. f_equal. unfold grid_cells. cbn [flat_map L snd]. rewrite app_nil_r. apply els_count_length; assumption. }
        lia. }
      pose proof (same_count _ _ _ SM) as SC. pose proof (same_good _ _ _ SM B) as SG.
      pose proof ST as (C0 & _ & _ & LY & ZZ & _).
      assert (NL : Z.of_nat (length (ns_cells st)) = Z.of_nat (length (grid_cells g))) by (rewrite C0, number_length; reflexivity).
      set (mk := fun r m => mkCell (ns_layer st) r (ns_z st) (nth (length g) hs 0%Q) false m).
      assert (CS : fst (position_elements (nd_dx x) (nd_dy x) src mk (ly_mat l) (Z.of_nat (length (ns_cells st))) els) = map (cell_of hs (length g)) (flat_map (element_cells x src l) (nd_els x))).
      { rewrite position_elements_cells by (assumption || lia).
        rewrite (same_flat x (nd_els x) els (fun rs om => map (fun r => mk r (if src then match om with Some m => m | None => ly_mat l end else ly_mat l)) rs) SM).
        rewrite !flat_map_concat_map, concat_map, map_map. f_equal. apply map_ext. intros e. unfold element_cells. rewrite map_map. apply map_ext. intros r. unfold mk, cell_of, element_material. cbn [g_rect g_channel g_mat]. rewrite LY, ZZ. reflexivity. }
      destruct (push_spec hs N g st _ 0 (flat_map (element_cells x src l) (nd_els x)) ST ltac:(lia) ltac:(unfold hs; rewrite app_length; cbn; lia) nw CS ncells ltac:(apply Z.le_trans with (2 := CNT); apply Nat2Z.inj_le; exact MONO)) as (st' & P & ST').
      fold mk. rewrite P. cbn [bind]. fold L in ST'.
      set (els' := snd (position_elements (nd_dx x) (nd_dy x) src mk (ly_mat l) (Z.of_nat (length (ns_cells st))) els)).
      assert (ELS : els' = if src then ranged x (Z.of_nat (length (grid_cells g))) els else els).
      { unfold els'. destruct src eqn:SRC; [|apply position_elements_other]. rewrite NL. unfold src in SRC. apply Z.eqb_eq in SRC. rewrite FRESH in * by lia. apply position_elements_source; try assumption; try lia. apply POS. lia. }
      assert (SM' : Forall2 (same_el x) (nd_els x) els').
      { rewrite ELS. destruct src eqn:SRC; [|exact SM]. unfold src in SRC. apply Z.eqb_eq in SRC. rewrite FRESH by lia. apply ranged_same. }
      destruct (IH (index + 1) els' (g ++ [L]) st' ST' SM') as (st'' & P' & ST'').
      + intros LE. rewrite ELS. unfold src. destruct (Z.eqb_spec index (nd_offset x)); [lia|]. apply FRESH. lia.
      + lia.
      + lia.
      + rewrite app_length. cbn [length]. lia.
      + exact CNT.
      + rewrite P'. eexists. split; [|exact ST'']. f_equal. f_equal. unfold ranges. rewrite EQ. rewrite app_length. cbn [length].
        rewrite ELS. unfold src. destruct (Z.eqb_spec index (nd_offset x)) as [E|E].
        * replace (index + 1 <=? nd_offset x) with false by lia. cbn [andb]. replace ((index <=? nd_offset x) && (nd_offset x <? index + Z.of_nat (S (length ls)))) with true by lia.
          f_equal. rewrite <- app_assoc. rewrite first_cell_prefix by lia. replace (length g + Z.to_nat (nd_offset x - index))%nat with (length g) by lia. rewrite first_cell_all. reflexivity.
        * replace ((index <=? nd_offset x) && (nd_offset x <? index + Z.of_nat (S (length ls)))) with ((index + 1 <=? nd_offset x) && (nd_offset x <? index + 1 + Z.of_nat (length ls))) by lia.
          destruct ((index + 1 <=? nd_offset x) && _) eqn:IN; [|reflexivity]. f_equal. f_equal. lia.
  Qed.

  (** Channels. *)
  Fixpoint channel_layers_from (m : channel_model) (n : nat) (index : Z) : list nlayer :=
    match n with
    | O => []
    | S n' => (channel_layer_type m index, map (fun k => mkG (channel_rect d k) (is_channel_cell d m index k) material0) (indexes (u32 (d_ncols d * d_nrows d)))) :: channel_layers_from m n' (index + 1)
    end.

  Lemma position_channel_spec : forall m n index g st, st_at hs N g st -> (length g + n <= length (d_heights d))%nat ->
    Z.of_nat (length (grid_cells (g ++ channel_layers_from m n index))) <= ncells ->
    exists st', position_channel d ncells m n index st = Ok st' /\ st_at hs N (g ++ channel_layers_from m n index) st'.
  Proof.
    intros m n. induction n as [|n IH]; intros index g st ST LEN CNT.
    - exists st. cbn. rewrite app_nil_r. split; [reflexivity|exact ST].
    - cbn [channel_layers_from] in *.
      set (cs := map (fun k => mkG (channel_rect d k) (is_channel_cell d m index k) material0) (indexes (u32 (d_ncols d * d_nrows d)))) in *.
      set (L := (channel_layer_type m index, cs) : nlayer) in *.
      assert (EQ : g ++ L :: channel_layers_from m n (index + 1) = (g ++ [L]) ++ channel_layers_from m n (index + 1)) by (rewrite <- app_assoc; reflexivity).
      assert (CNT' : Z.of_nat (length (grid_cells ((g ++ [L]) ++ channel_layers_from m n (index + 1)))) <= ncells) by (rewrite <- EQ; exact CNT). clear CNT. rename CNT' into CNT.
      enough (GOAL : exists st', position_channel d ncells m (S n) index st = Ok st' /\ st_at hs N ((g ++ [L]) ++ channel_layers_from m n (index + 1)) st').
      { destruct GOAL as (st' & P & Q'). exists st'. split; [|rewrite <- EQ in Q'; exact Q']. rewrite <- P. cbn [position_channel]. rewrite (get_height g st ST) by lia. reflexivity. }
      cbn [position_channel]. rewrite (get_height g st ST) by lia. cbn [bind].
      pose proof (cells_mono (g ++ [L]) (channel_layers_from m n (index + 1))) as MONO. pose proof ST as (C0 & _ & _ & LY & ZZ & _).
      destruct (push_spec hs N g st (map (fun k => mkCell (ns_layer st) (channel_rect d k) (ns_z st) (nth (length g) hs 0%Q) (is_channel_cell d m index k) material0) (indexes (u32 (d_ncols d * d_nrows d)))) (channel_layer_type m index) cs ST ltac:(lia) ltac:(unfold hs; rewrite app_length; cbn; lia) nw) with (ncells := ncells) as (st' & P & ST').
      + unfold cs. rewrite map_map. apply map_ext. intros k. unfold cell_of. cbn [g_rect g_channel g_mat]. rewrite LY, ZZ. reflexivity.
      + apply Z.le_trans with (2 := CNT). apply Nat2Z.inj_le. exact MONO.
      + rewrite P. cbn [bind]. fold L in ST'. destruct (IH (index + 1) (g ++ [L]) st' ST') as (st'' & P' & ST''); [rewrite app_length; cbn [length]; lia|exact CNT|]. exists st''. split; [exact P'|exact ST''].
  Qed.

  Lemma channel_cells_eq : forall co m index, 0 <= d_ncols d < two32 -> 0 <= d_nrows d -> d_ncols d * d_nrows d < two32 ->
    (forall c, 0 <= c < d_ncols d -> is_channel_cell d m index c = co c) ->
    (forall k, is_channel_cell d m index k = is_channel_cell d m index (k mod d_ncols d)) ->
    map (fun k => mkG (channel_rect d k) (is_channel_cell d m index k) material0) (indexes (u32 (d_ncols d * d_nrows d))) = channel_cells d co.
  Proof.
    intros co m index A B C E K. unfold channel_cells, indexes. pose proof (Z.mul_nonneg_nonneg _ _ (proj1 A) B). rewrite u32_id by lia. apply map_ext_in. intros k I. apply in_zrange in I.
    rewrite K. f_equal. apply E. apply Z.mod_pos_bound. destruct (Z.eq_dec (d_ncols d) 0) as [Z0|]; [rewrite Z0 in I; lia|lia].
  Qed.

  Lemma channel_kind : forall m, m <> CM_NONE -> good_factors (d_ncols d) (d_nrows d) -> d_ncols d * d_nrows d < two32 ->
    channel_layers_from m (Z.to_nat (channel_layers m)) 0 = kind_layers d (NuChannel m).
  Proof.
    intros m M (A & B) C.
    assert (S0 : forall i, (i =? 2) = false -> m <> CM_MC_4RM -> map (fun k => mkG (channel_rect d k) (is_channel_cell d m i k) material0) (indexes (u32 (d_ncols d * d_nrows d))) = channel_cells d (fun _ => false)).
    { intros i I N4. apply channel_cells_eq; try lia; intros; unfold is_channel_cell; destruct m; try congruence; auto. }
    assert (S1 : m <> CM_MC_4RM -> map (fun k => mkG (channel_rect d k) (is_channel_cell d m 2 k) material0) (indexes (u32 (d_ncols d * d_nrows d))) = channel_cells d (fun _ => true)).
    { intros N4. apply channel_cells_eq; try lia; intros; unfold is_channel_cell; destruct m; try congruence; auto. }
    destruct m; try congruence;
      match goal with |- channel_layers_from ?m (Z.to_nat (channel_layers ?m)) 0 = _ => set (k := Z.to_nat (channel_layers m)); vm_compute in k; subst k end;
      cbn [channel_layers_from]; change (0 + 1) with 1; change (1 + 1) with 2; change (2 + 1) with 3;
      try (rewrite (S0 0), (S0 1), (S0 3) by (reflexivity || congruence); rewrite S1 by congruence; reflexivity).
    cbn [kind_layers]. unfold channel_layer_type.
    f_equal. f_equal. apply channel_cells_eq; try lia.
    - intros c Hc. unfold is_channel_cell. rewrite Z.mod_small by lia. rewrite u32_id by lia.
      rewrite Zmod_odd. destruct (Z.odd c) eqn:O; cbn [Z.eqb negb]; [|rewrite andb_false_r; reflexivity]. rewrite andb_true_r. cbn [andb]. destruct (Z.eqb_spec c 0) as [->|]; [discriminate O|]. reflexivity.
    - intros k. unfold is_channel_cell. destruct (Z.eq_dec (d_ncols d) 0) as [E|E]; [rewrite E, !Zmod_0_r; reflexivity|]. rewrite Z.mod_mod by exact E. reflexivity.
  Qed.

  (** One element. *)
  Definition ranged_kind (g : list nlayer) (e : nu_kind) : nu_kind :=
    match e with
    | NuDie x => NuDie (with_els x (ranges x g 0 (rev (nd_layers x)) (nd_els x)))
    | _ => e
    end.
  Definition sources_ok (e : nu_kind) : Prop :=
    match e with
    | NuDie x => 0 <= nd_offset x < Z.of_nat (length (nd_layers x)) -> positive_els x (nd_els x)
    | _ => True
    end.

  Lemma kind_layers_count : forall e, good_kind e -> Z.of_nat (length (kind_layers d e)) = nu_nlayers e.
  Proof.
    intros e G. destruct e as [x|dx dy|m].
    - cbn [kind_layers nu_nlayers]. rewrite die_layers_length, rev_length. reflexivity.
    - reflexivity.
    - cbn in G. destruct m; try congruence; reflexivity.
  Qed.

  Hypothesis fac : good_factors (d_ncols d) (d_nrows d).

  Lemma position_element_spec : forall e g st, good_kind e -> sources_ok e -> st_at hs N g st ->
    (length g + length (kind_layers d e) <= length (d_heights d))%nat ->
    Z.of_nat (length (grid_cells (g ++ kind_layers d e))) <= ncells ->
    exists st', position_element d ncells e st = Ok (ranged_kind g e, st') /\ st_at hs N (g ++ kind_layers d e) st'.
  Proof.
    intros e g st G SO ST LEN CNT. destruct e as [x|dx dy|m].
    - destruct G as (G1 & G2). cbn [position_element kind_layers] in *. rewrite die_layers_length in LEN.
      destruct (position_die_spec x G1 G2 SO (rev (nd_layers x)) 0 (nd_els x) g st ST (same_refl x (nd_els x)) ltac:(reflexivity) ltac:(lia) ltac:(rewrite rev_length; lia) LEN CNT) as (st' & P & ST').
      rewrite P. cbn [bind fst snd]. exists st'. split; [reflexivity|exact ST'].
    - cbn [position_element kind_layers] in *. cbn [length] in LEN. rewrite (get_height g st ST) by lia. cbn [bind]. destruct G as (D1 & D2). pose proof ST as (_ & _ & _ & LY & ZZ & _).
      assert (K : dx * dy <= ncells).
      { rewrite grid_cells_app, app_length in CNT. unfold grid_cells in CNT at 2. cbn [flat_map snd] in CNT. rewrite app_nil_r in CNT. unfold plain_cells in CNT. rewrite map_length in CNT.
        rewrite Nat2Z.inj_add, cut_length in CNT by (cbn; lia). cbn [fst snd] in CNT. lia. }
      pose proof (Z.mul_nonneg_nonneg dx dy ltac:(lia) ltac:(lia)).
      destruct (push_spec hs N g st (map (fun k => mkCell (ns_layer st) (sub_rect 0 0 (d_chip_length d) (d_chip_width d) dx dy k) (ns_z st) (nth (length g) hs 0%Q) false material0) (indexes (u32 (dx * dy)))) 0 (plain_cells (cut 0 0 (d_chip_length d) (d_chip_width d) (dx, dy))) ST ltac:(lia) ltac:(unfold hs; rewrite app_length; cbn; lia) nw) with (ncells := ncells) as (st' & P & ST').
      + unfold plain_cells, cut, indexes. rewrite !map_map. cbn [fst snd]. rewrite u32_id by lia. apply map_ext. intros k. unfold cell_of. cbn [g_rect g_channel g_mat]. rewrite LY, ZZ. reflexivity.
      + exact CNT.
      + rewrite P. cbn [bind]. exists st'. split; [reflexivity|exact ST'].
    - cbn [position_element]. cbn in G.
      assert (K : (kind_layers d (NuChannel m)) = channel_layers_from m (Z.to_nat (channel_layers m)) 0).
      { symmetry. apply channel_kind; auto. destruct fac as (F1 & F2). rewrite <- (channel_cells_count d (fun _ => false)) by lia.
        apply Z.le_lt_trans with ncells; [|exact cw]. apply Z.le_trans with (2 := CNT). apply Nat2Z.inj_le. rewrite grid_cells_app, app_length.
        destruct m; try congruence; unfold grid_cells; cbn [kind_layers flat_map snd]; rewrite ?app_length; try lia. unfold channel_cells. rewrite !map_length. lia. }
      rewrite K in *. destruct (position_channel_spec m (Z.to_nat (channel_layers m)) 0 g st ST) as (st' & P & ST').
      + assert (L : length (channel_layers_from m (Z.to_nat (channel_layers m)) 0) = Z.to_nat (channel_layers m)) by (destruct m; reflexivity). rewrite L in LEN. exact LEN.
      + exact CNT.
      + rewrite P. cbn [bind]. exists st'. split; [reflexivity|exact ST'].
  Qed.

  (** The stack, bottom-most first. *)
  Fixpoint ranged_stack (g : list nlayer) (es : list nu_kind) : list nu_kind :=
    match es with [] => [] | e :: t => ranged_kind g e :: ranged_stack (g ++ kind_layers d e) t end.

  Lemma position_stack_spec : forall es g st, Forall good_kind es -> Forall sources_ok es -> st_at hs N g st ->
    (length g + length (flat_map (kind_layers d) es) <= length (d_heights d))%nat ->
    Z.of_nat (length (grid_cells (g ++ flat_map (kind_layers d) es))) <= ncells ->
    exists st', position_stack d ncells es st = Ok (ranged_stack g es, st') /\ st_at hs N (g ++ flat_map (kind_layers d) es) st'.
  Proof.
    intros es. induction es as [|e es IH]; intros g st G SO ST LEN CNT.
    - exists st. cbn. rewrite app_nil_r. split; [reflexivity|exact ST].
    - cbn [flat_map] in *. rewrite app_assoc in *. rewrite app_length in LEN. inversion G; subst. inversion SO; subst. cbn [position_stack].
      destruct (position_element_spec e g st) as (st' & P & ST'); auto; [lia| |].
      + apply Z.le_trans with (2 := CNT). apply Nat2Z.inj_le. apply cells_mono.
      + rewrite P. cbn [bind fst snd]. destruct (IH (g ++ kind_layers d e) st') as (st'' & P' & ST''); auto; [rewrite app_length; lia|]. rewrite P'. cbn [bind fst snd]. exists st''. split; [reflexivity|exact ST''].
  Qed.
End Position.

Lemma total_layers_app : forall a b, total_layers (a ++ b) = total_layers a + total_layers b.
Proof. intros a b. induction a as [|e a IH]; [reflexivity|]. cbn. fold (total_layers (a ++ b)) (total_layers a). lia. Qed.
Lemma total_layers_rev : forall es, total_layers (rev es) = total_layers es.
Proof. intros es. induction es as [|e es IH]; [reflexivity|]. cbn [rev]. rewrite total_layers_app, IH. cbn. fold (total_layers es). lia. Qed.
Lemma layers_length : forall d es, Forall good_kind es -> Z.of_nat (length (flat_map (kind_layers d) es)) = total_layers es.
Proof. intros d es G. induction G as [|e es G1 G IH]; [reflexivity|]. cbn [flat_map]. rewrite app_length, Nat2Z.inj_add, IH, kind_layers_count by exact G1. reflexivity. Qed.

(** The cells, layers and types are those of the grid. *)
Theorem position_spec : forall d top past es, nu_stack_ok d top es -> Forall sources_ok es ->
    exists st, get_cell_position d top past (Z.of_nat (length (grid_cells (grid d top es)))) es = Ok (rev (ranged_stack d [] (rev es)), st) /\
               st_at (d_heights d ++ [past]) (Z.to_nat (d_nlayers d + 1)) (grid d top es) st.
Proof.
  intros d top past es (G & T & F & NL & HL & LW & CW) SO. set (ncells := Z.of_nat (length (grid_cells (grid d top es)))) in *.
  assert (TL : 0 <= total_layers es) by lia. set (N := Z.to_nat (d_nlayers d + 1)).
  assert (NW : Z.of_nat N < two32) by (unfold N; lia). assert (HN : (length (d_heights d) < N)%nat) by (unfold N; lia).
  assert (LN : Z.of_nat (length (flat_map (kind_layers d) (rev es))) = total_layers es) by (rewrite layers_length by (apply Forall_rev; exact G); apply total_layers_rev).
  unfold get_cell_position. fold N.
  assert (CNT : Z.of_nat (length (grid_cells (flat_map (kind_layers d) (rev es)))) <= ncells) by (unfold ncells, grid; apply Nat2Z.inj_le; apply cells_mono).
  destruct (position_stack_spec d past ncells N NW CW HN F (rev es) [] (mkNs [] (repeat 0 N) (repeat 0 N) 0 0%Q)) as (st & P & ST).
  - apply Forall_rev. exact G.
  - apply Forall_rev. exact SO.
  - repeat split; cbn; rewrite ?Nat.sub_0_r; try reflexivity. lia.
  - cbn [length Nat.add]. lia.
  - exact CNT.
  - rewrite P. cbn [bind app] in *. destruct top as [[a b|a b c]|]; [| |congruence]; cbn [spreader_present bind].
    + exists st. split; [reflexivity|]. unfold grid. cbn [spreader_layer is_pluggable]. rewrite app_nil_r. exact ST.
    + cbn [fst snd]. pose proof ST as (_ & _ & _ & LY & ZZ & _). set (g := flat_map (kind_layers d) (rev es)) in *. destruct F as (F1 & F2).
      assert (K : d_ncols d * d_nrows d <= ncells).
      { unfold ncells, grid. cbn [spreader_layer is_pluggable]. rewrite grid_cells_app, app_length. unfold grid_cells at 2. cbn [flat_map snd]. rewrite app_nil_r. unfold plain_cells. rewrite map_length, Nat2Z.inj_add, cut_length by (cbn; lia). cbn [fst snd]. lia. }
      pose proof (Z.mul_nonneg_nonneg (d_ncols d) (d_nrows d) ltac:(lia) ltac:(lia)).
      destruct (push_spec (d_heights d ++ [past]) N g st (map (fun k => mkCell (ns_layer st) (sub_rect 0 0 (d_chip_length d) (d_chip_width d) (d_ncols d) (d_nrows d) k) (ns_z st) past false material0) (indexes (u32 (d_ncols d * d_nrows d)))) 4 (plain_cells (cut 0 0 (d_chip_length d) (d_chip_width d) (d_ncols d, d_nrows d))) ST ltac:(lia) ltac:(rewrite app_length; cbn; lia) NW) with (ncells := ncells) as (st' & P' & ST').
      * unfold plain_cells, cut, indexes. rewrite !map_map. cbn [fst snd]. rewrite u32_id by lia. apply map_ext. intros k. unfold cell_of. cbn [g_rect g_channel g_mat]. rewrite LY, ZZ.
        rewrite app_nth2 by lia. replace (length g - length (d_heights d))%nat with 0%nat by lia. reflexivity.
      * apply Z.eq_le_incl. reflexivity.
      * rewrite app_nth2 in P' by lia. replace (length g - length (d_heights d))%nat with 0%nat in P' by lia. cbn [nth] in P'. rewrite P'. cbn [bind]. exists st'. split; [reflexivity|]. exact ST'.
Qed.
