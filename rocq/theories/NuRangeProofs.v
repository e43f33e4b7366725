(** * The index range of an element denotes its cells in the source layer *)
From Coq Require Import ZArith List Bool QArith Lia ZifyBool.
From Verif Require Import Base Dims Floorplan FloorplanProofs Stack NonUniform NuSpec NuGeomProofs NuCountProofs NuPositionProofs.
Import ListNotations.
Local Open Scope Z_scope.

Lemma ranged_stack_app : forall d a b g, ranged_stack d g (a ++ b) = ranged_stack d g a ++ ranged_stack d (g ++ flat_map (kind_layers d) a) b.
Proof.
  intros d a. induction a as [|e a IH]; intros b g; [cbn; rewrite app_nil_r; reflexivity|]. cbn [app ranged_stack flat_map]. rewrite IH, app_assoc. reflexivity.
Qed.
Lemma ranged_stack_length : forall d es g, length (ranged_stack d g es) = length es.
Proof. intros d es. induction es as [|e es IH]; intros g; [reflexivity|]. cbn. rewrite IH. reflexivity. Qed.

Lemma ranged_at : forall d above e below,
    nth_error (rev (ranged_stack d [] (rev (above ++ e :: below)))) (length above) = Some (ranged_kind (flat_map (kind_layers d) (rev below)) e).
Proof.
  intros d above e below. rewrite rev_app_distr. cbn [rev]. rewrite <- app_assoc. cbn [app]. rewrite ranged_stack_app. cbn [ranged_stack app]. rewrite rev_app_distr. cbn [rev]. rewrite <- app_assoc.
  rewrite nth_error_app2 by (rewrite rev_length, ranged_stack_length, rev_length; lia). rewrite rev_length, ranged_stack_length, rev_length, Nat.sub_diag. reflexivity.
Qed.

Lemma ranged_nth : forall x els base j e, nth_error els j = Some e ->
    exists e', nth_error (ranged x base els) j = Some e' /\ ni_start (ne_first e') = base + els_count x (firstn j els) /\
               ni_end (ne_first e') = base + els_count x (firstn j els) + fst (discretisation x e) * snd (discretisation x e) - 1 /\
               element_rects x e' = element_rects x e /\ ne_others e' = ne_others e.
Proof.
  intros x els. induction els as [|a els IH]; intros base j e H; [destruct j; discriminate H|]. destruct j as [|j].
  - cbn in H. injection H as ->. cbn [ranged nth_error firstn els_count fold_right]. eexists. split; [reflexivity|]. cbn [ne_first set_range ni_start ni_end]. split; [lia|]. split; [lia|]. split; reflexivity.
  - cbn [nth_error] in H. destruct (IH (base + fst (discretisation x a) * snd (discretisation x a)) j e H) as (e' & E & S1 & S2 & S3). exists e'. cbn [ranged nth_error]. split; [exact E|].
    cbn [firstn els_count fold_right]. fold (els_count x (firstn j els)). split; [lia|]. split; [lia|exact S3].
Qed.

Lemma skipn_app_exact : forall {A} (a b : list A) n, n = length a -> skipn n (a ++ b) = b.
Proof. intros A a b n ->. rewrite skipn_app, skipn_all, Nat.sub_diag. reflexivity. Qed.
Lemma firstn_app_exact : forall {A} (a b : list A) n, n = length a -> firstn n (a ++ b) = a.
Proof. intros A a b n ->. rewrite firstn_app, firstn_all, Nat.sub_diag. cbn. apply app_nil_r. Qed.

Lemma slice_cells : forall hs (g1 : list nlayer) t c1 c2 c3 (g2 : list nlayer) a b,
    a = first_cell (g1 ++ (t, c1 ++ c2 ++ c3) :: g2) (length g1) + Z.of_nat (length c1) -> b = a + Z.of_nat (length c2) - 1 ->
    slice (number hs 0 (g1 ++ (t, c1 ++ c2 ++ c3) :: g2)) a b = map (cell_of hs (length g1)) c2.
Proof.
  intros hs g1 t c1 c2 c3 g2 a b -> ->. rewrite first_cell_prefix by lia. rewrite first_cell_all. unfold slice. rewrite number_app. cbn [number snd Nat.add]. rewrite !map_app, <- !app_assoc.
  rewrite (app_assoc (number hs 0 g1)). rewrite skipn_app_exact; [|rewrite app_length, map_length, number_length, <- Nat2Z.inj_add; apply Nat2Z.id].
  apply firstn_app_exact. rewrite map_length. lia.
Qed.

Lemma die_layers_split : forall x ls i k l, nth_error ls k = Some l ->
    exists g1 g2, die_layers x i ls = g1 ++ (0, flat_map (element_cells x (i + Z.of_nat k =? nd_offset x) l) (nd_els x)) :: g2 /\ length g1 = k.
Proof.
  intros x ls. induction ls as [|a ls IH]; intros i k l H; [destruct k; discriminate H|]. destruct k as [|k].
  - cbn in H. injection H as ->. exists [], (die_layers x (i + 1) ls). cbn [die_layers app]. replace (i + Z.of_nat 0) with i by lia. split; reflexivity.
  - cbn [nth_error] in H. destruct (IH (i + 1) k l H) as (g1 & g2 & E & L). cbn [die_layers]. rewrite E. eexists (_ :: g1), g2. cbn [app length]. rewrite L.
    replace (i + Z.of_nat (S k)) with (i + 1 + Z.of_nat k) by lia. split; reflexivity.
Qed.

Theorem range_spec : forall d top past es above x below st, nu_stack_ok d top es -> Forall sources_ok es -> es = above ++ NuDie x :: below ->
    st_at (d_heights d ++ [past]) (Z.to_nat (d_nlayers d + 1)) (grid d top es) st ->
    0 <= nd_offset x ->
    forall l, nth_error (rev (nd_layers x)) (Z.to_nat (nd_offset x)) = Some l ->
    exists x', nth_error (rev (ranged_stack d [] (rev es))) (length above) = Some (NuDie x') /\ length (nd_els x') = length (nd_els x) /\ nd_offset x' = nd_offset x /\
    forall j e, nth_error (nd_els x) j = Some e ->
      exists e', nth_error (nd_els x') j = Some e' /\ ne_others e' = ne_others e /\
        ni_start (ne_first e') = first_cell (grid d top es) (Z.to_nat (total_layers below + nd_offset x)) + Z.of_nat (length (flat_map (element_cells x true l) (firstn j (nd_els x)))) /\
        ni_end (ne_first e') = ni_start (ne_first e') + Z.of_nat (length (element_cells x true l e)) - 1 /\ ni_end (ne_first e') < Z.of_nat (length (ns_cells st)) /\
        slice (ns_cells st) (ni_start (ne_first e')) (ni_end (ne_first e')) =
        map (cell_of (d_heights d ++ [past]) (Z.to_nat (total_layers below + nd_offset x))) (element_cells x true l e).
Proof.
  intros d top past es above x below st OK SO EQ ST OFF l HL. pose proof OK as (G & T & F & NL & HH & LW & CW).
  rewrite EQ in G. apply Forall_app in G. destruct G as (G0 & G). inversion G as [|? ? GX GB]; subst x0 l0. destruct GX as (GX1 & GX2).
  eexists. split; [rewrite EQ; rewrite ranged_at; cbn [ranged_kind]; reflexivity|]. set (gb := flat_map (kind_layers d) (rev below)).
  assert (LB : Z.of_nat (length gb) = total_layers below) by (unfold gb; rewrite layers_length by (apply Forall_rev; exact GB); apply total_layers_rev).
  cbn [with_els nd_els].
  assert (IN : (Z.to_nat (nd_offset x) < length (rev (nd_layers x)))%nat) by (apply nth_error_Some; congruence).
  unfold ranges. replace ((0 <=? nd_offset x) && (nd_offset x <? 0 + Z.of_nat (length (rev (nd_layers x))))) with true by lia.
  set (base := first_cell _ _).
  destruct (die_layers_split x (rev (nd_layers x)) 0 (Z.to_nat (nd_offset x)) l HL) as (g1 & g2 & DS & L1).
  replace (0 + Z.of_nat (Z.to_nat (nd_offset x)) =? nd_offset x) with true in DS by lia.
  set (cs := flat_map (element_cells x true l) (nd_els x)) in *.
  assert (GR : exists g3, grid d top es = (gb ++ g1) ++ (0, cs) :: g3).
  { unfold grid. rewrite EQ, rev_app_distr. cbn [rev]. rewrite <- app_assoc. cbn [app]. rewrite flat_map_concat_map, map_app, concat_app, <- flat_map_concat_map. fold gb. cbn [map concat]. rewrite <- flat_map_concat_map. cbn [kind_layers]. rewrite DS.
    eexists. rewrite <- !app_assoc. cbn [app]. reflexivity. }
  destruct GR as (g3 & GR).
  assert (BASE : base = first_cell ((gb ++ g1) ++ (0, cs) :: g3) (length (gb ++ g1))).
  { unfold base. rewrite DS. replace (gb ++ g1 ++ (0, cs) :: g2) with ((gb ++ g1) ++ (0, cs) :: g2) by (rewrite <- app_assoc; reflexivity).
    rewrite Z.sub_0_r, <- L1, <- app_length. rewrite (first_cell_prefix (gb ++ g1) ((0, cs) :: g2)), (first_cell_prefix (gb ++ g1) ((0, cs) :: g3)) by lia. reflexivity. }
  split. { clear. generalize base. induction (nd_els x) as [|e els IH]; intros b; [reflexivity|]. cbn. f_equal. apply IH. }
  split; [reflexivity|].
  intros j e HE. destruct (ranged_nth x (nd_els x) base j e HE) as (e' & E' & S1 & S2 & _ & S4). exists e'. split; [exact E'|]. split; [exact S4|].
  destruct ST as (C & _). rewrite C, GR, S1, S2.
  apply nth_error_split in HE. destruct HE as (els1 & els2 & HE & LJ).
  assert (F1 : firstn j (nd_els x) = els1) by (rewrite HE; apply firstn_app_exact; lia). rewrite F1.
  assert (GF : Forall (fun e => good_factors (ni_dx (ne_first e)) (ni_dy (ne_first e))) els1 /\ good_factors (ni_dx (ne_first e)) (ni_dy (ne_first e))).
  { rewrite HE in GX2. apply Forall_app in GX2. destruct GX2 as (K1 & K2). inversion K2; subst. split; assumption. }
  assert (CSE : cs = flat_map (element_cells x true l) els1 ++ element_cells x true l e ++ flat_map (element_cells x true l) els2).
  { unfold cs. rewrite HE, flat_map_concat_map, map_app, concat_app, <- flat_map_concat_map. cbn [map concat]. rewrite <- flat_map_concat_map. reflexivity. }
  rewrite CSE in *.
  assert (LE : Z.of_nat (length (element_cells x true l e)) = fst (discretisation x e) * snd (discretisation x e)) by (rewrite element_cells_length by (apply GX1 || apply GF); reflexivity).
  assert (L0 : Z.of_nat (length (flat_map (element_cells x true l) els1)) = els_count x els1) by (rewrite els_count_length by (apply GX1 || apply GF); reflexivity).
  assert (BN : base = Z.of_nat (length (grid_cells (gb ++ g1)))) by (rewrite BASE, first_cell_prefix by lia; apply first_cell_all).
  split. { replace (Z.to_nat (total_layers below + nd_offset x)) with (length (gb ++ g1)) by (rewrite app_length; lia). rewrite L0, BASE. reflexivity. }
  split; [lia|]. split. { rewrite number_length, grid_cells_app, app_length. cbn [grid_cells flat_map snd]. rewrite !app_length. lia. }
  replace (Z.to_nat (total_layers below + nd_offset x)) with (length (gb ++ g1)) by (rewrite app_length; lia).
  apply slice_cells with (g2 := g3).
  - rewrite BASE. rewrite els_count_length by (apply GX1 || apply GF). reflexivity.
  - rewrite element_cells_length by (apply GX1 || apply GF). lia.
Qed.
