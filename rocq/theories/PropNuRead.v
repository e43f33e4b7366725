(** * C64: output instructions on the non-uniform grid *)
From Coq Require Import ZArith List Bool QArith Lia Lqa Sorted ZifyBool.
From Verif Require Import Base Dims DimsProofs Floorplan FloorplanSpec FloorplanProofs TempProofs Stack QSum PowerGrid Inspect PropInspect NonUniform NuSpec NuGeomProofs NuCountProofs NuPositionProofs NuRangeProofs NuGridProofs NuTileProofs NuFlatProofs NuInspect NuReadSpec NuReadProofs PropNonUniform PropNuGrid.
Import ListNotations.
Local Open Scope Z_scope.

(** The instruction names the element of the stack that stands on [below]. *)
Definition names (p : nipoint) (es' : list nu_kind) (above below : list nu_kind) : Prop :=
  nth_error es' (length above) = Some (nip_kind p) /\ nip_offset p = total_layers below.

Section Layer.
  Context (d : dims) (top : option top_sink) (past : Q) (above : list nu_kind) (e : nu_kind) (below : list nu_kind).
  Let es := above ++ e :: below.
  Hypothesis OK : nu_stack_ok d top es.
  Hypothesis SC : Forall some_cells es.
  Hypothesis SR : good_source e.
  Let k := meant_layer e below - total_layers below.

  Lemma meant_in : 0 <= k < nu_nlayers e.
  Proof.
    pose proof OK as (G & _). unfold es in G. apply Forall_app in G. destruct G as (_ & G). inversion G as [|? ? GE _]; subst.
    unfold k, meant_layer. destruct e as [x|dx dy|m]; cbn [nu_nlayers good_source good_kind] in *; [lia|lia|]. destruct m; cbn [channel_layers]; congruence || lia.
  Qed.
  Lemma below_pos : 0 <= total_layers below.
  Proof.
    pose proof OK as (G & _). unfold es in G. apply Forall_app in G. destruct G as (_ & G). inversion G as [|? ? _ GB]; subst.
    pose proof (layers_length d (rev below) ltac:(apply Forall_rev; exact GB)) as LB. rewrite total_layers_rev in LB. lia.
  Qed.
  Lemma total_app : forall a b, total_layers (a ++ b) = total_layers a + total_layers b.
  Proof. intros a b. induction a as [|y a IH]; [reflexivity|]. cbn [app total_layers fold_right]. fold (total_layers (a ++ b)) (total_layers a). rewrite IH. lia. Qed.
  Lemma meant_bound : 0 <= meant_layer e below < total_layers es.
  Proof.
    pose proof meant_in as M. pose proof below_pos as B. unfold k in M. pose proof OK as (G & _). unfold es in *. rewrite total_app. cbn [total_layers fold_right]. fold (total_layers below).
    apply Forall_app in G. destruct G as (G & _). pose proof (layers_length d above G). lia.
  Qed.
  Lemma grid_long : (Z.to_nat (meant_layer e below) < length (grid d top es))%nat.
  Proof.
    pose proof meant_bound as B. pose proof OK as (G & _). unfold grid. rewrite app_length. pose proof (layers_length d (rev es) ltac:(apply Forall_rev; exact G)) as LB. rewrite total_layers_rev in LB. lia.
  Qed.
  Lemma meant_cells : nth (Z.to_nat (meant_layer e below)) (grid d top es) (0, []) = nth (Z.to_nat k) (kind_layers d e) (0, []).
  Proof. pose proof OK as (G & _). replace (meant_layer e below) with (total_layers below + k) by (unfold k; lia). apply layer_at; [exact G|apply meant_in]. Qed.
  Lemma meant_source : forall n es' st p, nu_grid d top past es = Ok (n, es', st) -> names p es' above below -> nu_source_layer p = meant_layer e below.
  Proof.
    intros n es' st p P (N & O). destruct (grid_spec d top past es OK SC) as (st' & P' & _). rewrite P in P'.
    assert (E : es' = rev (ranged_stack d [] (rev (map fill es)))) by congruence. rewrite E in N. unfold es in N. rewrite map_app in N. cbn [map] in N.
    replace (length above) with (length (map fill above)) in N by apply map_length. rewrite ranged_at in N.
    pose proof meant_bound as B. pose proof OK as (_ & _ & _ & _ & _ & LT & _). unfold nu_source_layer. rewrite O.
    assert (K : nip_kind p = ranged_kind (flat_map (kind_layers d) (rev (map fill below))) (fill e)) by congruence. rewrite K. unfold meant_layer in *.
    destruct e as [x|dx dy|m]; cbn [fill ranged_kind with_els nd_offset]; [apply u32_id; lia|lia|]. destruct m; cbn [channel_source_offset]; rewrite u32_id by lia; reflexivity.
  Qed.
End Layer.

(** ** Tcell *)
(** The temperature of a cell of the layer that contains the point, if there is
    one; else that of cell 0, wherever that is. *)
Theorem C64_tcell : forall remote d top past es above e below,
    nu_stack_ok d top es -> Forall some_cells es -> es = above ++ e :: below -> good_source e ->
    exists n es' st, nu_grid d top past es = Ok (n, es', st) /\
    forall p temps sources q, nip_type p = OT_TCELL -> names p es' above below -> length temps = length (ns_cells st) -> temps <> [] ->
      let here := holds_point (ns_cells st) (meant_layer e below) (nip_x p) (nip_y p) in
      ((exists i, here i) -> exists i, here i /\ nu_ip_values remote d (ns_cells st) temps sources p q = Ok (Some [value temps i])) /\
      ((forall i, ~ here i) -> nu_ip_values remote d (ns_cells st) temps sources p q = Ok (Some [value temps 0])).
Proof.
  intros remote d top past es above e below OK SC -> SR. destruct (C41_cells d top past _ OK SC) as (n & es' & st & P & N & C & _). exists n, es', st. split; [exact P|].
  intros p temps sources q T NM LT NE here. pose proof (meant_source d top past above e below OK SC SR n es' st p P NM) as ML.
  pose proof OK as (_ & _ & _ & _ & _ & _ & CW). assert (LC : Z.of_nat (length (ns_cells st)) < two32) by (rewrite C, number_length; exact CW).
  unfold nu_ip_values. rewrite T, ML. split.
  - intros EX. destruct (find_some (ns_cells st) _ _ _ 0 ltac:(lia) ltac:(lia) EX) as (i & H & ->). exists i. split; [exact H|].
    assert (IL : (i < length (ns_cells st))%nat) by (destruct H as (c & E & _); apply nth_error_Some; congruence). rewrite (arr_get_ok temps _ 0%Q) by lia. cbn [bind]. replace (Z.to_nat (0 + Z.of_nat i)) with i by lia. reflexivity.
  - intros NO. rewrite (find_none _ _ _ _ 0 NO). rewrite (arr_get_ok temps _ 0%Q) by (destruct temps; [congruence|cbn; lia]). reflexivity.
Qed.
Print Assumptions C64_tcell.

(** Where the cells of the layer tile a rectangle (C42), exactly one cell contains
    a point of it and Tcell reports this one. *)
Lemma filter_at : forall {A} (f : A -> bool) l i a, nth_error l i = Some a -> f a = true -> nth_error (filter f l) (length (filter f (firstn i l))) = Some a.
Proof.
  intros A f l. induction l as [|b l IH]; intros i a E F; [destruct i; discriminate E|]. destruct i as [|i].
  - cbn in E. injection E as ->. cbn. rewrite F. reflexivity.
  - cbn [nth_error] in E. cbn [firstn filter]. destruct (f b); cbn [length nth_error]; apply IH; assumption.
Qed.
Lemma filter_less : forall {A} (f : A -> bool) l i j a, (i < j)%nat -> nth_error l i = Some a -> f a = true -> (length (filter f (firstn i l)) < length (filter f (firstn j l)))%nat.
Proof.
  intros A f l. induction l as [|b l IH]; intros i j a L E F; [destruct i; discriminate E|]. destruct j as [|j]; [lia|]. destruct i as [|i].
  - cbn in E. injection E as ->. cbn. rewrite F. cbn. lia.
  - cbn [nth_error] in E. cbn [firstn filter]. specialize (IH i j a ltac:(lia) E F). destruct (f b); cbn [length]; lia.
Qed.
Theorem C64_tcell_tiled : forall remote d top past es above e below R,
    nu_stack_ok d top es -> Forall some_cells es -> es = above ++ e :: below -> good_source e ->
    exists n es' st, nu_grid d top past es = Ok (n, es', st) /\
    (tiles (map c_rect (filter (fun c => c_layer c =? meant_layer e below) (ns_cells st))) R ->
     forall p temps sources q, nip_type p = OT_TCELL -> names p es' above below -> length temps = length (ns_cells st) -> inside R (nip_x p) (nip_y p) ->
       exists i, (forall i', holds_point (ns_cells st) (meant_layer e below) (nip_x p) (nip_y p) i' <-> i' = i) /\
         nu_ip_values remote d (ns_cells st) temps sources p q = Ok (Some [value temps i])).
Proof.
  intros remote d top past es above e below R OK SC EQ SR. destruct (C64_tcell remote d top past es above e below OK SC EQ SR) as (n & es' & st & P & RD). exists n, es', st. split; [exact P|].
  intros (T1 & _) p temps sources q T NM LT IN. destruct (T1 _ _ IN) as (k & r & E & I & U).
  set (f := fun c => c_layer c =? meant_layer e below) in *. rewrite nth_error_map in E. destruct (nth_error (filter f (ns_cells st)) k) as [c|] eqn:FC; [|discriminate E]. cbn in E.
  assert (IC : In c (ns_cells st) /\ f c = true) by (apply filter_In; eapply nth_error_In; exact FC). destruct IC as (IC & FT). apply In_nth_error in IC. destruct IC as (i0 & IC).
  assert (RC : c_rect c = r) by congruence. rewrite <- RC in I.
  assert (EX : holds_point (ns_cells st) (meant_layer e below) (nip_x p) (nip_y p) i0) by (exists c; split; [exact IC|]; split; [unfold f in FT; lia|exact I]).
  assert (IDX : forall i, holds_point (ns_cells st) (meant_layer e below) (nip_x p) (nip_y p) i -> length (filter f (firstn i (ns_cells st))) = k).
  { intros i (c' & E' & L' & I'). apply (U _ (c_rect c')); [|exact I']. rewrite nth_error_map, (filter_at f (ns_cells st) i c' E') by (unfold f; lia). reflexivity. }
  assert (UN : forall i j, holds_point (ns_cells st) (meant_layer e below) (nip_x p) (nip_y p) i -> holds_point (ns_cells st) (meant_layer e below) (nip_x p) (nip_y p) j -> i = j).
  { intros i j A B. pose proof (IDX i A) as KA. pose proof (IDX j B) as KB. destruct A as (ca & EA & LA & _). destruct B as (cb & EB & LB & _).
    destruct (Nat.lt_trichotomy i j) as [L|[L|L]]; [|exact L|].
    - pose proof (filter_less f (ns_cells st) i j ca L EA ltac:(unfold f; lia)). lia.
    - pose proof (filter_less f (ns_cells st) j i cb L EB ltac:(unfold f; lia)). lia. }
  assert (NE : temps <> []) by (intros ->; destruct (ns_cells st); [destruct i0; discriminate IC|discriminate LT]).
  destruct (RD p temps sources q T NM LT NE) as (YES & _). destruct (YES (ex_intro _ i0 EX)) as (i & H & V). exists i. split; [|exact V].
  intros i'. split; [intros H'; apply (UN _ _ H' H)|intros ->; exact H].
Qed.
Print Assumptions C64_tcell_tiled.

(** ** Tmap and Pmap *)
Theorem C64_maps : forall remote d top past es above e below,
    nu_stack_ok d top es -> Forall some_cells es -> es = above ++ e :: below -> good_source e ->
    exists n es' st, nu_grid d top past es = Ok (n, es', st) /\
    forall p temps sources q v, names p es' above below -> (nip_type p = OT_TMAP /\ v = temps \/ nip_type p = OT_PMAP /\ v = sources) -> length v = length (ns_cells st) ->
      exists m, nu_ip_values remote d (ns_cells st) temps sources p q = Ok (Some m) /\
        layer_values (ns_cells st) (meant_layer e below) v m /\ nu_layer_count (ns_cells st) (nu_source_layer p) 0 = Z.of_nat (length m).
Proof.
  intros remote d top past es above e below OK SC -> SR. destruct (C41_cells d top past _ OK SC) as (n & es' & st & P & N & C & _). exists n, es', st. split; [exact P|].
  intros p temps sources q v NM T LT. pose proof (meant_source d top past above e below OK SC SR n es' st p P NM) as ML.
  pose proof OK as (_ & _ & _ & _ & _ & _ & CW). assert (LC : Z.of_nat (length (ns_cells st)) < two32) by (rewrite C, number_length; exact CW).
  destruct (map_spec v (meant_layer e below) (ns_cells st) 0 ltac:(lia) ltac:(lia) ltac:(lia)) as (ns & SO & IN & M & CN). exists (map (value v) ns). rewrite ML. split; [|split].
  - unfold nu_ip_values. rewrite ML. destruct T as [(T & ->)|(T & ->)]; rewrite T, M; reflexivity.
  - exists ns. split; [exact SO|]. split; [|reflexivity]. intros i. rewrite IN. rewrite Nat.sub_0_r. split; [intros (_ & H); exact H|intros H; split; [lia|exact H]].
  - rewrite CN by lia. rewrite map_length. lia.
Qed.
Print Assumptions C64_maps.

(** ** Tflpel and Tflp *)
Lemma element_proper : forall x e r, 0 < fst (discretisation x e) -> 0 < snd (discretisation x e) -> (0 < ni_len (ne_first e) -> 0 < ni_wid (ne_first e) -> In r (element_rects x e) -> inside r (r_x0 r) (r_y0 r))%Q.
Proof.
  intros x e r A B L W I. unfold element_rects, cut in I. apply in_map_iff in I. destruct I as (k & <- & _). unfold inside, sub_rect. cbn [r_x0 r_y0 r_x1 r_y1].
  split; (split; [apply Qle_refl|apply step_inc; assumption]).
Qed.
Lemma element_area : forall x e r, 0 < fst (discretisation x e) -> 0 < snd (discretisation x e) -> In r (element_rects x e) ->
    (area r * qz (fst (discretisation x e) * snd (discretisation x e)) == area (rect_of (ne_first e)))%Q.
Proof.
  intros x e r A B I. unfold element_rects, cut in I. apply in_map_iff in I. destruct I as (k & <- & _). unfold area, sub_rect, rect_of. cbn [r_x0 r_y0 r_x1 r_y1].
  rewrite !qz_plus, qz_mult. change (qz 1) with 1%Q. pose proof (qz_pos _ A). pose proof (qz_pos _ B). field. split; lra.
Qed.

Lemma element_reads : forall d top past es above x below,
    nu_stack_ok d top es -> Forall some_cells es -> es = above ++ NuDie x :: below -> good_source (NuDie x) -> separate x ->
    exists n es' st x', nu_grid d top past es = Ok (n, es', st) /\ nth_error es' (length above) = Some (NuDie x') /\ length (nd_els x') = length (nd_els x) /\
    forall temps, length temps = length (ns_cells st) ->
    forall j e, nth_error (nd_els x) j = Some e -> exists e' hi lo av, nth_error (nd_els x') j = Some e' /\ ne_others e' = ne_others e /\
      nu_icel_max (ne_first e') temps = Ok hi /\ nu_icel_min (ne_first e') temps = Ok lo /\ nu_icel_avg (ne_first e') temps = Ok av /\
      let S := covers (ns_cells st) (meant_layer (NuDie x) below) (rect_of (ne_first e)) in hottest_of S temps hi /\ coldest_of S temps lo /\ mean_of S (ns_cells st) (rect_of (ne_first e)) temps av.
Proof.
  intros d top past es above x below OK SC EQ SR (POS & SEP). cbn [good_source] in SR.
  destruct (nth_error (rev (nd_layers x)) (Z.to_nat (nd_offset x))) as [l|] eqn:HL; [|apply nth_error_None in HL; rewrite rev_length in HL; lia].
  destruct (C41_ranges d top past es above x below OK SC EQ ltac:(lia) l HL) as (n & es' & st & x' & P & N & LX & OX & RG). exists n, es', st, x'. split; [exact P|]. split; [exact N|]. split; [exact LX|].
  intros temps LT j e HE. destruct (RG j e HE) as (e' & E' & OT & S0 & SE & SN & _). clear RG.
  destruct (C41_cells d top past es OK SC) as (n2 & es2 & st2 & P2 & N2 & C & _). assert (n2 = n /\ st2 = st) as (EN & EST) by (rewrite P2 in P; split; congruence). subst n2 st2. clear P2.
  set (hs := d_heights d ++ [past]) in *. set (g := grid d top es) in *. set (L := Z.to_nat (total_layers below + nd_offset x)) in *.
  assert (SCX : Forall (fun e => 0 < fst (discretisation x e) /\ 0 < snd (discretisation x e)) (nd_els x)). { rewrite EQ in SC. apply Forall_app in SC. destruct SC as (_ & SC). inversion SC as [|? ? SX _]; subst. exact SX. }
  rewrite Forall_forall in POS, SCX.
  pose proof (below_pos d top above (NuDie x) below ltac:(rewrite <- EQ; exact OK)) as TB.
  assert (ML : meant_layer (NuDie x) below = Z.of_nat L) by (cbn [meant_layer]; unfold L; rewrite Z2Nat.id; [reflexivity|lia]).
  assert (LL : (L < length g)%nat). { pose proof (grid_long d top above (NuDie x) below ltac:(rewrite <- EQ; exact OK) ltac:(rewrite <- EQ; exact SC) SR) as GL. rewrite <- EQ, ML, Nat2Z.id in GL. exact GL. }
  assert (LC : snd (nth L g (0, [])) = flat_map (element_cells x true l) (nd_els x)).
  { pose proof (meant_cells d top above (NuDie x) below ltac:(rewrite <- EQ; exact OK) ltac:(rewrite <- EQ; exact SC) SR) as MC. rewrite <- EQ, ML, Nat2Z.id in MC. fold g in MC. rewrite MC. cbn [meant_layer kind_layers].
    replace (Z.to_nat (Z.of_nat L - total_layers below)) with (Z.to_nat (nd_offset x)) by (unfold L; lia).
    destruct (die_layers_split x (rev (nd_layers x)) 0 (Z.to_nat (nd_offset x)) l HL) as (g1 & g2 & E & L1). rewrite E. rewrite app_nth2 by lia. rewrite L1, Nat.sub_diag. cbn [nth snd].
    replace (0 + Z.of_nat (Z.to_nat (nd_offset x)) =? nd_offset x) with true by lia. reflexivity. }
  assert (DE : 0 < fst (discretisation x e) /\ 0 < snd (discretisation x e)) by (apply SCX; eapply nth_error_In; exact HE). destruct DE as (D1 & D2).
  assert (PE : (0 < ni_len (ne_first e) /\ 0 < ni_wid (ne_first e))%Q) by (apply POS; eapply nth_error_In; exact HE). destruct PE as (PE1 & PE2).
  assert (LE : Z.of_nat (length (element_cells x true l e)) = fst (discretisation x e) * snd (discretisation x e)). { unfold element_cells, element_rects, cut. rewrite !map_length, zrange_length. nia. }
  set (R := rect_of (ne_first e)).
  assert (F0 : 0 <= first_cell g L) by (unfold first_cell; lia).
  (* cells of the range *)
  assert (IN1 : forall i, ni_start (ne_first e') <= Z.of_nat i <= ni_end (ne_first e') -> exists r, nth_error (ns_cells st) i = Some (cell_of hs L (mkG r false (element_material true l e))) /\ In r (element_rects x e)).
  { intros i I. rewrite S0 in *. set (o := length (flat_map (element_cells x true l) (firstn j (nd_els x)))) in *.
    destruct (nth_error (element_cells x true l e) (i - Z.to_nat (first_cell g L) - o)) as [gc|] eqn:G; [|apply nth_error_None in G; lia].
    pose proof (flat_at (element_cells x true l) (nd_els x) j e _ gc HE G) as FA. fold o in FA. rewrite <- LC in FA. pose proof (number_at hs g 0 L _ gc LL FA) as NA. rewrite Nat.add_0_l, <- C in NA.
    replace (Z.to_nat (first_cell g L + Z.of_nat (o + (i - Z.to_nat (first_cell g L) - o)))) with i in NA by lia.
    unfold element_cells in G. rewrite nth_error_map in G. destruct (nth_error (element_rects x e) _) as [r|] eqn:GR; [|discriminate G]. cbn [option_map] in G. exists r. split; [rewrite NA; replace gc with (mkG r false (element_material true l e)) by congruence; reflexivity|eapply nth_error_In; exact GR]. }
  assert (RNG : forall i, covers (ns_cells st) (Z.of_nat L) R i <-> ni_start (ne_first e') <= Z.of_nat i <= ni_end (ne_first e')).
  { intros i. split.
    - intros (px & py & IR & c & NC & CL & IC). rewrite C in NC. apply number_find in NC. destruct NC as (l2 & k & gc & L2 & NG & PI & ->). cbn [cell_of c_layer] in CL. assert (l2 = L) by lia. subst l2. rewrite LC in NG.
      apply flat_find in NG. destruct NG as (j2 & e2 & k2 & HE2 & NK & KP). unfold element_cells in NK. rewrite nth_error_map in NK. destruct (nth_error (element_rects x e2) k2) as [r|] eqn:GR; [|discriminate NK]. cbn [option_map] in NK.
      assert (IR2 : inside (rect_of (ne_first e2)) px py).
      { destruct (SCX e2 ltac:(eapply nth_error_In; exact HE2)) as (A & B). destruct (POS e2 ltac:(eapply nth_error_In; exact HE2)) as (A' & B'). destruct (element_tiles x e2 A B A' B') as (_ & T2). apply (T2 r); [eapply nth_error_In; exact GR|].
        cbn [cell_of c_rect] in IC. replace (g_rect gc) with r in IC by (replace gc with (mkG r false (element_material true l e2)) by congruence; reflexivity). exact IC. }
      assert (j2 = j) as ->. { destruct (Nat.eq_dec j2 j) as [J|J]; [exact J|]. exfalso. apply (SEP j2 j e2 e HE2 HE J px py); assumption. }
      assert (e2 = e) as -> by congruence. assert (K2 : (k2 < length (element_cells x true l e))%nat) by (unfold element_cells; rewrite map_length; apply nth_error_Some; congruence). lia.
    - intros I. destruct (IN1 i I) as (r & NR & IR). pose proof (element_proper x e r D1 D2 PE1 PE2 IR) as PR. destruct (element_tiles x e D1 D2 PE1 PE2) as (_ & T2).
      exists (r_x0 r), (r_y0 r). split; [apply (T2 r _ _ IR PR)|]. eexists. split; [exact NR|]. split; [reflexivity|exact PR]. }
  rewrite ML. pose proof (Z.mul_pos_pos _ _ D1 D2) as DD.
  assert (A0 : 0 <= ni_start (ne_first e')) by lia. assert (AB : ni_start (ne_first e') <= ni_end (ne_first e')) by lia. assert (BL : ni_end (ne_first e') < Z.of_nat (length temps)) by lia.
  destruct (range_max temps (ne_first e') _ A0 AB BL RNG) as (hi & HI & HH). destruct (range_min temps (ne_first e') _ A0 AB BL RNG) as (lo & LO & HLO).
  destruct (range_avg temps (ne_first e') _ A0 AB BL RNG (ns_cells st) R (area R / qz (fst (discretisation x e) * snd (discretisation x e)))%Q) as (av & AV & HAV).
  { intros i I. apply RNG in I. destruct (IN1 i I) as (r & NR & IR). unfold cell_area. rewrite NR. cbn [cell_of c_rect g_rect]. pose proof (element_area x e r D1 D2 IR) as AR. pose proof (qz_pos _ DD). fold R in AR. rewrite <- AR. field. lra. }
  { rewrite SE, LE. replace (ni_start (ne_first e') + fst (discretisation x e) * snd (discretisation x e) - 1 - ni_start (ne_first e') + 1) with (fst (discretisation x e) * snd (discretisation x e)) by lia. pose proof (qz_pos _ DD). field. lra. }
  exists e', hi, lo, av. split; [exact E'|]. split; [exact OT|]. split; [exact HI|]. split; [exact LO|]. split; [exact AV|]. cbv zeta. split; [exact HH|]. split; [exact HLO|exact HAV].
Qed.
Lemma element_single : forall cs l R temps e' hi lo av, ne_others e' = [] ->
    nu_icel_max (ne_first e') temps = Ok hi -> nu_icel_min (ne_first e') temps = Ok lo -> nu_icel_avg (ne_first e') temps = Ok av ->
    hottest_of (covers cs l R) temps hi -> coldest_of (covers cs l R) temps lo -> mean_of (covers cs l R) cs R temps av ->
    forall q, match nu_el_value q with None => q = OQ_NONE | Some g => exists v, g e' temps = Ok v /\ element_value cs l R temps q v end.
Proof.
  intros cs l R temps e' hi lo av NO' HI LO AV HH HLO HAV.
  intros q. destruct q; cbn [nu_el_value element_value]; [reflexivity| | | |].
  - unfold nu_el_avg. rewrite NO'. cbn [map_out]. rewrite AV. cbn [bind]. eexists. split; [reflexivity|]. cbn [fold_left length]. change (qz (Z.of_nat 1)) with 1%Q.
    destruct HAV as (ns & A & B & D & (E1 & E2)). exists ns. split; [exact A|]. split; [exact B|]. split; [exact D|]. assert (Q1 : ((0 + av) / 1 == av)%Q) by field. rewrite Q1. split; assumption.
  - unfold nu_el_max. rewrite NO', HI. cbn [bind map_out fold_left]. eexists. split; [reflexivity|exact HH].
  - unfold nu_el_min. rewrite NO', LO. cbn [bind map_out fold_left]. eexists. split; [reflexivity|exact HLO].
  - unfold nu_el_gradient. rewrite NO', LO, HI. cbn [bind map_out fold_left]. eexists. split; [reflexivity|]. exists hi, lo. split; [exact HH|]. split; [exact HLO|reflexivity].
Qed.

(** One rectangle: the value asked of the cells of the element, in the source layer. *)
Theorem C64_element : forall remote d top past es above x below,
    nu_stack_ok d top es -> Forall some_cells es -> es = above ++ NuDie x :: below -> good_source (NuDie x) -> separate x ->
    exists n es' st x', nu_grid d top past es = Ok (n, es', st) /\ nth_error es' (length above) = Some (NuDie x') /\
    forall j e, nth_error (nd_els x) j = Some e -> ne_others e = [] ->
      exists e', nth_error (nd_els x') j = Some e' /\
      forall p temps sources q, nip_type p = OT_TFLPEL -> nip_element p = Some e' -> q <> OQ_NONE -> length temps = length (ns_cells st) ->
        exists v, nu_ip_values remote d (ns_cells st) temps sources p q = Ok (Some [v]) /\
          element_value (ns_cells st) (meant_layer (NuDie x) below) (rect_of (ne_first e)) temps q v.
Proof.
  intros remote d top past es above x below OK SC EQ SR SEP. destruct (element_reads d top past es above x below OK SC EQ SR SEP) as (n & es' & st & x' & P & N & LX & RD). exists n, es', st, x'. split; [exact P|]. split; [exact N|].
  intros j e HE NO. destruct (nth_error (nd_els x') j) as [e'|] eqn:E'; [|apply nth_error_None in E'; assert (j < length (nd_els x))%nat by (apply nth_error_Some; congruence); lia]. exists e'. split; [reflexivity|].
  intros p temps sources q T PE NQ LT. destruct (RD temps LT j e HE) as (e2 & hi & lo & av & E2 & OT & V1 & V2 & V3 & V4 & V5 & V6). assert (e2 = e') as -> by congruence. pose proof (element_single _ _ _ temps e' hi lo av ltac:(congruence) V1 V2 V3 V4 V5 V6 q) as V. unfold nu_ip_values. rewrite T, PE.
  destruct (nu_el_value q) as [g|]; [|contradiction]. destruct V as (v & V & H). exists v. rewrite V. split; [reflexivity|exact H].
Qed.
Print Assumptions C64_element.

(** More rectangles: they have no cells and their ranges are as the parser leaves
    them, 0 to 0; cell 0 takes part instead, wherever it is. *)
Theorem C64_several_partial : forall remote d top past es above x below,
    nu_stack_ok d top es -> Forall some_cells es -> es = above ++ NuDie x :: below -> good_source (NuDie x) -> separate x ->
    exists n es' st x', nu_grid d top past es = Ok (n, es', st) /\ nth_error es' (length above) = Some (NuDie x') /\
    forall j e, nth_error (nd_els x) j = Some e -> ne_others e <> [] -> Forall (fun a => ni_start a = 0 /\ ni_end a = 0) (ne_others e) ->
      exists e', nth_error (nd_els x') j = Some e' /\
      forall p temps sources, nip_type p = OT_TFLPEL -> nip_element p = Some e' -> length temps = length (ns_cells st) ->
        let S := covers (ns_cells st) (meant_layer (NuDie x) below) (rect_of (ne_first e)) in
        let S0 := fun i => S i \/ i = 0%nat in
        exists hi lo av mean,
          nu_ip_values remote d (ns_cells st) temps sources p OQ_MAXIMUM = Ok (Some [hi]) /\ hottest_of S0 temps hi /\
          nu_ip_values remote d (ns_cells st) temps sources p OQ_MINIMUM = Ok (Some [lo]) /\ coldest_of S0 temps lo /\
          (exists gr, nu_ip_values remote d (ns_cells st) temps sources p OQ_GRADIENT = Ok (Some [gr]) /\ gr == hi - lo)%Q /\
          nu_ip_values remote d (ns_cells st) temps sources p OQ_AVERAGE = Ok (Some [av]) /\ mean_of S (ns_cells st) (rect_of (ne_first e)) temps mean /\
          (av * qz (1 + Z.of_nat (length (ne_others e))) == mean + qz (Z.of_nat (length (ne_others e))) * value temps 0)%Q.
Proof.
  intros remote d top past es above x below OK SC EQ SR SEP. destruct (element_reads d top past es above x below OK SC EQ SR SEP) as (n & es' & st & x' & P & N & LX & RD). exists n, es', st, x'. split; [exact P|]. split; [exact N|].
  intros j e HE NE ZR. destruct (nth_error (nd_els x') j) as [e'|] eqn:E'; [|apply nth_error_None in E'; assert (j < length (nd_els x))%nat by (apply nth_error_Some; congruence); lia]. exists e'. split; [reflexivity|].
  intros p temps sources T PE LT S S0. destruct (RD temps LT j e HE) as (e2 & hi & lo & av & E2 & OT & V1 & V2 & V3 & V4 & V5 & V6). assert (e2 = e') as -> by congruence. fold S in V4, V5, V6.
  assert (TP : temps <> []). { intros ->. destruct V6 as (ns & _ & NN & IN & _). destruct ns as [|i ns]; [contradiction|]. destruct (proj1 (IN i) (or_introl eq_refl)) as (? & ? & _ & c & NC & _). destruct (ns_cells st); [destruct i; discriminate NC|discriminate LT]. }
  assert (T0 : arr_get temps 0 = Ok (value temps 0)) by (rewrite (arr_get_ok temps _ 0%Q) by (destruct temps; [congruence|cbn; lia]); reflexivity).
  set (t0 := value temps 0) in *.
  assert (R1 : forall a, ni_start a = 0 /\ ni_end a = 0 -> nu_icel_max a temps = Ok (qmax t0 t0) /\ nu_icel_min a temps = Ok (qmin t0 t0) /\ nu_icel_avg a temps = Ok ((0 + t0) / 1)%Q).
  { intros a (A & B). unfold nu_icel_max, nu_icel_min, nu_icel_avg. rewrite A, B. change (zrange 0 0) with [0]. cbn [read_all map_out]. rewrite T0. cbn [bind fold_left length]. split; [reflexivity|]. split; reflexivity. }
  assert (QM : qmax t0 t0 = t0 /\ qmin t0 t0 = t0) by (unfold qmax, qmin; destruct (Qlt_bool t0 t0); split; reflexivity). destruct QM as (QM & QN). rewrite QM, QN in R1.
  set (k := length (ne_others e)) in *.
  assert (RP : forall (f : nu_icel -> list Q -> outcome Q) v l, (forall a, ni_start a = 0 /\ ni_end a = 0 -> f a temps = Ok v) -> Forall (fun a => ni_start a = 0 /\ ni_end a = 0) l -> map_out (fun a => f a temps) l = Ok (repeat v (length l))).
  { clear. intros f v l F A. induction A as [|a l H A IH]; [reflexivity|]. cbn [map_out length repeat]. rewrite (F a H). cbn [bind]. rewrite IH. reflexivity. }
  pose proof (RP nu_icel_max t0 _ (fun a A => proj1 (R1 a A)) ZR) as MX. pose proof (RP nu_icel_min t0 _ (fun a A => proj1 (proj2 (R1 a A))) ZR) as MN. pose proof (RP nu_icel_avg ((0 + t0) / 1)%Q _ (fun a A => proj2 (proj2 (R1 a A))) ZR) as MV. fold k in MX, MN, MV.
  assert (KP : (0 < k)%nat) by (unfold k; destruct (ne_others e); [congruence|cbn; lia]).
  assert (IT : forall y, In y (repeat t0 k) <-> y = t0) by (intros y; split; [apply repeat_spec|intros ->; destruct k as [|k']; [lia|left; reflexivity]]).
  assert (S0A : S0 0%nat) by (right; reflexivity).
  assert (UP : forall f : Q -> Q -> Q, (forall a b, (a <= f a b)%Q /\ (b <= f a b)%Q /\ (f a b = a \/ f a b = b)) -> hottest_of S0 temps (fold_left f (repeat t0 k) hi)).
  { intros f F. destruct (fold_max f F (repeat t0 k) hi) as (A & B & D). destruct V4 as ((i & I & EI) & U). split.
    - destruct D as [D|D]; [exists i; split; [left; exact I|rewrite D; exact EI]|exists 0%nat; split; [exact S0A|apply IT, D]].
    - intros i' [I'|I']; [apply (Qle_trans _ hi); [apply U, I'|exact A]|]. rewrite I'. apply B, IT. reflexivity. }
  assert (DN : forall f : Q -> Q -> Q, (forall a b, (f a b <= a)%Q /\ (f a b <= b)%Q /\ (f a b = a \/ f a b = b)) -> coldest_of S0 temps (fold_left f (repeat t0 k) lo)).
  { intros f F. destruct (fold_min f F (repeat t0 k) lo) as (A & B & D). destruct V5 as ((i & I & EI) & U). split.
    - destruct D as [D|D]; [exists i; split; [left; exact I|rewrite D; exact EI]|exists 0%nat; split; [exact S0A|apply IT, D]].
    - intros i' [I'|I']; [apply (Qle_trans _ lo); [exact A|apply U, I']|]. rewrite I'. apply B, IT. reflexivity. }
  set (HIF := fun max tmp : Q => if Qlt_bool max tmp then tmp else max). set (LOF := fun min tmp : Q => if Qlt_bool tmp min then tmp else min).
  pose proof (UP HIF ltac:(intros a b; unfold HIF; destruct (Qlt_bool a b) eqn:B; [apply Qlt_bool_iff in B|apply Qlt_bool_false in B]; (split; [lra|split; [lra|auto]]))) as H1.
  pose proof (DN LOF ltac:(intros a b; unfold LOF; destruct (Qlt_bool b a) eqn:B; [apply Qlt_bool_iff in B|apply Qlt_bool_false in B]; (split; [lra|split; [lra|auto]]))) as H2.
  pose proof (UP qmax qmax_ge) as H3. pose proof (DN qmin qmin_le) as H4.
  do 2 eexists. eexists. exists av. unfold nu_ip_values. rewrite T, PE. cbn [nu_el_value]. unfold nu_el_max, nu_el_min, nu_el_gradient, nu_el_avg. cbn [map_out]. rewrite !OT, V1, V2, V3, MX, MN, MV. cbn [bind].
  split; [reflexivity|]. split; [exact H1|]. split; [reflexivity|]. split; [exact H2|]. split; [|split; [reflexivity|split; [exact V6|]]].
  - eexists. split; [reflexivity|]. fold HIF LOF.
    assert (EX : forall a b, hottest_of S0 temps a -> hottest_of S0 temps b -> (a == b)%Q) by (intros a b ((i & I & ->) & U) ((i2 & I2 & ->) & U2); apply Qle_antisym; [apply U2, I|apply U, I2]).
    assert (EN : forall a b, coldest_of S0 temps a -> coldest_of S0 temps b -> (a == b)%Q) by (intros a b ((i & I & ->) & U) ((i2 & I2 & ->) & U2); apply Qle_antisym; [apply U, I2|apply U2, I]).
    rewrite (EX _ _ H3 H1), (EN _ _ H4 H2). reflexivity.
  - assert (FS : forall n v, (fold_left Qplus (repeat ((0 + t0) / 1) n) v == v + qz (Z.of_nat n) * t0)%Q).
    { clear. intros n. induction n as [|n IH]; intros v; [cbn [repeat fold_left]; change (qz (Z.of_nat 0)) with 0%Q; ring|]. cbn [repeat fold_left]. rewrite IH. rewrite Nat2Z.inj_succ. unfold Z.succ. rewrite qz_plus. change (qz 1) with 1%Q. field. }
    cbn [fold_left length]. rewrite FS. fold k. rewrite Nat2Z.inj_succ. unfold Z.succ. rewrite (Z.add_comm (Z.of_nat k) 1). pose proof (qz_pos (1 + Z.of_nat k) ltac:(lia)). field. lra.
Qed.
Print Assumptions C64_several_partial.
(** All elements of a floorplan of elements of one rectangle. *)
Theorem C64_floorplan : forall remote d top past es above x below,
    nu_stack_ok d top es -> Forall some_cells es -> es = above ++ NuDie x :: below -> good_source (NuDie x) -> separate x -> Forall (fun e => ne_others e = []) (nd_els x) ->
    exists n es' st, nu_grid d top past es = Ok (n, es', st) /\
    forall p temps sources q, nip_type p = OT_TFLP -> names p es' above below -> q <> OQ_NONE -> length temps = length (ns_cells st) ->
      exists vs, nu_ip_values remote d (ns_cells st) temps sources p q = Ok (Some vs) /\ length vs = length (nd_els x) /\
        forall j e v, nth_error (nd_els x) j = Some e -> nth_error vs j = Some v ->
          element_value (ns_cells st) (meant_layer (NuDie x) below) (rect_of (ne_first e)) temps q v.
Proof.
  intros remote d top past es above x below OK SC EQ SR SEP NO. destruct (element_reads d top past es above x below OK SC EQ SR SEP) as (n & es' & st & x' & P & N & LX & RD). exists n, es', st. split; [exact P|].
  intros p temps sources q T (NM & _) NQ LT. specialize (RD temps LT). unfold nu_ip_values. rewrite T. assert (KD : nip_kind p = NuDie x') by congruence. rewrite KD.
  destruct (nu_el_value q) as [g|] eqn:Q; [|destruct (nth_error (nd_els x) 0) as [e|] eqn:E0; [|]; destruct q; discriminate Q || congruence].
  rewrite Forall_forall in NO.
  assert (M : forall els els', length els' = length els -> (forall j e, nth_error els j = Some e -> exists e', nth_error els' j = Some e' /\ exists v, g e' temps = Ok v /\ element_value (ns_cells st) (meant_layer (NuDie x) below) (rect_of (ne_first e)) temps q v) ->
      exists vs, map_out (fun e => g e temps) els' = Ok vs /\ length vs = length els /\ forall j e v, nth_error els j = Some e -> nth_error vs j = Some v -> element_value (ns_cells st) (meant_layer (NuDie x) below) (rect_of (ne_first e)) temps q v).
  { clear. intros els. induction els as [|e els IH]; intros els' L H; destruct els' as [|e' els']; try discriminate L.
    - exists []. split; [reflexivity|]. split; [reflexivity|]. intros j a v A. destruct j; discriminate A.
    - destruct (H 0%nat e eq_refl) as (e2 & E2 & v & V & HV). cbn in E2. injection E2 as <-. destruct (IH els' ltac:(cbn in L; lia)) as (vs & M & LV & HS); [intros j a A; exact (H (S j) a A)|].
      exists (v :: vs). cbn [map_out]. rewrite V. cbn [bind]. rewrite M. split; [reflexivity|]. split; [cbn; lia|]. intros [|j] a b A B; cbn in A, B; [congruence|apply (HS j a b A B)]. }
  destruct (M (nd_els x) (nd_els x') LX) as (vs & MV & LV & HS).
  { intros j e HE. destruct (RD j e HE) as (e' & hi & lo & av & E' & OT & V1 & V2 & V3 & V4 & V5 & V6). exists e'. split; [exact E'|]. pose proof (NO e ltac:(eapply nth_error_In; exact HE)) as NOE. pose proof (element_single _ _ _ temps e' hi lo av ltac:(congruence) V1 V2 V3 V4 V5 V6 q) as V. rewrite Q in V. exact V. }
  exists vs. rewrite MV. split; [reflexivity|]. split; [exact LV|exact HS].
Qed.
Print Assumptions C64_floorplan.

(** ** Tcoolant *)
Lemma channel_row : forall d k, 1 <= d_nrows d -> 1 <= d_ncols d -> 0 <= k < d_ncols d * d_nrows d -> (0 < d_chip_width d)%Q ->
    ((r_y1 (channel_rect d k) == d_chip_width d)%Q <-> k / d_ncols d = d_nrows d - 1).
Proof.
  intros d k R C K W.
  assert (Y : (r_y1 (channel_rect d k) == 0 + d_chip_width d / qz (d_nrows d) * qz (k / d_ncols d + 1))%Q).
  { unfold channel_rect. destruct (_ =? 0); [reflexivity|]. destruct (_ =? _); [reflexivity|]. destruct (negb _); reflexivity. }
  pose proof (qz_pos _ (Z.lt_le_trans 0 1 _ ltac:(lia) R)) as RP. split.
  - intros E. rewrite Y in E. assert (EQ : (qz (k / d_ncols d + 1) == qz (d_nrows d))%Q).
    { assert (M : (d_chip_width d * qz (k / d_ncols d + 1) == d_chip_width d * qz (d_nrows d))%Q). { rewrite <- E at 2. field. lra. } apply Qmult_inj_l in M; [exact M|lra]. }
    unfold qz, Qeq, inject_Z in EQ. cbn in EQ. lia.
  - intros E. rewrite Y, E. replace (d_nrows d - 1 + 1) with (d_nrows d) by lia. field. lra.
Qed.
Lemma channel_column : forall d k, 1 <= d_ncols d -> 0 <= k -> (0 < d_first d)%Q -> (0 < d_wall d)%Q -> (0 < d_chan d)%Q -> (1 < d_ncols d -> (d_last d < d_chip_length d)%Q) ->
    ((r_x0 (channel_rect d k) == 0)%Q <-> k mod d_ncols d = 0).
Proof.
  intros d k C K F W CH LT. pose proof (Z.mod_pos_bound k (d_ncols d) ltac:(lia)) as M. unfold channel_rect. destruct (Z.eqb_spec (k mod d_ncols d) 0) as [E|E]; [split; [intros _; exact E|intros _; reflexivity]|].
  assert (POS : forall z, 0 <= z -> (0 <= qz z * (d_wall d + d_chan d))%Q). { intros z Z0. assert (0 <= qz z)%Q by (unfold qz, Qle, inject_Z; cbn; lia). apply Qmult_le_0_compat; lra. }
  specialize (LT ltac:(lia)). split; [|intros; contradiction]. intros X. exfalso. revert X. destruct (_ =? _); [cbn [r_x0]; lra|]. destruct (negb _) eqn:NB; cbn [r_x0].
  - pose proof (POS ((k mod d_ncols d - 1) / 2) ltac:(apply Z.div_pos; lia)). lra.
  - assert (2 <= k mod d_ncols d). { destruct (Z.eq_dec (k mod d_ncols d) 1) as [E1|]; [rewrite E1 in NB; discriminate NB|lia]. } pose proof (POS ((k mod d_ncols d - 2) / 2) ltac:(apply Z.div_pos; lia)). lra.
Qed.
Definition with_corner (cool corner : nat -> Prop) (i : nat) : Prop := cool i \/ corner i.

(** The four values a coolant instruction can ask for. The cell at the outlet next
    to the side x = 0 takes part (a wall in the 4RM model), twice in the average;
    the gradient is the maximum. *)
Theorem C64_coolant_partial : forall remote d top past es above m below,
    nu_stack_ok d top es -> Forall some_cells es -> es = above ++ NuChannel m :: below ->
    good_grid d -> (0 < d_chip_width d)%Q -> (1 < d_ncols d -> (d_last d < d_chip_length d)%Q) -> (m = CM_MC_4RM -> Z.odd (d_ncols d) = true) ->
    exists n es' st, nu_grid d top past es = Ok (n, es', st) /\
    let cool := at_outlet (ns_cells st) (meant_layer (NuChannel m) below) (d_chip_width d) in
    let corner := at_corner (ns_cells st) (meant_layer (NuChannel m) below) (d_chip_width d) in
    forall p c temps sources, nip_type p = OT_TCOOLANT -> names p es' above below -> nip_channel p = Some c -> ch_model c = m -> ch_nchannels c <> 0 -> length temps = length (ns_cells st) ->
    exists hi lo av,
      nu_ip_values remote d (ns_cells st) temps sources p OQ_MAXIMUM = Ok (Some [hi]) /\
      nu_ip_values remote d (ns_cells st) temps sources p OQ_MINIMUM = Ok (Some [lo]) /\
      nu_ip_values remote d (ns_cells st) temps sources p OQ_GRADIENT = Ok (Some [hi]) /\
      nu_ip_values remote d (ns_cells st) temps sources p OQ_AVERAGE = Ok (Some [av]) /\
      hottest_of (with_corner cool corner) temps hi /\ coldest_of (with_corner cool corner) temps lo /\
      (m <> CM_MC_4RM -> hottest_of cool temps hi /\ coldest_of cool temps lo) /\
      exists ns k, NoDup ns /\ (forall i, In i ns <-> cool i) /\ (forall i, corner i <-> i = k) /\
        (av * qz (ch_nchannels c) == value temps k + qsum (map (value temps) ns))%Q.
Proof.
  intros remote d top past es above m below OK SC EQ GG W LA OD. subst es. set (es := above ++ NuChannel m :: below) in *.
  destruct (C41_cells d top past es OK SC) as (n & es' & st & P & N & C & _). exists n, es', st. split; [exact P|]. intros cool corner p c temps sources T NM CHN CM NCH LT.
  pose proof (meant_source d top past above (NuChannel m) below OK SC Logic.I n es' st p P NM) as ML.
  pose proof (meant_cells d top above (NuChannel m) below OK SC Logic.I) as MC. pose proof (grid_long d top above (NuChannel m) below OK SC Logic.I) as GL.
  pose proof (below_pos d top above (NuChannel m) below OK) as TB. pose proof (meant_in d top above (NuChannel m) below OK SC Logic.I) as MI.
  pose proof OK as (GK & _ & _ & _ & _ & _ & CW).
  assert (M0 : m <> CM_NONE) by (unfold es in GK; apply Forall_app in GK; destruct GK as (_ & GK); inversion GK as [|? ? GE _]; exact GE).
  set (hs := d_heights d ++ [past]) in *. fold es in MC, GL. set (g := grid d top es) in *. set (ml := meant_layer (NuChannel m) below) in *. set (L := Z.to_nat ml) in *.
  assert (MP : ml = Z.of_nat L) by (unfold L; lia).
  pose proof GG as (NR & NC & NN & (F & LS & WL & CHP & WD) & _).
  set (cl := fun col => match m with CM_MC_4RM => Z.odd col && negb (col =? d_ncols d - 1) | _ => true end).
  assert (LC : snd (nth L g (0, [])) = channel_cells d cl).
  { rewrite MC. unfold ml, meant_layer. cbn [kind_layers]. unfold cl. destruct m; try contradiction; rewrite Z.add_simpl_l; reflexivity. }
  assert (CLC : forall col, 0 <= col < d_ncols d -> cl col = is_channel_column m col).
  { intros col K. unfold cl, is_channel_column. destruct m; try reflexivity. destruct (Z.odd col) eqn:O; [|reflexivity]. cbn [andb]. destruct (Z.eqb_spec col (d_ncols d - 1)) as [E|E]; [|reflexivity]. exfalso. specialize (OD eq_refl). replace (d_ncols d) with (Z.succ col) in OD by lia. rewrite Z.odd_succ in OD. rewrite <- Z.negb_odd, O in OD. discriminate OD. }
  set (fc := first_cell g L). assert (F0 : 0 <= fc) by (unfold fc, first_cell; lia).
  (* cells of the layer *)
  assert (AT : forall k, 0 <= k < d_ncols d * d_nrows d -> nth_error (ns_cells st) (Z.to_nat (fc + k)) = Some (cell_of hs L (mkG (channel_rect d k) (cl (k mod d_ncols d)) material0))).
  { intros k K. assert (NG : nth_error (snd (nth L g (0, []))) (Z.to_nat k) = Some (mkG (channel_rect d k) (cl (k mod d_ncols d)) material0)).
    { rewrite LC. unfold channel_cells. rewrite nth_error_map. replace (nth_error (zrange 0 (d_ncols d * d_nrows d - 1)) (Z.to_nat k)) with (Some k); [reflexivity|]. symmetry. unfold zrange. rewrite nth_error_map. rewrite (nth_error_nth' _ 0%nat) by (rewrite seq_length; lia). rewrite seq_nth by lia. cbn [option_map]. f_equal. lia. }
    pose proof (number_at hs g 0 L _ _ GL NG) as NA. rewrite Nat.add_0_l, <- C, Z2Nat.id in NA by lia. exact NA. }
  assert (FIND : forall i cc, nth_error (ns_cells st) i = Some cc -> c_layer cc = ml -> exists k, 0 <= k < d_ncols d * d_nrows d /\ Z.of_nat i = fc + k).
  { intros i cc NI CL. rewrite C in NI. apply number_find in NI. destruct NI as (l2 & k & gc & L2 & NG & PI & ->). cbn [cell_of c_layer] in CL. assert (l2 = L) by lia. subst l2. exists (Z.of_nat k). split; [|exact PI].
    rewrite LC in NG. assert (KL : (k < length (channel_cells d cl))%nat) by (apply nth_error_Some; congruence). unfold channel_cells in KL. rewrite map_length in KL. pose proof (zrange_length 0 (d_ncols d * d_nrows d - 1)). nia. }
  set (base := (d_nrows d - 1) * d_ncols d).
  assert (ROW : forall k, 0 <= k < d_ncols d * d_nrows d -> (k / d_ncols d = d_nrows d - 1 <-> base <= k)).
  { intros k K. unfold base. pose proof (Z.div_mod k (d_ncols d) ltac:(lia)) as DM. pose proof (Z.mod_pos_bound k (d_ncols d) ltac:(lia)) as MB. assert (k / d_ncols d < d_nrows d) by (apply Z.div_lt_upper_bound; lia). split; [intros E; rewrite E in DM; lia|]. intros B. assert (d_nrows d - 1 <= k / d_ncols d) by (apply Z.div_le_lower_bound; lia). lia. }
  assert (COOL : forall i, cool i <-> exists col, 0 <= col < d_ncols d /\ is_channel_column m col = true /\ Z.of_nat i = fc + (base + col)).
  { intros i. split.
    - intros (cc & NI & CL & CH & Y). destruct (FIND i cc NI CL) as (k & K & I). pose proof (AT k K) as A. rewrite <- I, Nat2Z.id in A. assert (CE : cc = cell_of hs L (mkG (channel_rect d k) (cl (k mod d_ncols d)) material0)) by congruence. rewrite CE in CH, Y. cbn [cell_of c_channel c_rect g_channel g_rect] in CH, Y.
      apply (channel_row d k ltac:(lia) ltac:(lia) K W) in Y. pose proof (Z.div_mod k (d_ncols d) ltac:(lia)) as DM. pose proof (Z.mod_pos_bound k (d_ncols d) ltac:(lia)) as MB.
      exists (k mod d_ncols d). split; [exact MB|]. split; [rewrite <- CLC by exact MB; exact CH|]. rewrite Y in DM. unfold base. lia.
    - intros (col & CB & IC & I). assert (KB : 0 <= base + col < d_ncols d * d_nrows d) by (unfold base; nia). pose proof (AT _ KB) as A. rewrite <- I, Nat2Z.id in A. eexists. split; [exact A|]. split; [symmetry; exact MP|]. cbn [cell_of c_channel c_rect g_channel g_rect].
      assert (MD : (base + col) mod d_ncols d = col) by (unfold base; rewrite Z.add_comm, Z.mod_add by lia; apply Z.mod_small; exact CB). rewrite MD. split; [rewrite CLC by exact CB; exact IC|]. apply channel_row; try lia; [exact W|]. apply ROW; [exact KB|lia]. }
  assert (CORN : forall i, corner i <-> i = Z.to_nat (fc + base)).
  { assert (KB : 0 <= base < d_ncols d * d_nrows d) by (unfold base; nia). intros i. split.
    - intros (cc & NI & CL & X & Y). destruct (FIND i cc NI CL) as (k & K & I). pose proof (AT k K) as A. rewrite <- I, Nat2Z.id in A. assert (CE : cc = cell_of hs L (mkG (channel_rect d k) (cl (k mod d_ncols d)) material0)) by congruence. rewrite CE in X, Y. cbn [cell_of c_rect g_rect] in X, Y.
      apply (channel_row d k ltac:(lia) ltac:(lia) K W) in Y. apply channel_column in X; try assumption; try lia. pose proof (Z.div_mod k (d_ncols d) ltac:(lia)) as DM. rewrite X, Y in DM. unfold base. lia.
    - intros ->. pose proof (AT _ KB) as A. eexists. split; [exact A|]. split; [symmetry; exact MP|]. cbn [cell_of c_rect g_rect]. split.
      + apply channel_column; try assumption; try lia. unfold base. apply Z.mod_mul. lia.
      + apply channel_row; try lia; [exact W|]. apply ROW; [exact KB|lia]. }
  (* what is read *)
  set (t := skipn (Z.to_nat fc) temps).
  assert (TL : d_nrows d * d_ncols d <= Z.of_nat (length t)).
  { unfold t. rewrite skipn_length, LT. assert (KB : 0 <= d_ncols d * d_nrows d - 1 < d_ncols d * d_nrows d) by nia. pose proof (AT _ KB) as A. assert (Z.to_nat (fc + (d_ncols d * d_nrows d - 1)) < length (ns_cells st))%nat by (apply nth_error_Some; congruence). lia. }
  assert (TV : forall k, 0 <= k -> nth (Z.to_nat k) t 0%Q = value temps (Z.to_nat (fc + k))).
  { intros k K. unfold t, value. rewrite Z2Nat.inj_add by lia. generalize (Z.to_nat fc) (Z.to_nat k). clear. intros a b. revert temps. induction a as [|a IH]; intros temps; [reflexivity|]. destruct temps as [|q temps]; [destruct b; reflexivity|]. apply IH. }
  assert (ST : nu_layer_start remote (ns_cells st) ml 0 = fc). { rewrite C, MP. apply start_spec; [exact GL| |exact CW]. rewrite LC. unfold channel_cells. intros E. apply (f_equal (@length _)) in E. rewrite map_length in E. cbn [length] in E. pose proof (zrange_length 0 (d_ncols d * d_nrows d - 1)). nia. }
  destruct (C36_outlet_partial c d t GG TL) as (hi & lo & H1 & H2 & H3 & HM & HL & HA). destruct (HA NCH) as (av & H4 & HAV).
  assert (WW : west_wall d t = value temps (Z.to_nat (fc + base))) by (unfold west_wall; apply TV; unfold base; nia).
  set (ns := map (fun col => Z.to_nat (fc + (base + col))) (filter (is_channel_column m) (zrange 0 (d_ncols d - 1)))).
  assert (CO : coolant_outlet c d t = map (value temps) ns).
  { unfold coolant_outlet, ns. rewrite CM, map_map. apply map_ext_in. intros col I. apply filter_In in I. destruct I as (I & _). apply in_zrange in I. fold base. apply TV. unfold base. nia. }
  assert (INS : forall i, In i ns <-> cool i).
  { intros i. rewrite COOL. unfold ns. rewrite in_map_iff. split.
    - intros (col & <- & I). apply filter_In in I. destruct I as (I & IC). apply in_zrange in I. exists col. split; [lia|]. split; [exact IC|]. unfold base. rewrite Z2Nat.id; nia.
    - intros (col & CB & IC & I). exists col. split; [lia|]. apply filter_In. split; [apply in_zrange; lia|exact IC]. }
  assert (NDN : NoDup ns).
  { unfold ns. assert (ND : NoDup (filter (is_channel_column m) (zrange 0 (d_ncols d - 1)))) by (apply NoDup_filter, zrange_NoDup).
    assert (PB : forall z, In z (filter (is_channel_column m) (zrange 0 (d_ncols d - 1))) -> 0 <= z) by (intros z I; apply filter_In in I; destruct I as (I & _); apply in_zrange in I; lia).
    assert (BP : 0 <= base) by (unfold base; nia). clearbody base fc. clear - ND PB F0 BP. induction ND as [|z l NI ND IH]; [constructor|]. cbn [map]. constructor; [|apply IH; intros; apply PB; right; assumption]. intros I. apply in_map_iff in I. destruct I as (y & E & I). apply NI. replace z with y; [exact I|]. pose proof (PB y (or_intror I)). pose proof (PB z (or_introl eq_refl)). lia. }
  rewrite WW, CO in HM, HL, HAV.
  assert (WC : forall i, with_corner cool corner i <-> In (Z.to_nat (fc + base)) [i] \/ In i ns). { intros i. unfold with_corner. rewrite CORN, INS. cbn. intuition congruence. }
  exists hi, lo, av. unfold nu_ip_values. rewrite T, ML, CHN, ST. fold t. cbn [outlet_value]. rewrite H1, H2, H3, H4.
  split; [reflexivity|]. split; [reflexivity|]. split; [reflexivity|]. split; [reflexivity|].
  assert (HI : hottest_of (with_corner cool corner) temps hi).
  { destruct HM as (I & U). split.
    - destruct I as [I|I]; [exists (Z.to_nat (fc + base)); split; [right; apply CORN; reflexivity|symmetry; exact I]|]. apply in_map_iff in I. destruct I as (i & E & I). exists i. split; [left; apply INS; exact I|symmetry; exact E].
    - intros i [A|A]; apply U; [right; apply in_map, INS, A|left; apply CORN in A; rewrite A; reflexivity]. }
  assert (LO : coldest_of (with_corner cool corner) temps lo).
  { destruct HL as (I & U). split.
    - destruct I as [I|I]; [exists (Z.to_nat (fc + base)); split; [right; apply CORN; reflexivity|symmetry; exact I]|]. apply in_map_iff in I. destruct I as (i & E & I). exists i. split; [left; apply INS; exact I|symmetry; exact E].
    - intros i [A|A]; apply U; [right; apply in_map, INS, A|left; apply CORN in A; rewrite A; reflexivity]. }
  split; [exact HI|]. split; [exact LO|]. split.
  - intros N4. assert (SUB : forall i, with_corner cool corner i -> cool i). { intros i [A|A]; [exact A|]. apply COOL. exists 0. split; [lia|]. split; [unfold is_channel_column; destruct m; congruence || reflexivity|]. apply CORN in A. rewrite A. unfold base. rewrite Z2Nat.id; nia. }
    split; [destruct HI as ((i & A & E) & U)|destruct LO as ((i & A & E) & U)]; (split; [exists i; split; [apply SUB, A|exact E]|intros i' A'; apply U; left; exact A']).
  - exists ns, (Z.to_nat (fc + base)). split; [exact NDN|]. split; [exact INS|]. split; [exact CORN|]. rewrite HAV. field.
    intros Z0. apply NCH. unfold qz, Qeq, inject_Z in Z0. cbn in Z0. lia.
Qed.
Print Assumptions C64_coolant_partial.

(** ** Refutations and witnesses *)
(** An element of two rectangles: the value takes in cell 0, here a cell of the
    bottom layer of the die; all cells of the source layer are at 310. *)
Theorem C64_second_rectangle_refuted : exists n es' st x' e' temps p,
    nu_grid demo_dims demo_top 7 [NuLayer 2 2; NuDie two_rects] = Ok (n, es', st) /\ nth_error es' 1 = Some (NuDie x') /\ nth_error (nd_els x') 0 = Some e' /\
    names p es' [NuLayer 2 2] [] /\ nip_type p = OT_TFLPEL /\ nip_element p = Some e' /\ length temps = length (ns_cells st) /\
    (forall i, of_layer (ns_cells st) (meant_layer (NuDie two_rects) []) i -> value temps i = 310%Q) /\
    (forall remote, nu_ip_values remote demo_dims (ns_cells st) temps [] p OQ_MAXIMUM = Ok (Some [400%Q])).
Proof.
  do 5 eexists. exists [400; 310; 300; 300; 300; 300]%Q. eexists (mkNip OT_TFLPEL OQ_MAXIMUM 0 _ None 0 0 (Some _)).
  split; [vm_compute; reflexivity|]. split; [reflexivity|]. split; [reflexivity|]. split; [split; reflexivity|]. split; [reflexivity|]. split; [reflexivity|]. split; [reflexivity|]. split.
  - intros i (c & E & L). cbn in E, L. destruct i as [|[|i]]; [injection E as <-; discriminate L|reflexivity|].
    exfalso. destruct i as [|[|[|[|i]]]]; [injection E as <-; discriminate L..|destruct i; discriminate E].
  - intros remote. destruct remote; vm_compute; reflexivity.
Qed.
Print Assumptions C64_second_rectangle_refuted.

(** Tcell at a point of the far side of the chip, in the layer on top of the die:
    no cell contains it, and the value is that of cell 0, in the bottom layer. *)
Theorem C64_far_side_refuted : exists n es' st temps p, nu_grid demo_dims demo_top 7 demo_stack = Ok (n, es', st) /\
    names p es' [] [NuDie demo_die] /\ nip_type p = OT_TCELL /\ nip_x p = d_chip_length demo_dims /\ nip_y p = 100%Q /\ length temps = length (ns_cells st) /\
    (forall i, of_layer (ns_cells st) 2 i -> value temps i = 310%Q) /\
    (forall remote, nu_ip_values remote demo_dims (ns_cells st) temps [] p OQ_NONE = Ok (Some [400%Q])) /\ of_layer (ns_cells st) 0 0.
Proof.
  do 3 eexists. exists [400; 0; 0; 0; 0; 0; 0; 0; 310; 310; 310; 310]%Q. eexists (mkNip OT_TCELL OQ_NONE 2 _ None 300 100 None).
  split; [vm_compute; reflexivity|]. split; [split; reflexivity|]. split; [reflexivity|]. split; [reflexivity|]. split; [reflexivity|]. split; [reflexivity|]. split; [|split].
  - intros i (c & E & L). cbn in E, L. do 8 (destruct i as [|i]; [injection E as <-; discriminate L|]). do 4 (destruct i as [|i]; [reflexivity|]). destruct i; discriminate E.
  - intros remote. destruct remote; vm_compute; reflexivity.
  - eexists. split; [reflexivity|reflexivity].
Qed.
Print Assumptions C64_far_side_refuted.

(** The demo stack meets the hypotheses of C64_element and C64_floorplan, and its
    second element, cells 5 to 7, reports the value of cell 6 as maximum. *)
Example C64_witness : nu_stack_ok demo_dims demo_top demo_stack /\ Forall some_cells demo_stack /\ good_source (NuDie demo_die) /\ separate demo_die /\
    Forall (fun e => ne_others e = []) (nd_els demo_die) /\
    exists n es' st x' e', nu_grid demo_dims demo_top 7 demo_stack = Ok (n, es', st) /\ nth_error es' 1 = Some (NuDie x') /\ nth_error (nd_els x') 1 = Some e' /\
      nu_ip_values false demo_dims (ns_cells st) [1; 1; 1; 1; 9; 2; 8; 5; 9; 9; 9; 9]%Q [] (mkNip OT_TFLPEL OQ_MAXIMUM 0 (NuDie x') None 0 0 (Some e')) OQ_MAXIMUM = Ok (Some [8%Q]) /\
      nu_ip_values true demo_dims (ns_cells st) [1; 1; 1; 1; 9; 2; 8; 5; 9; 9; 9; 9]%Q [] (mkNip OT_TCELL OQ_NONE 0 (NuDie x') None 200 150 None) OQ_NONE = Ok (Some [8%Q]).
Proof.
  destruct demo_ok as (OK & SC & _ & _). split; [exact OK|]. split; [exact SC|]. split; [cbn; lia|]. split.
  - split; [repeat constructor|]. intros j k a b A B N x y I1 I2. destruct j as [|[|j]]; [| |destruct j; discriminate A]; (destruct k as [|[|k]]; [| |destruct k; discriminate B]); try congruence; cbn in A, B; injection A as <-; injection B as <-; unfold inside in *; cbn in *; lra.
  - split; [repeat constructor|]. do 5 eexists. split; [vm_compute; reflexivity|]. split; [reflexivity|]. split; [reflexivity|]. split; vm_compute; reflexivity.
Qed.
Example C64_channel_witness : nu_stack_ok chan_dims chan_top chan_stack /\ Forall some_cells chan_stack /\ good_grid chan_dims /\ (0 < d_chip_width chan_dims)%Q /\
    (d_last chan_dims < d_chip_length chan_dims)%Q /\ Z.odd (d_ncols chan_dims) = true.
Proof.
  destruct C42_channel_witness as (_ & _ & OK & SC & _). split; [exact OK|]. split; [exact SC|]. split; [|split; [reflexivity|split; reflexivity]].
  split; [cbn; unfold two32; lia|]. split; [cbn; unfold two32; lia|]. split; [cbn; unfold two32; lia|]. split; [repeat split|]. right. exists 2. split; [lia|reflexivity].
Qed.
