(** * C58: the heat sources of the non-uniform grid *)
From Coq Require Import ZArith List Bool QArith Qfield Lia Lqa ZifyBool.
From Verif Require Import Base QSum Dims DimsProofs Queue QueueProofs Floorplan FloorplanSpec FloorplanProofs Stack StackSpec StackProofs PowerGrid Emulate EmulateSpec Conduct Matrix MatrixSpec CellProofs SourceProofs LayerProofs NonUniform NuSpec NuGeomProofs NuCountProofs NuPositionProofs NuTileProofs NuGridProofs NuMatrix NuMatrixSpec NuMatrixProofs NuTableProofs NuCoeffProofs NuLeaveProofs NuSource NuSourceSpec NuSourceProofs NuStepProofs PropNonUniform PropNuGrid PropNuMatrix.
Import ListNotations.
Local Open Scope Z_scope.

(** ** One step *)
Theorem C58_sources : forall pg d hs G qs, let g := np_grid pg in good_tgrid d g -> physical g d -> ready pg d hs G qs ->
    (forall c, In c (np_cells pg) -> in_stack g d c /\ one_material g c /\ positive_cell g c) ->
    (forall l, (l < length (tg_types g))%nat -> is_source (type_of g (Z.of_nat l)) = true -> Forall (fun q => q <> []) (qs l)) ->
    exists pg', nu_update_sources pg d = Ok (TDICE_SUCCESS, pg') /\ ready pg' d hs G (fun l => map (@tl Q) (qs l)) /\
      np_grid pg' = np_grid pg /\ np_cells pg' = np_cells pg /\ np_caps pg' = np_caps pg /\
      forall l i, (l < length G)%nat -> (i < length (layer_block G l))%nat ->
        (qat (np_sources pg') (first_cell G l + Z.of_nat i) == heat_in pg d hs G qs l i)%Q.
Proof. intros pg d hs G qs g GT PH R C NE. rewrite (rd_cells _ _ _ _ _ R) in C. exact (update_ready pg d hs G qs GT PH R C NE). Qed.
Print Assumptions C58_sources.

(** A value is missing: the update reports it. *)
Theorem C58_missing : forall pg d hs G qs, let g := np_grid pg in good_tgrid d g -> physical g d -> ready pg d hs G qs ->
    (forall c, In c (np_cells pg) -> in_stack g d c /\ one_material g c /\ positive_cell g c) ->
    (exists l, (l < length (tg_types g))%nat /\ is_source (type_of g (Z.of_nat l)) = true /\ Exists (fun q => q = []) (qs l)) ->
    exists pg', nu_update_sources pg d = Ok (TDICE_FAILURE, pg').
Proof. intros pg d hs G qs g GT PH R C NE. rewrite (rd_cells _ _ _ _ _ R) in C. exact (update_empty pg d hs G qs GT PH R C NE). Qed.
Print Assumptions C58_missing.

(** The power of an element is the sum over its cells, all equal. *)
Lemma share_at : forall els ps j e p i, nth_error els j = Some e -> nth_error ps j = Some p -> (i < pieces e)%nat ->
    share els ps (all_pieces (firstn j els) + i) = (p / qz (Z.of_nat (pieces e)))%Q.
Proof.
  intros els. induction els as [|e0 els IH]; intros ps j e p i E P I; [destruct j; discriminate|]. destruct ps as [|p0 ps]; [destruct j; discriminate|]. destruct j as [|j].
  - injection E as ->. injection P as ->. cbn [firstn]. unfold all_pieces. cbn [map fold_right Nat.add share]. destruct (Nat.ltb_spec i (pieces e)); [reflexivity|lia].
  - cbn [nth_error] in E, P. cbn [firstn]. unfold all_pieces. cbn [map fold_right]. fold (all_pieces (firstn j els)). cbn [share]. destruct (Nat.ltb_spec (pieces e0 + all_pieces (firstn j els) + i) (pieces e0)); [lia|].
    replace (pieces e0 + all_pieces (firstn j els) + i - pieces e0)%nat with (all_pieces (firstn j els) + i)%nat by lia. apply IH; assumption.
Qed.
Lemma qsum_const : forall {A} (f : A -> Q) x l, (forall a, In a l -> f a = x) -> (qsum (map f l) == qz (Z.of_nat (length l)) * x)%Q.
Proof.
  intros A f x l. induction l as [|a l IH]; intros H; [cbn; unfold qz; ring|]. cbn [map length]. rewrite qsum_cons, IH by (intros; apply H; right; assumption). rewrite (H a (or_introl eq_refl)). unfold qz. rewrite Nat2Z.inj_succ, <- Z.add_1_r, inject_Z_plus. ring.
Qed.
Theorem C58_element_power : forall els ps j e p, good_pieces els -> nth_error els j = Some e -> nth_error ps j = Some p ->
    (forall i, (i < pieces e)%nat -> share els ps (all_pieces (firstn j els) + i) = (p / qz (so_dx e * so_dy e))%Q) /\
    (qsum (map (fun i => share els ps (all_pieces (firstn j els) + i)) (seq 0 (pieces e))) == p)%Q.
Proof.
  intros els ps j e p GP E P. unfold good_pieces in GP. rewrite Forall_forall in GP. specialize (GP e (nth_error_In _ _ E)).
  assert (W : Z.of_nat (pieces e) = so_dx e * so_dy e) by (unfold pieces; lia).
  split.
  - intros i I. rewrite (share_at els ps j e p i E P I), W. reflexivity.
  - rewrite (qsum_const _ (p / qz (Z.of_nat (pieces e)))%Q) by (intros i I; apply in_seq in I; apply share_at; auto; lia). rewrite seq_length. unfold qz. field. rewrite W. intros H. unfold Qeq in H. cbn in H. lia.
Qed.
Print Assumptions C58_element_power.
(** All of the power of a floorplan enters its layer. *)
Theorem C58_layer_power : forall els ps, good_pieces els -> length ps = length els ->
    (qsum (map (share els ps) (seq 0 (all_pieces els))) == qsum ps)%Q.
Proof.
  intros els. induction els as [|e els IH]; intros ps GP L; destruct ps as [|p ps]; try discriminate; [reflexivity|]. inversion GP as [|? ? G1 G2]; subst.
  unfold all_pieces. cbn [map fold_right]. fold (all_pieces els). rewrite seq_app, map_app, qsum_app, qsum_cons. rewrite <- (IH ps G2) by (cbn in L; lia).
  destruct (C58_element_power (e :: els) (p :: ps) 0 e p GP eq_refl eq_refl) as (_ & S). cbn [firstn] in S. unfold all_pieces in S. cbn [map fold_right Nat.add] in S. rewrite S.
  assert (SH : seq (0 + pieces e) (all_pieces els) = map (fun i => (pieces e + i)%nat) (seq 0 (all_pieces els))).
  { generalize (all_pieces els). intros n. rewrite Nat.add_0_l. apply (nth_ext _ _ 0%nat (pieces e + 0)%nat); [rewrite map_length, !seq_length; reflexivity|]. intros i I. rewrite seq_length in I. rewrite seq_nth by exact I. rewrite (map_nth (fun i => (pieces e + i)%nat)), seq_nth by exact I. lia. }
  rewrite SH, map_map. apply Qplus_inj_l. apply qsum_ext. intros i _. cbn [share]. destruct (Nat.ltb_spec (pieces e + i) (pieces e)); [lia|]. replace (pieces e + i - pieces e)%nat with i by lia. reflexivity.
Qed.
Print Assumptions C58_layer_power.

(** ** From the stack *)
Lemma profile_length : forall d es, Forall good_kind es -> length (flat_map kind_profile es) = length (flat_map (kind_layers d) es) /\ length (flat_map in_channel_of es) = length (flat_map (kind_layers d) es).
Proof.
  intros d es H. induction es as [|e es IH]; [split; reflexivity|]. inversion H; subst. destruct (IH H3) as (I1 & I2). cbn [flat_map]. rewrite !app_length, I1, I2. 
  assert (D : forall x i ls, length (die_profile x i ls) = length ls /\ length (die_layers x i ls) = length ls) by (intros x i ls; revert i; induction ls as [|a ls IHl]; intros i; [split; reflexivity|]; cbn; destruct (IHl (i + 1)) as (P1 & P2); rewrite P1, P2; split; reflexivity).
  destruct e as [x| |m]; cbn [kind_profile kind_layers in_channel_of].
  - destruct (D x 0 (rev (nd_layers x))) as (P1 & P2). rewrite P1, P2, map_length, rev_length. split; reflexivity.
  - split; reflexivity.
  - rewrite !repeat_length. destruct m; cbn in *; try (split; reflexivity); exfalso; congruence.
Qed.
Definition positive_kind (e : nu_kind) : Prop :=
  match e with
  | NuDie x => nd_els x <> [] /\ Forall (fun e => 0 < fst (discretisation x e) /\ 0 < snd (discretisation x e)) (nd_els x)
  | NuLayer dx dy => 0 < dx /\ 0 < dy
  | NuChannel _ => True
  end.
Lemma cut_length : forall x y a b xy, 0 <= fst xy * snd xy -> length (cut x y a b xy) = Z.to_nat (fst xy * snd xy).
Proof. intros x y a b xy H. unfold cut, zrange. rewrite !map_length, seq_length. f_equal. lia. Qed.
Lemma element_cells_length : forall x s l e, 0 < fst (discretisation x e) -> 0 < snd (discretisation x e) -> length (element_cells x s l e) = Z.to_nat (fst (discretisation x e) * snd (discretisation x e)).
Proof. intros x s l e A B. unfold element_cells, element_rects. rewrite map_length. apply cut_length. nia. Qed.
Lemma die_block : forall x s l els els', Forall (fun e => 0 < fst (discretisation x e) /\ 0 < snd (discretisation x e)) els ->
    map (fun e => (so_dx e, so_dy e)) els' = map (discretisation x) els -> all_pieces els' = length (flat_map (element_cells x s l) els).
Proof.
  intros x s l els. induction els as [|e els IH]; intros [|e' els'] F M; try discriminate; [reflexivity|]. inversion F as [|? ? (F1 & F2) F3]; subst. cbn [map] in M. injection M as M1 M2. unfold all_pieces. cbn [map fold_right flat_map]. fold (all_pieces els').
  rewrite app_length, (element_cells_length x s l e F1 F2), (IH els' F3 M2). unfold pieces. rewrite <- M1. reflexivity.
Qed.
Lemma grid_rows_block : forall d c, good_grid d -> length (channel_cells d c) = Z.to_nat (d_ncols d * d_nrows d).
Proof. intros d c (R & C & _). unfold channel_cells, zrange. rewrite !map_length, seq_length. f_equal. nia. Qed.

(** Every block of the grid: what the profile says of it. *)
Definition block_ok (d : dims) (L : nlayer) (p : option nu_die) (c : bool) : Prop :=
  snd L <> [] /\ (forall x els, p = Some x -> sources_of x els -> all_pieces els = length (snd L)) /\ (c = true -> d_ncols d <= Z.of_nat (length (snd L))).
Lemma blocks_ok : forall d es, good_grid d -> Forall positive_kind es -> Forall good_kind es ->
    forall l, (l < length (flat_map (kind_layers d) es))%nat ->
    exists p c, nth_error (flat_map kind_profile es) l = Some p /\ nth_error (flat_map in_channel_of es) l = Some c /\ block_ok d (nth l (flat_map (kind_layers d) es) (0, [])) p c /\
      (forall x, p = Some x -> In (NuDie x) es).
Proof.
  intros d es GG. induction es as [|e es IH]; intros PK GK l L; [cbn in L; lia|]. inversion PK as [|? ? P1 P2]; subst. inversion GK as [|? ? G1 G2]; subst. cbn [flat_map] in *. rewrite app_length in L.
  pose proof (profile_length d [e] ltac:(repeat constructor; exact G1)) as (PL1 & PL2). cbn [flat_map] in PL1, PL2. rewrite !app_nil_r in PL1, PL2.
  destruct (Nat.lt_ge_cases l (length (kind_layers d e))) as [I|I].
  - assert (H : exists p c, nth_error (kind_profile e) l = Some p /\ nth_error (in_channel_of e) l = Some c /\ block_ok d (nth l (kind_layers d e) (0, [])) p c /\ (forall x, p = Some x -> e = NuDie x)).
    { destruct e as [x|dx dy|m]; cbn [kind_profile in_channel_of kind_layers] in *.
      - destruct P1 as (NE & FP). assert (DL : forall ls i, (l < length ls)%nat -> exists lay, nth l (die_layers x i ls) (0, []) = (0, flat_map (element_cells x (i + Z.of_nat l =? nd_offset x) lay) (nd_els x)) /\
          nth_error (die_profile x i ls) l = Some (if i + Z.of_nat l =? nd_offset x then Some x else None)).
        { clear -l. induction l as [|l IHl]; intros [|a ls] i LL; cbn in LL; try lia.
          - exists a. cbn. rewrite Z.add_0_r. split; reflexivity.
          - destruct (IHl ls (i + 1) ltac:(lia)) as (lay & E1 & E2). exists lay. cbn. rewrite E1, E2. replace (i + 1 + Z.of_nat l) with (i + Z.of_nat (Datatypes.S l)) by lia. split; reflexivity. }
        assert (LL : (l < length (rev (nd_layers x)))%nat) by (rewrite map_length in PL2; rewrite rev_length; lia).
        destruct (DL (rev (nd_layers x)) 0 LL) as (lay & E1 & E2). rewrite E1, E2. exists (if 0 + Z.of_nat l =? nd_offset x then Some x else None), false. split; [reflexivity|]. split.
        + rewrite rev_length in LL. rewrite nth_error_map. destruct (nth_error (nd_layers x) l) eqn:N; [reflexivity|]. apply nth_error_None in N. lia.
        + split; [|intros y Y; destruct (0 + Z.of_nat l =? nd_offset x); congruence]. split; [|split; [|discriminate]].
          * cbn [snd]. destruct (nd_els x) as [|e0 els] eqn:EE; [congruence|]. inversion FP as [|? ? (F1 & F2) _]; subst. cbn [flat_map]. intros K. apply app_eq_nil in K. destruct K as (K & _). apply (f_equal (@length _)) in K. rewrite element_cells_length in K by assumption. cbn in K. nia.
          * intros y els Y S. destruct (0 + Z.of_nat l =? nd_offset x); [|discriminate]. injection Y as <-. cbn [snd]. apply die_block; assumption.
      - cbn in I. assert (l = 0)%nat by lia. subst l. exists None, false. split; [reflexivity|]. split; [reflexivity|]. split; [|discriminate]. split; [|split; discriminate].
        cbn [nth snd]. destruct P1 as (D1 & D2). intros K. apply (f_equal (@length _)) in K. unfold plain_cells in K. rewrite map_length, cut_length in K by (cbn [fst snd]; nia). cbn [fst snd length] in K. nia.
      - assert (LL : (l < Z.to_nat (channel_layers m))%nat) by (rewrite repeat_length in PL1; lia). exists None, true. rewrite !nth_error_repeat by exact LL. split; [reflexivity|]. split; [reflexivity|]. split; [|discriminate].
        assert (B : exists ty c, nth l (kind_layers d (NuChannel m)) (0, []) = (ty, channel_cells d c)).
        { destruct m; cbn in *; try lia; repeat (destruct l as [|l]; [eexists; eexists; reflexivity|]); lia. }
        destruct B as (ty & c & B). cbn [kind_layers] in B. rewrite B. destruct GG as (R & CC & GG'). pose proof (grid_rows_block d c (conj R (conj CC GG'))) as LB. split; [|split; [discriminate|]].
        + cbn [snd]. intros K. rewrite K in LB. cbn in LB. nia.
        + intros _. cbn [snd]. rewrite LB. nia. }
    destruct H as (p & c & H1 & H2 & H3 & H4). exists p, c. rewrite !nth_error_app1 by lia. rewrite app_nth1 by lia. repeat split; auto; try apply H3. intros x X. left. symmetry. symmetry. exact (H4 x X).
  - destruct (IH P2 G2 (l - length (kind_layers d e))%nat ltac:(lia)) as (p & c & H1 & H2 & H3 & H4). exists p, c. rewrite !nth_error_app2 by lia. rewrite app_nth2 by lia. rewrite PL1, PL2. repeat split; auto; try apply H3. intros x X. right. exact (H4 x X).
Qed.

Lemma block_le : forall (H : list nlayer) l, (l < length H)%nat -> (length (snd (nth l H (0%Z, []))) <= length (grid_cells H))%nat.
Proof. intros H. induction H as [|h H IH]; intros [|l] L; cbn in L; try lia; cbn [nth grid_cells flat_map]; rewrite app_length; [lia|specialize (IH l ltac:(lia)); unfold grid_cells in IH; lia]. Qed.

Theorem C58_stack : forall d top past es g flps qs pg,
    nu_stack_ok d top es -> Forall some_cells es -> Forall positive_kind es -> good_tgrid d g -> tg_top g = top -> describes es g flps qs ->
    exists n es' st, nu_grid d top past es = Ok (n, es', st) /\
      (nu_power_grid g d (ns_cells st) n flps = Ok pg -> ready pg d (d_heights d ++ [past]) (grid d top es) qs).
Proof.
  intros d top past es g flps qs pg OK SC PK GT TT DS. destruct (C41_cells d top past es OK SC) as (n & es' & st & E & N & CE & _). exists n, es', st. split; [exact E|]. intros B.
  destruct OK as (GK & TN & GF & NL & LH & T32 & C32). pose proof (gt_types d g GT) as LT. rewrite NL in LT.
  assert (GKR : Forall good_kind (rev es)) by (apply Forall_rev; exact GK). assert (PKR : Forall positive_kind (rev es)) by (apply Forall_rev; exact PK).
  pose proof (layers_length d (rev es) GKR) as LL. rewrite total_layers_rev in LL. set (H := flat_map (kind_layers d) (rev es)) in *.
  assert (GE : grid d top es = H ++ spreader_layer d top) by reflexivity.
  assert (LTH : length (tg_types g) = length H) by lia.
  assert (BK : forall l, (l < length H)%nat -> layer_block (grid d top es) l = snd (nth l H (0, []))) by (intros l L; unfold layer_block; rewrite GE, app_nth1 by exact L; reflexivity).
  assert (BO : forall l, (l < length H)%nat -> exists p c, nth_error (profile es) l = Some p /\ nth_error (channels_of es) l = Some c /\ block_ok d (nth l H (0, [])) p c) by (intros l L; destruct (blocks_ok d (rev es) (gt_grid d g GT) PKR GKR l L) as (p & c & H1 & H2 & H3 & _); exists p, c; auto).
  unfold nu_power_grid in B. destruct (nu_top_tcs g d (ns_cells st)) as [ttc| |] eqn:ET; try discriminate. cbn [bind] in B. destruct (nu_bottom_tcs g d (ns_cells st)) as [btc| |] eqn:EB; try discriminate. cbn [bind] in B.
  destruct (nu_caps g d (ns_cells st) n) as [caps| |] eqn:EC; try discriminate. cbn [bind] in B. injection B as <-. 
  constructor; cbn [np_cells np_grid np_flps np_sources np_top_tcs np_bottom_tcs].
  - exact CE.
  - rewrite GE, app_length. lia.
  - intros (h & a & TA). rewrite GE, app_length. unfold spreader_layer. rewrite <- TT, TA. cbn [is_pluggable length]. lia.
  - rewrite (ds_flps _ _ _ _ DS), (ds_types _ _ _ _ DS). reflexivity.
  - rewrite repeat_length, N, Nat2Z.id, CE. apply number_length.
  - exact ET.
  - exact EB.
  - intros l L. rewrite GE, app_length in L. destruct (Nat.lt_ge_cases l (length H)) as [I|I].
    + rewrite BK by exact I. destruct (BO l I) as (p & c & _ & _ & (NE & _)). exact NE.
    + unfold layer_block. rewrite GE, app_nth2 by exact I. unfold spreader_layer in L |- *. destruct (is_pluggable top); cbn [length] in L; [|lia]. replace (l - length H)%nat with 0%nat by lia. cbn [nth snd].
      intros K. apply (f_equal (@length _)) in K. unfold plain_cells in K. destruct (gt_grid d g GT) as (R & CC & _). rewrite map_length, cut_length in K by (cbn [fst snd]; nia). cbn [fst snd length] in K. nia.
  - intros l L S. rewrite LTH in L. pose proof (proj1 (ds_source _ _ _ _ DS l) S) as (x & PX). destruct (ds_els _ _ _ _ DS l x PX) as (els & FE & SO & QU).
    destruct (BO l L) as (p & c & P1 & P2 & (NE & BB & _)). rewrite PX in P1. injection P1 as <-.
    assert (FA : forall a b c e f, flp_at (mkNpgrid g (ns_cells st) flps a b c e) f = match nth f flps None with Some els => els | None => [] end) by reflexivity. rewrite FA. rewrite (nth_error_nth _ _ _ FE).
    assert (GP : good_pieces els).
    { destruct (blocks_ok d (rev es) (gt_grid d g GT) PKR GKR l L) as (p' & c' & H1 & _ & _ & HD). fold (profile es) in H1. rewrite PX in H1. injection H1 as <-. pose proof (HD x eq_refl) as ID. apply in_rev in ID.
      rewrite Forall_forall in PK. pose proof (PK _ ID) as (NN & FP). cbn [positive_kind] in *.
      assert (TOT : Forall (fun e => so_dx e * so_dy e <= Z.of_nat (all_pieces els)) els /\ Forall (fun e => 0 < so_dx e * so_dy e) els).
      { assert (POS : Forall (fun e => 0 < so_dx e * so_dy e) els). { rewrite Forall_forall. intros e I. apply (in_map (fun e => (so_dx e, so_dy e))) in I. unfold sources_of in SO. rewrite SO in I. apply in_map_iff in I. destruct I as (ne & EQ & I). rewrite Forall_forall in FP. destruct (FP ne I) as (F1 & F2). rewrite EQ in F1, F2. cbn [fst snd] in F1, F2. nia. }
        split; [|exact POS]. clear -POS. induction els as [|e els IH]; [constructor|]. inversion POS; subst. unfold all_pieces. cbn [map fold_right]. fold (all_pieces els). constructor; [unfold pieces; lia|]. eapply Forall_impl; [|apply IH; assumption]. cbn. intros. lia. }
      assert (LE : Z.of_nat (all_pieces els) < two32).
      { assert (SUB : (all_pieces els <= length (grid_cells (grid d top es)))%nat).
        { rewrite GE. unfold grid_cells. rewrite flat_map_app, app_length. fold (grid_cells H). pose proof (block_le H l L) as K.
          assert (EQL : all_pieces els = length (snd (nth l H (0%Z, [])))); [|lia]. exact (BB x els eq_refl SO). }
        lia. }
      destruct TOT as (T1 & T2). unfold good_pieces. rewrite Forall_forall in T1, T2 |- *. intros e I. specialize (T1 e I). specialize (T2 e I). lia. }
    split; [eauto|]. split; [exact QU|]. split; [exact GP|]. rewrite BK by exact L. exact (BB x els eq_refl SO).
  - intros l L S. rewrite LTH in L. rewrite BK by exact L. destruct (BO l L) as (p & c & P1 & P2 & (_ & _ & BC)). rewrite (ds_coolant _ _ _ _ DS l S) in P2. injection P2 as <-. exact (BC eq_refl).
Qed.
Print Assumptions C58_stack.

(** ** Witness: the demonstration stack, 6 W then 2 W in the first element, 9 W then
    3 W in the second, that has three cells. *)
Definition demo_powers (l : nat) : list (list Q) := if (l =? 1)%nat then [[6; 2]; [9; 3]]%Q else [].
Definition demo_queue (a b : Q) : queue := mkQueue (Some [a; b]) 2 2 0 0.
Definition demo_flps : list (option (list nu_source)) :=
  [None; Some [mkNuSource 1 1 (demo_queue 6 2); mkNuSource 1 3 (demo_queue 9 3)]; None].
Lemma demo_queue_rep : forall a b, qrep (demo_queue a b) [a; b].
Proof. intros a b. constructor; try (cbn; unfold two32; lia); try reflexivity. exists [a; b]. repeat split. Qed.
Lemma demo_describes : describes demo_stack demo_grid demo_flps demo_powers.
Proof.
  assert (E : profile demo_stack = [None; Some demo_die; None]) by reflexivity. assert (CH : channels_of demo_stack = [false; false; false]) by reflexivity.
  assert (TY : forall l, (3 <= l)%nat -> type_of demo_grid (Z.of_nat l) = LT_NONE) by (intros l L; unfold type_of; rewrite Nat2Z.id; apply nth_overflow; cbn; lia).
  constructor; try reflexivity; rewrite ?E, ?CH.
  - intros l. destruct l as [|[|[|l]]].
    + split; [discriminate|intros (x & X); discriminate X].
    + split; [intros _; exists demo_die; reflexivity|reflexivity].
    + split; [discriminate|intros (x & X); discriminate X].
    + rewrite TY by lia. split; [discriminate|intros (x & X)]. destruct l; discriminate X.
  - intros [|[|[|l]]] H; try discriminate H. rewrite TY in H by lia. discriminate H.
  - intros [|[|[|l]]] x H; try discriminate H; [|destruct l; discriminate H]. injection H as <-. eexists. split; [reflexivity|]. split; [reflexivity|]. unfold demo_powers. cbn [Nat.eqb]. repeat constructor; cbn [so_powers]; apply demo_queue_rep.
Qed.
Lemma demo_positive : Forall positive_kind demo_stack.
Proof. repeat constructor; try discriminate. Qed.
Lemma demo_pgrid : exists pg, nu_power_grid demo_grid demo_dims demo_cells 12 demo_flps = Ok pg /\ ready pg demo_dims (d_heights demo_dims ++ [7%Q]) (grid demo_dims demo_top demo_stack) demo_powers.
Proof.
  destruct (nu_power_grid demo_grid demo_dims demo_cells 12 demo_flps) as [pg| |] eqn:E; [|exfalso; vm_compute in E; discriminate E|exfalso; vm_compute in E; discriminate E].
  exists pg. split; [reflexivity|]. destruct demo_ok as (OK & SC & _). destruct (C58_stack demo_dims demo_top 7 demo_stack demo_grid demo_flps demo_powers pg OK SC demo_positive demo_grid_good eq_refl demo_describes) as (n & es' & st & EG & RD).
  destruct (C41_cells demo_dims demo_top 7 demo_stack OK SC) as (n2 & es2 & st2 & EG2 & N & CE & _). rewrite EG in EG2. injection EG2 as <- <- <-. rewrite CE in RD.
  assert (N12 : n = 12) by (rewrite N, CE; vm_compute; reflexivity). subst n. rewrite N12 in RD. apply RD. exact E.
Qed.
(** Six watts in the cell of the first element; three in each of those of the
    second; 300 times the conductance of the upper cells from the air. *)
Example C58_witness : exists pg pg', nu_power_grid demo_grid demo_dims demo_cells 12 demo_flps = Ok pg /\ nu_update_sources pg demo_dims = Ok (TDICE_SUCCESS, pg') /\
    (forall i, 0 <= i < 4 -> (qat (np_sources pg') (4 + i) == nth (Z.to_nat i) [6; 3; 3; 3] 0)%Q) /\ (qat (np_sources pg') 0 == 0)%Q /\ (0 < qat (np_sources pg') 8)%Q.
Proof.
  destruct demo_pgrid as (pg & E & R). assert (G : np_grid pg = demo_grid) by (unfold nu_power_grid in E; destruct (nu_top_tcs demo_grid demo_dims demo_cells); try discriminate; cbn [bind] in E; destruct (nu_bottom_tcs demo_grid demo_dims demo_cells); try discriminate; cbn [bind] in E; destruct (nu_caps demo_grid demo_dims demo_cells 12); try discriminate; cbn [bind] in E; injection E as <-; reflexivity).
  destruct (C58_sources pg demo_dims _ _ _ ltac:(rewrite G; exact demo_grid_good) ltac:(rewrite G; exact demo_physical) R) as (pg' & U & _ & _ & _ & _ & V).
  - rewrite (rd_cells _ _ _ _ _ R), G. exact demo_cells_ok.
  - intros l _ _. unfold demo_powers. destruct (l =? 1)%nat; repeat constructor; discriminate.
  - exists pg, pg'. split; [exact E|]. split; [exact U|]. clear U.
    assert (FP : flp_at pg 1 = [mkNuSource 1 1 (demo_queue 6 2); mkNuSource 1 3 (demo_queue 9 3)]) by (unfold nu_power_grid in E; destruct (nu_top_tcs demo_grid demo_dims demo_cells); try discriminate; cbn [bind] in E; destruct (nu_bottom_tcs demo_grid demo_dims demo_cells); try discriminate; cbn [bind] in E; destruct (nu_caps demo_grid demo_dims demo_cells 12); try discriminate; cbn [bind] in E; injection E as <-; reflexivity).
    split; [|split].
    + intros i I. specialize (V 1%nat (Z.to_nat i)). assert (L4 : length (layer_block (grid demo_dims demo_top demo_stack) 1) = 4%nat) by reflexivity. specialize (V ltac:(vm_compute; lia) ltac:(lia)). rewrite Z2Nat.id in V by lia. change (first_cell (grid demo_dims demo_top demo_stack) 1) with 4 in V. rewrite V. unfold heat_in. rewrite G, FP.
      assert (i = 0 \/ i = 1 \/ i = 2 \/ i = 3) as [->|[->|[->| ->]]] by lia; vm_compute; reflexivity.
    + specialize (V 0%nat 0%nat ltac:(vm_compute; lia) ltac:(vm_compute; lia)). change (first_cell (grid demo_dims demo_top demo_stack) 0 + Z.of_nat 0) with 0 in V. rewrite V. unfold heat_in. rewrite G. vm_compute. reflexivity.
    + specialize (V 2%nat 0%nat ltac:(vm_compute; lia) ltac:(vm_compute; lia)). change (first_cell (grid demo_dims demo_top demo_stack) 2 + Z.of_nat 0) with 8 in V. rewrite V. unfold heat_in. rewrite G. vm_compute. reflexivity.
Qed.
