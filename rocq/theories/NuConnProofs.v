(** * The regions of the two searches, and what they insert *)
From Coq Require Import ZArith List Bool QArith Lia ZifyBool.
From Verif Require Import Base Dims Floorplan FloorplanProofs Stack NonUniform NuSpec NuGeomProofs NuCountProofs NuPositionProofs.
Import ListNotations.
Local Open Scope Z_scope.

(** ** Sequences of layer types *)
Definition sbs (ts : list Z) (l : nat) : bool := ((nth l ts 0 =? 2) || (nth l ts 0 =? 3)) && (nth (S l) ts 0 =? 2).
Definition types_ok (ts : list Z) : Prop := forall l, sbs ts l = true -> exists a, l = S a /\ nth a ts 0 = 1 /\ nth (a + 3) ts 0 = 1.
Definition starts_ok (ts : list Z) : Prop := nth 0 ts 0 <> 2.

Lemma types_cons0 : forall t ts, t <> 2 -> t <> 3 -> types_ok ts -> starts_ok ts -> types_ok (t :: ts) /\ starts_ok (t :: ts).
Proof.
  intros t ts N2 N3 T S0. split; [|exact N2]. intros l H. destruct l as [|l].
  - unfold sbs in H. cbn [nth] in H. exfalso. lia.
  - assert (H' : sbs ts l = true) by exact H. destruct (T l H') as (a & -> & A & B). exists (S a). split; [reflexivity|]. split; [exact A|exact B].
Qed.
Lemma types_block : forall t ts, types_ok ts -> starts_ok ts -> types_ok (1 :: t :: 2 :: 1 :: ts) /\ starts_ok (1 :: t :: 2 :: 1 :: ts).
Proof.
  intros t ts T S0. split; [|unfold starts_ok; cbn; lia]. intros l H. destruct l as [|[|[|[|l]]]].
  - exfalso. unfold sbs in H. cbn [nth] in H. lia.
  - exists 0%nat. cbn. auto.
  - exfalso. unfold sbs in H. cbn [nth] in H. lia.
  - exfalso. unfold sbs in H. cbn [nth] in H. lia.
  - assert (H' : sbs ts l = true) by exact H. destruct (T l H') as (a & -> & A & B). exists (S (S (S (S a)))). split; [reflexivity|]. split; [exact A|exact B].
Qed.

Definition kind_types (e : nu_kind) : list Z :=
  match e with
  | NuDie x => repeat 0 (length (nd_layers x))
  | NuLayer _ _ => [0]
  | NuChannel CM_MC_4RM => [0]
  | NuChannel CM_MC_2RM => [1; 2; 2; 1]
  | NuChannel CM_PF_INLINE | NuChannel CM_PF_STAGGERED => [1; 3; 2; 1]
  | NuChannel CM_NONE => []
  end.
Lemma die_types : forall x ls i, map fst (die_layers x i ls) = repeat 0 (length ls).
Proof. intros x ls. induction ls as [|l ls IH]; intros i; [reflexivity|]. cbn [die_layers map length repeat fst]. rewrite IH. reflexivity. Qed.
Lemma kind_types_spec : forall d e, map fst (kind_layers d e) = kind_types e.
Proof.
  intros d e. destruct e as [x| |m]; [|reflexivity|destruct m; reflexivity]. cbn [kind_layers kind_types]. rewrite die_types, rev_length. reflexivity.
Qed.
Lemma types_kind : forall e ts, types_ok ts -> starts_ok ts -> types_ok (kind_types e ++ ts) /\ starts_ok (kind_types e ++ ts).
Proof.
  intros e ts T S0. destruct e as [x|dx dy|m].
  - cbn [kind_types]. induction (length (nd_layers x)) as [|n IH]; [split; assumption|]. cbn [repeat app]. apply types_cons0; try discriminate; apply IH.
  - apply types_cons0; try discriminate; assumption.
  - destruct m; cbn [kind_types app]; [split; assumption| | | |]; try (apply types_block; assumption); apply types_cons0; try discriminate; assumption.
Qed.
Lemma types_stack : forall es ts, types_ok ts -> starts_ok ts -> types_ok (flat_map kind_types es ++ ts) /\ starts_ok (flat_map kind_types es ++ ts).
Proof.
  intros es ts T S0. induction es as [|e es IH]; [split; assumption|]. cbn [flat_map]. rewrite <- app_assoc. apply types_kind; apply IH.
Qed.
Lemma map_fst_layers : forall d es, map fst (flat_map (kind_layers d) es) = flat_map kind_types es.
Proof. intros d es. induction es as [|e es IH]; [reflexivity|]. cbn [flat_map]. rewrite map_app, IH, kind_types_spec. reflexivity. Qed.
Lemma types_grid : forall d top es, types_ok (map fst (grid d top es)) /\ starts_ok (map fst (grid d top es)).
Proof.
  intros d top es. unfold grid. rewrite map_app, map_fst_layers. apply types_stack; unfold spreader_layer; destruct (is_pluggable top); cbn; intros l H || unfold starts_ok; try (cbn; lia).
  - exfalso. unfold sbs in H. destruct l as [|[|l]]; cbn in H; lia.
  - exfalso. unfold sbs in H. destruct l as [|[|l]]; cbn in H; lia.
Qed.

Lemma sbs_spec : forall g l, sbs (map fst g) l = side_by_side g l.
Proof. reflexivity. Qed.
Lemma type_some : forall g l, type_at g l <> 0 -> (l < length g)%nat.
Proof. intros g l H. destruct (Nat.lt_ge_cases l (length g)) as [L|L]; [exact L|]. unfold type_at in H. rewrite nth_overflow in H by (rewrite map_length; exact L). lia. Qed.

Lemma side_grid : forall d top es l, side_by_side (grid d top es) l = true ->
    (1 <= l)%nat /\ (S (S l) < length (grid d top es))%nat /\ type_at (grid d top es) (l - 1) = 1 /\ type_at (grid d top es) (S (S l)) = 1.
Proof.
  intros d top es l H. rewrite <- sbs_spec in H. destruct (types_grid d top es) as (T & _). destruct (T l H) as (a & -> & A & B).
  replace (a + 3)%nat with (S (S (S a))) in B by lia. replace (S a - 1)%nat with a by lia. repeat split; auto; [lia|]. apply type_some. unfold type_at. rewrite B. discriminate.
Qed.
Lemma side_alone : forall d top es l, side_by_side (grid d top es) l = true -> side_by_side (grid d top es) (S l) = false /\ side_by_side (grid d top es) (l - 1) = false.
Proof.
  intros d top es l H. destruct (side_grid d top es l H) as (L1 & L2 & A & B). split.
  - unfold side_by_side. rewrite B. rewrite andb_false_r. reflexivity.
  - unfold side_by_side. rewrite A. reflexivity.
Qed.

Lemma bottom_types : forall d top es, bottom_solid es -> Forall (fun e => 0 < nu_nlayers e) es -> type_at (grid d top es) 0 = 0.
Proof.
  intros d top es B F. unfold bottom_solid in B. unfold type_at, grid. rewrite map_app, map_fst_layers. apply Forall_rev in F. destruct (rev es) as [|e r] eqn:E; [destruct B|]. inversion F as [|? ? F1 F2]; subst.
  cbn [flat_map]. destruct e as [x|dx dy|m]; [|reflexivity|discriminate B]. cbn [kind_types]. cbn [nu_nlayers] in F1. destruct (length (nd_layers x)) as [|n]; [lia|]. reflexivity.
Qed.

(** ** Regions *)
Section Regions.
  Variables (d : dims) (top : option top_sink) (es : list nu_kind) (hs : list Q) (st : nstate).
  Let g := grid d top es.
  Let N := Z.to_nat (d_nlayers d + 1).
  Hypothesis ok : nu_stack_ok d top es.
  Hypothesis at_ : st_at hs N g st.
  Hypothesis bottom : type_at g 0 = 0.
  Let ps := map c_rect (ns_cells st).
  Let fc := first_cell g.

  Lemma grid_length : Z.of_nat (length g) = d_nlayers d + if is_pluggable top then 1 else 0.
  Proof.
    destruct ok as (G & T & F & NL & _). unfold g, grid. rewrite app_length, Nat2Z.inj_add, layers_length by (apply Forall_rev; exact G). rewrite total_layers_rev, NL. f_equal.
    unfold spreader_layer. destruct (is_pluggable top); reflexivity.
  Qed.
  Lemma nlayers_range : 0 <= d_nlayers d < two32 - 1.
  Proof. destruct ok as (G & T & F & NL & HL & LW & _). lia. Qed.

  Lemma record_at : forall l, (l < length g)%nat -> arr_get (ns_records st) (Z.of_nat l) = Ok (fc (S l)).
  Proof.
    intros l L. destruct at_ as (_ & R & _). rewrite arr_get_ok with (d := 0) by (rewrite R, app_length, map_length, seq_length; lia). rewrite Nat2Z.id, R, app_nth1 by (rewrite map_length, seq_length; exact L).
    f_equal. rewrite nth_indep with (d' := first_cell g (S 0)) by (rewrite map_length, seq_length; exact L). rewrite (map_nth (fun l => first_cell g (S l))), seq_nth by exact L. reflexivity.
  Qed.
  Lemma type_get : forall l, (l < N)%nat -> arr_get (ns_types st) (Z.of_nat l) = Ok (type_at g l).
  Proof.
    intros l L. destruct at_ as (_ & _ & T & _ & _ & LE). change (map (fun L0 : nlayer => fst L0) g) with (map fst g) in T.
    rewrite arr_get_ok with (d := 0) by (rewrite T, app_length, map_length, repeat_length; lia). rewrite Nat2Z.id, T. f_equal. unfold type_at.
    destruct (Nat.lt_ge_cases l (length g)) as [A|A]; [rewrite app_nth1 by (rewrite map_length; exact A); reflexivity|].
    rewrite app_nth2 by (rewrite map_length; exact A). rewrite (nth_overflow (map fst g)) by (rewrite map_length; exact A). destruct (Nat.lt_ge_cases (l - length (map fst g)) (N - length g)) as [B|B]; [apply nth_repeat|apply nth_overflow; rewrite repeat_length; exact B].
  Qed.
  Lemma record_get : forall l, (l < N)%nat -> exists v, arr_get (ns_records st) (Z.of_nat l) = Ok v.
  Proof.
    intros l L. destruct at_ as (_ & R & _ & _ & _ & LE). eexists. apply arr_get_ok with (d := 0). rewrite R, app_length, map_length, seq_length, repeat_length. lia.
  Qed.
  Lemma spreader_type : is_pluggable top = true -> type_at g (Z.to_nat (d_nlayers d)) = 4.
  Proof.
    intros P. destruct ok as (G & T & F & NL & _). unfold type_at, g, grid. rewrite map_app, app_nth2; rewrite map_length; pose proof (layers_length d (rev es) ltac:(apply Forall_rev; exact G)) as L; rewrite total_layers_rev in L; [|lia].
    replace (Z.to_nat (d_nlayers d) - length (flat_map (kind_layers d) (rev es)))%nat with 0%nat by lia. unfold spreader_layer. rewrite P. reflexivity.
  Qed.
  Lemma no_spreader_type : is_pluggable top = false -> type_at g (Z.to_nat (d_nlayers d)) = 0.
  Proof. intros P. pose proof grid_length as L. rewrite P in L. unfold type_at. apply nth_overflow. rewrite map_length. lia. Qed.

  Definition layer_region (l : nat) : region := in_layer_region ps (Z.of_nat l) (type_at g l) (fc l) (fc (S l)).

  Lemma in_layer_regions_spec : forall n l, (l + n = N)%nat ->
    in_layer_regions (d_nlayers d) (ns_records st) (ns_types st) ps n (Z.of_nat l) (fc l) = Ok (map layer_region (seq l (length g - l))).
  Proof.
    pose proof nlayers_range as NR. pose proof grid_length as GL.
    induction n as [|n IH]; intros l L.
    - cbn [in_layer_regions]. replace (length g - l)%nat with 0%nat by (destruct at_ as (_ & _ & _ & _ & _ & LE); lia). reflexivity.
    - cbn [in_layer_regions]. rewrite type_get by lia. destruct (Z.eqb_spec (Z.of_nat l) (d_nlayers d)) as [E|E].
      + assert (LN : l = Z.to_nat (d_nlayers d)) by lia. destruct (is_pluggable top) eqn:P.
        * rewrite record_at by lia. cbn [bind]. rewrite LN, spreader_type by exact P. cbn [Z.eqb Pos.eqb negb andb]. assert (n = 0%nat) by (unfold N in L; lia). subst n. cbn [in_layer_regions bind].
          replace (length g - Z.to_nat (d_nlayers d))%nat with 1%nat by lia. cbn [seq map]. unfold layer_region. rewrite spreader_type by exact P. reflexivity.
        * destruct (record_get l ltac:(lia)) as (v & V). rewrite V. cbn [bind]. rewrite LN, no_spreader_type by exact P. cbn [Z.eqb negb andb]. assert (n = 0%nat) by (unfold N in L; lia). subst n. cbn [in_layer_regions].
          replace (length g - Z.to_nat (d_nlayers d))%nat with 0%nat by lia. reflexivity.
      + rewrite record_at by (unfold N in L; destruct (is_pluggable top); lia). cbn [bind andb]. replace (Z.of_nat l + 1) with (Z.of_nat (S l)) by lia. rewrite IH by lia. cbn [bind].
        replace (length g - l)%nat with (S (length g - S l)) by (unfold N in L; destruct (is_pluggable top); lia). reflexivity.
  Qed.

  Definition pair_region (l a b : nat) : region := between_region ps (Z.of_nat l) (fc a) (fc (S a)) (fc b) (fc (S b)).
  Definition layer_links (l : nat) : list region :=
    if side_by_side g (l - 1) then [pair_region l (l - 2) l; pair_region l (l - 1) (S l)] else [pair_region l (l - 1) l].

  Lemma between_regions_spec : forall n l, (l + n = N)%nat -> (1 <= l)%nat ->
    between_regions (d_nlayers d) (ns_records st) (ns_types st) ps n (Z.of_nat l) (fc (l - 1)) = Ok (flat_map layer_links (seq l (length g - l))).
  Proof.
    pose proof nlayers_range as NR. pose proof grid_length as GL.
    assert (U : forall l k, (k <= l)%nat -> (l <= N)%nat -> u32 (Z.of_nat l - Z.of_nat k) = Z.of_nat (l - k)) by (intros; rewrite u32_id by (unfold N in *; lia); lia).
    assert (BODY : forall n l, (l + S n = N)%nat -> (1 <= l)%nat -> (l < length g)%nat ->
      (forall n' l', (n' = n) -> l' = S l -> between_regions (d_nlayers d) (ns_records st) (ns_types st) ps n' (Z.of_nat l') (fc (l' - 1)) = Ok (flat_map layer_links (seq l' (length g - l')))) ->
      (if ((type_at g (l - 1) =? 2) && (type_at g l =? 2)) || ((type_at g (l - 1) =? 3) && (type_at g l =? 2)) then
         do r3 <- arr_get (ns_records st) (u32 (Z.of_nat l - 3)) ;
         do r2 <- arr_get (ns_records st) (u32 (Z.of_nat l - 2)) ;
         do r1 <- arr_get (ns_records st) (u32 (Z.of_nat l - 1)) ;
         do r0 <- arr_get (ns_records st) (Z.of_nat l) ;
         do rn <- arr_get (ns_records st) (Z.of_nat l + 1) ;
         do r <- between_regions (d_nlayers d) (ns_records st) (ns_types st) ps n (Z.of_nat l + 1) r1 ;
         Ok (between_region ps (Z.of_nat l) r3 r2 r1 r0 :: between_region ps (Z.of_nat l) r2 r1 r0 rn :: r)
       else
         do r1 <- arr_get (ns_records st) (u32 (Z.of_nat l - 1)) ;
         do r0 <- arr_get (ns_records st) (Z.of_nat l) ;
         do r <- between_regions (d_nlayers d) (ns_records st) (ns_types st) ps n (Z.of_nat l + 1) r1 ;
         Ok (between_region ps (Z.of_nat l) (fc (l - 1)) r1 r1 r0 :: r)) = Ok (flat_map layer_links (seq l (length g - l)))).
    { intros n l LN L1 LG IH.
      replace (length g - l)%nat with (S (length g - S l)) by lia. cbn [seq flat_map]. unfold layer_links at 1.
      assert (SBS : ((type_at g (l - 1) =? 2) && (type_at g l =? 2)) || ((type_at g (l - 1) =? 3) && (type_at g l =? 2)) = side_by_side g (l - 1)).
      { unfold side_by_side. replace (S (l - 1)) with l by lia. destruct (type_at g (l - 1) =? 2), (type_at g l =? 2), (type_at g (l - 1) =? 3); reflexivity. }
      rewrite SBS. specialize (IH n (S l) eq_refl eq_refl). replace (S l - 1)%nat with l in IH by lia. replace (Z.of_nat l + 1) with (Z.of_nat (S l)) by lia.
      destruct (side_by_side g (l - 1)) eqn:SB.
      - destruct (side_grid d top es (l - 1) SB) as (A1 & A2 & A3 & A4). fold g in A2, A3, A4. replace (l - 1 - 1)%nat with (l - 2)%nat in A3 by lia.
        assert (l <> 2)%nat by (intros ->; cbn in A3; rewrite bottom in A3; discriminate).
        change (Z.of_nat l - 3) with (Z.of_nat l - Z.of_nat 3). change (Z.of_nat l - 2) with (Z.of_nat l - Z.of_nat 2). change (Z.of_nat l - 1) with (Z.of_nat l - Z.of_nat 1).
        rewrite !U by lia. rewrite !record_at by lia. cbn [bind]. replace (S (l - 1)) with l by lia. rewrite IH. cbn [bind app].
        unfold pair_region. replace (S (l - 3)) with (l - 2)%nat by lia. replace (S (l - 2)) with (l - 1)%nat by lia. replace (S (l - 1)) with l by lia. reflexivity.
      - change (Z.of_nat l - 1) with (Z.of_nat l - Z.of_nat 1). rewrite !U by lia. rewrite !record_at by lia. cbn [bind]. replace (S (l - 1)) with l by lia. rewrite IH. cbn [bind app].
        unfold pair_region. replace (S (l - 1)) with l by lia. reflexivity. }
    induction n as [|n IH]; intros l LN L1.
    - cbn [between_regions]. replace (length g - l)%nat with 0%nat by (destruct at_ as (_ & _ & _ & _ & _ & LE); lia). reflexivity.
    - cbn [between_regions]. change (Z.of_nat l - 1) with (Z.of_nat l - Z.of_nat 1) at 1. rewrite U by lia. rewrite !type_get by lia. cbn [bind].
      destruct (Z.eqb_spec (Z.of_nat l) (d_nlayers d)) as [E|E].
      + assert (LE : l = Z.to_nat (d_nlayers d)) by lia. destruct (is_pluggable top) eqn:P.
        * assert (T4 : type_at g l = 4) by (rewrite LE; apply spreader_type; exact P). replace (negb (type_at g l =? 4)) with false by (rewrite T4; reflexivity). cbn [andb].
          apply BODY; try lia. intros n' l' -> ->. apply IH; lia.
        * assert (T0 : type_at g l = 0) by (rewrite LE; apply no_spreader_type; exact P). replace (negb (type_at g l =? 4)) with true by (rewrite T0; reflexivity). cbn [andb].
          assert (n = 0%nat) by (unfold N in LN; lia). subst n. cbn [between_regions]. replace (length g - l)%nat with 0%nat by lia. reflexivity.
      + cbn [andb]. apply BODY; try lia; [unfold N in LN; destruct (is_pluggable top); lia|]. intros n' l' -> ->. apply IH; lia.
  Qed.

  Theorem regions_spec : all_regions d st = Ok (map layer_region (seq 0 (length g)) ++ flat_map layer_links (seq 1 (length g - 1))).
  Proof.
    unfold all_regions. fold ps. pose proof nlayers_range as NR.
    pose proof (in_layer_regions_spec N 0 eq_refl) as A. cbn [Z.of_nat] in A. change (fc 0) with 0 in A. rewrite Nat.sub_0_r in A. fold N. rewrite A. cbn [bind].
    pose proof (between_regions_spec (Z.to_nat (d_nlayers d)) 1 ltac:(unfold N; lia) ltac:(lia)) as B. change (Z.of_nat 1) with 1 in B. change (fc (1 - 1)) with 0 in B. rewrite B. reflexivity.
  Qed.
End Regions.
