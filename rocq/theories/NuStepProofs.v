(** * update_source_vector on the non-uniform grid: all the layers *)
From Coq Require Import ZArith List Bool QArith Qfield Lia Lqa ZifyBool.
From Verif Require Import Base QSum Dims DimsProofs Queue QueueProofs Floorplan FloorplanSpec FloorplanProofs Stack StackSpec StackProofs PowerGrid Emulate EmulateSpec Conduct Matrix MatrixSpec CellProofs SourceProofs LayerProofs NonUniform NuSpec NuGeomProofs NuCountProofs NuTileProofs NuMatrix NuMatrixSpec NuMatrixProofs NuTableProofs NuCoeffProofs NuLeaveProofs NuSource NuSourceSpec NuSourceProofs PropNuMatrix.
Import ListNotations.
Local Open Scope Z_scope.

Lemma skipn_nth : forall {A} (l : list A) k x, nth_error l k = Some x -> skipn k l = x :: skipn (Datatypes.S k) l.
Proof. intros A l. induction l as [|a l IH]; intros [|k] x E; try discriminate; cbn in E. - injection E as ->. reflexivity. - cbn [skipn]. rewrite (IH k x E). reflexivity. Qed.
Lemma firstn_S_cons : forall (G : list nlayer) j L, grid_cells (firstn (Datatypes.S j) (L :: G)) = snd L ++ grid_cells (firstn j G).
Proof. reflexivity. Qed.

Section Steps.
  Variables (pg : npgrid) (d : dims) (hs : list Q) (G : list nlayer) (qs : nat -> list (list Q)).
  Let g := np_grid pg.
  Hypotheses (GT : good_tgrid d g) (PH : physical g d) (R : ready pg d hs G qs).
  Hypothesis C : forall c, In c (number hs 0 G) -> in_stack g d c /\ one_material g c /\ positive_cell g c.

  Definition place_in (k l i : nat) : nat := (length (grid_cells (firstn (l - k) (skipn k G))) + i)%nat.

  Lemma type_at : forall k, (k < length (tg_types g))%nat -> nth_error (tg_types g) k = Some (type_of g (Z.of_nat k)).
  Proof. intros k K. unfold type_of. rewrite Nat2Z.id. apply nth_error_nth'. exact K. Qed.
  Lemma type_past : forall k, (length (tg_types g) <= k)%nat -> type_of g (Z.of_nat k) = LT_NONE.
  Proof. intros k K. unfold type_of. rewrite Nat2Z.id. apply nth_overflow. exact K. Qed.
  Lemma heat_past : forall l i, (length (tg_types g) <= l)%nat -> (heat_in pg d hs G qs l i == 0)%Q.
  Proof.
    intros l i L. unfold heat_in. rewrite (air_not pg d hs G l i) by (fold g; rewrite (type_past l L); reflexivity). rewrite (board_not pg d hs G l i) by (fold g; rewrite (type_past l L); reflexivity). rewrite (inlet_not pg d l i) by (fold g; rewrite (type_past l L); reflexivity). fold g. rewrite (type_past l L). cbn [is_source]. ring.
  Qed.

  Lemma layers_spec : forall n k s, (n + k = length (tg_types g))%nat ->
      (forall l, (k <= l < length (tg_types g))%nat -> is_source (type_of g (Z.of_nat l)) = true -> Forall (fun q => q <> []) (qs l)) ->
      length s = length (number hs k (skipn k G)) -> (forall i, (nth i s 0 == 0)%Q) ->
      exists fs' s', nu_update_layers pg d (Z.of_nat k) (skipn k (tg_types g)) (skipn k (np_flps pg)) (number hs k (skipn k G)) s = Ok (TDICE_SUCCESS, fs', s') /\
        length s' = length s /\ length fs' = n /\
        (forall l i, (k <= l < length G)%nat -> (i < length (layer_block G l))%nat -> (nth (place_in k l i) s' 0 == heat_in pg d hs G qs l i)%Q) /\
        (forall l f, (k <= l)%nat -> nth_error (np_flps pg) l = Some f -> exists f', nth_error fs' (l - k) = Some f' /\ advanced pg qs l f f').
  Proof.
    pose proof (rd_layers _ _ _ _ _ R) as LG. fold g in LG. pose proof (rd_flps _ _ _ _ _ R) as LF. fold g in LF.
    intros n. induction n as [|n IH]; intros k s K NE LS ZS.
    - rewrite (skipn_all2 (tg_types g)) by lia. cbn [nu_update_layers]. exists (skipn k (np_flps pg)), s. split; [reflexivity|]. split; [reflexivity|]. split; [rewrite skipn_length; lia|]. split.
      + intros l i L I. rewrite ZS, heat_past by lia. reflexivity.
      + intros l f L NF. exfalso. assert (nth_error (np_flps pg) l <> None) by congruence. rewrite nth_error_Some in H. lia.
    - assert (KL : (k < length (tg_types g))%nat) by lia. assert (NF : exists f, nth_error (np_flps pg) k = Some f). { destruct (nth_error (np_flps pg) k) eqn:E; [eauto|]. apply nth_error_None in E. lia. } destruct NF as (f & NF).
      rewrite (skipn_nth _ _ _ (type_at k KL)), (skipn_nth _ _ _ NF). cbn [nu_update_layers].
      destruct (layer_spec pg d hs G qs GT PH R C k f s KL NF (NE k ltac:(lia)) LS ZS) as (f' & s1 & E & L1 & IN & OUT & AD). fold g in E. rewrite E. cbn [bind].
      assert (RN : run_of (Z.of_nat k) (number hs k (skipn k G)) = length (layer_block G k)) by (rewrite (skip_block G k) by lia; apply run_number). rewrite RN.
      assert (SN : skipn (length (layer_block G k)) (number hs k (skipn k G)) = number hs (Datatypes.S k) (skipn (Datatypes.S k) G)) by (rewrite (skip_block G k) by lia; apply skip_number). rewrite SN.
      assert (LN : length (number hs k (skipn k G)) = (length (layer_block G k) + length (number hs (Datatypes.S k) (skipn (Datatypes.S k) G)))%nat).
      { rewrite (skip_block G k) at 1 by lia. cbn [number]. rewrite app_length, map_length. reflexivity. }
      destruct (IH (Datatypes.S k) (skipn (length (layer_block G k)) s1)) as (fs2 & s2 & E2 & L2 & LF2 & V2 & A2).
      + lia.
      + intros l L. apply NE. lia.
      + rewrite skipn_length. lia.
      + intros i. rewrite nth_skipn. apply OUT. lia.
      + replace (Z.of_nat k + 1) with (Z.of_nat (Datatypes.S k)) by lia. rewrite E2. cbn [bind]. rewrite skipn_length in L2.
        eexists. eexists. split; [reflexivity|]. split; [rewrite app_length, firstn_length; lia|]. split; [cbn [length]; lia|]. split.
        * intros l i L I. destruct (Nat.eq_dec l k) as [->|NK].
          -- unfold place_in. rewrite Nat.sub_diag. cbn [firstn grid_cells flat_map length Nat.add]. rewrite app_nth1 by (rewrite firstn_length; lia). rewrite nth_firstn_lt by lia. apply IN. exact I.
          -- rewrite <- (V2 l i ltac:(lia) I). unfold place_in. rewrite (skip_block G k) by lia. replace (l - k)%nat with (Datatypes.S (l - Datatypes.S k)) by lia. rewrite firstn_S_cons, app_length. change (snd (nth k G (0, []))) with (layer_block G k).
             rewrite app_nth2 by (rewrite firstn_length; lia). rewrite firstn_length. match goal with |- (nth ?a s2 0 == nth ?b s2 0)%Q => replace a with b by lia end. reflexivity.
        * intros l f0 L NF0. destruct (Nat.eq_dec l k) as [->|NK].
          -- rewrite NF in NF0. injection NF0 as <-. rewrite Nat.sub_diag. exists f'. split; [reflexivity|exact AD].
          -- destruct (A2 l f0 ltac:(lia) NF0) as (f2 & N2 & AD2). exists f2. split; [|exact AD2]. replace (l - k)%nat with (Datatypes.S (l - Datatypes.S k)) by lia. exact N2.
  Qed.

  (** A queue is empty: the update fails. *)
  Lemma layers_empty : forall n k s, (n + k = length (tg_types g))%nat ->
      (exists l, (k <= l < length (tg_types g))%nat /\ is_source (type_of g (Z.of_nat l)) = true /\ Exists (fun q => q = []) (qs l)) ->
      length s = length (number hs k (skipn k G)) -> (forall i, (nth i s 0 == 0)%Q) ->
      exists fs' s', nu_update_layers pg d (Z.of_nat k) (skipn k (tg_types g)) (skipn k (np_flps pg)) (number hs k (skipn k G)) s = Ok (TDICE_FAILURE, fs', s').
  Proof.
    pose proof (rd_layers _ _ _ _ _ R) as LG. fold g in LG. pose proof (rd_flps _ _ _ _ _ R) as LF. fold g in LF.
    intros n. induction n as [|n IH]; intros k s K (l & L & S & EX) LS ZS; [lia|].
    assert (KL : (k < length (tg_types g))%nat) by lia. assert (NF : exists f, nth_error (np_flps pg) k = Some f). { destruct (nth_error (np_flps pg) k) eqn:E; [eauto|]. apply nth_error_None in E. lia. } destruct NF as (f & NF).
    rewrite (skipn_nth _ _ _ (type_at k KL)), (skipn_nth _ _ _ NF). cbn [nu_update_layers].
    assert (DEC : (is_source (type_of g (Z.of_nat k)) = true -> Forall (fun q => q <> []) (qs k)) \/ is_source (type_of g (Z.of_nat k)) = true /\ Exists (fun q => q = []) (qs k)).
    { destruct (is_source (type_of g (Z.of_nat k))); [|left; discriminate]. destruct (Exists_dec (fun q : list Q => q = []) (qs k)) as [Y|Y]; [intros [|]; [left; reflexivity|right; discriminate]|right; auto|left; intros _; rewrite Forall_forall; rewrite Exists_exists in Y; intros q I ->; apply Y; eauto]. }
    destruct DEC as [NE|(SK & EK)].
    - destruct (layer_spec pg d hs G qs GT PH R C k f s KL NF NE LS ZS) as (f' & s1 & E & L1 & IN & OUT & AD). fold g in E. rewrite E. cbn [bind].
      assert (RN : run_of (Z.of_nat k) (number hs k (skipn k G)) = length (layer_block G k)) by (rewrite (skip_block G k) by lia; apply run_number). rewrite RN.
      assert (SN : skipn (length (layer_block G k)) (number hs k (skipn k G)) = number hs (Datatypes.S k) (skipn (Datatypes.S k) G)) by (rewrite (skip_block G k) by lia; apply skip_number). rewrite SN.
      assert (LN : length (number hs k (skipn k G)) = (length (layer_block G k) + length (number hs (Datatypes.S k) (skipn (Datatypes.S k) G)))%nat).
      { rewrite (skip_block G k) at 1 by lia. cbn [number]. rewrite app_length, map_length. reflexivity. }
      destruct (IH (Datatypes.S k) (skipn (length (layer_block G k)) s1)) as (fs2 & s2 & E2).
      + lia.
      + exists l. repeat split; try assumption; try lia. destruct (Nat.eq_dec l k) as [->|]; [|lia]. exfalso. specialize (NE S). rewrite Forall_forall in NE. rewrite Exists_exists in EX. destruct EX as (q & I & ->). exact (NE [] I eq_refl).
      + rewrite skipn_length. lia.
      + intros i. rewrite nth_skipn. apply OUT. lia.
      + replace (Z.of_nat k + 1) with (Z.of_nat (Datatypes.S k)) by lia. rewrite E2. cbn [bind]. eauto.
    - assert (E : exists f' s1, nu_update_layer pg d (Z.of_nat k) (type_of g (Z.of_nat k)) f (number hs k (skipn k G)) s = Ok (TDICE_FAILURE, f', s1)).
      { destruct (rd_queues _ _ _ _ _ R k KL SK) as ((els & EE) & Q1 & Q2 & Q3). rewrite NF in EE. injection EE as ->. assert (FE : flp_at pg k = els) by (unfold flp_at; rewrite (nth_error_nth _ _ _ NF); reflexivity). rewrite FE in Q1, Q2, Q3.
        assert (LN : length s = (length (layer_block G k) + length (number hs (Datatypes.S k) (skipn (Datatypes.S k) G)))%nat).
        { rewrite LS. rewrite (skip_block G k) at 1 by lia. cbn [number]. rewrite app_length, map_length. reflexivity. }
        assert (FAIL : forall s1, length s1 = length s -> exists els' s', nu_fill_elements els s1 = Ok (TDICE_FAILURE, els', s')) by (intros s1 L1; apply (fill_elements_empty els (qs k)); auto; lia).
        set (x := firstn (length (layer_block G k)) s). set (y := skipn (length (layer_block G k)) s).
        assert (SXY : s = x ++ y) by (symmetry; apply firstn_skipn). assert (LX : length x = length (layer_block G k)) by (unfold x; rewrite firstn_length; lia).
        assert (TOPP : to_ambient (type_of g (Z.of_nat k)) = true -> exists kk s', tg_top g = Some kk /\ add_ambient (length (number hs k (skipn k G))) (top_ambient kk) (np_top_tcs pg) s = Ok s' /\ length s' = length s).
        { intros T. destruct (top_part pg d hs G qs GT PH R C k x y KL T ltac:(rewrite <- SXY; exact LS) LX) as (kk & x' & TT & _ & E & L' & N). exists kk, (x' ++ y). rewrite SXY. repeat split; auto. rewrite !app_length. lia. }
        assert (BOTP : to_pcb (type_of g (Z.of_nat k)) = true -> exists kk s', tg_bottom g = Some kk /\ add_ambient (run_of (Z.of_nat k) (number hs k (skipn k G))) (bs_ambient kk) (np_bottom_tcs pg) s = Ok s' /\ length s' = length s).
        { intros T. destruct (bottom_part pg d hs G qs GT PH R C k x y KL T LX) as (kk & x' & TT & E & L' & N). exists kk, (x' ++ y). rewrite SXY. repeat split; auto. rewrite !app_length. lia. }
        unfold nu_update_layer. fold g. destruct (type_of g (Z.of_nat k)) eqn:TT; try discriminate.
        - destruct (FAIL s eq_refl) as (e' & s' & F). rewrite F. cbn [bind]. eauto.
        - destruct (TOPP eq_refl) as (kk & s1 & T & E & L1). rewrite T, E. cbn [bind]. destruct (FAIL s1 L1) as (e' & s' & F). rewrite F. cbn [bind]. eauto.
        - destruct (FAIL s eq_refl) as (e' & s' & F). rewrite F. cbn [bind]. eauto.
        - destruct (BOTP eq_refl) as (kk & s1 & T & E & L1). rewrite T, E. cbn [bind]. destruct (FAIL s1 L1) as (e' & s' & F). rewrite F. cbn [bind]. eauto. }
      destruct E as (f' & s1 & E). rewrite E. cbn [bind]. eauto.
  Qed.

  (** The whole update. *)
  Lemma zeros : forall (l : list Q), (forall i, (nth i (map (fun _ => 0%Q) l) 0 == 0)%Q).
  Proof. intros l. induction l as [|a l IH]; intros [|i]; cbn; try reflexivity. apply IH. Qed.

  Theorem update_full : (forall l, (l < length (tg_types g))%nat -> is_source (type_of g (Z.of_nat l)) = true -> Forall (fun q => q <> []) (qs l)) ->
      exists pg', nu_update_sources pg d = Ok (TDICE_SUCCESS, pg') /\
        ready pg' d hs G (fun l => map (@tl Q) (qs l)) /\ np_grid pg' = np_grid pg /\ np_cells pg' = np_cells pg /\ np_caps pg' = np_caps pg /\
        (forall l i, (l < length G)%nat -> (i < length (layer_block G l))%nat -> (qat (np_sources pg') (first_cell G l + Z.of_nat i) == heat_in pg d hs G qs l i)%Q) /\
        (forall l, (l < length (tg_types g))%nat -> is_source (type_of g (Z.of_nat l)) = true -> map pieces (flp_at pg' l) = map pieces (flp_at pg l)).
  Proof.
    intros NE. unfold nu_update_sources. fold g. pose proof (rd_cells _ _ _ _ _ R) as RC. rewrite RC.
    destruct (layers_spec (length (tg_types g)) 0 (map (fun _ => 0%Q) (np_sources pg))) as (fs' & s' & E & L & LF & V & A).
    - lia.
    - intros l L. apply NE. lia.
    - rewrite map_length, (rd_sources _ _ _ _ _ R). cbn [skipn]. symmetry. apply number_length.
    - apply zeros.
    - cbn [skipn] in E. change (Z.of_nat 0) with 0 in E. rewrite E. cbn [bind]. eexists. split; [reflexivity|].
      pose proof (rd_flps _ _ _ _ _ R) as LF0. fold g in LF0. split.
      + constructor; cbn [np_cells np_grid np_flps np_sources np_top_tcs np_bottom_tcs]; fold g; try apply R.
        * reflexivity.
        * exact LF.
        * rewrite L, map_length. apply R.
        * rewrite <- RC. apply R.
        * rewrite <- RC. apply R.
        * intros l L0 S. destruct (nth_error (np_flps pg) l) as [f|] eqn:NF; [|apply nth_error_None in NF; lia].
          destruct (A l f ltac:(lia) NF) as (f' & NF' & AD). rewrite Nat.sub_0_r in NF'. unfold advanced in AD. fold g in AD. rewrite S in AD. destruct AD as (els & els' & -> & -> & Q1 & DX & DY).
          destruct (rd_queues _ _ _ _ _ R l L0 S) as (_ & _ & GP & AP). unfold flp_at in *. rewrite (nth_error_nth _ _ _ NF) in GP, AP. cbn [np_flps]. rewrite (nth_error_nth _ _ _ NF').
          assert (PP : map pieces els' = map pieces els /\ good_pieces els').
          { clear -DX DY GP. revert els' DX DY. induction els as [|e els IH]; intros [|e' els'] DX DY; try discriminate; [split; [reflexivity|constructor]|]. cbn in DX, DY. injection DX as D1 D2. injection DY as D3 D4. inversion GP; subst. destruct (IH H2 els' D2 D4) as (P1 & P2). cbn. unfold pieces at 1 3. rewrite D1, D3, P1. split; [reflexivity|]. constructor; [rewrite D1, D3; assumption|exact P2]. }
          split; [eauto|]. split; [exact Q1|]. split; [apply PP|]. unfold all_pieces. rewrite (proj1 PP). exact AP.
      + split; [reflexivity|]. split; [reflexivity|]. split; [reflexivity|]. split.
        2: { intros l L0 S. destruct (nth_error (np_flps pg) l) as [f|] eqn:NF; [|apply nth_error_None in NF; lia].
          destruct (A l f ltac:(lia) NF) as (f' & NF' & AD). rewrite Nat.sub_0_r in NF'. unfold advanced in AD. fold g in AD. rewrite S in AD. destruct AD as (els & els' & -> & -> & Q1 & DX & DY).
          unfold flp_at. cbn [np_flps]. rewrite (nth_error_nth _ _ _ NF), (nth_error_nth _ _ _ NF').
          clear -DX DY. revert els' DX DY. induction els as [|e els IH]; intros [|e' els'] DX DY; try discriminate; [reflexivity|]. cbn in DX, DY. injection DX as D1 D2. injection DY as D3 D4. cbn [map]. rewrite (IH els' D2 D4). unfold pieces. rewrite D1, D3. reflexivity. }
        intros l i L0 I. cbn [np_sources]. rewrite <- (V l i ltac:(lia) I). unfold qat, place_in, first_cell. rewrite Nat.sub_0_r. cbn [skipn].
        match goal with |- (nth ?a s' 0 == nth ?b s' 0)%Q => replace a with b by lia end. reflexivity.
  Qed.
  Theorem update_ready : (forall l, (l < length (tg_types g))%nat -> is_source (type_of g (Z.of_nat l)) = true -> Forall (fun q => q <> []) (qs l)) ->
      exists pg', nu_update_sources pg d = Ok (TDICE_SUCCESS, pg') /\
        ready pg' d hs G (fun l => map (@tl Q) (qs l)) /\ np_grid pg' = np_grid pg /\ np_cells pg' = np_cells pg /\ np_caps pg' = np_caps pg /\
        (forall l i, (l < length G)%nat -> (i < length (layer_block G l))%nat -> (qat (np_sources pg') (first_cell G l + Z.of_nat i) == heat_in pg d hs G qs l i)%Q).
  Proof. intros NE. destruct (update_full NE) as (pg' & H1 & H2 & H3 & H4 & H5 & H6 & _). exists pg'. repeat (split; [assumption|]). assumption. Qed.
  Theorem update_empty : (exists l, (l < length (tg_types g))%nat /\ is_source (type_of g (Z.of_nat l)) = true /\ Exists (fun q => q = []) (qs l)) ->
      exists pg', nu_update_sources pg d = Ok (TDICE_FAILURE, pg').
  Proof.
    intros (l & L & S & E). unfold nu_update_sources. fold g. pose proof (rd_cells _ _ _ _ _ R) as RC. rewrite RC.
    destruct (layers_empty (length (tg_types g)) 0 (map (fun _ => 0%Q) (np_sources pg))) as (fs' & s' & EE).
    - lia.
    - exists l. repeat split; auto; lia.
    - rewrite map_length, (rd_sources _ _ _ _ _ R). cbn [skipn]. symmetry. apply number_length.
    - apply zeros.
    - cbn [skipn] in EE. change (Z.of_nat 0) with 0 in EE. rewrite EE. cbn [bind]. eauto.
  Qed.
End Steps.
