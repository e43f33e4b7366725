(** * Steps of a simulation on the non-uniform grid *)
From Coq Require Import ZArith List Bool QArith Lia ZifyBool Lqa.
From Verif Require Import Base QSum Dims DimsSpec Queue QueueProofs Floorplan FloorplanProofs Stack StackSpec StackProofs PowerGrid Emulate EmulateSpec Conduct Matrix MatrixSpec BalanceSpec LayerProofs NodeProofs NonUniform NuSpec NuCountProofs NuMatrix NuMatrixSpec NuMatrixProofs NuTableProofs NuCoeffProofs NuLeaveProofs NuSource NuSourceSpec NuSourceProofs NuStepProofs PropNuMatrix PropNuSource NuEmulate NuRunSpec NuFlatProofs.
Import ListNotations.
Local Open Scope Z_scope.

(** [heat_in] with the powers [ps]. *)
Definition heat_of (pg : npgrid) (d : dims) (hs : list Q) (G : list nlayer) (ps : nat -> list Q) (l k : nat) : Q :=
  let g := np_grid pg in let c := grid_cell hs G l k in
  ((if is_source (type_of g (Z.of_nat l)) then share (flp_at pg l) (ps l) k else 0) + from_air g d c + from_board g d c + from_inlet g d l k)%Q.

Lemma share_pieces : forall els els' ps k, map pieces els = map pieces els' -> share els ps k = share els' ps k.
Proof.
  intros els. induction els as [|e els IH]; intros [|e' els'] ps k H; try discriminate; [reflexivity|]. cbn [map] in H. injection H as H1 H2. destruct ps as [|p ps]; [reflexivity|]. cbn [share]. rewrite H1. destruct (k <? pieces e')%nat; [reflexivity|]. apply IH. exact H2.
Qed.
Lemma ready_ext : forall pg d hs G qs qs', (forall l, qs l = qs' l) -> ready pg d hs G qs -> ready pg d hs G qs'.
Proof.
  intros pg d hs G qs qs' E [R1 R2 R3 R4 R5 R6 R7 R8 R9 R10]. constructor; auto. intros l L S. rewrite <- E. apply R9; assumption.
Qed.
Lemma ready_put : forall pg d hs G qs s, length s = length (np_sources pg) -> ready pg d hs G qs -> ready (put_sources pg s) d hs G qs.
Proof.
  intros pg d hs G qs s L [R1 R2 R3 R4 R5 R6 R7 R8 R9 R10]. constructor; auto. cbn [put_sources np_sources]. congruence.
Qed.
Lemma tl_skipn : forall {A} n (l : list A), tl (skipn n l) = skipn (Datatypes.S n) l.
Proof. intros A n. induction n as [|n IH]; intros [|a l]; try reflexivity. cbn [skipn]. apply IH. Qed.
Lemma hd_skipn : forall n (l : list Q), hd 0%Q (skipn n l) = nth n l 0%Q.
Proof. intros n. induction n as [|n IH]; intros [|a l]; try reflexivity. apply IH. Qed.

Definition begun (L : Z) (n : nat) : nat := ((n + Z.to_nat L - 1) / Z.to_nat L)%nat.
Lemma begun_S : forall L n, 0 < L -> begun L (Datatypes.S n) = Datatypes.S (n / Z.to_nat L).
Proof. intros L n H. unfold begun. replace (Datatypes.S n + Z.to_nat L - 1)%nat with (n + 1 * Z.to_nat L)%nat by lia. rewrite Nat.div_add by lia. lia. Qed.
Lemma begun_boundary : forall L n, 0 < L -> (n mod Z.to_nat L = 0)%nat -> begun L n = (n / Z.to_nat L)%nat.
Proof.
  intros L n H M. unfold begun. pose proof (Nat.div_mod n (Z.to_nat L) ltac:(lia)) as E. rewrite M, Nat.add_0_r in E. symmetry. apply (Nat.div_unique _ _ _ (Z.to_nat L - 1)); lia.
Qed.
Lemma begun_within : forall L n, 0 < L -> (n mod Z.to_nat L <> 0)%nat -> begun L n = Datatypes.S (n / Z.to_nat L).
Proof.
  intros L n H M. unfold begun. pose proof (Nat.div_mod n (Z.to_nat L) ltac:(lia)) as E. pose proof (Nat.mod_upper_bound n (Z.to_nat L) ltac:(lia)) as U. symmetry. apply (Nat.div_unique _ _ _ (n mod Z.to_nat L - 1)); lia.
Qed.

Section Run.
  Context {PS : Type}.
  Variable solve : sysmatrix -> list Q -> error_t * list Q.
  Variable plugin : PS -> list Q -> list Q -> bool * list Q * PS.
  Hypothesis IP : in_place solve plugin.
  Hypothesis EX : exact solve.
  Variables (g : tgrid) (d : dims) (hs : list Q) (G : list nlayer) (cs : list conn) (qs : nat -> list (list Q)) (s0 : nsim PS).
  Hypothesis ST : nu_start g d hs G cs qs s0.
  Let an0 := n_an s0.
  Let pg0 := n_pg s0.
  Let L := an_slot_length an0.
  Let cells := np_cells pg0.
  Definition powers_at (n : nat) (l : nat) : list Q := slot_powers L n (qs l).

  Record running (n : nat) (s : nsim PS) : Prop := {
    rn_grid : np_grid (n_pg s) = g;
    rn_cells : np_cells (n_pg s) = cells;
    rn_caps : np_caps (n_pg s) = np_caps pg0;
    rn_matrix : n_matrix s = n_matrix s0;
    rn_an : n_an s = mkAnalysis (an_type an0) (an_step an0) L (Z.of_nat n) (an_initial an0);
    rn_temps : length (n_temps s) = length cells;
    rn_ready : ready (n_pg s) d hs G (fun l => map (skipn (begun L n)) (qs l));
    rn_pieces : forall l, (l < length (tg_types g))%nat -> is_source (type_of g (Z.of_nat l)) = true -> map pieces (flp_at (n_pg s) l) = map pieces (flp_at pg0 l);
    rn_sources : (n mod Z.to_nat L <> 0)%nat -> forall l i, (l < length (tg_types g))%nat -> (i < length (layer_block G l))%nat ->
        (qat (np_sources (n_pg s)) (first_cell G l + Z.of_nat i) == heat_of pg0 d hs G (powers_at n) l i)%Q;
    rn_full : (n mod Z.to_nat L <> 0)%nat -> forall l, (l < length (tg_types g))%nat -> is_source (type_of g (Z.of_nat l)) = true -> Forall (fun q => (n / Z.to_nat L < length q)%nat) (qs l)
  }.

  Lemma running_start : running 0 s0.
  Proof.
    destruct ST. constructor; try reflexivity; try assumption.
    - destruct an0 eqn:E. unfold an0 in E. rewrite E in *. cbn in *. unfold L. rewrite st_time. reflexivity.
    - apply (ready_ext _ _ _ _ qs); [|assumption]. intros l. unfold begun. fold an0 in st_slot. fold L in st_slot. rewrite Nat.div_small by lia. symmetry. erewrite map_ext; [apply map_id|]. reflexivity.
    - intros H. exfalso. apply H. apply Nat.mod_0_l. fold an0 in st_slot. fold L in st_slot. lia.
    - intros H. exfalso. apply H. apply Nat.mod_0_l. fold an0 in st_slot. fold L in st_slot. lia.
  Qed.

  Lemma queue_full : forall n l, Forall (fun q => q <> []) (map (skipn n) (qs l)) -> Forall (fun q => (n < length q)%nat) (qs l).
  Proof.
    intros n l H. rewrite Forall_forall in *. intros q I. destruct (Nat.lt_ge_cases n (length q)) as [X|X]; [exact X|]. exfalso. apply (H (skipn n q)); [apply in_map; exact I|apply skipn_all2; exact X].
  Qed.

  Let CW : forall c, In c cells -> in_stack g d c /\ one_material g c /\ positive_cell g c := nw_cells _ _ _ _ _ _ (st_network _ _ _ _ _ _ _ ST).
  Let CN : cells = number hs 0 G := rd_cells _ _ _ _ _ (st_ready _ _ _ _ _ _ _ ST).
  Lemma slot_pos : 0 < L < two32. Proof. apply (st_slot _ _ _ _ _ _ _ ST). Qed.
  Lemma few_cells : Z.of_nat (length cells) < two32.
  Proof. pose proof (nw_conns _ _ _ _ _ _ (st_network _ _ _ _ _ _ _ ST)) as GC. destruct GC. unfold cells, pg0. lia. Qed.

  (** The plugin writes beyond the chip only. *)
  Lemma chip_below : forall l i sp h m, tg_top g = Some (SinkPluggable sp h m) -> (l < length (tg_types g))%nat -> (i < length (layer_block G l))%nat ->
      first_cell G l + Z.of_nat i < Z.of_nat (length cells) - s_ncols sp * s_nrows sp.
  Proof.
    intros l i sp h m T Ll I. destruct (st_spreader _ _ _ _ _ _ _ ST sp h m T) as (LG & B). rewrite CN, number_length.
    assert (E : G = firstn (length (tg_types g)) G ++ skipn (length (tg_types g)) G) by (symmetry; apply firstn_skipn).
    assert (NE : exists X, nth_error G (length (tg_types g)) = Some X) by (destruct (nth_error G (length (tg_types g))) eqn:N; [eauto|apply nth_error_None in N; lia]). destruct NE as (X & NE).
    assert (LS : length (grid_cells G) = (length (grid_cells (firstn (length (tg_types g)) G)) + length (layer_block G (length (tg_types g))))%nat).
    { rewrite E at 1. rewrite grid_cells_app, app_length, (skipn_nth _ _ _ NE), skipn_all2 by lia. unfold layer_block. rewrite (nth_error_nth _ _ _ NE). unfold grid_cells at 2. cbn [flat_map]. rewrite app_nil_r. reflexivity. }
    pose proof (first_fits (firstn (length (tg_types g)) G) l i ltac:(rewrite firstn_length; lia)) as F.
    assert (BE : layer_block (firstn (length (tg_types g)) G) l = layer_block G l) by (unfold layer_block; rewrite nth_firstn_lt by lia; reflexivity).
    assert (FE : first_cell (firstn (length (tg_types g)) G) l = first_cell G l) by (unfold first_cell; rewrite firstn_firstn, Nat.min_l by lia; reflexivity).
    rewrite BE, FE in F. specialize (F I). lia.
  Qed.
  Lemma plugin_step : forall s s2 e, length (n_temps s) = length cells -> length (np_sources (n_pg s)) = length cells -> np_grid (n_pg s) = g ->
      nu_pluggable plugin s = Ok (e, s2) ->
      n_temps s2 = n_temps s /\ n_matrix s2 = n_matrix s /\ n_an s2 = n_an s /\ n_pg s2 = put_sources (n_pg s) (np_sources (n_pg s2)) /\ length (np_sources (n_pg s2)) = length cells /\
      forall l i, (l < length (tg_types g))%nat -> (i < length (layer_block G l))%nat -> qat (np_sources (n_pg s2)) (first_cell G l + Z.of_nat i) = qat (np_sources (n_pg s)) (first_cell G l + Z.of_nat i).
  Proof.
    intros s s2 e LT LS GE H. unfold nu_pluggable in H. rewrite GE in H. 
    assert (SAME : n_pg s = put_sources (n_pg s) (np_sources (n_pg s))) by (destruct (n_pg s); reflexivity).
    destruct (tg_top g) as [[|sp h m]|] eqn:T; [injection H as <- <-; repeat split; auto; fail| |injection H as <- <-; repeat split; auto; fail].
    set (off := Z.to_nat (nu_spreader_offset (Z.of_nat (length (n_temps s))) sp)) in *. set (n := Z.to_nat (u32 (s_ncols sp * s_nrows sp))) in *.
    destruct ((off + n <=? length (np_sources (n_pg s)))%nat && (off + n <=? length (n_temps s))%nat) eqn:Bd; [|discriminate].
    destruct (plugin (n_plugin s) (firstn n (skipn off (n_temps s))) (firstn n (skipn off (np_sources (n_pg s))))) as ((bad, flows), ps) eqn:PE.
    pose proof (proj2 IP _ _ _ _ _ _ PE) as LF. rewrite firstn_length, skipn_length in LF. apply andb_true_iff in Bd. destruct Bd as (B1 & B2). apply Nat.leb_le in B1, B2.
    assert (OFF : forall l i, (l < length (tg_types g))%nat -> (i < length (layer_block G l))%nat -> (Z.to_nat (first_cell G l + Z.of_nat i) < off)%nat).
    { intros l i Ll I. pose proof (chip_below l i sp h m T Ll I) as CB. destruct (st_spreader _ _ _ _ _ _ _ ST sp h m T) as (LG & B).
      assert (0 <= first_cell G l) by (unfold first_cell; lia). pose proof few_cells as FC. unfold off, nu_spreader_offset. rewrite LT. rewrite !u32_id; unfold two32 in *; rewrite ?u32_id; unfold two32 in *; try lia. }
    assert (KEEP : forall fl, length fl = length flows -> forall l i, (l < length (tg_types g))%nat -> (i < length (layer_block G l))%nat ->
              qat (firstn off (np_sources (n_pg s)) ++ fl ++ skipn (off + n) (np_sources (n_pg s))) (first_cell G l + Z.of_nat i) = qat (np_sources (n_pg s)) (first_cell G l + Z.of_nat i)).
    { intros fl LFL l i Ll I. specialize (OFF l i Ll I). unfold qat. rewrite app_nth1 by (rewrite firstn_length; lia). apply nth_firstn_lt. exact OFF. }
    assert (LK : forall fl, length fl = length flows -> length (firstn off (np_sources (n_pg s)) ++ fl ++ skipn (off + n) (np_sources (n_pg s))) = length cells) by (intros fl LFL; rewrite !app_length, firstn_length, skipn_length; lia).
    destruct bad; injection H as <- <-; cbn [n_temps n_matrix n_an n_pg put_sources np_sources]; repeat split; auto; try apply LK; try (intros; apply KEEP); rewrite ?map_length; auto.
  Qed.

  Lemma slice_seq : forall (x : list Q) a n, (a + n <= length x)%nat -> firstn n (skipn a x) = map (fun i => nth (a + i) x 0%Q) (seq 0 n).
  Proof.
    intros x a n H. apply (nth_ext _ _ 0%Q ((fun i => nth (a + i) x 0%Q) 0%nat)); [rewrite firstn_length, skipn_length, map_length, seq_length; lia|]. intros i I. rewrite firstn_length, skipn_length in I.
    rewrite nth_firstn_lt by lia. rewrite (map_nth (fun i => nth (a + i) x 0%Q)), seq_nth by lia. rewrite nth_skipn. reflexivity.
  Qed.
  (** What the plugin is given and what becomes of its answer. *)
  Lemma plugin_flows : forall s s2 sp h m, length (n_temps s) = length cells -> length (np_sources (n_pg s)) = length cells -> np_grid (n_pg s) = g ->
      tg_top g = Some (SinkPluggable sp h m) -> nu_pluggable plugin s = Ok (TDICE_SUCCESS, s2) ->
      exists flows, plugin (n_plugin s) (spreader_values g G (n_temps s)) (spreader_values g G (np_sources (n_pg s))) = (false, flows, n_plugin s2) /\
        length flows = length (layer_block G (length (tg_types g))) /\
        spreader_values g G (np_sources (n_pg s2)) = map Qopp flows.
  Proof.
    intros s s2 sp h m LT LS GE T H. unfold nu_pluggable in H. rewrite GE, T in H. destruct (st_spreader _ _ _ _ _ _ _ ST sp h m T) as (LG & B). pose proof few_cells as FC.
    set (off := Z.to_nat (nu_spreader_offset (Z.of_nat (length (n_temps s))) sp)) in *. set (n := Z.to_nat (u32 (s_ncols sp * s_nrows sp))) in *.
    assert (NE : exists X, nth_error G (length (tg_types g)) = Some X) by (destruct (nth_error G (length (tg_types g))) eqn:N; [eauto|apply nth_error_None in N; lia]). destruct NE as (X & NE).
    assert (LC : length cells = (length (grid_cells (firstn (length (tg_types g)) G)) + length (layer_block G (length (tg_types g))))%nat).
    { rewrite CN, number_length. rewrite <- (firstn_skipn (length (tg_types g)) G) at 1. rewrite grid_cells_app, app_length, (skipn_nth _ _ _ NE), skipn_all2 by lia. unfold layer_block. rewrite (nth_error_nth _ _ _ NE). unfold grid_cells at 2. cbn [flat_map]. rewrite app_nil_r. reflexivity. }
    assert (U1 : u32 (s_ncols sp * s_nrows sp) = s_ncols sp * s_nrows sp) by (apply u32_id; lia).
    assert (NN : n = length (layer_block G (length (tg_types g)))) by (unfold n; rewrite U1; lia).
    assert (OO : off = length (grid_cells (firstn (length (tg_types g)) G))) by (unfold off, nu_spreader_offset; rewrite U1, LT; rewrite u32_id by lia; lia).
    assert (FI : first_cell G (length (tg_types g)) = Z.of_nat off) by (rewrite OO; reflexivity).
    assert (SV : forall x, (off + n <= length x)%nat -> firstn n (skipn off x) = spreader_values g G x).
    { intros x LX. rewrite slice_seq by exact LX. unfold spreader_values. rewrite FI, <- NN. apply map_ext. intros i. unfold qat. f_equal. lia. }
    destruct ((off + n <=? length (np_sources (n_pg s)))%nat && (off + n <=? length (n_temps s))%nat) eqn:Bd; [|discriminate]. apply andb_true_iff in Bd. destruct Bd as (B1 & B2). apply Nat.leb_le in B1, B2.
    rewrite !SV in H by assumption. destruct (plugin _ _ _) as ((bad, flows), ps) eqn:PE. destruct bad; [discriminate|]. injection H as <-. cbn [n_plugin n_pg put_sources np_sources].
    pose proof (proj2 IP _ _ _ _ _ _ PE) as LF. unfold spreader_values in LF. rewrite map_length, seq_length in LF.
    exists flows. split; [reflexivity|]. split; [exact LF|]. rewrite <- SV by (rewrite !app_length, firstn_length, map_length, skipn_length; lia).
    replace off with (length (firstn off (np_sources (n_pg s)))) at 1 by (rewrite firstn_length; lia). rewrite skipn_app, skipn_all, Nat.sub_diag. cbn [skipn app].
    replace n with (length (map Qopp flows)) at 1 by (rewrite map_length; lia). rewrite firstn_app, firstn_all, Nat.sub_diag. cbn [firstn]. apply app_nil_r.
  Qed.

  Theorem step_full : forall n s r s', running n s -> Z.of_nat n + 1 < two32 -> nu_emulate_step solve plugin d s = Ok (r, s') -> went_on r ->
      running (Datatypes.S n) s' /\
      (forall l, (l < length (tg_types g))%nat -> is_source (type_of g (Z.of_nat l)) = true -> Forall (fun q => (n / Z.to_nat L < length q)%nat) (qs l)) /\
      (forall l i, (l < length (tg_types g))%nat -> (i < length (layer_block G l))%nat ->
         (qat (np_sources (n_pg s')) (first_cell G l + Z.of_nat i) == heat_of pg0 d hs G (powers_at n) l i)%Q) /\
      (exists b, solution (n_matrix s0) (Z.of_nat (length cells)) b (n_temps s') /\
        forall i, 0 <= i < Z.of_nat (length cells) -> (qat b i == qat (np_sources (n_pg s')) i + qat (np_caps pg0) i / an_step an0 * qat (n_temps s) i)%Q) /\
      (r = TDICE_SLOT_DONE <-> (Datatypes.S n mod Z.to_nat L = 0)%nat) /\
      (forall sp h m, tg_top g = Some (SinkPluggable sp h m) -> exists before flows, plugin (n_plugin s) (spreader_values g G (n_temps s)) before = (false, flows, n_plugin s') /\
         length flows = length (layer_block G (length (tg_types g))) /\ spreader_values g G (np_sources (n_pg s')) = map Qopp flows).
  Proof.
    intros n s r s' RN NB H W. pose proof slot_pos as SP. destruct RN as [R1 R2 R3 R4 R5 R6 R7 R8 R9 R10].
    pose proof (st_network _ _ _ _ _ _ _ ST) as NW. fold an0 pg0 cells in NW. pose proof (nw_grid _ _ _ _ _ _ NW) as GT. pose proof (nw_physical _ _ _ _ _ _ NW) as PH. pose proof (nw_conns _ _ _ _ _ _ NW) as GC.
    assert (TY : an_type an0 = AT_TRANSIENT) by apply (st_type _ _ _ _ _ _ _ ST).
    unfold nu_emulate_step in H. rewrite R5 in H. cbn [an_type] in H. rewrite TY in H.
    assert (SC : forall k, slot_completed (mkAnalysis (an_type an0) (an_step an0) L k (an_initial an0)) = Ok (k mod L =? 0)) by (intros k; unfold slot_completed; cbn [an_slot_length an_time]; destruct (Z.eqb_spec L 0); [lia|reflexivity]).
    rewrite <- TY in H. rewrite SC in H. cbn [bind] in H.
    assert (MODE : (Z.of_nat n mod L =? 0) = (n mod Z.to_nat L =? 0)%nat).
    { rewrite <- (Z2Nat.id L) at 1 by lia. rewrite <- Nat2Z.inj_mod. destruct (Nat.eqb_spec (n mod Z.to_nat L) 0); lia. }
    rewrite MODE in H.
    (* the update *)
    set (U := if (n mod Z.to_nat L =? 0)%nat then nu_update_sources (n_pg s) d else Ok (TDICE_SUCCESS, n_pg s)) in H.
    destruct U as [[e1 pg1]| |] eqn:EU; try discriminate. cbn [bind] in H. destruct e1; [|injection H as <- <-; destruct W; discriminate].
    assert (MID : np_grid pg1 = g /\ np_cells pg1 = cells /\ np_caps pg1 = np_caps pg0 /\ ready pg1 d hs G (fun l => map (skipn (begun L (Datatypes.S n))) (qs l)) /\
        (forall l, (l < length (tg_types g))%nat -> is_source (type_of g (Z.of_nat l)) = true -> map pieces (flp_at pg1 l) = map pieces (flp_at pg0 l)) /\
        (forall l, (l < length (tg_types g))%nat -> is_source (type_of g (Z.of_nat l)) = true -> (n mod Z.to_nat L = 0)%nat -> Forall (fun q => (n / Z.to_nat L < length q)%nat) (qs l)) /\
        (forall l i, (l < length (tg_types g))%nat -> (i < length (layer_block G l))%nat -> (qat (np_sources pg1) (first_cell G l + Z.of_nat i) == heat_of pg0 d hs G (powers_at n) l i)%Q)).
    { unfold U in EU. destruct (Nat.eqb_spec (n mod Z.to_nat L) 0) as [B|B].
      - assert (BE := begun_boundary L n ltac:(lia) B). rewrite BE in R7.
        assert (CW' : forall c, In c (number hs 0 G) -> in_stack (np_grid (n_pg s)) d c /\ one_material (np_grid (n_pg s)) c /\ positive_cell (np_grid (n_pg s)) c) by (rewrite R1, <- CN; exact CW).
        assert (NE : forall l, (l < length (tg_types g))%nat -> is_source (type_of g (Z.of_nat l)) = true -> Forall (fun q => q <> []) (map (skipn (n / Z.to_nat L)) (qs l))).
        { intros l Ll S. destruct (Exists_dec (fun q : list Q => q = []) (map (skipn (n / Z.to_nat L)) (qs l))) as [Y|Y]; [intros [|]; [left; reflexivity|right; discriminate]| |].
          - exfalso. destruct (update_empty (n_pg s) d hs G _ ltac:(rewrite R1; exact GT) ltac:(rewrite R1; exact PH) R7 CW') as (pgf & F); [|rewrite F in EU; discriminate EU].
            exists l. rewrite R1. auto.
          - rewrite Forall_forall. rewrite Exists_exists in Y. intros q I ->. apply Y. eauto. }
        destruct (update_full (n_pg s) d hs G _ ltac:(rewrite R1; exact GT) ltac:(rewrite R1; exact PH) R7 CW') as (pg' & E & RD & G1 & C1 & P1 & V & PC); [rewrite R1; exact NE|].
        rewrite E in EU. injection EU as ->. rewrite R1 in G1, PC. rewrite R2 in C1. rewrite R3 in P1. rewrite G1.
        split; [reflexivity|]. split; [exact C1|]. split; [exact P1|]. split.
        { apply (ready_ext _ _ _ _ (fun l => map (@tl Q) (map (skipn (n / Z.to_nat L)) (qs l)))); [|exact RD]. intros l. rewrite begun_S by lia. rewrite map_map. apply map_ext. intros q. apply tl_skipn. }
        split; [intros l Ll S; rewrite (PC l Ll S); apply R8; assumption|].
        split; [intros l Ll S _; apply queue_full; apply NE; assumption|].
        intros l i Ll I. rewrite V by (try exact I; pose proof (rd_layers _ _ _ _ _ RD) as X; rewrite G1 in X; lia). unfold heat_in, heat_of. rewrite R1. unfold pg0. rewrite (st_grid _ _ _ _ _ _ _ ST).
        destruct (is_source (type_of g (Z.of_nat l))) eqn:S; [|reflexivity]. rewrite (share_pieces _ (flp_at (n_pg s0) l)) by (apply R8; assumption).
        assert (PE : powers_now (map (skipn (n / Z.to_nat L)) (qs l)) = powers_at n l) by (unfold powers_now, powers_at, slot_powers; rewrite map_map; apply map_ext; intros q; apply hd_skipn). rewrite PE. reflexivity.
      - injection EU as <-. split; [exact R1|]. split; [exact R2|]. split; [exact R3|]. split; [rewrite begun_S by lia; rewrite (begun_within L n) in R7 by (lia || assumption); exact R7|]. split; [exact R8|]. split; [intros; contradiction|]. apply R9. exact B. }
    destruct MID as (M1 & M2 & M3 & M4 & M5 & M6 & M7). clearbody U. clear EU U.
    destruct (nu_pluggable plugin (mkNsim (n_temps s) pg1 (n_matrix s) (mkAnalysis (an_type an0) (an_step an0) L (Z.of_nat n) (an_initial an0)) (n_plugin s))) as [[e2 s2]| |] eqn:PL; try discriminate. cbn [bind] in H. destruct e2; [|injection H as <- <-; destruct W; discriminate].
    assert (LSRC : length (np_sources pg1) = length cells) by (rewrite (rd_sources _ _ _ _ _ M4), CN, number_length; reflexivity).
    destruct (plugin_step (mkNsim (n_temps s) pg1 (n_matrix s) _ (n_plugin s)) _ _ R6 LSRC M1 PL) as (P1 & P2 & P3 & P4 & P5 & P6). cbn [n_temps n_matrix n_an n_pg] in P1, P2, P3, P4, P6.
    destruct (nu_rhs (n_pg s2) (an_step (n_an s2)) (n_temps s2)) as [b| |] eqn:RH; try discriminate. cbn [bind] in H.
    destruct (solve (n_matrix s2) b) as (e3, x) eqn:SO. destruct e3; [|injection H as <- <-; destruct W; discriminate].
    rewrite P3 in H. unfold increase_by_step_time in H. cbn [an_type an_step an_slot_length an_time an_initial] in H. rewrite SC in H. cbn [bind] in H.
    assert (RS : r = TDICE_SLOT_DONE <-> (Datatypes.S n mod Z.to_nat L = 0)%nat).
    { assert (MODE2 : (u32 (Z.of_nat n + 1) mod L =? 0) = (Datatypes.S n mod Z.to_nat L =? 0)%nat).
      { rewrite u32_id by lia. replace (Z.of_nat n + 1) with (Z.of_nat (Datatypes.S n)) by lia. rewrite <- (Z2Nat.id L) at 1 by lia. rewrite <- Nat2Z.inj_mod. destruct (Nat.eqb_spec (Datatypes.S n mod Z.to_nat L) 0); lia. }
      rewrite MODE2 in H. injection H as <- _. destruct (Nat.eqb_spec (Datatypes.S n mod Z.to_nat L) 0); split; intros; congruence. }
    assert (HS : s' = mkNsim x (n_pg s2) (n_matrix s2) (mkAnalysis (an_type an0) (an_step an0) L (u32 (Z.of_nat n + 1)) (an_initial an0)) (n_plugin s2)) by (injection H as _ <-; reflexivity). clear H. subst s'. cbn [n_pg n_temps].
    assert (BL : length b = length cells).
    { unfold nu_rhs in RH. apply map_out_forall in RH. assert (length b = length (zrange 0 (Z.of_nat (length (np_cells (n_pg s2))) - 1))) as -> by (clear - RH; induction RH; cbn; congruence). rewrite zrange_seq, map_length, seq_length, P4. cbn [put_sources np_cells]. rewrite M2. reflexivity. }
    assert (SOL := EX _ _ _ SO). rewrite BL, P2, R4 in SOL.
    assert (G2 : np_grid (n_pg s2) = g) by (rewrite P4; exact M1). assert (C2 : np_cells (n_pg s2) = cells) by (rewrite P4; exact M2). assert (K2 : np_caps (n_pg s2) = np_caps pg0) by (rewrite P4; exact M3).
    assert (FLP : forall l, flp_at (n_pg s2) l = flp_at pg1 l) by (intros l; rewrite P4; reflexivity).
    assert (V2 : forall l i, (l < length (tg_types g))%nat -> (i < length (layer_block G l))%nat -> (qat (np_sources (n_pg s2)) (first_cell G l + Z.of_nat i) == heat_of pg0 d hs G (powers_at n) l i)%Q) by (intros l i Ll I; rewrite P6 by assumption; apply M7; assumption).
    assert (FULL : forall l, (l < length (tg_types g))%nat -> is_source (type_of g (Z.of_nat l)) = true -> Forall (fun q => (n / Z.to_nat L < length q)%nat) (qs l)).
    { intros l Ll S. destruct (Nat.eq_dec (n mod Z.to_nat L) 0) as [B|B]; [apply M6; assumption|].
      apply R10; assumption. }
    assert (SAME : (Datatypes.S n mod Z.to_nat L <> 0)%nat -> (Datatypes.S n / Z.to_nat L = n / Z.to_nat L)%nat).
    { intros NZ. pose proof (Nat.div_mod (Datatypes.S n) (Z.to_nat L) ltac:(lia)) as D. pose proof (Nat.mod_upper_bound (Datatypes.S n) (Z.to_nat L) ltac:(lia)) as UB. apply (Nat.div_unique _ _ _ (Datatypes.S n mod Z.to_nat L - 1)); lia. }
    split; [|split; [exact FULL|split; [exact V2|split; [|split; [exact RS|]]]]].
    3: { intros sp h m T. destruct (plugin_flows (mkNsim (n_temps s) pg1 (n_matrix s) _ (n_plugin s)) _ sp h m R6 LSRC M1 T PL) as (flows & F1 & F2 & F3). cbn [n_plugin n_temps] in F1. eauto. }
    - constructor; cbn [n_pg n_temps n_matrix n_an].
      + exact G2.
      + exact C2.
      + exact K2.
      + rewrite P2. exact R4.
      + rewrite u32_id by lia. f_equal. lia.
      + rewrite <- BL. apply (proj1 IP _ _ _ _ SO).
      + rewrite P4. apply ready_put; [rewrite P5, LSRC; reflexivity|exact M4].
      + intros l Ll S. rewrite FLP. apply M5; assumption.
      + intros NZ l i Ll I. rewrite V2 by assumption. unfold heat_of, powers_at, slot_powers. rewrite (SAME NZ). reflexivity.
      + intros NZ. rewrite (SAME NZ). exact FULL.
    - exists b. split; [exact SOL|]. intros i I. unfold nu_rhs in RH. pose proof (map_out_nth _ _ _ (Z.to_nat i) 0 0%Q RH) as X. rewrite zrange_seq, map_length, seq_length, C2 in X. specialize (X ltac:(lia)).
      rewrite (nth_indep _ 0 (Z.of_nat 0)) in X by (rewrite map_length, seq_length; lia). rewrite map_nth, seq_nth in X by lia. replace (Z.of_nat (0 + Z.to_nat i)) with i in X by lia.
      assert (AG : forall (v : list Q), length v = length cells -> arr_get v i = Ok (qat v i)).
      { intros v LV. unfold arr_get, qat. rewrite LV. destruct ((0 <=? i) && (i <? Z.of_nat (length cells))) eqn:BB; [|lia]. destruct (nth_error v (Z.to_nat i)) eqn:NN; [rewrite (nth_error_nth _ _ _ NN); reflexivity|]. apply nth_error_None in NN. lia. }
      rewrite (AG _ P5) in X. cbn [bind] in X. destruct (arr_get (np_caps (n_pg s2)) i) as [c| |] eqn:AC; try discriminate. cbn [bind] in X. rewrite P1, (AG _ R6) in X. cbn [bind] in X.
      assert (CV : c = qat (np_caps pg0) i). { rewrite <- K2. unfold arr_get in AC. unfold qat. destruct ((0 <=? i) && (i <? Z.of_nat (length (np_caps (n_pg s2))))); [|discriminate]. destruct (nth_error (np_caps (n_pg s2)) (Z.to_nat i)) eqn:NN; [|discriminate]. rewrite (nth_error_nth _ _ _ NN). injection AC as ->. reflexivity. }
      injection X as X. unfold qat at 1. rewrite <- X, CV, P3. cbn [an_step]. reflexivity.
  Qed.
  Theorem step_spec : forall n s r s', running n s -> Z.of_nat n + 1 < two32 -> nu_emulate_step solve plugin d s = Ok (r, s') -> went_on r ->
      running (Datatypes.S n) s' /\
      (forall l, (l < length (tg_types g))%nat -> is_source (type_of g (Z.of_nat l)) = true -> Forall (fun q => (n / Z.to_nat L < length q)%nat) (qs l)) /\
      (forall l i, (l < length (tg_types g))%nat -> (i < length (layer_block G l))%nat ->
         (qat (np_sources (n_pg s')) (first_cell G l + Z.of_nat i) == heat_of pg0 d hs G (powers_at n) l i)%Q) /\
      exists b, solution (n_matrix s0) (Z.of_nat (length cells)) b (n_temps s') /\
        forall i, 0 <= i < Z.of_nat (length cells) -> (qat b i == qat (np_sources (n_pg s')) i + qat (np_caps pg0) i / an_step an0 * qat (n_temps s) i)%Q.
  Proof. intros n s r s' RN NB H W. destruct (step_full n s r s' RN NB H W) as (A1 & A2 & A3 & A4 & _). auto. Qed.

  Theorem steps_running : forall n s, nu_steps solve plugin d n s0 s -> Z.of_nat n < two32 -> running n s.
  Proof.
    enough (X : forall n z s, nu_steps solve plugin d n z s -> z = s0 -> Z.of_nat n < two32 -> running n s) by (intros n s H; exact (X n s0 s H eq_refl)).
    intros n z s H. induction H as [z|n z r s1 s2 H IH E W]; intros ZE B; [subst z; apply running_start|].
    apply (step_spec n s1 r s2); auto; try lia. apply IH; [assumption|lia].
  Qed.
End Run.
