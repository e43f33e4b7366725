(** * Changing the flow rate: proofs *)
From Coq Require Import ZArith List Bool QArith Lia Lqa.
From Verif Require Import Base QSum Dims DimsSpec DimsProofs Queue QueueProofs Floorplan FloorplanSpec FloorplanProofs FlpMatrixProofs TempProofs Stack StackSpec StackProofs PowerGrid Emulate EmulateSpec.
From Verif Require Import SourceProofs LayerProofs SourceVectorProofs EmulateProofs HistoryProofs.
From Verif Require Import Conduct Matrix NetProofs MatrixSpec CellProofs NodeProofs LinkProofs SignProofs CscProofs EnumProofs BalanceSpec BalanceProofs VectorProofs StepProofs EnergyProofs Flow.
Import ListNotations.
Local Open Scope Z_scope.

(** ** The stack with another flow *)
Section SetFlow.
  Variables (g : tgrid) (d : dims) (ch : channel) (x : Q).
  Hypothesis TC : tg_channel g = Some ch.
  Notation g' := (set_channel_tgrid g (set_flow ch x)).

  Lemma flow_in_channel : forall b j l, in_channel g d b j l -> in_channel g' d b j l.
  Proof.
    intros b j l (c & C & R). assert (c = ch) as -> by congruence. exists (set_flow ch x). split; [reflexivity|]. exact R.
  Qed.
  Lemma flow_good : good_tgrid d g -> good_tgrid d g'.
  Proof.
    intros [H1 H2 H3 H4 H5 H6 H7 H8 H9 H10]. constructor; auto.
    intros l L. destruct (H10 l L) as [A|(b & j & A)]; [left; exact A|right]. exists b, j. apply flow_in_channel. exact A.
  Qed.
  Lemma flow_physical : physical g d -> physical g' d.
  Proof.
    intros [H1 H2 H3 H4 H5 H6]. constructor; auto. intros c C. assert (c = set_flow ch x) as -> by (cbn in C; congruence). exact (H3 ch TC).
  Qed.
  Lemma flow_nodes : nodes g' d = nodes g d.
  Proof. reflexivity. Qed.
  Lemma flow_unknowns : unknowns g' d = unknowns g d.
  Proof. reflexivity. Qed.
  Lemma flow_cap : forall l r c, get_capacity g' d l r c = get_capacity g d l r c.
  Proof. intros l r c. unfold get_capacity, with_channel. rewrite TC. reflexivity. Qed.
  Lemma flow_top : forall l r c, get_conductance_top g' d l r c = get_conductance_top g d l r c.
  Proof. intros l r c. unfold get_conductance_top, with_channel. rewrite TC. reflexivity. Qed.
  Lemma flow_bottom : forall l r c, get_conductance_bottom g' d l r c = get_conductance_bottom g d l r c.
  Proof. intros l r c. unfold get_conductance_bottom, with_channel. rewrite TC. reflexivity. Qed.
  Lemma map_out_ext : forall {A B} (f h : A -> outcome B) l, (forall a, f a = h a) -> map_out f l = map_out h l.
  Proof. intros A B f h l H. induction l as [|a l IH]; [reflexivity|]. cbn [map_out]. rewrite H, IH. reflexivity. Qed.
  Lemma flow_caps : cells_capacities g' d = cells_capacities g d.
  Proof.
    unfold cells_capacities. rewrite (map_out_ext (fun l => over_layer d (get_capacity g' d l)) (fun l => over_layer d (get_capacity g d l))); [reflexivity|].
    intro l. unfold over_layer. apply map_out_ext. intros [r c]. apply flow_cap.
  Qed.
  Lemma flow_top_tcs : top_tcs g' d = top_tcs g d.
  Proof.
    unfold top_tcs. cbn [set_channel_tgrid tg_top]. destruct (tg_top g) as [[h a|s h m]|]; try reflexivity.
    unfold over_layer. apply map_out_ext. intros [r c]. rewrite flow_top. reflexivity.
  Qed.
  Lemma flow_bottom_tcs : bottom_tcs g' d = bottom_tcs g d.
  Proof.
    unfold bottom_tcs. cbn [set_channel_tgrid tg_bottom]. destruct (tg_bottom g) as [k|]; try reflexivity.
    unfold over_layer. apply map_out_ext. intros [r c]. rewrite flow_bottom. reflexivity.
  Qed.
  Lemma flow_2rm : chan_2rm g' = chan_2rm g.
  Proof. unfold chan_2rm. rewrite TC. reflexivity. Qed.
  Ltac plus_eq := repeat match goal with |- (_ + _)%nat = (_ + _)%nat => apply f_equal2 | |- S _ = S _ => apply f_equal end.
  Lemma flow_entries : forall an n, length (entries (col g' d an n)) = length (entries (col g d an n)).
  Proof.
    intros an n. unfold entries, col, realise. cbn [c_before c_after]. rewrite !app_length. cbn [length]. rewrite !map_length.
    assert (K : length (k_before (links_of g' d an n)) = length (k_before (links_of g d an n)) /\ length (k_after (links_of g' d an n)) = length (k_after (links_of g d an n))).
    { assert (PL : forall b (x y : node * flow), length (pw b x) = length (pw b y)) by (intros [] ? ?; reflexivity).
      destruct n as [l r c|r c].
      2:{ unfold links_of, spreader_links. cbn [k_before k_after]. rewrite ?app_length. split; plus_eq; first [reflexivity | apply PL]. }
      unfold links_of. change (type_of g' l) with (type_of g l).
      destruct (type_of g l); try (destruct (Z.odd c)); unfold solid_links, liquid4_links, liquid2_links, vwall_links, top_links, bottom_links; cbn [k_before k_after];
        rewrite ?flow_2rm; rewrite ?app_length; cbn [length]; rewrite ?app_length;
        split; plus_eq; first [reflexivity | apply PL]. }
    destruct K as (-> & ->). reflexivity.
  Qed.
  Lemma flow_total : forall an, total (map (col g' d an) (nodes g' d)) = total (map (col g d an) (nodes g d)).
  Proof.
    intro an. rewrite flow_nodes. unfold total. f_equal. induction (nodes g d) as [|n ns IH]; [reflexivity|].
    cbn [map all_entries flat_map]. rewrite !app_length. f_equal; [apply flow_entries|exact IH].
  Qed.

  (** The matrix is filled again in the same memory. *)
  Lemma fill_exists : forall gg an m, good_tgrid d gg -> len (sm_ptr m) = unknowns gg d + 1 -> length (sm_vals m) = length (sm_rows m) ->
      total (map (col gg d an) (nodes gg d)) <= len (sm_rows m) -> exists m', fill_system_matrix m gg an d = Ok m'.
  Proof.
    intros gg an [ptr rows vals] G L1 L2 T. cbn [sm_ptr sm_rows sm_vals] in *. unfold fill_system_matrix. cbn [sm_ptr sm_rows sm_vals].
    pose proof (unknowns_pos gg d G) as U. destruct ptr as [|p0 ptr]; [cbn in L1; lia|].
    change (p0 :: ptr) with ([] ++ p0 :: ptr). rewrite (arr_set_mid [] p0 ptr 0 0) by reflexivity. cbn [bind app].
    rewrite (columns_ok gg d an G). cbn [bind]. set (cs := map (col gg d an) (nodes gg d)) in *.
    assert (E : length cs = length ptr).
    { unfold cs. rewrite map_length. pose proof (nodes_length gg d G). cbn [length] in L1. lia. }
    unfold total in T.
    destruct (split_list rows (length (all_entries cs))) as (ra & rb & -> & RA); [lia|].
    destruct (split_list vals (length (all_entries cs))) as (va & vb & -> & VA); [rewrite L2; lia|].
    pose proof (write_columns_ok cs [] 0 ptr [] [] ra rb [] va vb 1) as W. cbn [app] in W. rewrite !app_nil_r in W.
    rewrite W by (try reflexivity; lia). eauto.
  Qed.
  Lemma refill : forall an m, good_tgrid d g -> filled g d an m -> exists m', fill_system_matrix m g' an d = Ok m' /\ filled g' d an m'.
  Proof.
    intros an m G (m0 & H1 & H2 & H3). destruct (fill_stored g d an m0 m G H1 H2 H3) as (rt & vt & -> & RV & _).
    set (cs := map (col g d an) (nodes g d)) in *.
    assert (L1 : len (sm_ptr (stored cs rt vt)) = unknowns g' d + 1).
    { cbn [stored sm_ptr length]. rewrite flow_unknowns, <- (nodes_length g d G). assert (EL : forall e, length (ends e cs) = length cs).
      { clear. induction cs as [|c cs IH]; intro e; [reflexivity|]. cbn [ends length]. rewrite IH. reflexivity. }
      rewrite EL. unfold cs. rewrite map_length. lia. }
    assert (L2 : length (sm_vals (stored cs rt vt)) = length (sm_rows (stored cs rt vt))).
    { cbn [stored sm_vals sm_rows]. rewrite !app_length, !map_length. lia. }
    destruct (fill_exists g' an (stored cs rt vt) (flow_good G) L1 L2) as (m' & E).
    { rewrite flow_total. fold cs. unfold total. cbn [stored sm_rows]. rewrite app_length, map_length. lia. }
    exists m'. split; [exact E|]. exists (stored cs rt vt). auto.
  Qed.
End SetFlow.

(** ** The sources *)
Definition inlet_or (pg : pgrid) (d : dims) (ch : channel) (t : layer_type) (l : Z) (i : nat) (old : Q) : Q :=
  if is_coolant t && (Z.of_nat i <? d_ncols d) && is_channel_column (ch_model ch) (Z.of_nat i) then (2 * convection ch d l (Z.of_nat i) * co_tin ch)%Q else old.
Lemma channel_layers_spec : forall pg d ch n, pg_channel pg = Some ch -> good_grid d -> Z.of_nat n = d_nrows d * d_ncols d -> get_layer_area d = Z.of_nat n ->
    forall ts l s, Forall (fun t => t <> LT_NONE) ts -> 0 <= l -> l + Z.of_nat (length ts) <= Z.of_nat (length (d_heights d)) ->
    (length ts * n <= length s)%nat ->
    exists s', update_channel_layers pg d l ts s = Ok s' /\ length s' = length s /\
      (forall k i, (k < length ts)%nat -> (i < n)%nat ->
         nth (k * n + i) s' 0%Q = inlet_or pg d ch (nth k ts LT_NONE) (l + Z.of_nat k) i (nth (k * n + i) s 0%Q)) /\
      (forall j, (length ts * n <= j)%nat -> nth j s' 0%Q = nth j s 0%Q).
Proof.
  intros pg d ch n PC (GR & GC & GM) N AN. induction ts as [|t ts IH]; intros l s F L0 L1 LS.
  - exists s. split; [reflexivity|]. split; [reflexivity|]. split; [intros k i K; cbn in K; lia|auto].
  - inversion F as [|? ? F1 F2]. subst. cbn [length] in L1, LS. cbn [update_channel_layers]. rewrite AN, Nat2Z.id.
    assert (NC : d_ncols d <= Z.of_nat n) by (rewrite N; destruct (Z.eq_dec (d_nrows d) 1) as [->|]; [lia|nia]).
    assert (H1 : exists s1, (match t with
       | LT_CHANNEL_4RM | LT_CHANNEL_2RM | LT_PINFINS_INLINE | LT_PINFINS_STAGGERED => set_inlets ch d l (zrange 0 (last_column d)) s
       | _ => Ok s end) = Ok s1 /\ length s1 = length s /\
       forall j, nth j s1 0%Q = inlet_or pg d ch t l j (nth j s 0%Q)).
    { assert (LC : zrange 0 (last_column d) = map (fun i => 0 + Z.of_nat i) (seq 0 (Z.to_nat (d_ncols d)))).
      { unfold last_column. rewrite u32_id by lia. unfold zrange. replace (Z.to_nat (d_ncols d - 1 - 0 + 1)) with (Z.to_nat (d_ncols d)) by lia. reflexivity. }
      destruct (set_inlets_spec ch d l ltac:(lia) (Z.to_nat (d_ncols d)) 0 s ltac:(lia) ltac:(lia)) as (s1 & E & E2 & E3).
      rewrite <- LC in E.
      assert (X : is_coolant t = true -> (forall j, nth j s1 0%Q = inlet_or pg d ch t l j (nth j s 0%Q))).
      { intros CO j. rewrite E3. unfold inlet_or. rewrite CO. replace (0 + Z.of_nat (Z.to_nat (d_ncols d))) with (d_ncols d) by lia.
        replace (0 <=? Z.of_nat j) with true by (symmetry; apply Z.leb_le; lia). reflexivity. }
      destruct t; try (exists s1; split; [exact E|]; split; [exact E2|]; apply X; reflexivity);
        (exists s; split; [reflexivity|]; split; [reflexivity|]; intro j; reflexivity). }
    destruct H1 as (s1 & E1 & LEN & NTH).
    assert (LK : (length ts * n <= length (skipn n s1))%nat) by (rewrite skipn_length; lia).
    destruct (IH (l + 1) (skipn n s1) F2 ltac:(lia) ltac:(lia) LK) as (s2 & E2 & LEN2 & IN & OUT).
    exists (firstn n s1 ++ s2).
    assert (FL : length (firstn n s1) = n) by (apply firstn_length_le; lia).
    assert (SK : forall j, nth j (skipn n s1) 0%Q = nth (n + j) s1 0%Q).
    { intro j. rewrite <- (firstn_skipn n s1) at 2. rewrite app_nth2 by lia. f_equal. lia. }
    split.
    { rewrite PC. destruct t; try congruence; try (rewrite E1; cbn [bind]; rewrite E2; reflexivity);
        (assert (s1 = s) by congruence; subst s1; rewrite E2; reflexivity). }
    split. { rewrite app_length, FL, LEN2, skipn_length. lia. }
    split.
    + intros k i K I. destruct k as [|k].
      * cbn [Nat.mul Nat.add nth]. rewrite app_nth1 by lia. replace (l + Z.of_nat 0) with l by lia.
        rewrite <- NTH. rewrite <- (firstn_skipn n s1) at 2. rewrite app_nth1 by lia. reflexivity.
      * cbn [nth length] in *. replace (S k * n + i)%nat with (n + (k * n + i))%nat by lia.
        rewrite app_nth2 by lia. replace (n + (k * n + i) - length (firstn n s1))%nat with (k * n + i)%nat by lia.
        rewrite IN by lia. replace (l + Z.of_nat (S k)) with (l + 1 + Z.of_nat k) by lia. f_equal. rewrite SK, NTH.
        unfold inlet_or. destruct (Z.ltb_spec (Z.of_nat (n + (k * n + i))) (d_ncols d)); [lia|]. rewrite andb_false_r. reflexivity.
    + intros j J. cbn [length] in J. rewrite app_nth2 by lia. rewrite FL, OUT by lia. rewrite SK. replace (n + (j - n))%nat with j by lia. rewrite NTH.
      unfold inlet_or. destruct (Z.ltb_spec (Z.of_nat j) (d_ncols d)); [lia|]. rewrite andb_false_r. reflexivity.
Qed.

(** ** The whole update *)
Section Update.
  Context {PS : Type}.
  Variables (factor : sysmatrix -> error_t) (d : dims) (g : tgrid) (s : sim sysmatrix PS) (ch : channel) (fr : Q).
  Hypothesis (A : assembled g d s) (GS : good_sim d s) (TC : tg_channel g = Some ch).
  Notation ch' := (set_flow ch (flow_rate_um3sec fr)).
  Notation g' := (set_channel_tgrid g ch').

  Lemma types_of_pg : pg_types (s_pg s) = tg_types g.
  Proof. apply (go_types _ _ _ (as_power _ _ _ A)). Qed.

  Lemma new_pgrid : forall src, length src = length (pg_sources (s_pg s)) ->
      let pg2 := set_sources (set_channel_pgrid (s_pg s) ch') (pg_flps (s_pg s)) src in
      good_pgrid d pg2 /\ grid_of g' d pg2.
  Proof.
    intros src LS pg2. destruct GS as (GP & _). destruct GP as (P1 & P2 & P3 & P4 & P5 & P6 & P7 & P8 & P9 & P10 & P11 & P12 & P13).
    pose proof (as_power _ _ _ A) as [O1 O2 O3 O4 O5 O6 O7]. split.
    - unfold good_pgrid, pg2. cbn [set_sources set_channel_pgrid pg_ncells pg_top pg_ncells_layer pg_sources pg_caps pg_top_tcs pg_bottom_tcs pg_types pg_flps].
      rewrite LS. repeat (split; [assumption|]).
      clear - P13. revert P13. generalize (pg_types (s_pg s)), (pg_flps (s_pg s)). intros ts fs F. induction F as [|t f ts fs H F IH]; constructor; [|exact IH].
      destruct H as (H1 & H2 & H3 & H4 & H5 & H6). unfold good_layer. cbn. repeat (split; [assumption|]). intros _. discriminate.
    - constructor; cbn; auto.
      + rewrite (flow_caps g d ch _ TC). exact O5.
      + rewrite (flow_top_tcs g d ch _ TC). exact O6.
      + rewrite (flow_bottom_tcs g d ch _ TC). exact O7.
  Qed.

  Lemma update_runs : exists m, fill_system_matrix (s_matrix s) g' (s_an s) d = Ok m /\ filled g' d (s_an s) m /\
      exists src, length src = length (pg_sources (s_pg s)) /\
        update_channel_sources (set_channel_pgrid (s_pg s) ch') d = Ok (set_sources (set_channel_pgrid (s_pg s) ch') (pg_flps (s_pg s)) src) /\
        (forall k i, (k < length (pg_types (s_pg s)))%nat -> (i < Z.to_nat (d_nrows d * d_ncols d))%nat ->
           let j := (k * Z.to_nat (d_nrows d * d_ncols d) + i)%nat in
           nth j src 0%Q = inlet_or (s_pg s) d ch' (nth k (pg_types (s_pg s)) LT_NONE) (Z.of_nat k) i (nth j (pg_sources (s_pg s)) 0%Q)) /\
        (forall j, (length (pg_types (s_pg s)) * Z.to_nat (d_nrows d * d_ncols d) <= j)%nat -> nth j src 0%Q = nth j (pg_sources (s_pg s)) 0%Q).
  Proof.
    destruct (refill g d ch (flow_rate_um3sec fr) TC (s_an s) (s_matrix s) (as_grid _ _ _ A) (as_matrix _ _ _ A)) as (m & E & F).
    exists m. split; [exact E|]. split; [exact F|].
    destruct GS as (GP & _). destruct GP as (P1 & P2 & P3 & P4 & P5 & P6 & P7 & P8 & P9 & P10 & P11 & P12 & P13).
    pose proof P1 as (GR & GC & GM).
    assert (N0 : 0 <= d_nrows d * d_ncols d) by (apply Z.mul_nonneg_nonneg; lia).
    assert (SP : 0 <= spreader_cells (pg_top (s_pg s))).
    { unfold spreader_cells. destruct (pg_top (s_pg s)) as [[h a|sp h mt]|] eqn:T; try lia. destruct (P6 sp h mt eq_refl). apply Z.mul_nonneg_nonneg; lia. }
    assert (CC : chip_cells d = d_nlayers d * (d_nrows d * d_ncols d)) by (unfold chip_cells; ring).
    set (n := Z.to_nat (d_nrows d * d_ncols d)).
    assert (AN : get_layer_area d = Z.of_nat n).
    { unfold get_layer_area, n. rewrite u32_id; [lia|]. split; [exact N0|]. apply Z.le_lt_trans with (pg_ncells (s_pg s)); [|exact P5]. rewrite P4, CC.
      assert (1 * (d_nrows d * d_ncols d) <= d_nlayers d * (d_nrows d * d_ncols d)) by (apply Z.mul_le_mono_nonneg_r; lia). lia. }
    assert (NN : Forall (fun t => t <> LT_NONE) (pg_types (s_pg s))).
    { clear - P13. induction P13 as [|t f ts fs H F IH]; constructor; [apply H|exact IH]. }
    assert (LL : (length (pg_types (s_pg s)) * n <= length (pg_sources (s_pg s)))%nat).
    { apply Nat2Z.inj_le. rewrite Nat2Z.inj_mul, P12, P8, P4, CC. unfold n. rewrite Z2Nat.id by exact N0. lia. }
    destruct (channel_layers_spec (set_channel_pgrid (s_pg s) ch') d ch' n eq_refl P1 ltac:(unfold n; lia) AN (pg_types (s_pg s)) 0 (pg_sources (s_pg s)) NN ltac:(lia) ltac:(lia) LL) as (src & E1 & E2 & E3 & E4).
    exists src. split; [exact E2|]. split; [|split].
    - unfold update_channel_sources. cbn [set_channel_pgrid pg_types pg_sources pg_flps]. rewrite E1. reflexivity.
    - intros k i K I. exact (E3 k i K I).
    - exact E4.
  Qed.
End Update.

Lemma located_source : forall d pg fs ts l x, Forall2 (good_layer d pg) ts fs -> In x (located_from l fs) ->
    is_source (nth (Z.to_nat (fst x - l)) ts LT_NONE) = true.
Proof.
  intros d pg fs. induction fs as [|o fs IH]; intros ts l x F I; [destruct I|].
  inversion F as [|t o' ts' fs' T F']; subst. cbn [located_from] in I. apply in_app_iff in I. destruct I as [I|I].
  - apply in_map_iff in I. destruct I as (e & <- & I). cbn [fst]. replace (Z.to_nat (l - l)) with O by lia. cbn [nth].
    apply T. destruct o; [discriminate|destruct I].
  - destruct (located_good d pg fs ts' (l + 1) x F' I) as (R & _). pose proof (IH ts' (l + 1) x F' I) as K.
    replace (Z.to_nat (fst x - l)) with (S (Z.to_nat (fst x - (l + 1)))) by lia. exact K.
Qed.

Section Power.
  Context {PS : Type}.
  Variables (d : dims) (g : tgrid) (s : sim sysmatrix PS) (ch : channel) (fr : Q) (src : list Q) (powers : list Q).
  Hypothesis (A : assembled g d s) (GS : good_sim d s) (TC : tg_channel g = Some ch).
  Notation ch' := (set_flow ch (flow_rate_um3sec fr)).
  Notation pg2 := (set_sources (set_channel_pgrid (s_pg s) ch') (pg_flps (s_pg s)) src).
  Notation n := (Z.to_nat (d_nrows d * d_ncols d)).
  Hypothesis SRC : forall k i, (k < length (pg_types (s_pg s)))%nat -> (i < n)%nat ->
    nth (k * n + i) src 0%Q = inlet_or (s_pg s) d ch' (nth k (pg_types (s_pg s)) LT_NONE) (Z.of_nat k) i (nth (k * n + i) (pg_sources (s_pg s)) 0%Q).
  Hypothesis DI : dissipates (s_pg s) d powers.

  Lemma keeps_power : dissipates pg2 d powers.
  Proof.
    intros l r c L R C. destruct GS as (GP & _). destruct GP as (P1 & P2 & P3 & P4 & P5 & P6 & P7 & P8 & P9 & P10 & P11 & P12 & P13).
    assert (N0 : 0 <= d_nrows d * d_ncols d) by (apply Z.mul_nonneg_nonneg; lia).
    assert (RC : 0 <= r * d_ncols d + c < d_nrows d * d_ncols d) by nia.
    pose proof (DI l r c L R C) as D. unfold at_cell in *.
    assert (EJ : Z.to_nat (l * (d_nrows d * d_ncols d) + r * d_ncols d + c) = (Z.to_nat l * n + Z.to_nat (r * d_ncols d + c))%nat).
    { replace (l * (d_nrows d * d_ncols d) + r * d_ncols d + c) with (l * (d_nrows d * d_ncols d) + (r * d_ncols d + c)) by ring.
      rewrite Z2Nat.inj_add, Z2Nat.inj_mul; try lia; try (apply Z.mul_nonneg_nonneg; lia). }
    rewrite EJ in *. cbn [set_sources pg_sources]. rewrite SRC by lia.
    unfold inlet_or. replace (Z.of_nat (Z.to_nat l)) with l by lia. rewrite !(Z2Nat.id (r * d_ncols d + c)) by lia.
    unfold expected_source in *. cbn [set_sources set_channel_pgrid pg_flps located_elements]. fold (located_elements (s_pg s)).
    set (sum := qsum _) in *. unfold boundary_source in *. cbn [set_sources set_channel_pgrid pg_types pg_top pg_bottom pg_channel pg_top_tcs pg_bottom_tcs].
    set (t := nth (Z.to_nat l) (pg_types (s_pg s)) LT_NONE) in *.
    assert (PC : pg_channel (s_pg s) = Some ch) by (rewrite (go_channel _ _ _ (as_power _ _ _ A)); exact TC). rewrite PC in D.
    destruct (is_coolant t) eqn:CO; cbn [andb] in *.
    - assert (S0 : (sum == 0)%Q).
      { unfold sum. apply qsum_zero. intros [[ll e] p] I. cbn [fst snd]. apply in_combine_l in I.
        destruct (Z.eqb_spec ll l) as [->|]; [|reflexivity].
        pose proof (located_source d (s_pg s) _ _ 0 _ P13 I) as K. cbn [fst] in K. rewrite Z.sub_0_r in K. fold t in K. destruct t; discriminate. }
      assert (TA : to_ambient t = false /\ to_pcb t = false) by (destruct t; try discriminate CO; split; reflexivity). destruct TA as (TA & TP). rewrite TA, TP in *.
      destruct (Z.ltb_spec (r * d_ncols d + c) (d_ncols d)) as [LT|GE]; cbn [andb].
      + assert (r = 0) by nia. subst r. cbn [Z.eqb Z.mul Z.add] in *. replace (0 * d_ncols d + c) with c in * by lia.
        change (ch_model ch') with (ch_model ch) in *. change (co_tin ch') with (co_tin ch) in *.
        destruct (is_channel_column (ch_model ch) c); [rewrite S0; ring|]. rewrite D. reflexivity.
      + assert (R0 : (r =? 0) = false) by (apply Z.eqb_neq; nia). rewrite R0 in *. rewrite D. reflexivity.
    - rewrite D. reflexivity.
  Qed.
End Power.

Section Steps.
  Context {PS : Type}.
  Variables (factor : sysmatrix -> error_t) (d : dims).
  Lemma update_at : forall g (s : sim sysmatrix PS) fr L n tot, at_step d L n tot s -> assembled g d s -> tg_channel g <> None ->
      exists e g' s', update_coolant_flow_rate factor d g s fr = Ok (e, g', s') /\
        s_temps s' = s_temps s /\ s_an s' = s_an s /\ s_plugin s' = s_plugin s /\
        pg_flps (s_pg s') = pg_flps (s_pg s) /\ e = factor (s_matrix s') /\
        (exists ch, tg_channel g = Some ch /\ g' = set_channel_tgrid g (set_flow ch (flow_rate_um3sec fr))) /\
        filled g' d (s_an s) (s_matrix s') /\
        (e = TDICE_SUCCESS -> at_step d L n tot s' /\ assembled g' d s').
  Proof.
    intros g s fr L n tot AT A TN. destruct (tg_channel g) as [ch|] eqn:TC; [|congruence]. pose proof (at_good _ _ _ _ _ AT) as GS.
    destruct (update_runs d g s ch fr A GS TC) as (m & E & F & src & LS & U & IN & OUT).
    set (ch' := set_flow ch (flow_rate_um3sec fr)) in *. set (g' := set_channel_tgrid g ch') in *.
    unfold update_coolant_flow_rate. rewrite TC. fold ch'. fold g'. rewrite E. cbn [bind].
    destruct (factor m) eqn:FA.
    - rewrite U. cbn [bind]. exists TDICE_SUCCESS, g'. eexists. split; [reflexivity|]. cbn [s_temps s_an s_plugin s_matrix s_pg].
      do 5 (split; [auto|]). split; [eauto|]. split; [exact F|]. intros _.
      destruct (new_pgrid d g s ch fr A GS TC src LS) as (NP & NG). destruct AT as [T1 T2 T3 T4 T5 T6 T7]. split.
      + constructor; cbn [s_an s_pg]; auto.
        * destruct GS as (_ & G2 & G3 & G4 & G5). split; [exact NP|]. cbn [s_temps s_an s_pg]. auto.
        * intro N. apply (keeps_power d g s ch fr src _ A GS TC); [exact IN|apply T7; exact N].
      + destruct A as [A1 A2 A3 A4 A5]. constructor; cbn [s_an s_pg s_matrix]; auto.
        * apply (flow_good g d ch _ TC A1).
        * apply (flow_physical g d ch _ TC A2).
    - exists TDICE_FAILURE, g'. eexists. split; [reflexivity|]. cbn [s_temps s_an s_plugin s_matrix s_pg].
      do 5 (split; [auto|]). split; [eauto|]. split; [exact F|]. discriminate.
  Qed.
End Steps.
