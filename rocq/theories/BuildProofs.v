From Coq Require Import ZArith List Bool QArith Qround Lia Lqa.
From Verif Require Import Base QSum Dims DimsSpec DimsProofs Queue QueueProofs Floorplan FloorplanSpec Stack StackSpec StackProofs StackGridProofs StackAcceptProofs PowerGrid Emulate EmulateSpec Conduct Matrix MatrixSpec Build BuildSpec.
Import ListNotations.
Local Open Scope Z_scope.

(** ** Layers of a channel *)
Section Shape.
  Variables (ch : option channel) (ds : list stack_decl).

  Lemma heights_app : forall a b, stack_heights ch (a ++ b) = stack_heights ch a ++ stack_heights ch b.
  Proof. intros. unfold stack_heights. apply flat_map_app. Qed.
  Lemma heights_nonempty : forall dc, is_chan_decl dc = false -> decl_heights ch dc <> [].
  Proof. intros [id a s b f|id l|id] H; cbn; try discriminate. destruct (map ly_height a); discriminate. Qed.
  Lemma heights_in : forall dc l, In dc l -> is_chan_decl dc = false -> (0 < length (stack_heights ch l))%nat.
  Proof.
    intros dc l I H. apply in_split in I. destruct I as (a & b & ->). rewrite heights_app. cbn [stack_heights flat_map].
    rewrite !app_length. pose proof (heights_nonempty dc H). destruct (decl_heights ch dc); [congruence|cbn; lia].
  Qed.

  Hypothesis A : acceptable ch ds.
  Variables (i : nat) (id : list Z).
  Hypothesis N : nth_error ds i = Some (DeclChannel id).

  Lemma split_at : exists a b, ds = a ++ DeclChannel id :: b /\ length a = i.
  Proof. apply nth_error_split in N. exact N. Qed.

  Lemma channel_room : 0 < layers_below ch ds i /\
      layers_below ch ds i + Z.of_nat (chan_layers ch) < Z.of_nat (length (stack_heights ch ds)).
  Proof.
    destruct A as (_ & _ & (d0 & F & C0) & (d1 & L & C1) & _).
    destruct split_at as (a & b & E & K). unfold layers_below.
    assert (skipn (S i) ds = b) as Sk.
    { rewrite E, <- K. replace (S (length a)) with (length a + 1)%nat by lia.
      rewrite skipn_app, skipn_all2 by lia. cbn [app]. replace (length a + 1 - length a)%nat with 1%nat by lia. reflexivity. }
    rewrite Sk. split.
    - enough (0 < length (stack_heights ch b))%nat by lia. apply (heights_in d1); [|exact C1].
      rewrite E in L. rewrite app_length in L. cbn [length] in L.
      destruct b as [|x b].
      + exfalso. cbn [length] in L. replace (length a + 1 - 1)%nat with (length a) in L by lia.
        pose proof (nth_error_app2 a [DeclChannel id] (le_n (length a))) as X. rewrite Nat.sub_diag in X. cbn in X.
        assert (Some d1 = Some (DeclChannel id)) as Y by (rewrite <- L; exact X). injection Y as ->. discriminate.
      + rewrite nth_error_app2 in L by (cbn; lia).
        cbn [length] in L. replace (length a + S (S (length b)) - 1 - length a)%nat with (S (length b)) in L by lia. cbn [nth_error] in L. eapply nth_error_In. exact L.
    - rewrite E, heights_app. cbn [stack_heights flat_map]. rewrite !app_length. cbn [decl_heights]. rewrite repeat_length.
      change (flat_map (decl_heights ch) b) with (stack_heights ch b).
      enough (0 < length (stack_heights ch a))%nat by lia. apply (heights_in d0); [|exact C0].
      rewrite E in F. destruct a as [|x a]; cbn in F; [injection F as <-; discriminate|]. injection F as ->. left. reflexivity.
  Qed.

  Lemma channel_layer : forall c j, ch = Some c -> (j < chan_layers ch)%nat ->
      nth (Z.to_nat (layers_below ch ds i + Z.of_nat j)) (rev (flat_map (decl_layers ch) ds)) layer0 = mkLayer (ch_height c) (ch_wall c) [].
  Proof.
    intros c j E J. destruct split_at as (a & b & D & K). unfold layers_below.
    assert (skipn (S i) ds = b) as Sk.
    { rewrite D, <- K. replace (S (length a)) with (length a + 1)%nat by lia.
      rewrite skipn_app, skipn_all2 by lia. cbn [app]. replace (length a + 1 - length a)%nat with 1%nat by lia. reflexivity. }
    rewrite Sk, D, flat_map_app. cbn [flat_map]. rewrite !rev_app_distr, <- app_assoc.
    assert (length (rev (flat_map (decl_layers ch) b)) = length (stack_heights ch b)) as L.
    { rewrite rev_length. apply flat_map_lengths. intro dc. apply decl_layers_length. }
    replace (Z.to_nat (Z.of_nat (length (stack_heights ch b)) + Z.of_nat j)) with (length (rev (flat_map (decl_layers ch) b)) + j)%nat by lia.
    rewrite app_nth2_plus. cbn [decl_layers]. rewrite E. set (k := chan_layers (Some c)). rewrite E in J. fold k in J.
    assert (nth j (rev (repeat (mkLayer (ch_height c) (ch_wall c) []) k) ++ rev (flat_map (decl_layers (Some c)) a)) layer0 = mkLayer (ch_height c) (ch_wall c) []) as R; [|exact R].
    rewrite app_nth1 by (rewrite rev_length, repeat_length; exact J).
    assert (In (nth j (rev (repeat (mkLayer (ch_height c) (ch_wall c) []) k)) layer0) (repeat (mkLayer (ch_height c) (ch_wall c) []) k)) as I.
    { apply in_rev. apply nth_In. rewrite rev_length, repeat_length. exact J. }
    apply repeat_spec in I. exact I.
  Qed.
End Shape.

Lemma expected_length : forall ch c, ch = Some c -> chan_ok ch -> length (expected_channel_types (ch_model c)) = chan_layers ch.
Proof. intros ch c -> (M & _). cbn [chan_layers]. destruct (ch_model c); congruence || reflexivity. Qed.


(** ** Accepted stacks give good grids *)
Section Grid.
  Variables (ch : option channel) (ds : list stack_decl) (es : list stkel) (hs : list Q).
  Variables (L W cl cw : Q) (cs : chan_spec) (d : dims) (top : option top_sink) (bot : option bottom_sink) (g : tgrid).
  Hypothesis D : declared ch.
  Hypothesis B : Z.of_nat (length (stack_heights ch ds)) < two32.
  Hypothesis P : parse_stack ch ds = Ok (Some (es, hs)).
  Hypothesis PD : parse_dims L W cl cw cs hs (spreader_cells top) = Ok (Some d).
  Hypothesis GG : good_grid d.
  Hypothesis SP : forall s h m, top = Some (SinkPluggable s h m) -> good_spreader d s.
  Hypothesis TF : thermal_grid_fill (thermal_grid_build (d_nlayers d)) es top bot = Ok (TDICE_SUCCESS, g).

  Lemma sc_nonneg : 0 <= spreader_cells top.
  Proof.
    unfold spreader_cells. destruct top as [[h a|s h m]|] eqn:T; try lia.
    destruct (SP s h m eq_refl) as [A1 A2 A3 A4 _ _ _]. destruct GG as (G1 & G2 & _). apply Z.mul_nonneg_nonneg; lia.
  Qed.
  Lemma d_facts : accepted d /\ d_heights d = hs /\ d_nlayers d = Z.of_nat (length hs) /\ d_ncells d = chip_cells d + spreader_cells top.
  Proof.
    destruct (parse_dims_inv _ _ _ _ _ _ _ _ PD sc_nonneg) as (A & _ & _ & _ & H & _ & N & _).
    split; [exact A|]. split; [exact H|]. split; [rewrite (ac_nlayers d A), H; reflexivity|exact N].
  Qed.
  Lemma hs_rev : hs = rev (stack_heights ch ds).
  Proof. destruct (parse_stack_spec ch ds es hs (declared_ok ch D) B P) as (_ & H & _). exact H. Qed.
  Lemma hs_len : length hs = length (stack_heights ch ds).
  Proof. rewrite hs_rev, rev_length. reflexivity. Qed.
  Lemma is_acceptable : acceptable ch ds.
  Proof. apply (proj1 (parse_stack_accepts ch ds D B)). eauto. Qed.
  Lemma some_layer : (1 <= length hs)%nat.
  Proof.
    rewrite hs_len. destruct is_acceptable as (_ & _ & (d0 & F & C0) & _).
    pose proof (heights_in ch d0 ds (nth_error_In _ _ F) C0). lia.
  Qed.

  Lemma grid_facts : exists fs,
      power_grid_types (d_nlayers d) es top bot = Ok (tg_types g, fs) /\ length fs = length hs /\
      tg_layers g = rev (flat_map (decl_layers ch) ds) /\ tg_top g = top /\ tg_bottom g = bot /\
      ((exists i id, nth_error ds i = Some (DeclChannel id)) -> tg_channel g = ch) /\
      length (tg_types g) = length hs /\
      forall k, (k < length hs)%nat ->
          let t := nth k (tg_types g) LT_NONE in
          t <> LT_NONE /\
          (is_source t = true <-> exists f, source_at ch ds (Z.of_nat k) f) /\
          (forall f, nth k fs None = Some f <-> source_at ch ds (Z.of_nat k) f) /\
          (is_source t || is_passive_solid t = true <-> ~ channel_at ch ds (Z.of_nat k)) /\
          (to_ambient t = true <-> k = (length hs - 1)%nat /\ has_ambient top) /\
          (to_spreader t = true <-> k = (length hs - 1)%nat /\ has_spreader top) /\
          (to_pcb t = true <-> k = 0%nat /\ bot <> None) /\
          (forall i id j c, nth_error ds i = Some (DeclChannel id) -> ch = Some c -> (j < chan_layers ch)%nat ->
             Z.of_nat k = layers_below ch ds i + Z.of_nat j -> nth_error (expected_channel_types (ch_model c)) j = Some t).
  Proof.
    destruct (grids_agree ch ds es hs D B P top bot) as (err & g0 & ts & fs & H1 & H2 & _ & H3).
    destruct d_facts as (_ & _ & N & _). rewrite <- N in H1, H2. rewrite TF in H1.
    assert (err = TDICE_SUCCESS /\ g0 = g) as [-> ->] by (split; congruence).
    destruct (H3 eq_refl) as (T & Ly & E1 & E2 & E3 & L1 & L2 & K). exists fs. rewrite T. auto 10.
  Qed.

  Lemma channel_at_dec : forall l, {channel_at ch ds l} + {~ channel_at ch ds l}.
  Proof.
    intro l.
    destruct (existsb (fun i => match nth_error ds i with Some (DeclChannel _) =>
        (layers_below ch ds i <=? l) && (l <? layers_below ch ds i + Z.of_nat (chan_layers ch)) | _ => false end) (seq 0 (length ds))) eqn:E.
    - left. apply existsb_exists in E. destruct E as (i & _ & E). destruct (nth_error ds i) as [[| |id]|] eqn:N; try discriminate.
      exists i, id. split; [exact N|]. apply andb_true_iff in E. destruct E as [E1 E2]. apply Z.leb_le in E1. apply Z.ltb_lt in E2. lia.
    - right. intros (i & id & N & R). assert (existsb (fun i => match nth_error ds i with Some (DeclChannel _) =>
        (layers_below ch ds i <=? l) && (l <? layers_below ch ds i + Z.of_nat (chan_layers ch)) | _ => false end) (seq 0 (length ds)) = true) as X.
      { apply existsb_exists. exists i. split.
        - apply in_seq. split; [lia|]. cbn. apply nth_error_Some. rewrite N. discriminate.
        - rewrite N. apply andb_true_iff. split; [apply Z.leb_le|apply Z.ltb_lt]; lia. }
      rewrite X in E. discriminate.
  Qed.

  Lemma build_good_tgrid : good_tgrid d g.
  Proof.
    destruct d_facts as (A & HH & N & _). destruct grid_facts as (fs & _ & LF & LY & TT & TB & TC & LT & K).
    pose proof some_layer as S1. pose proof hs_len as HL.
    assert (forall l, 0 <= l < d_nlayers d -> (Z.to_nat l < length hs)%nat) as RG by (intros; lia).
    constructor; try assumption.
    - lia.
    - lia.
    - rewrite LY, rev_length. rewrite (flat_map_lengths (decl_layers ch) (decl_heights ch) ds (decl_layers_length ch)).
      change (flat_map (decl_heights ch) ds) with (stack_heights ch ds). lia.
    - intros s h m E. rewrite TT in E. apply (SP s h m E).
    - unfold type_of. destruct (K (Z.to_nat (d_nlayers d - 1)) ltac:(lia)) as (_ & _ & _ & _ & _ & X & _).
      rewrite TT. rewrite X. split; [intro Y; split; [lia|exact Y]|tauto].
    - intros Y. unfold type_of. destruct (K (Z.to_nat (d_nlayers d - 1)) ltac:(lia)) as (_ & _ & _ & _ & X & _).
      rewrite TT in Y. apply X. split; [lia|exact Y].
    - intros Y. unfold type_of. destruct (K (Z.to_nat 0) ltac:(lia)) as (_ & _ & _ & _ & _ & _ & X & _).
      rewrite TB in Y. apply X. split; [reflexivity|exact Y].
    - intros l Hl. destruct (K (Z.to_nat l) (RG l Hl)) as (NN & _ & _ & SO & XA & XS & XP & XC). rewrite Z2Nat.id in * by lia.
      destruct (channel_at_dec l) as [C|C].
      + right. destruct C as (i & id & NI & R).
        destruct ch as [c|] eqn:EC; [|cbn in R; lia]. rewrite <- EC in *.
        exists (layers_below ch ds i), (Z.to_nat (l - layers_below ch ds i)), c.
        pose proof (channel_room ch ds is_acceptable i id NI) as (R1 & R2).
        rewrite (expected_length ch c EC (declared_ok ch D)).
        split; [rewrite TC by eauto; exact EC|]. split; [lia|]. split; [exact R1|]. split; [lia|]. split; [lia|].
        intros j t J.
        assert (j < chan_layers ch)%nat as JL.
        { rewrite <- (expected_length ch c EC (declared_ok ch D)). apply nth_error_Some. rewrite J. discriminate. }
        split.
        * unfold type_of. destruct (K (Z.to_nat (layers_below ch ds i + Z.of_nat j)) ltac:(lia)) as (_ & _ & _ & _ & _ & _ & _ & X).
          specialize (X i id j c NI EC JL ltac:(lia)). rewrite J in X. injection X as ->. reflexivity.
        * rewrite LY, (channel_layer ch ds i id NI c j EC JL). reflexivity.
      + left. unfold type_of, is_solid. split; [apply SO; exact C|]. split; [|split].
        * intro Y. apply XA in Y. rewrite TT. split; [lia|tauto].
        * intro Y. apply XS in Y. lia.
        * intro Y. apply XP in Y. rewrite TB. split; [lia|tauto].
  Qed.
End Grid.

(** ** What loading gives *)
Record load_facts (x : description) (lo : loaded) (hs : list Q) (d0 : dims) (ncols : Z) : Prop := {
  lf_declared : declared (lo_channel lo);
  lf_channel : match x_channel x with
               | None => lo_channel lo = None
               | Some cd => exists c, lo_channel lo = Some c /\ declare_channel cd (x_chip_length x) ncols = Ok c
               end;
  lf_stack : parse_stack (lo_channel lo) (x_stack x) = Ok (Some (lo_elements lo, hs));
  lf_d0 : parse_dims (x_chip_length x) (x_chip_width x) (x_cell_length x) (x_cell_width x) (x_grid x) hs 0 = Ok (Some d0);
  lf_top : make_top d0 (x_top x) = Ok (Some (lo_top lo));
  lf_dims : parse_dims (x_chip_length x) (x_chip_width x) (x_cell_length x) (x_cell_width x) (x_grid x) hs (spreader_cells (lo_top lo)) = Ok (Some (lo_dims lo));
  lf_bottom : lo_bottom lo = x_bottom x;
  lf_connections : lo_connections lo = number_of_connections (d_nlayers (lo_dims lo)) (d_nrows (lo_dims lo)) (d_ncols (lo_dims lo))
      (count_channels (lo_elements lo)) (declared_model (lo_channel lo)) (sink_rows (lo_top lo));
  lf_ncols : exists f la w c, parse_columns (x_chip_length x) (x_cell_length x) (x_grid x) = Ok (Some (f, la, w, c, ncols))
}.
Lemma load_inv : forall x lo, load x = Ok (Some lo) -> exists hs d0 ncols, load_facts x lo hs d0 ncols.
Proof.
  intros x lo H. unfold load in H.
  destruct (parse_columns (x_chip_length x) (x_cell_length x) (x_grid x)) as [[[[[[f la] w] c] ncols]|]| |] eqn:EC; cbn [bind] in H; try discriminate.
  set (mch := match x_channel x with None => Ok None | Some cd => do c0 <- declare_channel cd (x_chip_length x) ncols ; Ok (Some c0) end) in H.
  destruct mch as [ch| |] eqn:EM; cbn [bind] in H; try discriminate. unfold mch in EM. clear mch.
  destruct (parse_stack ch (x_stack x)) as [[[es hs]|]| |] eqn:ES; cbn [bind] in H; try discriminate.
  destruct (parse_dims (x_chip_length x) (x_chip_width x) (x_cell_length x) (x_cell_width x) (x_grid x) hs 0) as [[d0|]| |] eqn:E0; cbn [bind] in H; try discriminate.
  destruct (make_top d0 (x_top x)) as [[top|]| |] eqn:ET; cbn [bind] in H; try discriminate.
  destruct (parse_dims (x_chip_length x) (x_chip_width x) (x_cell_length x) (x_cell_width x) (x_grid x) hs (spreader_cells top)) as [[d|]| |] eqn:ED; cbn [bind] in H; try discriminate.
  injection H as <-. exists hs, d0, ncols. constructor; cbn [lo_channel lo_elements lo_dims lo_top lo_bottom lo_connections]; try assumption; try reflexivity.
  - destruct (x_channel x) as [cd|]; [|injection EM as <-; exact I].
    destruct (declare_channel cd (x_chip_length x) ncols) as [c0| |] eqn:E; cbn [bind] in EM; try discriminate. injection EM as <-. exists cd, (x_chip_length x), ncols. exact E.
  - destruct (x_channel x) as [cd|]; [|injection EM as <-; reflexivity].
    destruct (declare_channel cd (x_chip_length x) ncols) as [c0| |] eqn:E; cbn [bind] in EM; try discriminate. injection EM as <-. eauto.
  - eauto.
Qed.

Lemma same_grid : forall L W cl cw s hs s1 s2 d1 d2, parse_dims L W cl cw s hs s1 = Ok (Some d1) -> parse_dims L W cl cw s hs s2 = Ok (Some d2) ->
    d_nrows d1 = d_nrows d2 /\ d_ncols d1 = d_ncols d2 /\ d_nlayers d1 = d_nlayers d2 /\ d_chip_length d1 = d_chip_length d2 /\ d_chip_width d1 = d_chip_width d2.
Proof.
  intros L W cl cw s hs s1 s2 d1 d2 H1 H2. unfold parse_dims in *.
  destruct (to_u32 (W / cw)) as [rows| |]; cbn [bind] in *; try discriminate.
  destruct (parse_columns L cl s) as [[[[[[f la] w] ch] n]|]| |]; cbn [bind] in *; try discriminate.
  cbv zeta in *. destruct (_ <? _) in H1; [discriminate|]. destruct (_ <? _) in H2; [discriminate|].
  injection H1 as <-. injection H2 as <-. cbn. auto.
Qed.

Lemma floor_ge_one : forall a b, (0 < b)%Q -> (b <= a)%Q -> 1 <= Qfloor (a / b).
Proof.
  intros a b B H. change 1 with (Qfloor 1). apply Qfloor_resp_le. apply Qle_shift_div_l; [exact B|]. rewrite Qmult_1_l. exact H.
Qed.
Section Loaded.
  Variables (x : description) (lo : loaded) (hs : list Q) (d0 : dims) (ncols : Z).
  Hypothesis F : load_facts x lo hs d0 ncols.
  Hypothesis SO : sound x lo.
  Notation d := (lo_dims lo).
  Notation ch := (lo_channel lo).

  Lemma sc_pos : 0 <= spreader_cells (lo_top lo).
  Proof.
    unfold spreader_cells. destruct (lo_top lo) as [[h a|s h m]|] eqn:T; try lia.
    pose proof (lf_top _ _ _ _ _ F) as M. unfold make_top in M. destruct (x_top x) as [[h' a'|len wid h' m']|]; try (rewrite T in M; discriminate).
    rewrite T in M. unfold initialize_heat_spreader in M. cbv zeta in M.
    destruct (negb _) in M; [discriminate|]. destruct (to_u32 _) as [bc| |] in M; cbn [bind] in M; try discriminate.
    destruct (negb _) in M; [discriminate|]. destruct (to_u32 _) as [br| |] in M; cbn [bind] in M; try discriminate.
    injection M as <- _ _. cbn [s_nrows s_ncols]. apply Z.mul_nonneg_nonneg; apply Z.mod_pos_bound; reflexivity.
  Qed.
  Lemma dims_inv : accepted d /\ d_width d = x_cell_width x /\ d_chip_length d = x_chip_length x /\ d_chip_width d = x_chip_width x /\
      d_heights d = hs /\ d_nrows d = Qfloor (x_chip_width x / x_cell_width x) /\
      d_ncells d = d_nlayers d * d_nrows d * d_ncols d + spreader_cells (lo_top lo) /\
      parse_columns (x_chip_length x) (x_cell_length x) (x_grid x) = Ok (Some (d_first d, d_last d, d_wall d, d_chan d, d_ncols d)).
  Proof. exact (parse_dims_inv _ _ _ _ _ _ _ _ (lf_dims _ _ _ _ _ F) sc_pos). Qed.

  Lemma ncols_eq : d_ncols d = ncols.
  Proof.
    destruct dims_inv as (_ & _ & _ & _ & _ & _ & _ & E). destruct (lf_ncols _ _ _ _ _ F) as (a & b & c & e & E2). rewrite E in E2. congruence.
  Qed.

  Lemma load_layers : acceptable ch (x_stack x) /\ hs = rev (stack_heights ch (x_stack x)) /\ (1 <= length hs)%nat /\ d_nlayers d = Z.of_nat (length hs).
  Proof.
    pose proof (lf_declared _ _ _ _ _ F) as D. pose proof (so_layers _ _ SO) as B. pose proof (lf_stack _ _ _ _ _ F) as P.
    split; [apply (is_acceptable _ _ _ _ D B P)|]. split; [apply (hs_rev _ _ _ _ D B P)|]. split; [apply (some_layer _ _ _ _ D B P)|].
    destruct dims_inv as (A & _ & _ & _ & H & _). rewrite (ac_nlayers _ A), H. reflexivity.
  Qed.

  Lemma load_good_grid : good_grid d.
  Proof.
    destruct dims_inv as (A & Wd & _ & _ & HH & NR & NC & PC). destruct (so_cells _ _ SO) as ((C1 & C2 & C3 & C4 & C5) & CW).
    destruct load_layers as (_ & _ & N1 & NL).
    pose proof (floor_ge_one _ _ C4 C5) as R1. rewrite <- NR in R1.
    pose proof (ac_nrows _ A) as RR. pose proof (ac_ncols _ A) as RC. pose proof (ac_cells _ A) as CE. pose proof (ac_max _ A) as MX.
    destruct (parse_columns_inv _ _ _ _ _ _ _ _ PC) as (_ & SH).
    unfold x_grid in *. unfold good_grid. rewrite Wd.
    assert (1 <= d_ncols d /\ (0 < d_first d /\ 0 < d_last d /\ 0 < d_wall d /\ 0 < d_chan d)%Q /\
       ((d_first d == d_last d)%Q /\ (d_first d == d_wall d)%Q /\ (d_first d == d_chan d)%Q \/ exists k, 0 <= k /\ d_ncols d = 2 * k + 3)) as (H1 & H2 & H3).
    { destruct SH as [(U & E1 & E2 & E3 & E4 & E5)|(U & k & K0 & K1 & _)].
      - rewrite E1, E2, E3, E4. split; [|split; [auto|left; repeat split; reflexivity]]. rewrite E5.
        destruct (x_channel x) as [[]|]; try (apply floor_ge_one; assumption). destruct (x_walls x) as [[[? ?] ?] ?]. discriminate.
      - split; [lia|]. split; [|right; eauto]. destruct (x_channel x) as [[]|]; try discriminate.
        destruct (x_walls x) as [[[a b] c] e]. injection U as -> -> -> ->. exact CW. }
    split; [lia|]. split; [lia|]. split.
    { assert (d_nrows d * d_ncols d <= d_nlayers d * d_nrows d * d_ncols d).
      { rewrite <- Z.mul_assoc. rewrite <- (Z.mul_1_l (d_nrows d * d_ncols d)) at 1. apply Z.mul_le_mono_nonneg_r; [apply Z.mul_nonneg_nonneg; lia|lia]. }
      unfold two32. lia. }
    split; [tauto|exact H3].
  Qed.

  Lemma load_spreader : forall s h m, lo_top lo = Some (SinkPluggable s h m) ->
      good_spreader d s /\ (0 < s_cell_length s /\ 0 < s_cell_width s)%Q /\ (0 < h)%Q /\ physical_material m.
  Proof.
    intros s h m T. pose proof (lf_top _ _ _ _ _ F) as M. rewrite T in M. unfold make_top in M. pose proof (so_top _ _ SO) as ST.
    destruct (x_top x) as [[h' a'|len wid h' m']|]; try discriminate.
    destruct (initialize_heat_spreader d0 len wid) as [[s0|]| |] eqn:IN; cbn [bind] in M; try discriminate. injection M as -> -> ->.
    destruct (so_spreader _ _ SO s h m T) as (B1 & B2).
    destruct (same_grid _ _ _ _ _ _ _ _ _ _ (lf_d0 _ _ _ _ _ F) (lf_dims _ _ _ _ _ F)) as (E1 & E2 & E3 & E4 & E5).
    assert (initialize_heat_spreader d len wid = Ok (Some s)) as IN2.
    { rewrite <- IN. unfold initialize_heat_spreader. rewrite E1, E2, E4, E5. reflexivity. }
    destruct dims_inv as (A & _ & CL & CWd & _ & _ & NC & _). destruct load_good_grid as (R1 & R2 & _).
    destruct (so_cells _ _ SO) as ((C1 & C2 & _) & _).
    assert (s_nrows s = 2 * s_border_rows s + d_nrows d /\ s_ncols s = 2 * s_border_cols s + d_ncols d /\ s_cell_length s = (x_chip_length x / qz (d_ncols d))%Q /\ s_cell_width s = (x_chip_width x / qz (d_nrows d))%Q) as (Q1 & Q2 & Q3 & Q4).
    { clear IN T. revert B1 B2. unfold initialize_heat_spreader in IN2. cbv zeta in IN2. rewrite CL, CWd in IN2.
      destruct (negb _) in IN2; [discriminate|]. destruct (to_u32 ((len - x_chip_length x) / 2 / (x_chip_length x / qz (d_ncols d)))) as [bc| |] eqn:Z1 in IN2; cbn [bind] in IN2; try discriminate.
      destruct (negb _) in IN2; [discriminate|]. destruct (to_u32 ((wid - x_chip_width x) / 2 / (x_chip_width x / qz (d_nrows d)))) as [br| |] eqn:Z2 in IN2; cbn [bind] in IN2; try discriminate.
      match type of IN2 with Ok (Some ?a) = _ => assert (s = a) as -> by congruence end. cbn [s_nrows s_ncols s_border_rows s_border_cols s_cell_length s_cell_width]. intros B1 B2.
      apply to_u32_inv in Z1. apply to_u32_inv in Z2. rewrite (u32_id (2 * br)), (u32_id (2 * bc)) by lia. rewrite !u32_id by lia. auto. }
    assert (forall z : Z, 1 <= z -> (0 < qz z)%Q) as QP by (intros z Hz; change 0%Q with (inject_Z 0); unfold qz; rewrite <- Zlt_Qlt; lia).
    split; [|split; [split|]].
    - apply (initialize_good d len wid); try assumption. pose proof (ac_max _ A) as MX. unfold spreader_cells in NC. rewrite T in NC. lia.
    - rewrite Q3. apply Qlt_shift_div_l; [apply QP; lia|]. lra.
    - rewrite Q4. apply Qlt_shift_div_l; [apply QP; lia|]. lra.
    - exact ST.
  Qed.
End Loaded.
