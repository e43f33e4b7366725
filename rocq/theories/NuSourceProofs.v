(** * The sources of the non-uniform grid *)
From Coq Require Import ZArith List Bool QArith Qfield Lia Lqa ZifyBool.
From Verif Require Import Base QSum Dims DimsProofs Queue QueueProofs Floorplan FloorplanSpec FloorplanProofs Stack StackSpec StackProofs PowerGrid Emulate EmulateSpec Conduct Matrix MatrixSpec CellProofs SourceProofs LayerProofs NonUniform NuSpec NuGeomProofs NuCountProofs NuTileProofs NuMatrix NuMatrixSpec NuMatrixProofs NuTableProofs NuCoeffProofs NuLeaveProofs NuSource NuSourceSpec PropNuMatrix.
Import ListNotations.
Local Open Scope Z_scope.

(** ** Runs *)
Lemma run_app : forall l B R, (forall c, In c B -> c_layer c = l) -> (forall c, In c R -> c_layer c <> l) -> run_of l (B ++ R) = length B.
Proof.
  intros l B R HB HR. induction B as [|c B IH].
  - destruct R as [|c R]; [reflexivity|]. cbn. destruct (Z.eqb_spec (c_layer c) l) as [E|_]; [exfalso; exact (HR c (or_introl eq_refl) E)|reflexivity].
  - cbn. rewrite (HB c (or_introl eq_refl)), Z.eqb_refl. rewrite IH; [reflexivity|]. intros x I. apply HB. right. exact I.
Qed.
Lemma run_number : forall hs k L G, run_of (Z.of_nat k) (number hs k (L :: G)) = length (snd L).
Proof.
  intros hs k L G. cbn [number]. rewrite run_app; [apply map_length| |].
  - intros c I. apply in_map_iff in I. destruct I as (x & <- & _). reflexivity.
  - intros c I. apply number_layer in I. lia.
Qed.
Lemma skip_number : forall hs k L G, skipn (length (snd L)) (number hs k (L :: G)) = number hs (Datatypes.S k) G.
Proof. intros hs k L G. cbn [number]. rewrite skipn_app, map_length, Nat.sub_diag. rewrite skipn_all2 by (rewrite map_length; lia). reflexivity. Qed.

(** ** Elements *)
Lemma add_shares_spec : forall n x s, (n <= length s)%nat -> exists w, add_shares n x s = Ok (w, skipn n s) /\ length w = n /\ forall i, (i < n)%nat -> (nth i w 0 == nth i s 0 + x)%Q.
Proof.
  induction n as [|n IH]; intros x s L.
  - exists []. cbn. repeat split. intros i I. lia.
  - destruct s as [|y s]; [cbn in L; lia|]. destruct (IH x s) as (w & E & LW & N); [cbn in L; lia|]. cbn [add_shares]. rewrite E. cbn [bind fst snd]. eexists. split; [reflexivity|]. split; [cbn; lia|]. intros [|i] I; cbn [nth]; [reflexivity|]. apply N. lia.
Qed.
Lemma fill_elements_spec : forall els qs s, queued els qs -> Forall (fun q => q <> []) qs -> good_pieces els -> (all_pieces els <= length s)%nat ->
    exists els' s', nu_fill_elements els s = Ok (TDICE_SUCCESS, els', s') /\ length s' = length s /\
      (forall i, (nth i s' 0 == nth i s 0 + share els (powers_now qs) i)%Q) /\
      queued els' (map (@tl Q) qs) /\ map so_dx els' = map so_dx els /\ map so_dy els' = map so_dy els.
Proof.
  intros els. induction els as [|e els IH]; intros qs s Q NE GP LE.
  - inversion Q; subst. exists [], s. cbn. repeat split; [|constructor]. intros i. ring.
  - inversion Q as [|? q ? qs' QE QR]; subst. inversion NE as [|? ? NE1 NE2]; subst. inversion GP as [|? ? GP1 GP2]; subst. destruct q as [|p q]; [exfalso; apply NE1; reflexivity|]. cbn [nu_fill_elements].
    assert (EM : queue_is_empty (so_powers e) = false) by (unfold queue_is_empty; rewrite (qrep_size _ _ QE); cbn [length]; lia). rewrite EM.
    destruct (queue_get_spec _ _ _ QE) as (q' & GE & QE'). rewrite GE. cbn [bind fst snd].
    assert (U : u32 (so_dx e * so_dy e) = so_dx e * so_dy e) by (apply u32_id; lia). rewrite U. unfold all_pieces in LE. cbn [map fold_right] in LE. fold (all_pieces els) in LE. fold (pieces e). fold (pieces e) in LE.
    destruct (add_shares_spec (pieces e) (p / qz (so_dx e * so_dy e))%Q s ltac:(lia)) as (w & W & LW & NW). fold (pieces e) in W. rewrite W. cbn [bind fst snd].
    destruct (IH qs' (skipn (pieces e) s) QR NE2 GP2) as (els' & s' & F & LS & NS & Q' & DX & DY); [rewrite skipn_length; lia|]. rewrite F. cbn [bind].
    eexists. eexists. split; [reflexivity|]. split; [rewrite app_length, LS, skipn_length; lia|]. split.
    + intros i. cbn [share powers_now map hd]. destruct (Nat.ltb_spec i (pieces e)) as [L|L].
      * rewrite app_nth1 by lia. rewrite (NW i L). unfold pieces. rewrite Z2Nat.id by lia. reflexivity.
      * rewrite app_nth2 by lia. rewrite LW, NS. rewrite nth_skipn. replace (pieces e + (i - pieces e))%nat with i by lia. reflexivity.
    + split; [cbn [map]; constructor; [exact QE'|exact Q']|]. cbn [map so_dx so_dy]. rewrite DX, DY. split; reflexivity.
Qed.
(** An empty queue. *)
Lemma fill_elements_empty : forall els qs s, queued els qs -> good_pieces els -> (all_pieces els <= length s)%nat -> Exists (fun q => q = []) qs ->
    exists els' s', nu_fill_elements els s = Ok (TDICE_FAILURE, els', s').
Proof.
  intros els. induction els as [|e els IH]; intros qs s Q GP LE EX.
  - inversion Q; subst. inversion EX.
  - inversion Q as [|? q ? qs' QE QR]; subst. inversion GP as [|? ? GP1 GP2]; subst. cbn [nu_fill_elements]. destruct q as [|p q].
    + assert (EM : queue_is_empty (so_powers e) = true) by (unfold queue_is_empty; rewrite (qrep_size _ _ QE); reflexivity). rewrite EM. eauto.
    + assert (EM : queue_is_empty (so_powers e) = false) by (unfold queue_is_empty; rewrite (qrep_size _ _ QE); cbn [length]; lia). rewrite EM.
      destruct (queue_get_spec _ _ _ QE) as (q' & GE & QE'). rewrite GE. cbn [bind fst snd].
      assert (U : u32 (so_dx e * so_dy e) = so_dx e * so_dy e) by (apply u32_id; lia). rewrite U. unfold all_pieces in LE. cbn [map fold_right] in LE. fold (all_pieces els) in LE. fold (pieces e). fold (pieces e) in LE.
      destruct (add_shares_spec (pieces e) (p / qz (so_dx e * so_dy e))%Q s ltac:(lia)) as (w & W & LW & NW). fold (pieces e) in W. rewrite W. cbn [bind fst snd].
      inversion EX as [? ? E|? ? E]; [discriminate|]. subst. destruct (IH qs' (skipn (pieces e) s) QR GP2) as (els' & s' & F); [rewrite skipn_length; lia|exact E|]. rewrite F. cbn [bind]. eauto.
Qed.
Lemma share_beyond : forall els ps k, (all_pieces els <= k)%nat -> share els ps k = 0%Q.
Proof.
  intros els. induction els as [|e els IH]; intros ps k L; [reflexivity|]. destruct ps as [|p ps]; [reflexivity|]. unfold all_pieces in L. cbn [map fold_right] in L. fold (all_pieces els) in L. cbn [share]. destruct (Nat.ltb_spec k (pieces e)); [lia|]. apply IH. lia.
Qed.

(** ** The conductances to the sinks *)
Lemma add_tcs_spec : forall n xs, length xs = n -> exists ys, add_tcs (repeat 0%Q n) xs = Ok ys /\ length ys = n /\ forall i, (nth i ys 0 == nth i xs 0)%Q.
Proof.
  induction n as [|n IH]; intros xs L; destruct xs as [|x xs]; try discriminate.
  - exists []. repeat split.
  - destruct (IH xs) as (ys & E & LY & N); [cbn in L; lia|]. cbn [repeat add_tcs]. rewrite E. cbn [bind]. eexists. split; [reflexivity|]. split; [cbn; lia|]. intros [|i]; cbn [nth]; [ring|apply N].
Qed.
Lemma run_all : forall l cs, (forall c, In c cs -> c_layer c = l) -> run_of l cs = length cs.
Proof. intros l cs H. rewrite <- (app_nil_r cs) at 1. apply run_app; [exact H|intros c []]. Qed.
Lemma pure_map : forall {A B} (f : A -> outcome B) (b0 : B) l, (forall a, In a l -> exists b, f a = Ok b) ->
    exists r, map_out f l = Ok r /\ length r = length l /\ forall i a, (i < length l)%nat -> f (nth i l a) = Ok (nth i r b0).
Proof.
  intros A B f b0 l H. assert (E : exists r, map_out f l = Ok r).
  { induction l as [|a l IH]; [eexists; reflexivity|]. destruct (H a (or_introl eq_refl)) as (b & EB). destruct IH as (r & ER); [intros; apply H; right; assumption|]. cbn [map_out]. rewrite EB. cbn [bind]. rewrite ER. cbn [bind]. eauto. }
  destruct E as (r & E). exists r. split; [exact E|]. split; [eapply map_out_len; exact E|]. intros i a I. eapply map_out_nth; eassumption.
Qed.

Section Tcs.
  Variables (g : tgrid) (d : dims) (hs : list Q) (G : list nlayer).
  Hypotheses (GT : good_tgrid d g) (PH : physical g d).
  Hypothesis C : forall c, In c (number hs 0 G) -> in_stack g d c /\ one_material g c /\ positive_cell g c.
  Hypothesis NL : (length (tg_types g) <= length G)%nat.
  Hypothesis SOME : forall l, (l < length G)%nat -> layer_block G l <> [].

  Lemma block_in : forall l x, (l < length G)%nat -> In x (layer_block G l) -> In (cell_of hs l x) (number hs 0 G).
  Proof.
    intros l x L I. unfold layer_block in I. assert (H : In (cell_of hs l x) (filter (fun c => c_layer c =? Z.of_nat l) (number hs 0 G))).
    { rewrite filter_number. cbn [Nat.leb]. rewrite Nat.sub_0_r. apply in_map. exact I. }
    apply filter_In in H. apply H.
  Qed.
  Lemma nth_block : forall l i a, (i < length (layer_block G l))%nat -> nth i (map (cell_of hs l) (layer_block G l)) a = grid_cell hs G l i.
  Proof. intros l i a I. unfold grid_cell. rewrite <- (map_nth (cell_of hs l)). apply nth_indep. rewrite map_length. exact I. Qed.

  (** The last block. *)
  Lemma last_block : forall n, length G = Datatypes.S n -> number hs 0 G = number hs 0 (firstn n G) ++ map (cell_of hs n) (layer_block G n).
  Proof.
    intros n L. assert (E : G = firstn n G ++ [nth n G (0, [])]).
    { rewrite <- (firstn_skipn n G) at 1. f_equal. assert (LS : length (skipn n G) = 1%nat) by (rewrite skipn_length; lia). destruct (skipn n G) as [|y [|]] eqn:K; try discriminate. f_equal. replace n with (n + 0)%nat by lia. rewrite <- nth_skipn, K. reflexivity. }
    rewrite E at 1. rewrite number_app. cbn [number]. rewrite app_nil_r. rewrite firstn_length. replace (0 + Nat.min n (length G))%nat with n by lia. reflexivity.
  Qed.
  Lemma rev_last : forall n, length G = Datatypes.S n -> exists c t, rev (number hs 0 G) = c :: t /\ c_layer c = Z.of_nat n.
  Proof.
    intros n L. rewrite (last_block n L), rev_app_distr. pose proof (SOME n ltac:(lia)) as NE. destruct (rev (map (cell_of hs n) (layer_block G n))) as [|c t] eqn:E.
    - apply (f_equal (@length _)) in E. rewrite rev_length, map_length in E. destruct (layer_block G n); [congruence|discriminate].
    - exists c, (t ++ rev (number hs 0 (firstn n G))). split; [reflexivity|]. assert (I : In c (rev (map (cell_of hs n) (layer_block G n)))) by (rewrite E; left; reflexivity). apply in_rev in I. apply in_map_iff in I. destruct I as (x & <- & _). reflexivity.
  Qed.
  Lemma top_zeros : forall n, length G = Datatypes.S n -> tcs_zeros (rev (number hs 0 G)) = Ok (repeat 0%Q (length (layer_block G n))).
  Proof.
    intros n L. destruct (rev_last n L) as (c & t & E & CL). unfold tcs_zeros. rewrite E. rewrite <- E, CL. rewrite (last_block n L), rev_app_distr. rewrite run_app.
    - rewrite rev_length, map_length. reflexivity.
    - intros x I. apply in_rev in I. apply in_map_iff in I. destruct I as (y & <- & _). reflexivity.
    - intros x I. apply in_rev in I. apply number_layer in I. rewrite firstn_length in I. lia.
  Qed.
  Lemma bottom_zeros : (0 < length G)%nat -> tcs_zeros (number hs 0 G) = Ok (repeat 0%Q (length (layer_block G 0))).
  Proof.
    intros L. pose proof (SOME 0%nat L) as NE. unfold layer_block in *. destruct G as [|L0 G']; [cbn in L; lia|]. cbn [nth] in *. cbn [number]. destruct (snd L0) as [|x xs] eqn:E; [congruence|]. cbn [map app tcs_zeros]. change (c_layer (cell_of hs 0 x)) with (Z.of_nat 0).
    f_equal. f_equal. change (cell_of hs 0 x :: map (cell_of hs 0) xs ++ number hs 1 G') with (map (cell_of hs 0) (x :: xs) ++ number hs 1 G'). rewrite <- E. change (map (cell_of hs 0) (snd L0) ++ number hs 1 G') with (number hs 0 (L0 :: G')). apply run_number.
  Qed.

  (** What the sink of the top gives. *)
  Lemma top_tc_spec : forall c, In c (number hs 0 G) -> 0 <= c_layer c < d_nlayers d -> to_ambient (type_of g (c_layer c)) = true ->
      exists x, top_tc g d (is_source (type_of g (c_layer c))) c = Ok x /\ (x == to_air g d c)%Q.
  Proof.
    intros c I L T. destruct (C c I) as (IS & O & P). unfold top_tc. rewrite (nu_layer_in g d GT) by exact L. rewrite (mat_one g d c O). change (height d (c_layer c)) with (cell_height d c).
    destruct (solid_facts g d GT (c_layer c) L) as (F & _); [destruct (type_of g (c_layer c)); try discriminate; reflexivity|]. destruct (F T) as (_ & htc & a & TOP). unfold with_top, to_air. rewrite TOP, T. destruct (Z.leb_spec (d_nlayers d) (c_layer c)); [lia|].
    pose proof (material_pos g d GT PH c L P) as (_ & _ & _ & KZ). pose proof (height_pos g d GT PH c L) as HP. pose proof (ph_top g d PH htc a TOP) as HT.
    assert (MM : (if is_source (type_of g (c_layer c)) then c_mat c else ly_mat (cell_layer g c)) = cell_material g c) by reflexivity. rewrite MM. eexists. split; [reflexivity|].
    set (k := mt_kz (cell_material g c)) in *. set (h := cell_height d c) in *. assert (N : (0 < h * htc + 2 * k)%Q) by nra. pose proof (Qpos_neq _ N) as N'. pose proof (Qpos_neq _ HT). pose proof (Qpos_neq _ KZ). field. repeat split; auto.
    all: intros E; apply N'; rewrite <- E; ring.
  Qed.
  Lemma top_tcs_spec : forall n, d_nlayers d = Z.of_nat (Datatypes.S n) -> to_ambient (type_of g (Z.of_nat n)) = true -> length G = Datatypes.S n ->
      exists ts, nu_top_tcs g d (number hs 0 G) = Ok ts /\ length ts = length (layer_block G n) /\ forall i, (i < length (layer_block G n))%nat -> (nth i ts 0 == to_air g d (grid_cell hs G n i))%Q.
  Proof.
    intros n N T LG. unfold nu_top_tcs. rewrite (top_zeros n LG). cbn [bind]. pose proof (gt_types d g GT) as LT.
    destruct (solid_facts g d GT (Z.of_nat n) ltac:(lia)) as (F & _); [destruct (type_of g (Z.of_nat n)); try discriminate; reflexivity|]. destruct (F T) as (_ & htc & a & TOP). rewrite TOP.
    rewrite (arr_get_ok _ _ LT_NONE) by lia. cbn [bind]. replace (d_nlayers d - 1) with (Z.of_nat n) by lia. fold (type_of g (Z.of_nat n)).
    destruct (rev_last n LG) as (c & t & E & CL). rewrite E, CL. rewrite filter_number. cbn [Nat.leb]. rewrite Nat.sub_0_r. fold (layer_block G n).
    assert (BODY : forall b, b = is_source (type_of g (Z.of_nat n)) -> exists ts, (do xs <- map_out (top_tc g d b) (map (cell_of hs n) (layer_block G n)) ; add_tcs (repeat 0%Q (length (layer_block G n))) xs) = Ok ts /\
       length ts = length (layer_block G n) /\ forall i, (i < length (layer_block G n))%nat -> (nth i ts 0 == to_air g d (grid_cell hs G n i))%Q).
    { intros b ->. destruct (pure_map (top_tc g d (is_source (type_of g (Z.of_nat n)))) 0%Q (map (cell_of hs n) (layer_block G n))) as (xs & EX & LX & NX).
      - intros y I. apply in_map_iff in I. destruct I as (z & <- & I). destruct (top_tc_spec (cell_of hs n z)) as (v & EV & _); [apply block_in; [lia|exact I]|cbn; lia|exact T|]. exists v. exact EV.
      - rewrite EX. cbn [bind]. rewrite map_length in LX. destruct (add_tcs_spec _ xs LX) as (ys & EY & LY & NY). rewrite EY. exists ys. split; [reflexivity|]. split; [exact LY|]. intros i I. rewrite NY.
        specialize (NX i (grid_cell hs G n i)). rewrite map_length in NX. specialize (NX I). rewrite nth_block in NX by exact I. assert (IN : In (grid_cell hs G n i) (number hs 0 G)) by (apply block_in; [lia|apply nth_In; exact I]).
        destruct (top_tc_spec (grid_cell hs G n i) IN) as (v & EV & VQ); [cbn; lia|exact T|]. change (c_layer (grid_cell hs G n i)) with (Z.of_nat n) in EV. rewrite EV in NX. injection NX as <-. exact VQ. }
    destruct (type_of g (Z.of_nat n)) eqn:TT; try discriminate; apply BODY; reflexivity.
  Qed.

  Lemma bottom_tc_spec : forall c, In c (number hs 0 G) -> 0 <= c_layer c < d_nlayers d -> to_pcb (type_of g (c_layer c)) = true ->
      exists x, bottom_tc g d (is_source (type_of g (c_layer c))) c = Ok x /\ (x == to_board g d c)%Q.
  Proof.
    intros c I L T. destruct (C c I) as (IS & O & P). unfold bottom_tc. rewrite (nu_layer_in g d GT) by exact L. rewrite (mat_one g d c O). change (height d (c_layer c)) with (cell_height d c). unfold to_board. rewrite T.
    pose proof (material_pos g d GT PH c L P) as (_ & _ & _ & KZ). pose proof (height_pos g d GT PH c L) as HP.
    assert (MM : (if is_source (type_of g (c_layer c)) then c_mat c else ly_mat (cell_layer g c)) = cell_material g c) by reflexivity. rewrite MM. eexists. split; [reflexivity|].
    pose proof (Qpos_neq _ HP). pose proof (Qpos_neq _ KZ). field. split; assumption.
  Qed.
  Lemma bottom_tcs_spec : to_pcb (type_of g 0) = true -> (0 < length G)%nat ->
      exists ts, nu_bottom_tcs g d (number hs 0 G) = Ok ts /\ length ts = length (layer_block G 0) /\ forall i, (i < length (layer_block G 0))%nat -> (nth i ts 0 == to_board g d (grid_cell hs G 0 i))%Q.
  Proof.
    intros T LG. unfold nu_bottom_tcs. rewrite (bottom_zeros LG). cbn [bind]. pose proof (gt_types d g GT) as LT. pose proof (gt_one d g GT) as L1.
    destruct (solid_facts g d GT 0 ltac:(lia)) as (_ & _ & F); [destruct (type_of g 0); try discriminate; reflexivity|]. destruct (F T) as (_ & BN). destruct (tg_bottom g) as [b|]; [|exfalso; apply BN; reflexivity].
    rewrite (arr_get_ok _ _ LT_NONE) by lia. cbn [bind]. fold (type_of g 0). rewrite repeat_length.
    assert (FN : firstn (length (layer_block G 0)) (number hs 0 G) = map (cell_of hs 0) (layer_block G 0)).
    { unfold layer_block. destruct G as [|L0 G']; [cbn in LG; lia|]. cbn [number nth]. rewrite firstn_app, map_length, Nat.sub_diag. cbn [firstn]. rewrite app_nil_r. apply firstn_all2. rewrite map_length. lia. }
    rewrite FN.
    assert (BODY : forall b, b = is_source (type_of g 0) -> exists ts, (do xs <- map_out (bottom_tc g d b) (map (cell_of hs 0) (layer_block G 0)) ; add_tcs (repeat 0%Q (length (layer_block G 0))) xs) = Ok ts /\
       length ts = length (layer_block G 0) /\ forall i, (i < length (layer_block G 0))%nat -> (nth i ts 0 == to_board g d (grid_cell hs G 0 i))%Q).
    { intros b' ->. destruct (pure_map (bottom_tc g d (is_source (type_of g 0))) 0%Q (map (cell_of hs 0) (layer_block G 0))) as (xs & EX & LX & NX).
      - intros y I. apply in_map_iff in I. destruct I as (z & <- & I). destruct (bottom_tc_spec (cell_of hs 0 z)) as (v & EV & _); [apply block_in; [lia|exact I]|cbn; lia|exact T|]. exists v. exact EV.
      - rewrite EX. cbn [bind]. rewrite map_length in LX. destruct (add_tcs_spec _ xs LX) as (ys & EY & LY & NY). rewrite EY. exists ys. split; [reflexivity|]. split; [exact LY|]. intros i I. rewrite NY.
        specialize (NX i (grid_cell hs G 0 i)). rewrite map_length in NX. specialize (NX I). rewrite nth_block in NX by exact I. assert (IN : In (grid_cell hs G 0 i) (number hs 0 G)) by (apply block_in; [lia|apply nth_In; exact I]).
        destruct (bottom_tc_spec (grid_cell hs G 0 i) IN) as (v & EV & VQ); [cbn; lia|exact T|]. change (c_layer (grid_cell hs G 0 i)) with 0 in EV. rewrite EV in NX. injection NX as <-. exact VQ. }
    destruct (type_of g 0) eqn:TT; try discriminate; apply BODY; reflexivity.
  Qed.
End Tcs.

(** ** One layer *)
Section Layer.
  Variables (pg : npgrid) (d : dims) (hs : list Q) (G : list nlayer) (qs : nat -> list (list Q)).
  Let g := np_grid pg.
  Hypotheses (GT : good_tgrid d g) (PH : physical g d) (R : ready pg d hs G qs).
  Hypothesis C : forall c, In c (number hs 0 G) -> in_stack g d c /\ one_material g c /\ positive_cell g c.

  Lemma nlayers_nat : d_nlayers d = Z.of_nat (length (tg_types g)).
  Proof. symmetry. exact (gt_types d g GT). Qed.
  Lemma skip_block : forall k, (k < length G)%nat -> skipn k G = nth k G (0, []) :: skipn (Datatypes.S k) G.
  Proof.
    intros k. generalize G. clear. induction k as [|k IH]; intros [|x G] L; cbn in L; try lia; [reflexivity|]. cbn [skipn nth]. rewrite IH by lia. reflexivity.
  Qed.
  Lemma last_skip : forall k, (Datatypes.S k = length G)%nat -> skipn k G = [nth k G (0, [])].
  Proof. intros k L. rewrite skip_block by lia. rewrite skipn_all2 by lia. reflexivity. Qed.

  Definition others (k i : nat) : Q := (from_air g d (grid_cell hs G k i) + from_board g d (grid_cell hs G k i) + from_inlet g d k i)%Q.
  Lemma air_not : forall k i, to_ambient (type_of g (Z.of_nat k)) = false -> (from_air g d (grid_cell hs G k i) == 0)%Q.
  Proof. intros k i T. unfold from_air, to_air. change (c_layer (grid_cell hs G k i)) with (Z.of_nat k). rewrite T. destruct (tg_top g) as [[]|]; try reflexivity. destruct (d_nlayers d <=? Z.of_nat k); ring. Qed.
  Lemma board_not : forall k i, to_pcb (type_of g (Z.of_nat k)) = false -> (from_board g d (grid_cell hs G k i) == 0)%Q.
  Proof. intros k i T. unfold from_board, to_board. change (c_layer (grid_cell hs G k i)) with (Z.of_nat k). rewrite T. destruct (tg_bottom g); [ring|reflexivity]. Qed.
  Lemma inlet_not : forall k i, coolant_type (type_of g (Z.of_nat k)) = false -> from_inlet g d k i = 0%Q.
  Proof. intros k i T. unfold from_inlet. rewrite T. destruct (tg_channel g); reflexivity. Qed.

  (** What is added before the floorplan. *)
  Lemma top_part : forall k x y, (k < length (tg_types g))%nat -> to_ambient (type_of g (Z.of_nat k)) = true ->
      length (x ++ y) = length (number hs k (skipn k G)) -> length x = length (layer_block G k) ->
      exists kk x', tg_top g = Some kk /\ y = [] /\ add_ambient (length (number hs k (skipn k G))) (top_ambient kk) (np_top_tcs pg) (x ++ y) = Ok (x' ++ y) /\ length x' = length x /\
        forall i, (i < length x)%nat -> (nth i x' 0 == nth i x 0 + from_air g d (grid_cell hs G k i))%Q.
  Proof.
    intros k x y K T LXY LX. pose proof nlayers_nat as NL.
    destruct (solid_facts g d GT (Z.of_nat k) ltac:(lia)) as (F & _); [destruct (type_of g (Z.of_nat k)); try discriminate; reflexivity|]. destruct (F T) as (KL & htc & a & TOP).
    assert (HA : has_ambient (tg_top (np_grid pg))) by (exists htc, a; exact TOP). pose proof (rd_air _ _ _ _ _ R HA) as LG. fold g in LG.
    assert (KE : Datatypes.S k = length G) by lia. rewrite (last_skip k KE) in LXY |- *. cbn [number app] in LXY |- *. rewrite app_nil_r in *. change (snd (nth k G (0, []))) with (layer_block G k) in *. rewrite map_length in *.
    rewrite app_length in LXY. assert (Y : y = []) by (destruct y; [reflexivity|cbn in LXY; lia]). subst y.
    destruct (top_tcs_spec g d hs G GT PH C (rd_layers _ _ _ _ _ R) (rd_some _ _ _ _ _ R) k ltac:(lia) T (eq_sym KE)) as (ts & E & LT & NT).
    pose proof (rd_top _ _ _ _ _ R) as RT. rewrite (rd_cells _ _ _ _ _ R) in RT. fold g in RT. rewrite RT in E. injection E as <-.
    destruct (add_ambient_spec (length (layer_block G k)) a (np_top_tcs pg) x [] LX LT) as (x' & EX & LX' & NX).
    exists (SinkTop htc a), x'. split; [exact TOP|]. split; [reflexivity|]. split; [exact EX|]. split; [lia|]. intros i I. rewrite NX by lia. rewrite (NT i ltac:(lia)). unfold from_air. rewrite TOP. reflexivity.
  Qed.
  Lemma bottom_part : forall k x y, (k < length (tg_types g))%nat -> to_pcb (type_of g (Z.of_nat k)) = true -> length x = length (layer_block G k) ->
      exists kk x', tg_bottom g = Some kk /\ add_ambient (run_of (Z.of_nat k) (number hs k (skipn k G))) (bs_ambient kk) (np_bottom_tcs pg) (x ++ y) = Ok (x' ++ y) /\ length x' = length x /\
        forall i, (i < length x)%nat -> (nth i x' 0 == nth i x 0 + from_board g d (grid_cell hs G k i))%Q.
  Proof.
    intros k x y K T LX. pose proof nlayers_nat as NL. pose proof (rd_layers _ _ _ _ _ R) as LG. fold g in LG.
    destruct (solid_facts g d GT (Z.of_nat k) ltac:(lia)) as (_ & _ & F); [destruct (type_of g (Z.of_nat k)); try discriminate; reflexivity|]. destruct (F T) as (KL & BN).
    destruct (tg_bottom g) as [b|] eqn:BB; [|exfalso; apply BN; reflexivity]. assert (k = 0)%nat by lia. subst k.
    rewrite (skip_block 0%nat) by lia. rewrite run_number. change (snd (nth 0 G (0, []))) with (layer_block G 0).
    destruct (bottom_tcs_spec g d hs G GT PH C (rd_layers _ _ _ _ _ R) (rd_some _ _ _ _ _ R) T ltac:(lia)) as (ts & E & LT & NT).
    pose proof (rd_bottom _ _ _ _ _ R) as RT. rewrite (rd_cells _ _ _ _ _ R) in RT. fold g in RT. rewrite RT in E. injection E as <-.
    destruct (add_ambient_spec (length (layer_block G 0)) (bs_ambient b) (np_bottom_tcs pg) x y LX LT) as (x' & EX & LX' & NX).
    exists b, x'. split; [reflexivity|]. split; [exact EX|]. split; [lia|]. intros i I. rewrite NX by lia. rewrite (NT i ltac:(lia)). unfold from_board. rewrite BB. reflexivity.
  Qed.
  Lemma inlet_part : forall k x y, (k < length (tg_types g))%nat -> coolant_type (type_of g (Z.of_nat k)) = true -> length x = length (layer_block G k) -> (forall i, (nth i x 0 == 0)%Q) ->
      exists ch x', tg_channel g = Some ch /\ set_inlets ch d (Z.of_nat k) (zrange 0 (last_column d)) (x ++ y) = Ok (x' ++ y) /\ length x' = length x /\
        forall i, (i < length x)%nat -> (nth i x' 0 == nth i x 0 + from_inlet g d k i)%Q.
  Proof.
    intros k x y K T LX ZX. pose proof nlayers_nat as NL. pose proof (rd_rows _ _ _ _ _ R k K T) as RR.
    destruct (channel_some g d GT (Z.of_nat k) ltac:(lia)) as (ch & CH); [destruct (type_of g (Z.of_nat k)); try discriminate; reflexivity|].
    pose proof (gt_grid d g GT) as (HR & HC & HA & _). assert (LC : last_column d = d_ncols d - 1) by (unfold last_column; apply u32_id; lia).
    assert (HL : 0 <= Z.of_nat k < Z.of_nat (length (d_heights d))) by (pose proof (ac_nlayers d (gt_accepted d g GT)); lia).
    destruct (set_inlets_spec ch d (Z.of_nat k) HL (Z.to_nat (d_ncols d)) 0 (x ++ y) ltac:(lia)) as (s' & E & L & W); [rewrite app_length; lia|].
    assert (Ls : length s' = (length x + length y)%nat) by (rewrite L, app_length; reflexivity).
    exists ch, (firstn (length x) s'). split; [exact CH|].
    assert (SK : skipn (length x) s' = y).
    { apply (nth_ext _ _ 0%Q 0%Q); [rewrite skipn_length; lia|]. intros i Hi. rewrite skipn_length in Hi. rewrite nth_skipn, W.
      replace (Z.of_nat (length x + i) <? 0 + Z.of_nat (Z.to_nat (d_ncols d))) with false by lia. rewrite andb_false_r. cbn [andb]. rewrite app_nth2 by lia. f_equal. lia. }
    split; [|split; [rewrite firstn_length; lia|]].
    - unfold zrange. rewrite LC. replace (Z.to_nat (d_ncols d - 1 - 0 + 1)) with (Z.to_nat (d_ncols d)) by lia. rewrite E. f_equal. rewrite <- (firstn_skipn (length x) s') at 1. rewrite SK. reflexivity.
    - intros i I. rewrite nth_firstn_lt by lia. rewrite W, app_nth1 by lia. specialize (ZX i). unfold from_inlet. rewrite CH, T. cbn [andb]. replace (0 <=? Z.of_nat i) with true by lia. cbn [andb].
      replace (0 + Z.of_nat (Z.to_nat (d_ncols d))) with (d_ncols d) by lia. destruct ((Z.of_nat i <? d_ncols d) && is_channel_column (ch_model ch) (Z.of_nat i)); [rewrite ZX|]; ring.
  Qed.

  (** The queues of a layer after the update. *)
  Definition advanced (k : nat) (f f' : option (list nu_source)) : Prop :=
    if is_source (type_of g (Z.of_nat k)) then
      exists els els', f = Some els /\ f' = Some els' /\ queued els' (map (@tl Q) (qs k)) /\ map so_dx els' = map so_dx els /\ map so_dy els' = map so_dy els
    else f' = f.

  Definition next (k : nat) (els : list nu_source) (s1 : list Q) : Prop :=
      exists els' s', nu_fill_elements els s1 = Ok (TDICE_SUCCESS, els', s') /\ length s' = length s1 /\
        (forall i, (nth i s' 0 == nth i s1 0 + share els (powers_now (qs k)) i)%Q) /\
        queued els' (map (@tl Q) (qs k)) /\ map so_dx els' = map so_dx els /\ map so_dy els' = map so_dy els.

  Lemma layer_spec : forall k f s, (k < length (tg_types g))%nat -> nth_error (np_flps pg) k = Some f ->
      (is_source (type_of g (Z.of_nat k)) = true -> Forall (fun q => q <> []) (qs k)) ->
      length s = length (number hs k (skipn k G)) -> (forall i, (nth i s 0 == 0)%Q) ->
      exists f' s', nu_update_layer pg d (Z.of_nat k) (type_of g (Z.of_nat k)) f (number hs k (skipn k G)) s = Ok (TDICE_SUCCESS, f', s') /\ length s' = length s /\
        (forall i, (i < length (layer_block G k))%nat -> (nth i s' 0 == heat_in pg d hs G qs k i)%Q) /\
        (forall i, (length (layer_block G k) <= i)%nat -> (nth i s' 0 == 0)%Q) /\ advanced k f f'.
  Proof.
    intros k f s K NF NE LS ZS. pose proof nlayers_nat as NL. pose proof (rd_layers _ _ _ _ _ R) as LG. fold g in LG.
    assert (LB : (length (layer_block G k) <= length s)%nat). { rewrite LS, (skip_block k) by lia. cbn [number]. rewrite app_length, map_length. change (snd (nth k G (0, []))) with (layer_block G k). lia. }
    set (x := firstn (length (layer_block G k)) s). set (y := skipn (length (layer_block G k)) s).
    assert (SXY : s = x ++ y) by (symmetry; apply firstn_skipn). assert (LX : length x = length (layer_block G k)) by (unfold x; rewrite firstn_length; lia).
    assert (ZX : forall i, (nth i x 0 == 0)%Q). { intros i. destruct (Nat.lt_ge_cases i (length x)) as [I|I]; [|rewrite nth_overflow by lia; reflexivity]. specialize (ZS i). rewrite SXY, app_nth1 in ZS by lia. exact ZS. }
    assert (ZY : forall i, (nth i y 0 == 0)%Q). { intros i. unfold y. rewrite nth_skipn. apply ZS. }
    assert (SRC : is_source (type_of g (Z.of_nat k)) = true -> exists els, f = Some els /\ flp_at pg k = els /\ forall s1, length s1 = length s -> next k els s1).
    { intros S. destruct (rd_queues _ _ _ _ _ R k K S) as ((els & E) & Q1 & Q2 & Q3). rewrite NF in E. injection E as ->. exists els. split; [reflexivity|].
      assert (FE : flp_at pg k = els) by (unfold flp_at; rewrite (nth_error_nth _ _ _ NF); reflexivity). split; [exact FE|]. rewrite FE in Q1, Q2, Q3. intros s1 L1. apply fill_elements_spec; auto. lia. }
    assert (SB : forall els i, flp_at pg k = els -> is_source (type_of g (Z.of_nat k)) = true -> (length (layer_block G k) <= i)%nat -> share els (powers_now (qs k)) i = 0%Q).
    { intros els i <- S I. destruct (rd_queues _ _ _ _ _ R k K S) as (_ & _ & _ & Q3). apply share_beyond. lia. }
    unfold nu_update_layer, advanced, heat_in. fold g. rewrite SXY.
    assert (FIN : forall x', length x' = length x -> (forall i, (i < length x)%nat -> (nth i x' 0 == nth i x 0 + others k i)%Q) ->
       (is_source (type_of g (Z.of_nat k)) = false -> exists f' s', Ok (TDICE_SUCCESS, f, x' ++ y) = Ok (TDICE_SUCCESS, f', s') /\ length s' = length (x ++ y) /\
        (forall i, (i < length (layer_block G k))%nat -> (nth i s' 0 == (if is_source (type_of g (Z.of_nat k)) then share (flp_at pg k) (powers_now (qs k)) i else 0) + from_air g d (grid_cell hs G k i) + from_board g d (grid_cell hs G k i) + from_inlet g d k i)%Q) /\
        (forall i, (length (layer_block G k) <= i)%nat -> (nth i s' 0 == 0)%Q) /\ f' = f) /\
       (is_source (type_of g (Z.of_nat k)) = true -> exists f' s', match f with None => UB | Some els => do r <- nu_fill_elements els (x' ++ y) ; let '(e, els', s') := r in Ok (e, Some els', s') end = Ok (TDICE_SUCCESS, f', s') /\ length s' = length (x ++ y) /\
        (forall i, (i < length (layer_block G k))%nat -> (nth i s' 0 == (if is_source (type_of g (Z.of_nat k)) then share (flp_at pg k) (powers_now (qs k)) i else 0) + from_air g d (grid_cell hs G k i) + from_board g d (grid_cell hs G k i) + from_inlet g d k i)%Q) /\
        (forall i, (length (layer_block G k) <= i)%nat -> (nth i s' 0 == 0)%Q) /\
        exists els els', f = Some els /\ f' = Some els' /\ queued els' (map (@tl Q) (qs k)) /\ map so_dx els' = map so_dx els /\ map so_dy els' = map so_dy els)).
    { intros x' LX' NX. assert (IN : forall i, (i < length (layer_block G k))%nat -> (nth i (x' ++ y) 0 == others k i)%Q) by (intros i I; rewrite app_nth1 by lia; rewrite NX, ZX by lia; ring).
      assert (OUT : forall i, (length (layer_block G k) <= i)%nat -> (nth i (x' ++ y) 0 == 0)%Q) by (intros i I; rewrite app_nth2 by lia; apply ZY).
      split; intros S; rewrite S.
      - exists f, (x' ++ y). split; [reflexivity|]. split; [rewrite !app_length; lia|]. split; [|split; [exact OUT|reflexivity]]. intros i I. rewrite IN by exact I. unfold others. ring.
      - destruct (SRC S) as (els & -> & FE & NX'). destruct (NX' (x' ++ y)) as (els' & s' & E & L & N & QQ); [rewrite SXY, !app_length; lia|]. rewrite E. cbn [bind].
        exists (Some els'), s'. split; [reflexivity|]. split; [rewrite L, !app_length; lia|]. split; [|split].
        + intros i I. rewrite N, IN by exact I. rewrite FE. unfold others. ring.
        + intros i I. rewrite N, OUT by exact I. rewrite (SB els i FE S I). ring.
        + exists els, els'. auto. }
    assert (NOP : to_ambient (type_of g (Z.of_nat k)) = false -> to_pcb (type_of g (Z.of_nat k)) = false -> coolant_type (type_of g (Z.of_nat k)) = false -> forall i, (i < length x)%nat -> (nth i x 0 == nth i x 0 + others k i)%Q).
    { intros A B CC i I. unfold others. rewrite (air_not k i A), (board_not k i B), (inlet_not k i CC). ring. }
    assert (TOPP : to_ambient (type_of g (Z.of_nat k)) = true -> exists kk x', tg_top g = Some kk /\ add_ambient (length (number hs k (skipn k G))) (top_ambient kk) (np_top_tcs pg) (x ++ y) = Ok (x' ++ y) /\ length x' = length x /\ forall i, (i < length x)%nat -> (nth i x' 0 == nth i x 0 + others k i)%Q).
    { intros T. destruct (top_part k x y K T ltac:(rewrite <- SXY; exact LS) LX) as (kk & x' & TT & _ & E & L & N). exists kk, x'. repeat split; auto. intros i I. rewrite N by exact I. unfold others. rewrite (board_not k i), (inlet_not k i) by (destruct (type_of g (Z.of_nat k)); try discriminate; reflexivity). ring. }
    assert (BOTP : to_pcb (type_of g (Z.of_nat k)) = true -> exists kk x', tg_bottom g = Some kk /\ add_ambient (run_of (Z.of_nat k) (number hs k (skipn k G))) (bs_ambient kk) (np_bottom_tcs pg) (x ++ y) = Ok (x' ++ y) /\ length x' = length x /\ forall i, (i < length x)%nat -> (nth i x' 0 == nth i x 0 + others k i)%Q).
    { intros T. destruct (bottom_part k x y K T LX) as (kk & x' & TT & E & L & N). exists kk, x'. repeat split; auto. intros i I. rewrite N by exact I. unfold others. rewrite (air_not k i), (inlet_not k i) by (destruct (type_of g (Z.of_nat k)); try discriminate; reflexivity). ring. }
    assert (INLP : coolant_type (type_of g (Z.of_nat k)) = true -> exists ch x', tg_channel g = Some ch /\ set_inlets ch d (Z.of_nat k) (zrange 0 (last_column d)) (x ++ y) = Ok (x' ++ y) /\ length x' = length x /\ forall i, (i < length x)%nat -> (nth i x' 0 == nth i x 0 + others k i)%Q).
    { intros T. destruct (inlet_part k x y K T LX ZX) as (kk & x' & TT & E & L & N). exists kk, x'. repeat split; auto. intros i I. rewrite N by exact I. unfold others. rewrite (air_not k i), (board_not k i) by (destruct (type_of g (Z.of_nat k)); try discriminate; reflexivity). ring. }
    assert (KN : type_of g (Z.of_nat k) <> LT_NONE). { destruct (gt_shape d g GT (Z.of_nat k) ltac:(lia)) as [(S & _)|(b & j & I)]; [intros E; rewrite E in S; discriminate|]. intros E. destruct (block_type g d b j (Z.of_nat k) I) as (ch & CH & N). rewrite E in N. destruct (ch_model ch); cbn in N; repeat (destruct j as [|j]; cbn in N; try discriminate). }
    destruct (type_of g (Z.of_nat k)) eqn:TT; try congruence.
    all: try (destruct (TOPP eq_refl) as (kk & x' & T1 & E & L & N); rewrite T1, E; cbn [bind]; destruct (FIN x' L N) as (F1 & F2); first [exact (F1 eq_refl)|exact (F2 eq_refl)]).
    all: try (destruct (BOTP eq_refl) as (kk & x' & T1 & E & L & N); rewrite T1, E; cbn [bind]; destruct (FIN x' L N) as (F1 & F2); first [exact (F1 eq_refl)|exact (F2 eq_refl)]).
    all: try (destruct (INLP eq_refl) as (kk & x' & T1 & E & L & N); rewrite T1, E; cbn [bind]; destruct (FIN x' L N) as (F1 & F2); first [exact (F1 eq_refl)|exact (F2 eq_refl)]).
    all: destruct (FIN x eq_refl (NOP eq_refl eq_refl eq_refl)) as (F1 & F2); first [exact (F1 eq_refl)|exact (F2 eq_refl)].
  Qed.
End Layer.
