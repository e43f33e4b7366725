(** * C75: copies are deep, and destroying frees everything once *)
From Coq Require Import ZArith List Bool QArith Permutation Lia.
From Verif Require Import Base Queue QueueProofs Own OwnSpec OwnProofs OwnKinds OwnHist.
Import ListNotations.
Local Open Scope Z_scope.

(** ** Every type: init, destroy and copy *)
Section Managed.
Variable pick : heap -> addr.
Variable junk : Z.
Hypothesis FRESH : allocator pick.
(** string_copy: string_destroy and then this. *)
Definition string_assign (_ src : addr) : M addr := if src =? 0 then ret 0 else t <~ load_text src ;; malloc pick (BText t).
Lemma kind_text : kind owns_text TNull 0 string_destroy string_assign (string_copy pick).
Proof.
  constructor.
  - exact text_blank.
  - intros v c L H. eapply hoare_post; [|eapply text_destroy, H]. intros x L' [-> ->]. split; [reflexivity|exact text_blank].
  - intros d s c L _ S. pose proof (text_copy pick FRESH s c L S) as H. unfold string_copy, string_destroy in H. cbn [Z.eqb] in H. exact H.
  - exact text_empty.
  - intros d s. unfold string_copy, string_destroy. destruct (d =? 0); reflexivity.
Qed.
Theorem C75_string : managed owns_text TNull 0 string_destroy string_assign (string_copy pick).
Proof. exact (kind_managed _ _ _ _ _ _ _ kind_text). Qed.
Theorem C75_material : managed owns_material blank_material material_init material_destroy (material_assign pick) (material_copy pick).
Proof. exact (kind_managed _ _ _ _ _ _ _ (kind_material pick FRESH)). Qed.
Theorem C75_ic_element : managed owns_ic blank_ic ic_init ic_destroy (ic_assign pick) (ic_copy pick).
Proof. exact (kind_managed _ _ _ _ _ _ _ (kind_ic pick FRESH)). Qed.
Theorem C75_material_element : managed owns_mel blank_mel mel_init mel_destroy (mel_assign pick) (mel_copy pick).
Proof. exact (kind_managed _ _ _ _ _ _ _ (kind_mel pick FRESH)). Qed.
Theorem C75_layer : managed owns_layer blank_layer layer_init layer_destroy (layer_assign pick) (layer_copy pick) /\
  clones BLayer owns_layer (layer_clone pick) /\ frees BLayer owns_layer layer_free.
Proof.
  split; [exact (kind_managed _ _ _ _ _ _ _ (kind_layer pick FRESH))|]. split.
  - intros p c L R h O I. destruct (layer_clones pick FRESH p c L O h R I) as (h' & a & L' & E & (Lx & Ox & P) & I'). exists h', a, Lx. split; [exact E|]. split; [exact Ox|].
    eapply in_use_perm; [|exact I']. rewrite P, <- app_assoc. reflexivity.
  - intros p c L R h O I. destruct (layer_frees pick FRESH p c L O h R I) as (h' & [] & L' & E & (-> & _) & I'). exists h'. auto.
Qed.
Theorem C75_floorplan_element : managed owns_fel blank_fel fel_init fel_destroy (fel_assign pick) (fel_copy pick).
Proof. exact (kind_managed _ _ _ _ _ _ _ (kind_fel pick FRESH)). Qed.
Theorem C75_floorplan_matrix : managed owns_fm TNull fm_init fm_destroy (fm_assign pick) (fm_copy pick).
Proof. exact (kind_managed _ _ _ _ _ _ _ (kind_fm pick FRESH)). Qed.
Theorem C75_floorplan : managed owns_flp blank_flp flp_init flp_destroy (flp_assign pick) (flp_copy pick).
Proof. exact (kind_managed _ _ _ _ _ _ _ (kind_flp pick FRESH)). Qed.
Theorem C75_die : managed owns_die blank_die die_init die_destroy (die_assign pick) (die_copy pick) /\
  clones BDie owns_die (die_clone pick) /\ frees BDie owns_die die_free.
Proof.
  split; [exact (kind_managed _ _ _ _ _ _ _ (kind_die pick FRESH))|]. split.
  - intros p c L R h O I. destruct (die_clones pick FRESH p c L O h R I) as (h' & a & L' & E & (Lx & Ox & P) & I'). exists h', a, Lx. split; [exact E|]. split; [exact Ox|].
    eapply in_use_perm; [|exact I']. rewrite P, <- app_assoc. reflexivity.
  - intros p c L R h O I. destruct (die_frees pick FRESH p c L O h R I) as (h' & [] & L' & E & (-> & _) & I'). exists h'. auto.
Qed.
(** All but PluggableHeatsinkInit, see below. *)
Theorem C75_heat_sink_partial : managed owns_sink blank_sink (sink_init junk) sink_destroy (sink_assign pick) (sink_copy pick) /\
  clones BSink owns_sink (sink_clone pick junk) /\ frees BSink owns_sink sink_free.
Proof.
  split; [exact (kind_managed _ _ _ _ _ _ _ (kind_sink pick junk FRESH))|]. split.
  - intros p c L R h O I. destruct (sink_clones pick junk FRESH p c L O h R I) as (h' & a & L' & E & (Lx & Ox & P) & I'). exists h', a, Lx. split; [exact E|]. split; [exact Ox|].
    eapply in_use_perm; [|exact I']. rewrite P, <- app_assoc. reflexivity.
  - intros p c L R h O I. destruct (sink_frees pick junk FRESH p c L O h R I) as (h' & [] & L' & E & (-> & _) & I'). exists h'. auto.
Qed.
Theorem C75_channel : managed owns_chan blank_chan chan_init chan_destroy (chan_assign pick) (chan_copy pick).
Proof. exact (kind_managed _ _ _ _ _ _ _ (kind_chan pick FRESH)). Qed.
Theorem C75_cell : managed owns_cell blank_cell cell_init cell_destroy (cell_assign pick) (cell_copy pick).
Proof. exact (kind_managed _ _ _ _ _ _ _ (kind_cell pick FRESH)). Qed.
Theorem C75_connection : managed owns_conn blank_conn conn_init conn_destroy conn_assign conn_copy.
Proof. exact (kind_managed _ _ _ _ _ _ _ kind_conn). Qed.
(** Dimensions without the table of cells, that is before a non-uniform grid is built. *)
Theorem C75_dimensions_partial : managed owns_dim blank_dim dim_init dim_destroy (dim_assign pick) (dim_copy pick).
Proof. exact (kind_managed _ _ _ _ _ _ _ (kind_dim pick FRESH)). Qed.
Theorem C75_stack_element : managed owns_se blank_se se_init se_destroy (se_assign pick junk) (se_copy pick junk).
Proof. exact (kind_managed _ _ _ _ _ _ _ (kind_se pick junk FRESH)). Qed.
Theorem C75_inspection_point : managed owns_ip blank_ip ip_init ip_destroy (ip_assign pick) (ip_copy pick).
Proof. exact (kind_managed _ _ _ _ _ _ _ (kind_ip pick FRESH)). Qed.
Theorem C75_output : managed owns_out blank_out out_init out_destroy (out_assign pick) (out_copy pick).
Proof. exact (kind_managed _ _ _ _ _ _ _ (kind_out pick FRESH)). Qed.
(** The whole description, also of a non-uniform grid that has been built. *)
Theorem C75_stack_description : destroys owns_sd blank_sd sd_destroy.
Proof. intros v c L R h O I. destruct (sd_gone pick junk FRESH v c L O h R I) as (h' & x & L' & E & (-> & B) & I'). exists h', x. auto. Qed.

(** ** Every history of calls *)
Theorem C75_histories :
  safe_histories pick BMaterialNode prj_material owns_material blank_material material_init material_destroy (material_assign pick) (material_copy pick) /\
  safe_histories pick BIcNode prj_ic owns_ic blank_ic ic_init ic_destroy (ic_assign pick) (ic_copy pick) /\
  safe_histories pick BMelNode prj_mel owns_mel blank_mel mel_init mel_destroy (mel_assign pick) (mel_copy pick) /\
  safe_histories pick BLayerNode prj_layer owns_layer blank_layer layer_init layer_destroy (layer_assign pick) (layer_copy pick) /\
  safe_histories pick BFelNode prj_fel owns_fel blank_fel fel_init fel_destroy (fel_assign pick) (fel_copy pick) /\
  safe_histories pick BDieNode prj_die owns_die blank_die die_init die_destroy (die_assign pick) (die_copy pick) /\
  safe_histories pick BSeNode prj_se owns_se blank_se se_init se_destroy (se_assign pick junk) (se_copy pick junk) /\
  safe_histories pick BIpNode prj_ip owns_ip blank_ip ip_init ip_destroy (ip_assign pick) (ip_copy pick) /\
  safe_histories pick BCellNode prj_cell owns_cell blank_cell cell_init cell_destroy (cell_assign pick) (cell_copy pick) /\
  safe_histories pick BConnNode prj_conn owns_conn blank_conn conn_init conn_destroy conn_assign conn_copy.
Proof.
  repeat match goal with |- _ /\ _ => split end; apply kind_histories; try exact FRESH; try reflexivity.
  - exact (kind_material pick FRESH).
  - exact (kind_ic pick FRESH).
  - exact (kind_mel pick FRESH).
  - exact (kind_layer pick FRESH).
  - exact (kind_fel pick FRESH).
  - exact (kind_die pick FRESH).
  - exact (kind_se pick junk FRESH).
  - exact (kind_ip pick FRESH).
  - exact (kind_cell pick FRESH).
  - exact kind_conn.
Qed.

(** ** Where the copies are not deep *)
Lemma dim_split : forall P z c L, owns_dim_with P z c L -> exists Lh Lp Lc Ln ch cp cc cn,
  owns_nums (kv_heights (zv_cell z)) (kv_n (zv_cell z)) ch Lh /\ P (zv_pointer z) cp Lp /\ owns_list BCellNode owns_cell (zv_cells z) cc Lc /\
  owns_list BConnNode owns_conn (zv_conns z) cn Ln /\ L = Lh ++ Lp ++ Lc ++ Ln.
Proof.
  intros P z c L H. unfold owns_dim_with in H. open H. do 8 eexists. repeat (split; [eassumption|]). rewrite app_nil_r. reflexivity.
Qed.
Lemma gets_none : forall h L p, in_use h L -> ~ In p (map fst L) -> get h p = None.
Proof.
  intros h L p [_ P] N. destruct (get h p) as [b|] eqn:E; [|reflexivity]. destruct N. apply del_perm in E. apply (Permutation_map fst) in E, P.
  eapply Permutation_in; [exact P|]. eapply Permutation_in; [symmetry; exact E|]. left. reflexivity.
Qed.
(** The copy of dimensions with a table of cells has the same table; destroying
    both is undefined. *)
Theorem C75_dimensions_refuted : forall z c L R h, owns_dim_built z c L -> in_use h (L ++ R) ->
  exists h1 x h2 y, dim_copy pick dim_init z h = Ok (h1, x) /\ zv_pointer x = zv_pointer z /\ dim_destroy x h1 = Ok (h2, y) /\ dim_destroy z h2 = UB.
Proof.
  intros z c L R h O I. destruct (dim_split _ _ _ _ O) as (Lh & Lp & Lc & Ln & ch & cp & cc & cn & Oh & (lt & NP & -> & ->) & Oc & On & ->). set (t := (zv_pointer z, BPointers lt)) in *.
  assert (C : hoare (Lh ++ [t] ++ Lc ++ Ln) (dim_copy pick dim_init z)
    (fun x L' => zv_pointer x = zv_pointer z /\ exists Lx ch' c', owns_nums (kv_heights (zv_cell x)) (kv_n (zv_cell x)) ch' Lx /\
       exists Lc' Ln', owns_list BCellNode owns_cell (zv_cells x) c' Lc' /\ owns_list BConnNode owns_conn (zv_conns x) cn Ln' /\
       Permutation L' (Lx ++ [t] ++ Lc' ++ Ln' ++ Lh ++ Lc ++ Ln))).
  { unfold dim_copy. eapply (seq_gone _ _ _ _ _ [] (Lh ++ [t] ++ Lc ++ Ln)); [reflexivity|eapply (dim_gone pick FRESH), dim_blank|]. intros d D. unfold owns_dim, owns_dim_with in D. apply struct_blank in D. cbn [blanks] in D. splits.
    assert (HD : kv_heights (zv_cell d) = 0) by (match goal with H : owns_nums (kv_heights (zv_cell d)) _ _ _ |- _ => destruct H as [(H & _)|(l & _ & _ & E & _)]; [exact H|discriminate] end).
    unfold dim_assign. eapply (seq_made _ _ _ _ _ Lh ([t] ++ Lc ++ Ln)); [reflexivity|eapply (cdim_new pick FRESH); eassumption|]. intros k Lk (a & -> & Oa).
    eapply (seq_made _ _ _ _ _ Lc (Lk ++ Lh ++ [t] ++ Ln)); [perm|eapply (cell_list_new pick FRESH); eassumption|]. intros l Ll Ol.
    eapply (seq_made _ _ _ _ _ Ln (Ll ++ Lc ++ Lk ++ Lh ++ [t])); [perm|eapply (conn_list_new pick FRESH); eassumption|]. intros n Lnn Onn.
    apply hoare_ret. cbn [zv_pointer zv_cell zv_cells zv_conns kv_heights kv_n]. split; [reflexivity|]. exists Lk, ch, cc. split; [exact Oa|]. exists Ll, Lnn. split; [exact Ol|]. split; [exact Onn|]. perm. }
  destruct (C h R I) as (h1 & x & L' & E1 & (PX & Lx & ch' & c' & Ox & Lc' & Ln' & Oc' & On' & P1) & I1).
  assert (D : hoare (Lx ++ [t] ++ Lc' ++ Ln') (dim_destroy x) (gone (fun _ => True))).
  { unfold dim_destroy, cdim_destroy. apply hoare_assoc. eapply array_free; [exact Ox|apply pull_here|]. apply seq_ret. rewrite PX. eapply seq_free; [exact NP|apply pull_here|].
    eapply seq_gone; [apply pull_here|eapply (cell_list_gone pick FRESH); exact Oc'|]. intros _ _. eapply seq_gone; [apply pull_end|eapply (conn_list_gone pick FRESH); exact On'|]. intros _ _.
    apply hoare_ret. split; auto. }
  destruct (D h1 ((Lh ++ Lc ++ Ln) ++ R)) as (h2 & y & L2 & E2 & (-> & _) & I2).
  { eapply in_use_perm; [|exact I1]. rewrite P1. perm. }
  exists h1, x, h2, y. split; [exact E1|]. split; [exact PX|]. split; [exact E2|]. cbn [app] in I2.
  assert (F : hoare Lh (free (kv_heights (zv_cell z))) (fun _ L => L = [])).
  { apply hoare_last. eapply array_free; [exact Oh|apply pull_end|]. apply hoare_ret. reflexivity. }
  destruct (F h2 ((Lc ++ Ln) ++ R)) as (h3 & u & L3 & E3 & -> & I3). { eapply in_use_perm; [|exact I2]. perm. }
  unfold dim_destroy, cdim_destroy, bnd. rewrite E3. unfold ret at 1. unfold free. rewrite (proj2 (Z.eqb_neq _ _) NP). rewrite (gets_none h3 _ (zv_pointer z) I3); [reflexivity|].
  intros IN. destruct I as [ND PI]. apply (Permutation_map fst) in PI. apply (Permutation_NoDup PI) in ND.
  assert (ND' : NoDup (map fst ([t] ++ Lh ++ (Lc ++ Ln) ++ R))). { eapply Permutation_NoDup; [apply Permutation_map|exact ND]. perm. }
  rewrite !map_app in ND'. cbn [map app] in ND'. inversion ND' as [|? ? NI _]; subst. apply NI. rewrite !map_app in IN. apply in_or_app. right. exact IN.
Qed.
(** PluggableHeatsinkInit is not copied. *)
Theorem C75_heat_sink_refuted : forall s c L R h, owns_sink s c L -> in_use h (L ++ R) -> hv_code_init s <> junk ->
  exists h' x, sink_copy pick (sink_init junk) s h = Ok (h', x) /\ hv_code_init x <> hv_code_init s.
Proof.
  intros s c L R h O I N. pose proof O as O'. destruct (proj1 C75_heat_sink_partial) as (B & _ & CP & _).
  assert (W : hoare L (sink_copy pick (sink_init junk) s) (fun x _ => hv_code_init x = junk)).
  { open O. unfold sink_copy. unfold sink_destroy, sink_init, sink_init_of. cbn [hv_material hv_plugin hv_args hv_code_init].
    unfold material_destroy, string_destroy, material_init. cbn [mv_id Z.eqb]. apply hoare_assoc, hoare_assoc, seq_ret, seq_ret, hoare_assoc, seq_ret, hoare_assoc, seq_ret, seq_ret.
    unfold sink_assign. cbn [hv_material hv_plugin hv_args hv_code_init]. eapply seq_made; cycle 1; [eapply (material_new pick FRESH); [exact (blank_material_null pick FRESH)|eassumption]|intros ? ? ?|pull].
    eapply seq_made; cycle 1; [eapply (text_new pick FRESH); [exact text_blank|eassumption]|intros ? ? ?|pull].
    eapply seq_made; cycle 1; [eapply (text_new pick FRESH); [exact text_blank|eassumption]|intros ? ? ?|pull]. apply hoare_ret. reflexivity. }
  destruct (W h R I) as (h' & x & _ & E & J & _). exists h', x. split; [exact E|]. congruence.
Qed.
(** A matrix without coefficients: the copy has no matrix at all. *)
Theorem C75_empty_matrix : forall x h, xv_nnz x = 0 -> fm_copy pick fm_init x h = Ok (h, fm_init).
Proof. intros x h E. unfold fm_copy, fm_destroy, fm_assign. cbn. rewrite E, !orb_true_r. reflexivity. Qed.
End Managed.

(** ** The hypotheses can be met *)
Definition next (h : heap) : addr := 1 + fold_right (fun x m => Z.max (fst x) m) 0 h.
Theorem C75_witness_allocator : allocator next.
Proof.
  intros h. unfold next. assert (W : 0 <= fold_right (fun x m => Z.max (fst x) m) 0 h) by (induction h as [|[x b] h IH]; cbn in *; lia). split; [lia|].
  assert (G : forall n, fold_right (fun x m => Z.max (fst x) m) 0 h < n -> get h n = None).
  { clear W. induction h as [|[x b] h IH]; intros n H; [reflexivity|]. cbn in *. destruct (Z.eqb_spec x n); [lia|]. apply IH. lia. }
  apply G. lia.
Qed.
(** A stack element with a layer of silicon of its own. *)
Definition w_layer : layer_v := mkLayerV 3 0 (1 # 10) (mkMatV 4 2 3 3 3) list_init 0 0.
Definition w_element : se_v := mkSeV 1 SeLayer 2 0 0 1 0.
Definition w_heap : heap := [(1, BText [97]); (2, BLayer w_layer); (3, BText [98]); (4, BText [99; 100])].
Theorem C75_witness : exists c, owns_se w_element c w_heap /\ in_use w_heap (w_heap ++ []) /\
  exists h1 x, se_copy next 7 se_init w_element w_heap = Ok (h1, x) /\ length h1 = 8%nat /\ exists h2 y, se_destroy x h1 = Ok (h2, y) /\ in_use h2 w_heap.
Proof.
  eexists. assert (O : owns_se w_element
    (TRec [TText [97]; TInt 1; TRec [TText [98]; TNull; TNum (1 # 10); TRec [TText [99; 100]; TNum 2; TNum 3; TNum 3; TNum 3]; TRec []; TInt 0; TInt 0]; TNull; TNull; TInt 1; TInt 0]) w_heap).
  { eexists. split; [reflexivity|]. apply (fields_intro _ _ _ _ [_]); [right; exists [97]; split; [discriminate|]; split; reflexivity|].
    apply (fields_intro _ _ _ _ []); [split; reflexivity|]. apply (fields_intro _ _ _ _ [_; _; _] []).
    - right. exists w_layer, [(3, BText [98]); (4, BText [99; 100])]. split; [discriminate|]. split; [|reflexivity]. eexists. split; [reflexivity|].
      apply (fields_intro _ _ _ _ [_]); [right; exists [98]; split; [discriminate|]; split; reflexivity|].
      apply (fields_intro _ _ _ _ []); [left; auto|]. apply (fields_intro _ _ _ _ []); [split; reflexivity|].
      apply (fields_intro _ _ _ _ [_] []).
      + eexists. split; [reflexivity|]. apply (fields_intro _ _ _ _ [_] []); [right; exists [99; 100]; split; [discriminate|]; split; reflexivity|].
        do 4 (apply (fields_intro _ _ _ _ [] []); [split; reflexivity|]). reflexivity.
      + apply (fields_intro _ _ _ _ [] []); [apply list_blank|]. do 2 (apply (fields_intro _ _ _ _ [] []); [split; reflexivity|]). reflexivity.
    - do 2 (apply (fields_intro _ _ _ _ [] []); [left; auto|]). do 2 (apply (fields_intro _ _ _ _ [] []); [split; reflexivity|]). reflexivity. }
  assert (U : in_use w_heap (w_heap ++ [])).
  { split; [|rewrite app_nil_r; reflexivity]. cbn. repeat constructor; cbn; intuition discriminate. }
  split; [exact O|]. split; [exact U|].
  destruct (C75_stack_element next 7 C75_witness_allocator) as (B & D & C & _).
  destruct (C se_init w_element _ _ [] w_heap [] w_heap B O U) as (h1 & x & Lx & E & Ox & I1). exists h1, x. split; [exact E|]. split.
  - revert E. set (e := se_copy next 7 se_init w_element w_heap). vm_compute in e. subst e. intros E. injection E as <- _. reflexivity.
  - destruct (D x _ Lx (w_heap ++ []) h1 Ox I1) as (h2 & y & E2 & _ & I2). exists h2, y. rewrite app_nil_r in I2. auto.
Qed.
(** Dimensions with a table, and a heat sink whose plugin has been loaded. *)
Theorem C75_witness_built : exists z c, owns_dim_built z c [(9, BPointers [1; 2])].
Proof.
  exists (mkDimV cdim_init gdim_init (0, 0)%Q 1 0 0 9 list_init list_init). eexists. eexists. split; [reflexivity|].
  do 6 (eapply (fields_intro _ _ _ _ []); [split; reflexivity|]). eapply (fields_intro _ _ _ _ []); [left; auto|].
  do 10 (eapply (fields_intro _ _ _ _ []); [split; reflexivity|]). eapply (fields_intro _ _ _ _ [_] []); [exists [1; 2]; split; [discriminate|split; reflexivity]|].
  do 2 (eapply (fields_intro _ _ _ _ [] []); [apply list_blank|]). exact (eq_refl : fields [] [] []).
Qed.
Theorem C75_witness_sink : exists s c, owns_sink s c [] /\ hv_code_init s = 5.
Proof. exists (sink_init_of 5), blank_sink. split; [apply (sink_blank next C75_witness_allocator)|reflexivity]. Qed.
(** A list merged with itself loses its nodes: the second argument, the same
    variable, is initialised while they are in memory. *)
Definition w_mnode (n : lnode mat_v) : block := BMaterialNode n.
Definition w_mread (b : block) : option (lnode mat_v) := match b with BMaterialNode n => Some n | _ => None end.
Theorem C75_self_merge_refuted : exists h l L, owns_list w_mnode owns_material l (TRec [TRec [TNull; TNum 2; TNum 3; TNum 3; TNum 3]]) L /\ in_use h L /\
  exists h' x, list_merge w_mnode w_mread l l h = Ok (h', x) /\ snd x = list_init /\ length h' = 1%nat.
Proof.
  exists [(5, BMaterialNode (mkLnode (mkMatV 0 2 3 3 3) 0 0))], (mkLst 1 5 5), [(5, BMaterialNode (mkLnode (mkMatV 0 2 3 3 3) 0 0))]. split; [|split].
  - eexists. split; [reflexivity|]. split; [reflexivity|]. exists (mkMatV 0 2 3 3 3), 0, [], []. split; [discriminate|]. split; [|split; [reflexivity|cbn; auto]].
    eexists. split; [reflexivity|]. apply (fields_intro _ _ _ _ [] []); [left; auto|]. do 4 (apply (fields_intro _ _ _ _ [] []); [split; reflexivity|]). reflexivity.
  - split; [|reflexivity]. cbn. repeat constructor; cbn; intuition discriminate.
  - eexists. eexists. split; [vm_compute; reflexivity|]. split; reflexivity.
Qed.
