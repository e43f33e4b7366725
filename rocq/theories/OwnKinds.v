(** * Every type of structure is managed *)
From Coq Require Import ZArith List Bool QArith Permutation Lia.
From Verif Require Import Base Queue QueueProofs Own OwnSpec OwnProofs.
Import ListNotations.
Local Open Scope Z_scope.

Lemma fields_cons : forall p ps cs L, fields (p :: ps) cs L -> exists c cs' L1 L2, cs = c :: cs' /\ L = L1 ++ L2 /\ p c L1 /\ fields ps cs' L2.
Proof. intros p ps [|c cs] L H; [destruct H|]. destruct H as (L1 & L2 & -> & O & H). eauto 10. Qed.
Lemma fields_nil : forall cs L, fields [] cs L -> cs = [] /\ L = [].
Proof. intros [|c cs] L H; [auto|destruct H]. Qed.
Lemma fields_intro : forall (p : holds) ps c cs L1 L2, p c L1 -> fields ps cs L2 -> fields (p :: ps) (c :: cs) (L1 ++ L2).
Proof. intros p ps c cs L1 L2 H1 H2. exists L1, L2. auto. Qed.
Ltac open_cs cs H :=
  lazymatch type of H with
  | fields [] _ _ => apply fields_nil in H; destruct H as [-> ->]
  | fields (_ :: _) _ _ =>
    let O := fresh "O" in
    apply fields_cons in H; destruct H as (? & ? & ? & ? & -> & -> & O & H);
    try (lazymatch type of O with num _ _ _ => destruct O as [-> ->] | int _ _ _ => destruct O as [-> ->] end); open_cs cs H
  end.
Ltac open H := let cs := fresh "cs" in destruct H as (cs & -> & H); open_cs cs H.
Ltac leaf := first [match goal with H : _ |- _ => exact H end | split; reflexivity].
Ltac build_fields := lazymatch goal with |- fields [] _ _ => exact (eq_refl (@nil (addr * block))) | |- _ => eapply fields_intro; [leaf|build_fields] end.
Ltac build := eexists; split; [reflexivity|build_fields].
Ltac splits := repeat match goal with H : _ /\ _ |- _ => destruct H end.
Ltac blank_of D := apply struct_blank in D; cbn [blanks] in D; splits.
Ltac made_by lem := eapply seq_made; cycle 1; [eapply lem; eassumption | intros ? ? ? | pull].
Ltac gone_by lem := eapply seq_gone; cycle 1; [eapply lem; eassumption | intros ? ? | pull].
Ltac finish_made := apply hoare_ret; eexists; split; [build|perm].
Ltac empty1 := first [eapply num_empty; eassumption | eapply int_empty; eassumption | eapply text_empty; eassumption | eassumption | eauto].
Ltac empties_by := cbn [empties]; repeat match goal with |- _ /\ _ => split | |- True => exact I end; intros ? ?; try empty1.
Ltac pull_perm := first [pull | perm].

Section Kinds.
Variable pick : heap -> addr.
Variable junk : Z.
Hypothesis FRESH : allocator pick.
Notation n0 := (TNum 0). Notation i0 := (TInt 0).

Definition blank_material : tree := TRec [TNull; n0; n0; n0; n0].
Lemma kind_material : kind owns_material blank_material material_init material_destroy (material_assign pick) (material_copy pick).
Proof.
  constructor.
  - apply blank_struct. cbn. repeat split. left. auto.
  - intros v c L H. open H. unfold material_destroy. gone_by text_destroy. apply hoare_ret. split; [reflexivity|]. apply blank_struct. cbn. repeat split. left. auto.
  - intros d s c L D S. blank_of D. open S. unfold material_assign. made_by (text_new pick FRESH). finish_made.
  - intros v L H. eapply struct_empty; [|exact H]. empties_by.
  - reflexivity.
Qed.
Lemma empty_material : forall v L, owns_material v blank_material L -> L = [].
Proof. exact (k_blank _ _ _ _ _ _ kind_material). Qed.
Hint Resolve empty_material : core.
Lemma blank_material_null : owns_material material_init blank_material [].
Proof. exact (k_init _ _ _ _ _ _ kind_material). Qed.
Definition material_new := kind_new _ _ _ _ _ _ _ kind_material.
Definition material_gone := k_destroy _ _ _ _ _ _ kind_material.

Definition blank_ic : tree := TRec [n0; n0; n0; n0; n0; n0; i0; i0; i0; i0; i0; i0; blank_material].
Lemma ic_blank : owns_ic ic_init blank_ic [].
Proof. apply blank_struct. cbn [blanks]. repeat (split; [split; reflexivity|]). split; [exact blank_material_null|exact I]. Qed.
Lemma kind_ic : kind owns_ic blank_ic ic_init ic_destroy (ic_assign pick) (ic_copy pick).
Proof.
  constructor.
  - exact ic_blank.
  - intros v c L H. open H. unfold ic_destroy. gone_by material_gone. apply hoare_ret. split; [reflexivity|]. exact ic_blank.
  - intros d s c L D S. blank_of D. open S. unfold ic_assign. made_by material_new. finish_made.
  - intros v L H. eapply struct_empty; [|exact H]. empties_by.
  - reflexivity.
Qed.

Notation blank_list := (TRec []).
Lemma kind_ic_list : kind (owns_list BIcNode owns_ic) blank_list list_init ic_list_destroy (list_assign pick BIcNode prj_ic ic_init (ic_copy pick)) (ic_list_copy pick).
Proof. exact (kind_list pick FRESH BIcNode prj_ic owns_ic blank_ic ic_init ic_destroy (ic_assign pick) (ic_copy pick) (fun n => eq_refl) kind_ic). Qed.
Lemma empty_list : forall V (inj : lnode V -> block) owns l L, owns_list inj owns l blank_list L -> L = [].
Proof. intros V inj owns l L (cs & E & _ & C). injection E as <-. apply C. Qed.
Lemma list_blank : forall V (inj : lnode V -> block) owns, owns_list inj owns list_init blank_list [].
Proof. intros V inj owns. exists []. cbn. auto. Qed.
Hint Resolve empty_list list_blank : core.
Definition ic_list_new := kind_new _ _ _ _ _ _ _ kind_ic_list.
Definition ic_list_gone := k_destroy _ _ _ _ _ _ kind_ic_list.
Ltac blank_by := apply blank_struct; cbn [blanks]; repeat match goal with |- _ /\ _ => split | |- True => exact I end;
  first [split; reflexivity | exact text_blank | exact blank_material_null | apply list_blank | idtac].

Definition blank_mel : tree := TRec [blank_material; i0; blank_list].
Lemma mel_blank : owns_mel mel_init blank_mel [].
Proof. blank_by. Qed.
Lemma kind_mel : kind owns_mel blank_mel mel_init mel_destroy (mel_assign pick) (mel_copy pick).
Proof.
  constructor.
  - exact mel_blank.
  - intros v c L H. open H. unfold mel_destroy. gone_by material_gone. gone_by ic_list_gone. apply hoare_ret. split; [reflexivity|]. exact mel_blank.
  - intros d s c L D S. blank_of D. open S. unfold mel_assign. made_by material_new. made_by ic_list_new. finish_made.
  - intros v L H. eapply struct_empty; [|exact H]. empties_by.
  - reflexivity.
Qed.
Lemma kind_mel_list : kind (owns_list BMelNode owns_mel) blank_list list_init mel_list_destroy (list_assign pick BMelNode prj_mel mel_init (mel_copy pick)) (mel_list_copy pick).
Proof. exact (kind_list pick FRESH BMelNode prj_mel owns_mel blank_mel mel_init mel_destroy (mel_assign pick) (mel_copy pick) (fun n => eq_refl) kind_mel). Qed.
Definition mel_list_new := kind_new _ _ _ _ _ _ _ kind_mel_list.
Definition mel_list_gone := k_destroy _ _ _ _ _ _ kind_mel_list.

Definition blank_layer : tree := TRec [TNull; TNull; n0; blank_material; blank_list; i0; i0].
Lemma layer_blank : owns_layer layer_init blank_layer [].
Proof. blank_by. Qed.
Lemma kind_layer : kind owns_layer blank_layer layer_init layer_destroy (layer_assign pick) (layer_copy pick).
Proof.
  constructor.
  - exact layer_blank.
  - intros v c L H. open H. unfold layer_destroy. gone_by text_destroy. gone_by text_destroy. gone_by material_gone. gone_by mel_list_gone. apply hoare_ret. split; [reflexivity|]. exact layer_blank.
  - intros d s c L D S. blank_of D. open S. unfold layer_assign. made_by (text_new pick FRESH). made_by (text_new pick FRESH). made_by material_new. made_by mel_list_new. finish_made.
  - intros v L H. eapply struct_empty; [|exact H]. empties_by.
  - reflexivity.
Qed.
Lemma kind_layer_list : kind (owns_list BLayerNode owns_layer) blank_list list_init layer_list_destroy (list_assign pick BLayerNode prj_layer layer_init (layer_copy pick)) (layer_list_copy pick).
Proof. exact (kind_list pick FRESH BLayerNode prj_layer owns_layer blank_layer layer_init layer_destroy (layer_assign pick) (layer_copy pick) (fun n => eq_refl) kind_layer). Qed.
Definition layer_list_new := kind_new _ _ _ _ _ _ _ kind_layer_list.
Definition layer_list_gone := k_destroy _ _ _ _ _ _ kind_layer_list.
Definition layer_clones := box_clones pick FRESH BLayer box_layer owns_layer blank_layer layer_init layer_destroy (layer_assign pick) (layer_copy pick) (fun n => eq_refl) kind_layer.
Definition layer_frees := box_frees BLayer box_layer owns_layer blank_layer layer_init layer_destroy (layer_assign pick) (layer_copy pick) (fun n => eq_refl) kind_layer.

(** ** Queues *)
Lemma queue_new : forall p c L, owns_queue p c L -> hoare L (queue_clone pick p) (made (fun x => owns_queue x c) L).
Proof.
  intros p c L [(-> & -> & ->)|(q & m & l & N & NM & R & -> & ->)]; unfold queue_clone.
  - apply hoare_ret. exists []. split; [left; auto|reflexivity].
  - rewrite (proj2 (Z.eqb_neq _ _) N). apply seq_malloc; [exact FRESH|]. intros a NA. unfold load_queue. apply hoare_assoc.
    apply (seq_load _ p (BQueue q) _ _ ([(a, BQueue (mkPqV 0 0 0 0 0))] ++ [(qv_mem q, BPowers m)])); [perm|].
    rewrite (proj2 (Z.eqb_neq _ _) NM). apply hoare_assoc. unfold load_powers. apply hoare_assoc.
    apply (seq_load _ (qv_mem q) (BPowers m) _ _ ([(a, BQueue (mkPqV 0 0 0 0 0))] ++ [(p, BQueue q)])); [perm|]. apply seq_ret, seq_ret.
    destruct (queue_copy_spec queue_init _ l R) as (q' & E & R'); [left; reflexivity|]. unfold Queue.queue_clone. rewrite E.
    unfold lift. change (fun h : heap => do x <- Ok q' ; Ok (h, x)) with (@ret queue q'). apply seq_ret.
    destruct (qr_mem _ _ R') as (m' & M' & _). rewrite M'. apply seq_malloc; [exact FRESH|]. intros w NW.
    apply (seq_store _ a (BQueue (mkPqV 0 0 0 0 0)) _ _ _ ([(w, BPowers m')] ++ [(p, BQueue q); (qv_mem q, BPowers m)])); [perm|]. apply hoare_ret.
    exists [(a, BQueue (mkPqV (q_cap q') w (q_size q') (q_end q') (q_start q'))); (w, BPowers m')]. split; [|perm].
    right. exists (mkPqV (q_cap q') w (q_size q') (q_end q') (q_start q')), m', l. cbn [qv_cap qv_mem qv_size qv_end qv_start].
    split; [exact NA|]. split; [exact NW|]. split; [|split; reflexivity]. rewrite <- M'. destruct q'. exact R'.
Qed.
Lemma queue_gone : forall p c L, owns_queue p c L -> hoare L (queue_free p) (gone (fun _ => True)).
Proof.
  intros p c L [(-> & -> & ->)|(q & m & l & N & NM & R & -> & ->)]; unfold queue_free.
  - apply hoare_ret. split; auto.
  - rewrite (proj2 (Z.eqb_neq _ _) N). apply (seq_load _ p (BQueue q) _ _ [(qv_mem q, BPowers m)]); [perm|].
    apply (seq_free _ (qv_mem q) (BPowers m) _ _ [(p, BQueue q)] _ NM); [perm|]. eapply hoare_post; [|apply (hoare_free p (BQueue q) N)]. intros y L2 ->. split; auto.
Qed.
Lemma queue_empty : forall a L, owns_queue a TNull L -> L = [].
Proof. intros a L [(_ & _ & ->)|(q & m & l & _ & _ & _ & E & _)]; [reflexivity|discriminate]. Qed.
Hint Resolve queue_empty : core.

Definition blank_fel : tree := TRec [TNull; i0; blank_list; n0; TNull].
Lemma fel_blank : owns_fel fel_init blank_fel [].
Proof. blank_by. left. auto. Qed.
Lemma kind_fel : kind owns_fel blank_fel fel_init fel_destroy (fel_assign pick) (fel_copy pick).
Proof.
  constructor.
  - exact fel_blank.
  - intros v c L H. open H. unfold fel_destroy. gone_by text_destroy. gone_by ic_list_gone. gone_by queue_gone. apply hoare_ret. split; [reflexivity|]. exact fel_blank.
  - intros d s c L D S. blank_of D. open S. unfold fel_assign. made_by (text_new pick FRESH). made_by ic_list_new. made_by queue_new. finish_made.
  - intros v L H. eapply struct_empty; [|exact H]. empties_by.
  - reflexivity.
Qed.
Lemma kind_fel_list : kind (owns_list BFelNode owns_fel) blank_list list_init fel_list_destroy (list_assign pick BFelNode prj_fel fel_init (fel_copy pick)) (fel_list_copy pick).
Proof. exact (kind_list pick FRESH BFelNode prj_fel owns_fel blank_fel fel_init fel_destroy (fel_assign pick) (fel_copy pick) (fun n => eq_refl) kind_fel). Qed.
Definition fel_list_new := kind_new _ _ _ _ _ _ _ kind_fel_list.
Definition fel_list_gone := k_destroy _ _ _ _ _ _ kind_fel_list.

(** ** Matrices *)
Lemma fm_blank : owns_fm fm_init TNull [].
Proof. left. auto. Qed.
Lemma kind_fm : kind owns_fm TNull fm_init fm_destroy (fm_assign pick) (fm_copy pick).
Proof.
  constructor.
  - exact fm_blank.
  - intros v c L [(-> & -> & ->)|(_ & _ & _ & H)]; unfold fm_destroy.
    + cbn. apply hoare_ret. split; [reflexivity|exact fm_blank].
    + open H. destruct O as (lc & NC & _ & -> & ->), O0 as (lr & NR & _ & -> & ->), O1 as (NV & [(_ & E & _)|(lv & NZ & _ & -> & ->)]); [congruence|].
      cbn [app]. eapply seq_free; [exact NC|apply (pull_here [_])|]. eapply seq_free; [exact NR|apply (pull_here [_])|]. eapply seq_free; [exact NZ|apply (pull_here [_])|].
      apply hoare_ret. split; [reflexivity|exact fm_blank].
  - intros d s c L D S. destruct D as [(-> & _)|(_ & _ & _ & H)]; [|destruct H as (cs & E & _); discriminate].
    destruct S as [(-> & -> & ->)|(PR & PC & PN & H)]; unfold fm_assign.
    + cbn. apply hoare_ret. exists []. split; [exact fm_blank|reflexivity].
    + rewrite (proj2 (Z.eqb_neq _ _)) by lia. rewrite (proj2 (Z.eqb_neq (xv_ncols s) 0)) by lia. rewrite (proj2 (Z.eqb_neq (xv_nnz s) 0)) by lia. cbn [orb].
      open H. destruct O as (lc & NC & EC & -> & ->), O0 as (lr & NR & ER & -> & ->), O1 as (NV & [(_ & E & _)|(lv & NZ & EV & -> & ->)]); [congruence|].
      assert (U : u32 (xv_ncols s + 1) = xv_ncols s + 1) by (unfold u32; apply Z.mod_small; unfold two32 in *; lia). rewrite U.
      apply seq_malloc; [exact FRESH|]. intros r Nr. apply seq_malloc; [exact FRESH|]. intros cc Ncc. apply seq_malloc; [exact FRESH|]. intros vv Nvv.
      set (bc := (xv_cols s, BInts lc)). set (br := (xv_rows s, BInts lr)). set (bv := (xv_vals s, BNums lv)).
      eapply (seq_ints _ (xv_cols s) lc _ cc (BInts (repeat 0 (Z.to_nat (xv_ncols s + 1)))) _ _
               ([(vv, BNums (repeat 0%Q (Z.to_nat (xv_nnz s))))] ++ [(r, BInts (repeat 0 (Z.to_nat (xv_nnz s))))] ++ [br] ++ [bv]) _ NC EC); [subst bc br bv; perm|].
      eapply (seq_ints _ (xv_rows s) lr _ r (BInts (repeat 0 (Z.to_nat (xv_nnz s)))) _ _
               ([(vv, BNums (repeat 0%Q (Z.to_nat (xv_nnz s))))] ++ [(cc, BInts lc)] ++ [bc] ++ [bv]) _ NR ER); [subst bc br bv; perm|].
      eapply (seq_nums _ (xv_vals s) lv _ vv (BNums (repeat 0%Q (Z.to_nat (xv_nnz s)))) _ _
               ([(r, BInts lr)] ++ [(cc, BInts lc)] ++ [br] ++ [bc]) _ NZ EV); [subst bc br bv; perm|].
      apply hoare_ret. exists ([(cc, BInts lc)] ++ [(r, BInts lr)] ++ [(vv, BNums lv)]). split; [|subst bc br bv; perm].
      right. cbn [xv_nrows xv_ncols xv_nnz xv_cols xv_rows xv_vals]. split; [exact PR|]. split; [exact PC|]. split; [exact PN|].
      eexists. split; [reflexivity|].
      do 3 (apply (fields_intro _ _ _ _ []); [split; reflexivity|]).
      apply (fields_intro _ _ _ _ [_]); [exists lc; auto|]. apply (fields_intro _ _ _ _ [_]); [exists lr; auto|].
      apply (fields_intro _ _ _ _ [_] []); [|reflexivity]. split; [discriminate|]. right. exists lv. auto.
  - intros v L [(_ & _ & ->)|(_ & _ & _ & H)]; [reflexivity|destruct H as (cs & E & _); discriminate].
  - reflexivity.
Qed.
Definition fm_new := kind_new _ _ _ _ _ _ _ kind_fm.
Definition fm_gone := k_destroy _ _ _ _ _ _ kind_fm.
Lemma fm_empty : forall v L, owns_fm v TNull L -> L = [].
Proof. exact (k_blank _ _ _ _ _ _ kind_fm). Qed.
Lemma nums_empty : forall a n L, owns_nums a n TNull L -> L = [].
Proof. intros a n L [(_ & _ & ->)|(l & _ & _ & E & _)]; [reflexivity|discriminate]. Qed.
Lemma nums_blank : forall n, owns_nums 0 n TNull [].
Proof. intros n. left. auto. Qed.
Hint Resolve fm_empty nums_empty : core.
(** An array allocated and filled from another. *)
Lemma nums_new : forall a n c L, a <> 0 -> owns_nums a n c L ->
  hoare L (b <~ malloc pick (BNums (repeat 0%Q (Z.to_nat n))) ;; _ <~ memcpy_nums b a n ;; ret b) (made (fun x L' => x <> 0 /\ owns_nums x n c L') L).
Proof.
  intros a n c L N [(E & _)|(l & _ & E & -> & ->)]; [contradiction|]. apply seq_malloc; [exact FRESH|]. intros x NX.
  apply (seq_nums _ a l n x (BNums (repeat 0%Q (Z.to_nat n))) _ _ [] _ N E); [perm|]. apply hoare_ret. exists [(x, BNums l)]. split; [|perm].
  split; [exact NX|]. right. exists l. auto.
Qed.
Lemma seq_nums_new : forall B a n c L (f : addr -> M B) L0 F Q, a <> 0 -> owns_nums a n c L -> Permutation L0 (L ++ F) ->
  (forall x Lx, x <> 0 -> owns_nums x n c Lx -> hoare (Lx ++ L ++ F) (f x) Q) ->
  hoare L0 (b <~ malloc pick (BNums (repeat 0%Q (Z.to_nat n))) ;; _ <~ memcpy_nums b a n ;; f b) Q.
Proof.
  intros B a n c L f L0 F Q N O P H. destruct O as [(E & _)|(l & _ & E & -> & ->)]; [contradiction|]. apply seq_malloc; [exact FRESH|]. intros x NX.
  apply (seq_nums _ a l n x (BNums (repeat 0%Q (Z.to_nat n))) _ _ F _ N E); [rewrite P; perm|]. apply H; [exact NX|]. right. exists l. auto.
Qed.

Definition blank_flp : tree := TRec [TNull; i0; blank_list; TNull; TNull].
Lemma flp_blank : owns_flp flp_init blank_flp [].
Proof. blank_by; [exact fm_blank|apply nums_blank]. Qed.
Lemma kind_flp : kind owns_flp blank_flp flp_init flp_destroy (flp_assign pick) (flp_copy pick).
Proof.
  constructor.
  - exact flp_blank.
  - intros v c L H. open H. unfold flp_destroy. gone_by text_destroy.
    eapply array_free; [eassumption|pull|]. gone_by fel_list_gone. gone_by fm_gone. apply hoare_ret. split; [reflexivity|]. exact flp_blank.
  - intros d s c L D S. blank_of D. open S. unfold flp_assign. made_by (text_new pick FRESH). made_by fel_list_new. made_by fm_new.
    destruct (Z.eqb_spec (fv_bpowers s) 0) as [E0|N].
    + match goal with H : owns_nums _ _ _ _ |- _ => destruct H as [(_ & -> & ->)|(l & N & _)]; [|congruence] end.
      match goal with |- context [mkFlpV _ _ _ _ 0] => pose proof (nums_blank (fv_n s)) end. finish_made.
    + eapply seq_nums_new; [exact N|eassumption|pull|]. intros ? ? _ ?. finish_made.
  - intros v L H. eapply struct_empty; [|exact H]. empties_by.
  - reflexivity.
Qed.
Definition flp_new := kind_new _ _ _ _ _ _ _ kind_flp.
Definition flp_gone := k_destroy _ _ _ _ _ _ kind_flp.
Lemma empty_flp : forall v L, owns_flp v blank_flp L -> L = [].
Proof. exact (k_blank _ _ _ _ _ _ kind_flp). Qed.
Hint Resolve empty_flp : core.

Definition blank_die : tree := TRec [TNull; i0; i0; blank_list; blank_flp; i0; i0].
Lemma die_blank : owns_die die_init blank_die [].
Proof. blank_by. exact flp_blank. Qed.
Lemma kind_die : kind owns_die blank_die die_init die_destroy (die_assign pick) (die_copy pick).
Proof.
  constructor.
  - exact die_blank.
  - intros v c L H. open H. unfold die_destroy. gone_by text_destroy. gone_by layer_list_gone. gone_by flp_gone. apply hoare_ret. split; [reflexivity|]. exact die_blank.
  - intros d s c L D S. blank_of D. open S. unfold die_assign. made_by (text_new pick FRESH). made_by layer_list_new. made_by flp_new. finish_made.
  - intros v L H. eapply struct_empty; [|exact H]. empties_by.
  - reflexivity.
Qed.
Definition kind_die_list := kind_list pick FRESH BDieNode prj_die owns_die blank_die die_init die_destroy (die_assign pick) (die_copy pick) (fun n => eq_refl) kind_die.
Definition die_list_gone := k_destroy _ _ _ _ _ _ kind_die_list.
Definition die_clones := box_clones pick FRESH BDie box_die owns_die blank_die die_init die_destroy (die_assign pick) (die_copy pick) (fun n => eq_refl) kind_die.
Definition die_frees := box_frees BDie box_die owns_die blank_die die_init die_destroy (die_assign pick) (die_copy pick) (fun n => eq_refl) kind_die.

Definition blank_sink : tree := TRec [i0; n0; n0; n0; n0; n0; blank_material; TNull; TNull; n0; n0; i0; i0; i0; i0; i0].
Lemma sink_blank : forall k, owns_sink (sink_init_of k) blank_sink [].
Proof. intros k. blank_by. Qed.
Lemma kind_sink : kind owns_sink blank_sink (sink_init junk) sink_destroy (sink_assign pick) (sink_copy pick).
Proof.
  constructor.
  - apply sink_blank.
  - intros v c L H. open H. unfold sink_destroy. gone_by material_gone. gone_by text_destroy. gone_by text_destroy. apply hoare_ret. split; [reflexivity|]. apply sink_blank.
  - intros d s c L D S. blank_of D. open S. unfold sink_assign. made_by material_new. made_by (text_new pick FRESH). made_by (text_new pick FRESH). finish_made.
  - intros v L H. eapply struct_empty; [|exact H]. empties_by.
  - reflexivity.
Qed.
Definition sink_clones := box_clones pick FRESH BSink box_sink owns_sink blank_sink (sink_init junk) sink_destroy (sink_assign pick) (sink_copy pick) (fun n => eq_refl) kind_sink.
Definition sink_frees := box_frees BSink box_sink owns_sink blank_sink (sink_init junk) sink_destroy (sink_assign pick) (sink_copy pick) (fun n => eq_refl) kind_sink.

Definition blank_chan : tree := TRec [i0; n0; n0; n0; n0; i0; i0; i0; n0; n0; n0; n0; n0; n0; n0; blank_material].
Lemma chan_blank : owns_chan chan_init blank_chan [].
Proof. blank_by. Qed.
Lemma kind_chan : kind owns_chan blank_chan chan_init chan_destroy (chan_assign pick) (chan_copy pick).
Proof.
  constructor.
  - exact chan_blank.
  - intros v c L H. open H. unfold chan_destroy. gone_by material_gone. apply hoare_ret. split; [reflexivity|]. exact chan_blank.
  - intros d s c L D S. blank_of D. open S. unfold chan_assign. made_by material_new. finish_made.
  - intros v L H. eapply struct_empty; [|exact H]. empties_by.
  - reflexivity.
Qed.
Definition chan_frees := box_frees BChannel box_chan owns_chan blank_chan chan_init chan_destroy (chan_assign pick) (chan_copy pick) (fun n => eq_refl) kind_chan.

Definition blank_conn : tree := TRec [i0; i0; i0; i0; i0; n0].
Lemma conn_blank : owns_conn conn_init blank_conn [].
Proof. blank_by. Qed.
Lemma kind_conn : kind owns_conn blank_conn conn_init conn_destroy conn_assign conn_copy.
Proof.
  constructor.
  - exact conn_blank.
  - intros v c L H. open H. apply hoare_ret. split; [reflexivity|]. exact conn_blank.
  - intros d s c L D S. blank_of D. open S. unfold conn_assign. finish_made.
  - intros v L H. eapply struct_empty; [|exact H]. empties_by.
  - reflexivity.
Qed.
Definition kind_conn_list := kind_list pick FRESH BConnNode prj_conn owns_conn blank_conn conn_init conn_destroy conn_assign conn_copy (fun n => eq_refl) kind_conn.
Definition conn_list_new := kind_new _ _ _ _ _ _ _ kind_conn_list.
Definition conn_list_gone := k_destroy _ _ _ _ _ _ kind_conn_list.

Definition blank_cell : tree := TRec [i0; n0; n0; n0; n0; n0; n0; i0; blank_material].
Lemma cell_blank : owns_cell cell_init blank_cell [].
Proof. blank_by. Qed.
Lemma kind_cell : kind owns_cell blank_cell cell_init cell_destroy (cell_assign pick) (cell_copy pick).
Proof.
  constructor.
  - exact cell_blank.
  - intros v c L H. open H. unfold cell_destroy. gone_by material_gone. apply hoare_ret. split; [reflexivity|]. exact cell_blank.
  - intros d s c L D S. blank_of D. open S. unfold cell_assign. made_by material_new. finish_made.
  - intros v L H. eapply struct_empty; [|exact H]. empties_by.
  - reflexivity.
Qed.
Definition kind_cell_list := kind_list pick FRESH BCellNode prj_cell owns_cell blank_cell cell_init cell_destroy (cell_assign pick) (cell_copy pick) (fun n => eq_refl) kind_cell.
Definition cell_list_new := kind_new _ _ _ _ _ _ _ kind_cell_list.
Definition cell_list_gone := k_destroy _ _ _ _ _ _ kind_cell_list.

(** ** Dimensions *)
Definition blank_dim : tree := TRec [n0; n0; n0; n0; n0; i0; TNull; i0; i0; i0; i0; i0; n0; n0; i0; i0; i0; TNull; blank_list; blank_list].
Lemma dim_blank : owns_dim dim_init blank_dim [].
Proof. blank_by; [apply nums_blank|split; auto]. Qed.
Lemma no_table_empty : forall a c L, no_table a c L -> L = [].
Proof. intros a c L (_ & _ & ->). reflexivity. Qed.
Lemma dim_gone_with : forall (P : addr -> holds) v c L, (forall B a c L (f : unit -> M B) L0 F Q, P a c L -> Permutation L0 (L ++ F) -> hoare F (f tt) Q -> hoare L0 (bnd (free a) f) Q) ->
  owns_dim_with P v c L -> hoare L (dim_destroy v) (gone (fun x => owns_dim x blank_dim [])).
Proof.
  intros P v c L HP H. unfold owns_dim_with in H. open H. unfold dim_destroy, cdim_destroy. apply hoare_assoc. eapply array_free; [eassumption|pull|]. apply seq_ret.
  eapply HP; [eassumption|pull|]. gone_by cell_list_gone. gone_by conn_list_gone. apply hoare_ret. split; [reflexivity|]. exact dim_blank.
Qed.
Lemma no_table_gone : forall B a c L (f : unit -> M B) L0 F Q, no_table a c L -> Permutation L0 (L ++ F) -> hoare F (f tt) Q -> hoare L0 (bnd (free a) f) Q.
Proof. intros B a c L f L0 F Q (-> & -> & ->) P H. eapply hoare_perm; [exact P|]. exact H. Qed.
Lemma table_gone : forall B a c L (f : unit -> M B) L0 F Q, owns_table a c L -> Permutation L0 (L ++ F) -> hoare F (f tt) Q -> hoare L0 (bnd (free a) f) Q.
Proof. intros B a c L f L0 F Q (l & N & -> & ->) P H. eapply seq_free; eassumption. Qed.
Definition dim_gone v c L := dim_gone_with no_table v c L no_table_gone.
Definition dim_built_gone v c L := dim_gone_with owns_table v c L table_gone.
Lemma cdim_new : forall d s c L, kv_heights d = 0 -> owns_nums (kv_heights s) (kv_n s) c L ->
  hoare L (cdim_copy pick d s)
    (made (fun k Lk => exists a, k = mkCdimV (kv_first s) (kv_wall s) (kv_channel s) (kv_last s) (kv_width s) (kv_n s) a /\ owns_nums a (kv_n s) c Lk) L).
Proof.
  intros d s c L D H. unfold cdim_copy, cdim_destroy. rewrite D. apply hoare_assoc. apply (array_free _ _ 0 TNull [] _ L L _ (nums_blank 0)); [reflexivity|]. apply seq_ret. unfold cdim_assign.
  destruct (Z.eqb_spec (kv_heights s) 0) as [E0|N].
  - destruct H as [(_ & -> & ->)|(l & N & _)]; [|congruence]. apply hoare_ret. exists []. split; [|reflexivity]. exists 0. split; [reflexivity|apply nums_blank].
  - eapply seq_nums_new; [exact N|eassumption|pull|]. intros x Lx _ Ox. apply hoare_ret. exists Lx. split; [exists x; auto|perm].
Qed.
Lemma kind_dim : kind owns_dim blank_dim dim_init dim_destroy (dim_assign pick) (dim_copy pick).
Proof.
  constructor.
  - exact dim_blank.
  - exact dim_gone.
  - intros d s c L D S. blank_of D. unfold owns_dim, owns_dim_with in S. open S. unfold dim_assign.
    assert (HD : kv_heights (zv_cell d) = 0) by (match goal with H : owns_nums (kv_heights (zv_cell d)) _ _ _ |- _ => destruct H as [(H & _)|(l & _ & _ & E & _)]; [exact H|discriminate] end).
    match goal with H : no_table (zv_pointer s) ?c ?L |- _ => assert (c = TNull /\ L = []) as [-> ->] by (destruct H as (_ & -> & ->); auto) end.
    eapply seq_made; cycle 1; [eapply cdim_new; eassumption|intros ? ? (a & -> & Oa)|pull].
    made_by cell_list_new. made_by conn_list_new. finish_made.
  - intros v L H. eapply struct_empty; [|exact H]. empties_by. eapply no_table_empty; eassumption.
  - reflexivity.
Qed.
Lemma dims_frees : forall p c L, owns_box BDims (fun z c L => owns_dim z c L \/ owns_dim_built z c L) p c L -> hoare L (dim_free p) (gone (fun _ => True)).
Proof.
  intros p c L [(-> & -> & ->)|(v & L' & N & O & ->)]; unfold dim_free, box_free.
  - apply hoare_ret. split; auto.
  - rewrite (proj2 (Z.eqb_neq _ _) N). apply (seq_box BDims box_dim (fun n => eq_refl) _ p v _ _ L'); [perm|].
    eapply (seq_gone _ _ _ _ _ L' [(p, BDims v)] (fun x => owns_dim x blank_dim [])); [perm|destruct O; [eapply dim_gone|eapply dim_built_gone]; eassumption|]. intros x _.
    eapply hoare_post; [|apply (hoare_free _ (BDims v) N)]. intros y L2 ->. split; auto.
Qed.

(** ** Stack elements *)
Definition blank_se : tree := TRec [TNull; i0; i0; TNull; TNull; i0; i0].
Lemma box_blank : forall V (inj : V -> block) owns, owns_box inj owns 0 TNull [].
Proof. intros V inj owns. left. auto. Qed.
Lemma se_blank : owns_se se_init blank_se [].
Proof. blank_by; apply box_blank. Qed.
Lemma pointer_gone : forall t p c L, owns_pointer t p c L ->
  hoare L (match t with SeDie => die_free p | SeLayer => layer_free p | _ => ret tt end) (gone (fun _ => True)).
Proof.
  intros [| | |] p c L H; cbn [owns_pointer] in H.
  1, 4: destruct H as [-> ->]; apply hoare_ret; split; auto.
  - eapply layer_frees, H.
  - eapply die_frees, H.
Qed.
Lemma pointer_new : forall t p c L, owns_pointer t p c L ->
  hoare L (match t with SeLayer => layer_clone pick p | SeDie => die_clone pick p | _ => ret p end) (made (fun x => owns_pointer t x c) L).
Proof.
  intros [| | |] p c L H; cbn [owns_pointer] in *.
  1, 4: destruct H as [-> ->]; apply hoare_ret; exists []; split; [split; reflexivity|reflexivity].
  - apply layer_clones, H.
  - apply die_clones, H.
Qed.
Lemma top_gone : forall p c L, owns_box BSink owns_sink p c L -> hoare L (if p =? 0 then ret tt else sink_free p) (gone (fun _ => True)).
Proof.
  intros p c L H. destruct (Z.eqb_spec p 0) as [->|N]; [|eapply sink_frees, H].
  destruct H as [(_ & _ & ->)|(v & L' & N & _)]; [|congruence]. apply hoare_ret. split; auto.
Qed.
Lemma top_new : forall d p c L, owns_box BSink owns_sink d TNull [] -> owns_box BSink owns_sink p c L ->
  hoare L (if p =? 0 then ret d else sink_clone pick junk p) (made (fun x => owns_box BSink owns_sink x c) L).
Proof.
  intros d p c L D H. destruct (Z.eqb_spec p 0) as [->|N]; [|apply sink_clones, H].
  destruct H as [(_ & -> & ->)|(v & L' & N & _)]; [|congruence]. apply hoare_ret. exists []. split; [exact D|reflexivity].
Qed.
Lemma sink_not_null : forall v L, ~ owns_sink v TNull L.
Proof. intros v L (cs & E & _). discriminate. Qed.
Lemma type_code_inj : forall t t', type_code t = type_code t' -> t = t'.
Proof. intros [] []; cbn; congruence. Qed.
Lemma kind_se : kind owns_se blank_se se_init se_destroy (se_assign pick junk) (se_copy pick junk).
Proof.
  constructor.
  - exact se_blank.
  - intros v c L H. open H. unfold se_destroy. gone_by text_destroy. gone_by pointer_gone. gone_by top_gone. gone_by top_gone. apply hoare_ret. split; [reflexivity|]. exact se_blank.
  - intros d s c L D S. blank_of D. open S. unfold se_assign. made_by (text_new pick FRESH). made_by pointer_new. made_by top_new. made_by top_new. finish_made.
  - intros v L H. eapply struct_empty; [|exact H].
    assert (T : wv_type v = SeNone).
    { destruct H as (cs & E & H). open_cs cs H. unfold blank_se in E. injection E. intros. destruct (wv_type v); [reflexivity| | |]; discriminate. }
    rewrite T. empties_by; apply (box_empty _ _ sink_not_null) in H0; assumption.
  - reflexivity.
Qed.
Definition kind_se_list := kind_list pick FRESH BSeNode prj_se owns_se blank_se se_init se_destroy (se_assign pick junk) (se_copy pick junk) (fun n => eq_refl) kind_se.
Definition se_list_gone := k_destroy _ _ _ _ _ _ kind_se_list.

(** ** Outputs *)
Definition blank_ip : tree := TRec [TNull; i0; i0; i0; n0; n0; n0; n0; i0; i0; i0; i0].
Lemma ip_blank : owns_ip ip_init blank_ip [].
Proof. blank_by. Qed.
Lemma kind_ip : kind owns_ip blank_ip ip_init ip_destroy (ip_assign pick) (ip_copy pick).
Proof.
  constructor.
  - exact ip_blank.
  - intros v c L H. open H. unfold ip_destroy. gone_by text_destroy. apply hoare_ret. split; [reflexivity|]. exact ip_blank.
  - intros d s c L D S. blank_of D. open S. unfold ip_assign. made_by (text_new pick FRESH). finish_made.
  - intros v L H. eapply struct_empty; [|exact H]. empties_by.
  - reflexivity.
Qed.
Definition kind_ip_list := kind_list pick FRESH BIpNode prj_ip owns_ip blank_ip ip_init ip_destroy (ip_assign pick) (ip_copy pick) (fun n => eq_refl) kind_ip.
Definition ip_list_new := kind_new _ _ _ _ _ _ _ kind_ip_list.
Definition ip_list_gone := k_destroy _ _ _ _ _ _ kind_ip_list.
Definition blank_out : tree := TRec [blank_list; blank_list; blank_list].
Lemma out_blank : owns_out out_init blank_out [].
Proof. blank_by. Qed.
Lemma kind_out : kind owns_out blank_out out_init out_destroy (out_assign pick) (out_copy pick).
Proof.
  constructor.
  - exact out_blank.
  - intros v c L H. open H. unfold out_destroy. gone_by ip_list_gone. gone_by ip_list_gone. gone_by ip_list_gone. apply hoare_ret. split; [reflexivity|]. exact out_blank.
  - intros d s c L D S. blank_of D. open S. unfold out_assign. made_by ip_list_new. made_by ip_list_new. made_by ip_list_new. finish_made.
  - intros v L H. eapply struct_empty; [|exact H]. empties_by.
  - reflexivity.
Qed.

(** ** Stack descriptions *)
Definition kind_material_list := kind_list pick FRESH BMaterialNode prj_material owns_material blank_material material_init material_destroy (material_assign pick) (material_copy pick) (fun n => eq_refl) kind_material.
Definition material_list_gone := k_destroy _ _ _ _ _ _ kind_material_list.
Definition blank_sd : tree := TRec [TNull; TNull; TNull; TNull; TNull; blank_list; blank_list; blank_list; blank_list].
Lemma sd_gone : forall v c L, owns_sd v c L -> hoare L (sd_destroy v) (gone (fun x => owns_sd x blank_sd [])).
Proof.
  intros v c L H. open H. unfold sd_destroy. gone_by text_destroy. gone_by sink_frees. gone_by sink_frees. gone_by chan_frees. gone_by dims_frees.
  gone_by material_list_gone. gone_by layer_list_gone. gone_by die_list_gone. gone_by se_list_gone. apply hoare_ret. split; [reflexivity|]. blank_by; apply box_blank.
Qed.
End Kinds.
