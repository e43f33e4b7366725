(** * The life of a simulation in memory: proofs *)
From Coq Require Import ZArith List Bool QArith Permutation Lia.
From Verif Require Import Base Own OwnSpec OwnProofs OwnKinds OwnHist Life LifeSpec.
Import ListNotations.
Local Open Scope Z_scope.

Lemma set_nth_upd : forall A (l : list A) i x, set_nth l i x = upd l i x.
Proof. induction l as [|y l IH]; intros [|i] x; cbn; congruence. Qed.
Lemma blank_layer_empty : blank_layer = empty_layer.
Proof. reflexivity. Qed.

Lemma arrays_app : forall l1 l2 L1 L2, arrays l1 L1 -> arrays l2 L2 -> arrays (l1 ++ l2) (L1 ++ L2).
Proof. induction 1; intros H2; cbn; auto. constructor; auto. Qed.
Lemma arrays_length : forall l L, arrays l L -> length L = length l.
Proof. induction 1; cbn; auto. Qed.
Lemma seq_frees_cons : forall B a r (f : unit -> M B) L Q, hoare L (bnd (free a) (fun _ => bnd (frees r) f)) Q -> hoare L (bnd (frees (a :: r)) f) Q.
Proof. intros. cbn [frees]. apply hoare_assoc. assumption. Qed.
Lemma seq_frees : forall B l L1 (f : unit -> M B) L F Q, arrays l L1 -> Permutation L (L1 ++ F) -> hoare F (f tt) Q -> hoare L (bnd (frees l) f) Q.
Proof.
  intros B l L1 f L F Q A. revert L. induction A as [|a n l L1 N A IH]; intros L P H.
  - eapply hoare_perm; [exact P|]. exact H.
  - apply seq_frees_cons. eapply seq_free; [exact N|exact P|]. apply IH; [reflexivity|exact H].
Qed.
Lemma seq_free_if : forall B a b (f : unit -> M B) L F Q, a <> 0 -> Permutation L ([(a, b)] ++ F) -> hoare F (f tt) Q -> hoare L (bnd (free_if a) f) Q.
Proof. intros B a b f L F Q N P H. unfold free_if. rewrite (proj2 (Z.eqb_neq _ _) N). eapply seq_free; eassumption. Qed.

Lemma seq_new : forall A B (m : M A) (f : A -> M B) L Q1 Q, hoare [] m Q1 -> (forall x L', Q1 x L' -> hoare (L' ++ L) (f x) Q) -> hoare L (bnd m f) Q.
Proof. intros A B m f L Q1 Q H1 H2. eapply (hoare_seq _ _ _ _ L [] L); [reflexivity|exact H1|exact H2]. Qed.

Section Life.
Variable try : block -> heap -> addr.
Variable pick : heap -> addr.
Hypothesis FAULTY : faulty try.
Hypothesis FRESH : allocator pick.
Lemma seq_try : forall B b (f : addr -> M B) L Q, (exhausted try -> hoare L (f 0) Q) -> (forall a, a <> 0 -> hoare ([(a, b)] ++ L) (f a) Q) -> hoare L (bnd (try_malloc try b) f) Q.
Proof.
  intros B b f L Q H0 H1 h R I. unfold bnd, try_malloc. destruct (Z.eqb_spec (try b h) 0) as [E|E]; [exact (H0 (ex_intro _ b (ex_intro _ h E)) h R I)|].
  destruct (FAULTY b h) as [E'|G]; [congruence|]. apply (H1 (try b h) E). destruct I as [N P]. split; [|cbn [app]; constructor; exact P]. cbn. constructor; [apply get_none, G|exact N].
Qed.
Ltac nz := match goal with H : ?a <> 0 |- context [if ?a =? 0 then _ else _] => rewrite (proj2 (Z.eqb_neq a 0) H) end.
Ltac zero := change (0 =? 0) with true; cbv iota.
(** One checked allocation: first the failure. *)
Ltac attempt := apply seq_try; [intros EX; cbv beta; zero | let a := fresh "a" in let N := fresh "N" in intros a N; cbv beta; nz].
Ltac free1 := first [apply seq_frees_cons; eapply seq_free; [assumption|pull|cbv beta] | change (frees []) with (ret tt); apply seq_ret; cbv beta | eapply seq_free; [assumption|pull|cbv beta]].
Ltac arrs := repeat (constructor; [assumption|]); constructor.

(** ** The power grid *)
Lemma pg_builds : forall p layers cells top bottom, hoare [] (pg_build try p layers cells top bottom) (fun x L => if fst x then owns_powers (snd x) L else exhausted try /\ L = []).
Proof.
  intros p layers cells top bottom. unfold pg_build.
  attempt. { apply hoare_ret. split; [exact EX|reflexivity]. }
  attempt. { repeat free1. apply hoare_ret. split; [exact EX|reflexivity]. }
  attempt. { repeat free1. apply hoare_ret. split; [exact EX|reflexivity]. }
  attempt. { repeat free1. apply hoare_ret. split; [exact EX|reflexivity]. }
  attempt. { repeat free1. apply hoare_ret. split; [exact EX|reflexivity]. }
  attempt. { repeat free1. apply hoare_ret. split; [exact EX|reflexivity]. }
  eapply hoare_perm with (L' := [(a, _)] ++ [(a0, _)] ++ [(a1, _)] ++ [(a2, _)] ++ [(a3, _)] ++ [(a4, _)]); [perm|].
  apply hoare_ret. cbn [fst snd]. unfold owns_powers. cbn [pg_types pg_flps pg_sources pg_top pg_bottom pg_caps]. arrs.
Qed.
Lemma pg_gone : forall p L, owns_powers p L -> hoare L (pg_destroy p) (gone (fun x => x = pg_init)).
Proof.
  intros p L O. unfold owns_powers in O. unfold pg_destroy. repeat match goal with H : arrays (_ :: _) _ |- _ => inversion_clear H end. match goal with H : arrays [] _ |- _ => inversion_clear H end.
  repeat (eapply seq_free_if; [assumption|apply Permutation_refl|]). apply hoare_ret. split; reflexivity.
Qed.

(** ** The thermal grid *)
Definition layers_at (a : addr) (n : nat) (cs : list tree) (L : heap) : Prop :=
  exists ls L1, length ls = n /\ fields (map owns_layer ls) cs L1 /\ Permutation L ([(a, BLayers ls)] ++ L1).
Lemma seq_layers : forall B a ls (f : list layer_v -> M B) L F Q, Permutation L ([(a, BLayers ls)] ++ F) -> hoare L (f ls) Q -> hoare L (bnd (load_layers a) f) Q.
Proof. intros B a ls f L F Q P H. unfold load_layers. apply hoare_assoc. eapply seq_load; [exact P|]. apply seq_ret. exact H. Qed.
Lemma layers_gone : forall k i a ls cs L, fields (map owns_layer ls) cs L -> (i + k)%nat = length ls -> firstn i cs = repeat blank_layer i ->
  hoare ([(a, BLayers ls)] ++ L) (layers_destroy a i k) (fun _ L' => exists ls', L' = [(a, BLayers ls')]).
Proof.
  induction k as [|k IH]; intros i a ls cs L H N B; cbn [layers_destroy].
  - apply hoare_ret. exists ls. rewrite Nat.add_0_r in N. pose proof (all_length owns_layer ls cs L H) as E. rewrite <- N in E. rewrite E, firstn_all in B. rewrite B in H.
    rewrite (all_blank owns_layer blank_layer ls (length cs) L); [reflexivity|apply (k_blank _ _ _ _ _ _ (kind_layer pick FRESH))|exact H].
  - eapply seq_layers; [apply Permutation_refl|]. destruct (nth_error ls i) as [y|] eqn:Ni; [|apply nth_error_None in Ni; lia].
    destruct (all_nth owns_layer _ _ _ _ _ H Ni) as (c & Mi). destruct (all_take owns_layer ls cs L i y c H Ni Mi) as (Lv & F & Ov & P & W).
    eapply (seq_gone _ _ _ _ _ Lv ([(a, BLayers ls)] ++ F)); [rewrite P; perm|apply (k_destroy _ _ _ _ _ _ (kind_layer pick FRESH) _ _ _ Ov)|]. intros x Ox.
    destruct (W x _ [] Ox) as (L' & A & P'). eapply seq_store; [apply Permutation_refl|]. rewrite set_nth_upd.
    apply (hoare_perm _ _ _ ([(a, BLayers (upd ls i x))] ++ L')); [rewrite P'; reflexivity|]. apply (IH (Datatypes.S i) a (upd ls i x) (upd cs i blank_layer)); [exact A|rewrite upd_length; lia|].
    apply upd_repeat; [exact B|reflexivity|]. rewrite <- (all_length owns_layer _ _ _ H). lia.
Qed.
Lemma layer_sets : forall a n cs L i y c Ly F S, layers_at a n cs L -> (i < n)%nat -> owns_layer y c Ly -> Permutation S (Ly ++ F) ->
  hoare (L ++ S) (set_layer pick a i y) (fun _ L' => exists L2, layers_at a n (upd cs i c) L2 /\ Permutation L' (L2 ++ S)).
Proof.
  intros a n cs L i y c Ly F S0 (ls & L1 & N & H & P) I Oy PS. unfold set_layer. apply (hoare_perm _ _ _ ([(a, BLayers ls)] ++ L1 ++ Ly ++ F)); [rewrite P, PS; perm|].
  eapply seq_layers; [apply Permutation_refl|]. destruct (nth_error ls i) as [d|] eqn:Ni; [|apply nth_error_None in Ni; lia].
  destruct (all_nth owns_layer _ _ _ _ _ H Ni) as (cd & Mi). destruct (all_take owns_layer ls cs L1 i d cd H Ni Mi) as (Lv & G & Ov & P1 & W).
  eapply (hoare_seq _ _ _ _ _ (Lv ++ Ly) ([(a, BLayers ls)] ++ G ++ F)); [rewrite P1; perm|apply (kind_copy _ _ _ _ _ _ _ (kind_layer pick FRESH) _ _ _ _ _ _ Ov Oy)|].
  intros x L' (Lx & Ox & PX). destruct (W x c Lx Ox) as (L3 & A & P'). apply hoare_last. eapply (seq_store _ a (BLayers ls) _ _ _ (L' ++ G ++ F)); [perm|].
  apply hoare_ret. exists ([(a, BLayers (set_nth ls i x))] ++ L3). split.
  - exists (set_nth ls i x), L3. rewrite set_nth_upd. split; [rewrite upd_length; exact N|]. split; [exact A|reflexivity].
  - rewrite PX, P', PS. perm.
Qed.
Lemma layers_set : forall ys cys i a n cs L S, Forall2 (fun y c => exists Ly F, owns_layer y c Ly /\ Permutation S (Ly ++ F)) ys cys -> inside n (numbered i cys) -> layers_at a n cs L ->
  hoare (L ++ S) (set_layers pick a i ys) (fun _ L' => exists L2, layers_at a n (told cs (numbered i cys)) L2 /\ Permutation L' (L2 ++ S)).
Proof.
  induction ys as [|y ys IH]; intros cys i a n cs L S0 H I A; inversion H as [|? c ? cys' (Ly & F & Oy & PS) H' E1 E2]; subst; cbn [set_layers numbered told fold_left].
  - apply hoare_ret. exists L. split; [exact A|reflexivity].
  - cbn [numbered] in I. eapply hoare_seq; [apply pull_end|eapply (layer_sets a n cs L i y c); [exact A|exact (Forall_inv I)|exact Oy|exact PS]|].
    intros [] L' (L2 & A2 & P2). apply (hoare_perm _ _ _ (L2 ++ S0)); [rewrite app_nil_r; exact P2|]. apply IH; [exact H'|exact (Forall_inv_tail I)|exact A2].
Qed.
Lemma told_app : forall s1 s2 cs, told cs (s1 ++ s2) = told (told cs s1) s2.
Proof. intros. apply fold_left_app. Qed.
Lemma fields_sources : forall ys cys L G, fields (map owns_layer ys) cys L -> Forall2 (fun y c => exists Ly F, owns_layer y c Ly /\ Permutation (L ++ G) (Ly ++ F)) ys cys.
Proof.
  induction ys as [|y ys IH]; intros [|c cys] L G H; cbn in H; try contradiction; constructor.
  - destruct H as (L1 & L2 & -> & O & H). exists L1, (L2 ++ G). split; [exact O|perm].
  - destruct H as (L1 & L2 & -> & O & H). specialize (IH cys L2 (L1 ++ G) H). clear H. induction IH as [|v w ys cys (Ly & F & Ov & P) _ IH']; constructor; [|exact IH']. exists Ly, F. split; [exact Ov|]. rewrite <- P. perm.
Qed.
Lemma element_fills : forall e says Le a n cs L, owns_element e says Le -> inside n says -> layers_at a n cs L ->
  hoare (L ++ Le) (fill_element pick a e) (fun _ L' => exists L2, layers_at a n (told cs says) L2 /\ Permutation L' (L2 ++ Le)).
Proof.
  intros [i ys|i y|i k height wall id] says Le a n cs L O I A; cbn [fill_element] in *.
  - destruct O as (cys & H & ->). apply (layers_set ys cys i a n cs L Le); [|exact I|exact A]. pose proof (fields_sources ys cys Le [] H) as W. rewrite app_nil_r in W. exact W.
  - destruct O as (c & H & ->). eapply (layer_sets a n cs L i y c Le []); [exact A|exact (Forall_inv I)|exact H|apply pull_end].
  - destruct O as (cw & ci & L1 & L2 & Ow & Oi & -> & ->).
    eapply (seq_made _ _ _ _ _ L1 (L2 ++ L)); [perm|apply (material_new pick FRESH _ _ _ _ _ (blank_material_null pick FRESH) Ow)|]. intros m Lm Om.
    eapply (seq_made _ _ _ _ _ L2 (Lm ++ L1 ++ L)); [perm|apply (text_copy pick FRESH _ _ _ Oi)|]. intros s Ls Os. cbv zeta.
    set (tmp := mkLayerV s 0 height m list_init 0 0). set (c := TRec [ci; TNull; TNum height; cw; TRec []; TInt 0; TInt 0]) in *.
    assert (Ot : owns_layer tmp c (Ls ++ Lm)).
    { eexists. split; [reflexivity|]. apply (fields_intro _ _ _ _ Ls Lm); [exact Os|]. apply (fields_intro _ _ _ _ [] Lm); [left; auto|].
      apply (fields_intro _ _ _ _ [] Lm); [split; reflexivity|]. rewrite <- (app_nil_r Lm). apply (fields_intro _ _ _ _ Lm []); [exact Om|].
      apply (fields_intro _ _ _ _ [] []); [apply list_blank|]. do 2 (apply (fields_intro _ _ _ _ [] []); [split; reflexivity|]). reflexivity. }
    eapply (hoare_seq _ _ _ _ _ (L ++ Ls ++ Lm) (L1 ++ L2)); [perm|eapply (layers_set (repeat tmp k) (repeat c k) i a n cs L (Ls ++ Lm)); [|exact I|exact A]|].
    { clear -Ot. induction k as [|k IH]; cbn; constructor; [|exact IH]. exists (Ls ++ Lm), []. split; [exact Ot|apply pull_end]. }
    intros [] L' (L3 & A3 & P3). eapply (seq_gone _ _ _ _ _ (Ls ++ Lm) (L3 ++ L1 ++ L2)); [rewrite P3; perm|apply (k_destroy _ _ _ _ _ _ (kind_layer pick FRESH) _ _ _ Ot)|]. intros x _.
    apply hoare_ret. exists L3. split; [exact A3|perm].
Qed.
Lemma elements_fill : forall es says Le a n cs L, owns_elements es says Le -> inside n says -> layers_at a n cs L ->
  hoare (L ++ Le) (fill_elements pick a es) (fun _ L' => exists L2, layers_at a n (told cs says) L2 /\ Permutation L' (L2 ++ Le)).
Proof.
  induction es as [|e es IH]; intros says Le a n cs L O I A; cbn [fill_elements owns_elements] in *.
  - destruct O as [-> ->]. apply hoare_ret. exists L. split; [exact A|reflexivity].
  - destruct O as (s1 & s2 & L1 & L2 & -> & -> & O1 & O2). apply Forall_app in I. destruct I as [I1 I2].
    eapply (hoare_seq _ _ _ _ _ (L ++ L1) L2); [perm|apply (element_fills e s1 L1 a n cs L O1 I1 A)|]. intros [] L' (L3 & A3 & P3).
    rewrite told_app. eapply hoare_perm with (L' := (L3 ++ L2) ++ L1); [rewrite P3; perm|].
    apply hoare_last. eapply (hoare_seq _ _ _ _ _ (L3 ++ L2) L1); [reflexivity|apply (IH s2 L2 a n _ L3 O2 I2 A3)|].
    intros [] L4 (L5 & A5 & P5). apply hoare_ret. exists L5. split; [exact A5|]. rewrite P5. perm.
Qed.
Lemma tg_builds : forall g n, hoare [] (tg_build try g n) (fun x L => if fst x then tg_types (snd x) <> 0 /\ tg_layers (snd x) <> 0 /\ tg_n (snd x) = n /\
  exists k L1, layers_at (tg_layers (snd x)) n (repeat empty_layer n) L1 /\ L = [(tg_types (snd x), BRaw k)] ++ L1 else exhausted try /\ L = []).
Proof.
  intros g n. unfold tg_build. attempt. { apply hoare_ret. split; [exact EX|reflexivity]. } attempt. { free1. apply hoare_ret. split; [exact EX|reflexivity]. }
  apply (hoare_perm _ _ _ ([(a, raw n)] ++ [(a0, BLayers (repeat layer_init n))])); [perm|]. apply hoare_ret. cbn [fst snd tg_types tg_layers tg_n].
  split; [exact N|]. split; [exact N0|]. split; [reflexivity|]. exists (Z.of_nat n), [(a0, BLayers (repeat layer_init n))]. split; [|reflexivity].
  exists (repeat layer_init n), []. split; [apply repeat_length|]. split; [apply all_init, (k_init _ _ _ _ _ _ (kind_layer pick FRESH))|reflexivity].
Qed.
Lemma tg_gone : forall g cs L, owns_grid g cs L -> hoare L (tg_destroy g) (gone (fun x => x = tg_init)).
Proof.
  intros g cs L (n & ls & L1 & NT & NL & N & H & ->). unfold tg_destroy. eapply seq_free_if; [exact NT|apply Permutation_refl|]. nz.
  apply hoare_assoc. eapply (hoare_seq _ _ _ _ _ ([(tg_layers g, BLayers ls)] ++ L1) []); [apply pull_end|eapply (layers_gone _ 0); [exact H|symmetry; exact N|reflexivity]|].
  intros [] L' (ls' & ->). eapply seq_free; [exact NL|pull|]. apply hoare_ret. split; reflexivity.
Qed.

(** ** The system matrix *)
Lemma seq_renew : forall B l (f : addr -> M B) L Q, (forall a, a <> 0 -> hoare ([(a, BPointers l)] ++ L) (f a) Q) -> hoare L (bnd (renew_store pick 0 l) f) Q.
Proof. intros B l f L Q H. unfold renew_store, free_if. zero. apply hoare_assoc. apply seq_ret. apply (seq_malloc pick FRESH). exact H. Qed.
Lemma u_alloc : forall size nnz x, hoare [] (alloc_u try pick size nnz 0 x) (fun y L => if fst (fst y) then let v := snd y in let u := snd (fst y) in u <> 0 /\
  exists L1, arrays [ua_nz v; ua_ri v; ua_cb v; ua_ce v] L1 /\ L = [(u, BPointers [ua_nz v; ua_ri v; ua_cb v; ua_ce v])] ++ L1 else exhausted try /\ L = []).
Proof.
  intros size nnz x. unfold alloc_u.
  attempt. { apply hoare_ret. split; [exact EX|reflexivity]. }
  attempt. { repeat free1. apply hoare_ret. split; [exact EX|reflexivity]. }
  attempt. { repeat free1. apply hoare_ret. split; [exact EX|reflexivity]. }
  attempt. { repeat free1. apply hoare_ret. split; [exact EX|reflexivity]. }
  apply seq_renew. intros u NU. eapply hoare_perm with (L' := [(u, _)] ++ [(a, _)] ++ [(a2, _)] ++ [(a0, _)] ++ [(a1, _)]); [perm|].
  apply hoare_ret. cbn [fst snd ua_nz ua_ri ua_cb ua_ce]. split; [exact NU|]. eexists. split; [|reflexivity]. cbn [app]. arrs.
Qed.
Lemma l_alloc : forall size nnz super x, hoare [] (alloc_l try pick size nnz super 0 x) (fun y L => if fst (fst y) then let v := snd y in let l := snd (fst y) in l <> 0 /\
  exists L1, arrays [la_nz v; la_ncb v; la_nce v; la_ri v; la_rcb v; la_rce v; la_cts v; la_scb v; la_sce v] L1 /\ exists p, L = [(l, BPointers p)] ++ L1 else exhausted try /\ L = []).
Proof.
  intros size nnz super x. unfold alloc_l.
  attempt. { apply hoare_ret. split; [exact EX|reflexivity]. }
  do 8 (attempt; [repeat free1; apply hoare_ret; split; [exact EX|reflexivity]|]).
  apply seq_renew. intros u NU. eapply hoare_perm with (L' := [(u, _)] ++ [(a, _)] ++ [(a0, _)] ++ [(a1, _)] ++ [(a2, _)] ++ [(a3, _)] ++ [(a4, _)] ++ [(a5, _)] ++ [(a6, _)] ++ [(a7, _)]); [perm|].
  apply hoare_ret. cbn [fst snd la_nz la_ncb la_nce la_ri la_rcb la_rce la_cts la_scb la_sce]. split; [exact NU|]. eexists. split; [|eexists; reflexivity]. cbn [app]. arrs.
Qed.
Lemma stat_allocs : hoare [] (stat_alloc pick) (fun g L => arrays [gs_histo g; gs_utime g; gs_ops g; gs_proc g] L).
Proof.
  unfold stat_alloc. do 4 (apply (seq_malloc pick FRESH); let a := fresh "a" in let N := fresh "N" in intros a N).
  eapply hoare_perm with (L' := [(a, _)] ++ [(a0, _)] ++ [(a1, _)] ++ [(a2, _)]); [perm|]. apply hoare_ret. cbn [gs_histo gs_utime gs_ops gs_proc app]. arrs.
Qed.
Lemma seq_ncp : forall B a l L1 (f : unit -> M B) L F Q, a <> 0 -> arrays l L1 -> Permutation L ([(a, BPointers l)] ++ L1 ++ F) -> hoare F (f tt) Q -> hoare L (bnd (destroy_ncp a) f) Q.
Proof.
  intros B a l L1 f L F Q N A P H. unfold destroy_ncp, load_store. apply hoare_assoc. apply hoare_assoc. eapply seq_load; [exact P|]. apply seq_ret. apply hoare_assoc.
  eapply (seq_frees _ l L1 _ _ ([(a, BPointers l)] ++ F)); [exact A|rewrite P; perm|]. eapply seq_free; [exact N|reflexivity|exact H].
Qed.
Ltac failing := repeat free1; apply hoare_ret; split; [assumption|reflexivity].
Lemma sm_builds : forall s size nnz nnzl nnzu super, sm_l s = 0 -> sm_u s = 0 ->
  hoare [] (sm_build try pick s size nnz nnzl nnzu super) (fun x L => if fst x then owns_matrix (snd x) L /\ sm_fact (snd x) = sm_fact s else exhausted try /\ L = []).
Proof.
  intros s size nnz nnzl nnzu super EL EU. unfold sm_build.
  attempt. { apply hoare_ret. split; [exact EX|reflexivity]. }
  attempt. { failing. }
  attempt. { failing. }
  unfold create_store. apply (seq_malloc pick FRESH). intros sa Nsa. cbv zeta.
  do 5 (attempt; [failing|]).
  eapply seq_new; [apply stat_allocs|]. intros st Ls Hs. unfold stat_free.
  eapply seq_new; [rewrite EU; apply u_alloc|]. intros [[okU u] ua] LU HU. cbn [fst snd] in *. destruct okU; cbn [negb].
  2: { destruct HU as [EX ->]. rewrite app_nil_l. repeat free1. eapply seq_frees; [exact Hs|pull|]. apply hoare_ret. split; [exact EX|reflexivity]. }
  destruct HU as (NU & L3 & AU & ->). eapply seq_new; [rewrite EL; apply l_alloc|]. intros [[okL l] la] LL HL. cbn [fst snd] in *. destruct okL; cbn [negb].
  2: { destruct HL as [EX ->]. rewrite app_nil_l. repeat free1. eapply seq_frees; [exact Hs|pull|]. cbv beta. eapply (seq_ncp _ _ _ _ _ _ []); [exact NU|exact AU|perm|]. apply hoare_ret. split; [exact EX|reflexivity]. }
  destruct HL as (NL & L2 & AL & pl & ->).
  match goal with |- hoare ?X _ _ => apply (hoare_perm _ _ _ (([(a0, raw (size + 1))] ++ [(a, raw nnz)] ++ [(a1, raw nnz)]) ++ L2 ++ L3 ++ Ls ++
    ([(a2, raw size)] ++ [(a3, raw size)] ++ [(a4, raw size)] ++ [(a5, raw size)] ++ [(a6, raw size)]) ++ [(l, BPointers pl)] ++
    [(u, BPointers [ua_nz ua; ua_ri ua; ua_cb ua; ua_ce ua])] ++ [(sa, BPointers [a1; a; a0])])); [perm|] end.
  apply hoare_ret. cbn [fst snd]. split; [|reflexivity]. do 5 eexists. exists pl, [ua_nz ua; ua_ri ua; ua_cb ua; ua_ce ua].
  cbn [sm_la sm_ua sm_opt sm_stat sm_cols sm_rows sm_vals sm_l sm_u sm_a so_pr so_pc so_et so_cc so_ps]. cbv zeta.
  split; [|split; [exact AL|split; [exact AU|split; [exact Hs|split; [|split; [exact NL|split; [exact NU|split; [exact Nsa|reflexivity]]]]]]]]; cbn [app]; arrs.
Qed.
(** *** Factorization *)
Lemma slu_makes : forall n, hoare [] (slu_arrays pick n) (fun l L => length l = n /\ arrays l L).
Proof.
  induction n as [|n IH].
  - apply hoare_ret. split; [reflexivity|constructor].
  - change (slu_arrays pick (Datatypes.S n)) with (bnd (malloc pick (BRaw 0)) (fun a => bnd (slu_arrays pick n) (fun r => ret (a :: r)))).
    apply (seq_malloc pick FRESH). intros a N. eapply seq_new; [apply IH|]. intros l L [E A].
    apply (hoare_perm _ _ _ ([(a, BRaw 0)] ++ L)); [perm|]. apply hoare_ret. split; [cbn; congruence|]. constructor; assumption.
Qed.
Lemma seq_renewed : forall B old b l (f : addr -> M B) L F Q, old <> 0 -> Permutation L ([(old, b)] ++ F) -> (forall a, a <> 0 -> hoare ([(a, BPointers l)] ++ F) (f a) Q) ->
  hoare L (bnd (renew_store pick old l) f) Q.
Proof. intros B old b l f L F Q N P H. unfold renew_store. apply hoare_assoc. eapply seq_free_if; [exact N|exact P|]. apply (seq_malloc pick FRESH). exact H. Qed.
Lemma pdgstrf_makes : forall l u bl bu, l <> 0 -> u <> 0 -> hoare ([(l, bl)] ++ [(u, bu)]) (pdgstrf pick l u)
  (fun x L => fst x <> 0 /\ snd x <> 0 /\ exists pl pu Lf, factors Lf /\ L = [(fst x, BPointers pl)] ++ [(snd x, BPointers pu)] ++ Lf).
Proof.
  intros l u bl bu NL NU. unfold pdgstrf.
  eapply seq_new; [apply slu_makes|]. intros al Lal [Eal Aal].
  eapply seq_new; [apply slu_makes|]. intros au Lau [Eau Aau].
  eapply seq_renewed; [exact NL|pull|]. intros l' NL'. eapply seq_renewed; [exact NU|pull|]. intros u' NU'.
  apply (hoare_perm _ _ _ ([(l', BPointers al)] ++ [(u', BPointers au)] ++ (Lal ++ Lau))); [perm|]. apply hoare_ret. cbn [fst snd]. split; [exact NL'|]. split; [exact NU'|].
  exists al, au, (Lal ++ Lau). split; [|reflexivity]. exists (al ++ au). split; [rewrite app_length, Eal, Eau; reflexivity|apply arrays_app; assumption].
Qed.
(** The rest of the matrix while the stores of L and U change. *)
Lemma matrix_stores : forall s L, owns_matrix s L -> exists bl bu F, sm_l s <> 0 /\ sm_u s <> 0 /\ Permutation L ([(sm_l s, bl)] ++ [(sm_u s, bu)] ++ F) /\
  exists F', Permutation F ([(sm_a s, BPointers [sm_vals s; sm_rows s; sm_cols s])] ++ F') /\
  forall ap l u pl pu k, l <> 0 -> u <> 0 -> exists L', owns_matrix (mkSm (sm_rows s) (sm_cols s) (sm_vals s) (sm_a s) ap l u (sm_stat s) (sm_opt s) (sm_la s) (sm_ua s) k) L' /\
    Permutation L' ([(l, BPointers pl)] ++ [(u, BPointers pu)] ++ F).
Proof.
  intros s L (L1 & L2 & L3 & L4 & L5 & ll & lu & A1 & A2 & A3 & A4 & A5 & NL & NU & NA & ->).
  exists (BPointers ll), (BPointers lu), (L1 ++ L2 ++ L3 ++ L4 ++ L5 ++ [(sm_a s, BPointers [sm_vals s; sm_rows s; sm_cols s])]). split; [exact NL|]. split; [exact NU|]. split; [perm|].
  exists (L1 ++ L2 ++ L3 ++ L4 ++ L5). split; [perm|]. intros ap l u pl pu k Nl Nu. eexists. split.
  - exists L1, L2, L3, L4, L5, pl, pu. cbn [sm_la sm_ua sm_opt sm_stat sm_cols sm_rows sm_vals sm_l sm_u sm_a]. cbv zeta. do 8 (split; [assumption|]). reflexivity.
  - cbn [sm_l sm_u sm_a sm_vals sm_rows sm_cols]. perm.
Qed.
Lemma first_factorization : forall s L sing, owns_matrix s L -> sm_fact s = false ->
  hoare L (do_factorization pick s sing) (fun x L' => fst x = negb sing /\ sm_fact (snd x) = negb sing /\ exists L1 L2 L3, owns_matrix (snd x) L1 /\ owns_permuted (snd x) L2 /\ factors L3 /\ Permutation L' (L1 ++ L2 ++ L3)).
Proof.
  intros s L sing O E. destruct (matrix_stores s L O) as (bl & bu & F & NL & NU & P & F' & PA & W). unfold do_factorization. rewrite E. cbn [orb].
  apply (hoare_perm _ _ _ ([(sm_a s, BPointers [sm_vals s; sm_rows s; sm_cols s])] ++ [(sm_l s, bl)] ++ [(sm_u s, bu)] ++ F')); [rewrite P, PA; perm|].
  apply hoare_assoc. unfold load_store. apply hoare_assoc. eapply seq_load; [reflexivity|]. apply seq_ret. apply hoare_assoc. apply (seq_malloc pick FRESH). intros p Np. apply hoare_assoc.
  apply (seq_malloc pick FRESH). intros q Nq. unfold create_store. apply (seq_malloc pick FRESH). intros ap Nap.
  eapply (hoare_seq _ _ _ _ _ ([(sm_l s, bl)] ++ [(sm_u s, bu)])); [|apply (pdgstrf_makes _ _ bl bu NL NU)|].
  { apply (perm_trans (l' := ([(sm_l s, bl)] ++ [(sm_u s, bu)]) ++ ([(ap, BPointers [sm_vals s; sm_rows s; p; q])] ++ [(q, BRaw 0)] ++ [(p, BRaw 0)] ++ F))); [rewrite PA; perm|reflexivity]. }
  intros [l' u'] L' (Nl' & Nu' & pl & pu & Lf & Ff & ->). cbn [fst snd] in *. apply hoare_ret. cbn [fst snd sm_fact]. split; [reflexivity|]. split; [reflexivity|].
  destruct (W ap l' u' pl pu (negb sing) Nl' Nu') as (L1 & O1 & P1). exists L1, ([(ap, BPointers [sm_vals s; sm_rows s; p; q])] ++ [(p, BRaw 0)] ++ [(q, BRaw 0)]), Lf.
  split; [exact O1|]. split; [|split; [exact Ff|rewrite P1; perm]]. exists p, q, ([(p, BRaw 0)] ++ [(q, BRaw 0)]). cbn [sm_ap sm_vals sm_rows app]. split; [arrs|]. split; [exact Nap|reflexivity].
Qed.
Lemma next_factorization : forall s L Lp sing, owns_matrix s L -> owns_permuted s Lp -> sm_fact s = true ->
  hoare (L ++ Lp) (do_factorization pick s sing) (fun x L' => fst x = negb sing /\ sm_fact (snd x) = true /\ exists L1 L3, owns_matrix (snd x) L1 /\ owns_permuted (snd x) Lp /\ factors L3 /\ Permutation L' (L1 ++ Lp ++ L3)).
Proof.
  intros s L Lp sing O OP E. destruct (matrix_stores s L O) as (bl & bu & F & NL & NU & P & F' & PA & W). unfold do_factorization. rewrite E. cbn [orb]. apply seq_ret.
  eapply (hoare_seq _ _ _ _ _ ([(sm_l s, bl)] ++ [(sm_u s, bu)]) (F ++ Lp)); [rewrite P; perm|apply (pdgstrf_makes _ _ bl bu NL NU)|].
  intros [l' u'] L' (Nl' & Nu' & pl & pu & Lf & Ff & ->). cbn [fst snd] in *. apply hoare_ret. cbn [fst snd sm_fact]. split; [reflexivity|]. split; [reflexivity|].
  destruct (W (sm_ap s) l' u' pl pu true Nl' Nu') as (L1 & O1 & P1). exists L1, Lf. split; [exact O1|]. split; [|split; [exact Ff|rewrite P1; perm]].
  destruct OP as (p & q & Lq & A & N & ->). exists p, q, Lq. auto.
Qed.
Lemma matrix_gone : forall s L Lp, owns_matrix s L -> (if sm_fact s then owns_permuted s Lp else Lp = []) -> hoare (L ++ Lp) (sm_destroy s) (gone (fun x => x = sm_init s)).
Proof.
  intros s L Lp (L1 & L2 & L3 & L4 & L5 & ll & lu & A1 & A2 & A3 & A4 & A5 & NL & NU & NA & ->) OP. unfold sm_destroy, stat_free. cbv zeta.
  eapply seq_frees; [exact A1|pull|]. eapply seq_frees; [exact A2|pull|]. eapply seq_free; [exact NL|pull|]. eapply seq_frees; [exact A3|pull|]. eapply seq_free; [exact NU|pull|].
  eapply seq_free; [exact NA|pull|]. eapply seq_frees; [exact A4|pull|]. eapply seq_frees; [exact A5|pull|]. destruct (sm_fact s).
  - destruct OP as (p & q & L6 & A6 & N6 & ->). unfold destroy_permuted, load_store. apply hoare_assoc. apply hoare_assoc. eapply (seq_load _ _ _ _ _ L6); [apply (Permutation_refl ([_] ++ L6))|]. apply seq_ret. apply hoare_assoc.
    eapply (seq_frees _ _ L6 _ _ [_]); [exact A6|apply (Permutation_cons_append L6)|]. eapply seq_free; [exact N6|pull|]. apply hoare_ret. split; reflexivity.
  - subst Lp. apply seq_ret. apply hoare_ret. split; reflexivity.
Qed.

(** ** The thermal data *)
Definition ready (t : td_v) : Prop := sm_l (td_sm t) = 0 /\ sm_u (td_sm t) = 0 /\ sm_fact (td_sm t) = false.
Lemma td_gone : forall t L0 n L1 L2 L3 L4 cs b, td_temps t <> 0 -> td_b t <> 0 -> owns_grid (td_tg t) cs L1 -> owns_powers (td_pg t) L2 -> owns_matrix (td_sm t) L3 ->
  (if sm_fact (td_sm t) then owns_permuted (td_sm t) L4 else L4 = []) ->
  Permutation L0 ([(td_temps t, n)] ++ [(td_b t, b)] ++ L1 ++ L2 ++ L3 ++ L4) ->
  hoare L0 (td_destroy t) (gone (fun x => x = td_init t)).
Proof.
  intros t L0 n L1 L2 L3 L4 cs b NT NB OG OP OM OA P. unfold td_destroy.
  eapply seq_free; [exact NT|exact P|]. eapply (seq_gone _ _ _ _ _ L1 ([(td_b t, b)] ++ L2 ++ L3 ++ L4)); [perm|apply (tg_gone _ _ _ OG)|]. intros g ->.
  eapply (seq_gone _ _ _ _ _ L2 ([(td_b t, b)] ++ L3 ++ L4)); [perm|apply (pg_gone _ _ OP)|]. intros p ->.
  eapply (seq_gone _ _ _ _ _ (L3 ++ L4) [(td_b t, b)]); [perm|apply (matrix_gone _ _ _ OM OA)|]. intros s ->.
  eapply seq_free; [exact NB|apply pull_end|]. apply hoare_ret. split; reflexivity.
Qed.
Lemma td_builds : forall t k says Le, ready t -> owns_elements (k_elements k) says Le -> inside (k_layers k) says ->
  hoare Le (td_build_rest try pick t k) (fun x L' => let cs := told (repeat empty_layer (k_layers k)) says in
    if fst x then k_refused k = false /\ k_singular k = false /\ exists L Lf, owns_simulation (snd x) cs L /\ factors Lf /\ Permutation L' (L ++ Lf ++ Le)
    else exists Lost, left_over try k (snd x) cs Lost /\ Permutation L' (Lost ++ Le)).
Proof.
  intros t k says Le (RL & RU & RF) OE IN. cbv zeta. set (cs := told (repeat empty_layer (k_layers k)) says). unfold td_build_rest.
  attempt. { apply hoare_ret. exists []. split; [left; auto|reflexivity]. }
  unfold create_store. apply (seq_malloc pick FRESH). intros b Nb.
  eapply seq_new; [apply tg_builds|]. intros [okg g] Lg HG. cbn [fst snd] in *. destruct okg; cbn [negb].
  2: { destruct HG as [EX ->]. rewrite app_nil_l. repeat free1. apply hoare_ret. exists []. split; [left; auto|reflexivity]. }
  destruct HG as (N1 & N2 & N3 & m & L1 & A1 & ->).
  set (rest := [(b, BPointers [a])] ++ [(a, raw (k_cells k))]).
  apply (hoare_perm _ _ _ ((L1 ++ Le) ++ [(tg_types g, BRaw m)] ++ rest)); [unfold rest; perm|].
  unfold tg_fill. apply hoare_assoc. eapply hoare_seq; [reflexivity|apply (elements_fill _ _ _ _ _ _ _ OE IN A1)|]. intros [] L' (L2 & A2 & P2). apply seq_ret.
  fold cs in A2. destruct A2 as (ls & L3 & E3 & F3 & P3). rewrite negb_involutive.
  assert (OG : owns_grid g cs ((tg_types g, BRaw m) :: (tg_layers g, BLayers ls) :: L3)). { exists m, ls, L3. split; [exact N1|]. split; [exact N2|]. split; [congruence|]. auto. }
  set (Lg := (tg_types g, BRaw m) :: (tg_layers g, BLayers ls) :: L3) in *.
  apply (hoare_perm _ _ _ (rest ++ Lg ++ Le)).
  { rewrite P2, P3. change Lg with ([(tg_types g, BRaw m)] ++ [(tg_layers g, BLayers ls)] ++ L3). perm. }
  clear P2 P3 L' L2. unfold rest. clear rest. destruct (k_refused k) eqn:REF.
  { repeat free1. apply hoare_ret. exists Lg. cbn [fst snd]. split; [|reflexivity]. right. left. split; [first [exact REF|reflexivity]|exact OG]. }
  eapply seq_new; [apply pg_builds|]. intros [okp p] Lp HP. cbn [fst snd] in *. destruct okp; cbn [negb].
  2: { destruct HP as [EX ->]. rewrite app_nil_l. repeat free1. eapply (seq_gone _ _ _ _ _ Lg Le); [reflexivity|apply (tg_gone _ _ _ OG)|]. intros x _. apply hoare_ret. exists []. split; [left; auto|reflexivity]. }
  eapply seq_new; [apply (sm_builds _ _ _ _ _ _ RL RU)|]. intros [oks s] Ls HS. cbn [fst snd] in *. destruct oks; cbn [negb].
  2: { destruct HS as [EX ->]. rewrite app_nil_l. repeat free1. eapply (seq_gone _ _ _ _ _ Lg (Lp ++ Le)); [perm|apply (tg_gone _ _ _ OG)|]. intros x _.
       eapply (seq_gone _ _ _ _ _ Lp Le); [reflexivity|apply (pg_gone _ _ HP)|]. intros y _. apply hoare_ret. exists []. split; [left; auto|reflexivity]. }
  destruct HS as [OS ES]. rewrite RF in ES.
  eapply (hoare_seq _ _ _ _ _ Ls); [reflexivity|apply (first_factorization _ _ (k_singular k) OS ES)|]. intros [okf s'] L' (Ef & Es' & L2 & L4 & L5 & O2 & O4 & F5 & P'). cbn [fst snd] in *. subst okf.
  destruct (k_singular k) eqn:SING; cbn [negb] in *.
  - eapply (seq_gone _ _ _ _ _ ([(a, raw (k_cells k))] ++ [(b, BPointers [a])] ++ Lg ++ Lp ++ L2 ++ []) (L4 ++ L5 ++ Le)); [rewrite P'; perm| |].
    { eapply td_gone; [exact N|exact Nb|exact OG|exact HP|exact O2|cbn [td_sm]; rewrite Es'; reflexivity|reflexivity]. }
    intros x _. apply hoare_ret. exists (L4 ++ L5). split; [|perm]. right. right. split; [first [exact REF|reflexivity]|]. split; [first [exact SING|reflexivity]|]. exists L4, L5. split; [|split; [exact F5|reflexivity]].
    destruct O4 as (q1 & q2 & L6 & A6 & _ & ->). cbn [length]. rewrite (arrays_length _ _ A6). reflexivity.
  - apply hoare_ret. cbn [fst snd]. split; [first [exact REF|reflexivity]|]. split; [first [exact SING|reflexivity]|]. exists ((a, raw (k_cells k)) :: (b, BPointers [a]) :: Lg ++ Lp ++ L2 ++ L4), L5.
    split; [|split; [exact F5|]].
    + exists (Z.of_nat (k_cells k)), Lg, Lp, L2, L4. cbn [td_temps td_b td_sm td_tg td_pg]. split; [exact N|]. split; [exact Nb|]. split; [exact Es'|]. do 4 (split; [assumption|]). reflexivity.
    + rewrite P'. change ((a, raw (k_cells k)) :: (b, BPointers [a]) :: Lg ++ Lp ++ L2 ++ L4) with ([(a, raw (k_cells k))] ++ [(b, BPointers [a])] ++ Lg ++ Lp ++ L2 ++ L4). perm.
Qed.
Lemma td_updates : forall t cs L sing, owns_simulation t cs L ->
  hoare L (td_update pick t sing) (fun x L' => fst x = negb sing /\ exists L1 Lf, owns_simulation (snd x) cs L1 /\ factors Lf /\ Permutation L' (L1 ++ Lf)).
Proof.
  intros t cs L sing (n & L1 & L2 & L3 & L4 & NT & NB & E & OG & OP & OM & OA & ->). unfold td_update.
  eapply (hoare_seq _ _ _ _ _ (L3 ++ L4) ([(td_temps t, BRaw n)] ++ [(td_b t, BPointers [td_temps t])] ++ L1 ++ L2)).
  { change ((td_temps t, BRaw n) :: (td_b t, BPointers [td_temps t]) :: L1 ++ L2 ++ L3 ++ L4) with ([(td_temps t, BRaw n)] ++ [(td_b t, BPointers [td_temps t])] ++ L1 ++ L2 ++ L3 ++ L4). perm. }
  { apply (next_factorization _ _ _ sing OM OA E). }
  intros [ok s] L' (-> & Es & L5 & L6 & O5 & O6 & F6 & P). cbn [fst snd] in *. apply hoare_ret. cbn [fst snd]. split; [reflexivity|].
  exists ((td_temps t, BRaw n) :: (td_b t, BPointers [td_temps t]) :: L1 ++ L2 ++ L5 ++ L4), L6. split; [|split; [exact F6|]].
  - exists n, L1, L2, L5, L4. cbn [td_temps td_b td_sm td_tg td_pg]. do 7 (split; [assumption|]). reflexivity.
  - rewrite P. change ((td_temps t, BRaw n) :: (td_b t, BPointers [td_temps t]) :: L1 ++ L2 ++ L5 ++ L4) with ([(td_temps t, BRaw n)] ++ [(td_b t, BPointers [td_temps t])] ++ L1 ++ L2 ++ L5 ++ L4). perm.
Qed.
Lemma td_destroys : forall t cs L, owns_simulation t cs L -> hoare L (td_destroy t) (gone (fun x => x = td_init t)).
Proof.
  intros t cs L (n & L1 & L2 & L3 & L4 & NT & NB & E & OG & OP & OM & OA & ->). eapply (td_gone t _ (BRaw n) L1 L2 L3 L4 cs (BPointers [td_temps t])); [exact NT|exact NB|exact OG|exact OP|exact OM|rewrite E; exact OA|reflexivity].
Qed.
Lemma many_updates : forall us t cs L, owns_simulation t cs L ->
  hoare L (updates pick t us) (fun x L' => exists L1 Lf, owns_simulation x cs L1 /\ (length Lf = 13 * length us)%nat /\ Permutation L' (L1 ++ Lf)).
Proof.
  induction us as [|u us IH]; intros t cs L O; cbn [updates].
  - apply hoare_ret. exists L, []. split; [exact O|]. split; [reflexivity|apply pull_end].
  - eapply (hoare_seq _ _ _ _ _ L []); [apply pull_end|apply (td_updates _ _ _ u O)|]. intros [ok t'] L' (_ & L1 & Lf & O1 & F1 & P). cbn [snd] in *.
    apply hoare_last. eapply (hoare_seq _ _ _ _ _ L1 Lf); [rewrite P; perm|apply (IH _ _ _ O1)|]. intros x L2 (L3 & L4 & O3 & N4 & P2). apply hoare_ret. exists L3, (L4 ++ Lf).
    split; [exact O3|]. split; [|rewrite P2; perm]. destruct F1 as (l & El & A). rewrite app_length, N4, (arrays_length _ _ A), El. cbn [length]. lia.
Qed.
End Life.
