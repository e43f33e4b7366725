(** * C76: what the life of a simulation leaves in memory *)
From Coq Require Import ZArith List Bool QArith Permutation Lia.
From Verif Require Import Base Own OwnSpec OwnProofs OwnKinds OwnHist Life LifeSpec LifeProofs PropOwn.
Import ListNotations.
Local Open Scope Z_scope.

Lemma get_out : forall h a, ~ In a (keys h) -> get h a = None.
Proof. induction h as [|[x b] h IH]; intros a N; [reflexivity|]. cbn in *. destruct (Z.eqb_spec x a); [tauto|]. apply IH. tauto. Qed.
Section Claims.
Variable try : block -> heap -> addr.
Variable pick : heap -> addr.
Hypothesis FAULTY : faulty try.
Hypothesis FRESH : allocator pick.

(** Building never goes wrong, whichever malloc fails. When it succeeds the
    simulation has deep copies of the layers of the stack, and SuperLU has left
    the 13 arrays of the factors. The stack description keeps its blocks. *)
Theorem C76_build : forall t0 k says Ls R h, owns_elements (k_elements k) says Ls -> inside (k_layers k) says -> in_use h (Ls ++ R) ->
  let cs := told (repeat empty_layer (k_layers k)) says in
  exists h' ok t', td_build_rest try pick (td_init t0) k h = Ok (h', (ok, t')) /\
  if ok then k_refused k = false /\ k_singular k = false /\ exists L Lf, owns_simulation t' cs L /\ factors Lf /\ in_use h' (L ++ Lf ++ Ls ++ R)
  else exists Lost, left_over try k t' cs Lost /\ in_use h' (Lost ++ Ls ++ R).
Proof.
  intros t0 k says Ls R h OE IN U cs. assert (RD : ready (td_init t0)) by (repeat split).
  destruct (td_builds try pick FAULTY FRESH _ k says Ls RD OE IN h R U) as (h' & [ok t'] & L' & E & P & U'). cbn [fst snd] in P. exists h', ok, t'. split; [exact E|].
  destruct ok.
  - destruct P as (A & B & L & Lf & O & F & P). split; [exact A|]. split; [exact B|]. exists L, Lf. split; [exact O|]. split; [exact F|]. eapply in_use_perm; [|exact U']. rewrite P, <- !app_assoc. reflexivity.
  - destruct P as (Lost & LO & P). exists Lost. split; [exact LO|]. eapply in_use_perm; [|exact U']. rewrite P, <- app_assoc. reflexivity.
Qed.
(** It succeeds when there is memory and nothing is refused. *)
Theorem C76_build_succeeds : forall t0 k says Ls R h, owns_elements (k_elements k) says Ls -> inside (k_layers k) says -> in_use h (Ls ++ R) ->
  (forall b h, try b h <> 0) -> k_refused k = false -> k_singular k = false ->
  exists h' t', td_build_rest try pick (td_init t0) k h = Ok (h', (true, t')).
Proof.
  intros t0 k says Ls R h OE IN U T A B. destruct (C76_build t0 k says Ls R h OE IN U) as (h' & ok & t' & E & P). exists h', t'. destruct ok; [exact E|].
  exfalso. destruct P as (Lost & [[(b & h0 & X) _]|[[X _]|(_ & X & _)]] & _); [exact (T b h0 X)|congruence|congruence].
Qed.
(** Every change of the flow rate leaves 13 more arrays, also when the new matrix
    has no factors; the simulation stays whole. *)
Theorem C76_update : forall t cs L R h singular, owns_simulation t cs L -> in_use h (L ++ R) ->
  exists h' t' L' Lf, td_update pick t singular h = Ok (h', (negb singular, t')) /\ owns_simulation t' cs L' /\ factors Lf /\ in_use h' (L' ++ Lf ++ R).
Proof.
  intros t cs L R h si O U. destruct (td_updates pick FRESH t cs L si O h R U) as (h' & [ok t'] & L' & E & (Ok & L1 & Lf & O1 & F & P) & U'). cbn [fst snd] in *. subst ok.
  exists h', t', L1, Lf. split; [exact E|]. split; [exact O1|]. split; [exact F|]. eapply in_use_perm; [|exact U']. rewrite P, <- app_assoc. reflexivity.
Qed.
(** Destroying frees what the simulation owns, no other block, and each once. *)
Theorem C76_destroy : forall t cs L R h, owns_simulation t cs L -> in_use h (L ++ R) ->
  exists h', td_destroy t h = Ok (h', td_init t) /\ in_use h' R.
Proof.
  intros t cs L R h O U. destruct (td_destroys pick FRESH t cs L O h R U) as (h' & t' & L' & E & (-> & ->) & U'). exists h'. auto.
Qed.
(** A whole life: the 13 arrays of every factorization are lost. *)
Theorem C76_life : forall t0 k says us Ls R h, owns_elements (k_elements k) says Ls -> inside (k_layers k) says -> in_use h (Ls ++ R) ->
  exists h' ok Lost, life try pick (td_init t0) k us h = Ok (h', ok) /\ in_use h' (Lost ++ Ls ++ R) /\
  if ok then List.length Lost = (13 * (1 + List.length us))%nat else exists t', left_over try k t' (told (repeat empty_layer (k_layers k)) says) Lost.
Proof.
  intros t0 k says us Ls R h OE IN U. destruct (C76_build t0 k says Ls R h OE IN U) as (h1 & ok & t1 & E & P). unfold life, bnd. rewrite E. cbn [fst snd]. destruct ok.
  - destruct P as (_ & _ & L & Lf & O & F & U1). destruct (many_updates pick FRESH us t1 _ L O h1 _ U1) as (h2 & t2 & L2 & E2 & (L3 & L4 & O3 & N4 & P2) & U2). rewrite E2.
    destruct (C76_destroy t2 _ L3 (L4 ++ Lf ++ Ls ++ R) h2 O3) as (h3 & E3 & U3). { eapply in_use_perm; [|exact U2]. rewrite P2, <- app_assoc. reflexivity. }
    rewrite E3. exists h3, true, (L4 ++ Lf). split; [reflexivity|]. split; [rewrite <- app_assoc; exact U3|]. destruct F as (l & El & A). rewrite app_length, N4, (arrays_length _ _ A), El. lia.
  - destruct P as (Lost & LO & U1). exists h1, false, Lost. split; [reflexivity|]. split; [exact U1|]. exists t1. exact LO.
Qed.
(** So no simulation that is built gives back all its memory. *)
Theorem C76_restored_refuted : forall t0 k says us Ls R h h', owns_elements (k_elements k) says Ls -> inside (k_layers k) says -> in_use h (Ls ++ R) ->
  life try pick (td_init t0) k us h = Ok (h', true) -> ~ in_use h' (Ls ++ R).
Proof.
  intros t0 k says us Ls R h h' OE IN U E [_ P]. destruct (C76_life t0 k says us Ls R h OE IN U) as (h2 & ok & Lost & E2 & [_ P2] & N). rewrite E in E2. injection E2 as <- <-.
  apply Permutation_length in P. apply Permutation_length in P2. rewrite !app_length in *. lia.
Qed.
(** A refused stack leaves the thermal grid, a matrix without factors 16 blocks. *)
Theorem C76_failed_refuted : forall t0 k says Ls R h, owns_elements (k_elements k) says Ls -> inside (k_layers k) says -> in_use h (Ls ++ R) ->
  (forall b h, try b h <> 0) -> k_refused k = true \/ k_singular k = true ->
  exists h' t' Lost, td_build_rest try pick (td_init t0) k h = Ok (h', (false, t')) /\ in_use h' (Lost ++ Ls ++ R) /\
  (if k_refused k then 2 <= List.length Lost else List.length Lost = 16)%nat.
Proof.
  intros t0 k says Ls R h OE IN U T K. destruct (C76_build t0 k says Ls R h OE IN U) as (h' & ok & t' & E & P). destruct ok.
  - destruct P as (A & B & _). destruct K; congruence.
  - destruct P as (Lost & LO & U'). exists h', t', Lost. split; [exact E|]. split; [exact U'|]. destruct LO as [[(b & h0 & X) _]|[[X OG]|(X & _ & Lp & Lf & NP & (l & El & A) & ->)]]; [destruct (T b h0 X)| |]; rewrite X.
    + destruct OG as (n & ls & L1 & _ & _ & _ & _ & ->). cbn [List.length]. lia.
    + rewrite app_length, NP, (arrays_length _ _ A), El. reflexivity.
Qed.
(** Destroying twice frees the arrays of L and U twice: they keep their addresses. *)
Theorem C76_twice_refuted : forall t cs L R h, owns_simulation t cs L -> in_use h (L ++ R) ->
  exists h' t', td_destroy t h = Ok (h', t') /\ td_destroy t' h' = UB.
Proof.
  intros t cs L R h O U. destruct (C76_destroy t cs L R h O U) as (h' & E & U'). exists h', (td_init t). split; [exact E|].
  assert (W : la_nz (sm_la (td_sm t)) <> 0 /\ In (la_nz (sm_la (td_sm t))) (map fst L)).
  { destruct O as (n & L1 & L2 & L3 & L4 & _ & _ & _ & _ & _ & (M1 & M2 & M3 & M4 & M5 & ll & lu & _ & A & _ & _ & _ & _ & _ & _ & ->) & _ & ->). inversion A as [|? ? ? ? NZ]; subst. split; [exact NZ|].
    apply in_map_iff. exists (la_nz (sm_la (td_sm t)), BRaw n0). split; [reflexivity|]. do 2 right. apply in_or_app; right. apply in_or_app; right. apply in_or_app; left. apply in_or_app; right. apply in_or_app; left. left. reflexivity. }
  destruct W as [NZ W]. assert (G : get h' (la_nz (sm_la (td_sm t))) = None).
  { destruct (get h' (la_nz (sm_la (td_sm t)))) eqn:G; [exfalso|reflexivity]. assert (X : In (la_nz (sm_la (td_sm t))) (keys h')) by (destruct (in_dec Z.eq_dec (la_nz (sm_la (td_sm t))) (keys h')) as [X|X]; [exact X|rewrite (get_out _ _ X) in G; discriminate]). destruct U' as [_ P']. unfold keys in X. apply (Permutation_in _ (Permutation_map fst P')) in X. destruct U as [N P]. apply (Permutation_NoDup (Permutation_map fst P)) in N.
    rewrite map_app in N. revert W X. clear -N. induction (map fst L) as [|x l IH]; cbn in *; [tauto|]. inversion N; subst. intros [->|W] X; [apply H1; apply in_or_app; auto|exact (IH H2 W X)]. }
  unfold td_destroy, td_init, sm_init, sm_destroy. cbn. apply Z.eqb_neq in NZ. unfold bnd, frees, free, ret. cbn. rewrite NZ. cbv beta. rewrite G. reflexivity.
Qed.
(** Destroying what has been initialised but not built frees whatever the arrays
    of L and U held before: only null pointers are safe. *)
Theorem C76_unbuilt_refuted : forall t0 h, let l := sm_la (td_sm t0) in let u := sm_ua (td_sm t0) in
  (la_nz l <> 0 -> get h (la_nz l) = None -> td_destroy (td_init t0) h = UB) /\
  (l = mkLa 0 0 0 0 0 0 0 0 0 -> u = mkUa 0 0 0 0 -> td_destroy (td_init t0) h = Ok (h, td_init t0)).
Proof.
  intros t0 h l u. split.
  - intros NZ G. unfold td_destroy, td_init, sm_init, sm_destroy. cbn. fold l. apply Z.eqb_neq in NZ. unfold bnd, frees, free, ret. cbn. rewrite NZ. cbv beta. rewrite G. reflexivity.
  - intros El Eu. unfold l, u in *. unfold td_destroy, td_init, sm_init, sm_destroy. cbn. rewrite El, Eu. reflexivity.
Qed.
(** A non-uniform grid: without memory for the positions they are written all the
    same; without memory for the table the positions are lost. *)
Theorem C76_positions_refuted : forall t k table h,
  let pos := BRaw (Z.of_nat (k_cells k)) in let tab := BPointers (repeat 0 (k_cells k)) in
  (try pos h = 0 -> try tab h <> 0 -> td_build try pick t k true table h = UB) /\
  (try pos h <> 0 -> try tab ((try pos h, pos) :: h) = 0 -> td_build try pick t k true table h = Ok ((try pos h, pos) :: h, (false, t, 0))).
Proof.
  intros t k table h pos tab. unfold td_build, bnd, try_malloc, raw. fold pos tab. split.
  - intros E N. rewrite E. cbn [Z.eqb]. apply Z.eqb_neq in N. rewrite N. unfold bnd. rewrite N. reflexivity.
  - intros N E. apply Z.eqb_neq in N. rewrite N, E. reflexivity.
Qed.
(** With memory for both, the table of the cells is the one block more. *)
Theorem C76_nonuniform : forall t0 k says table Ls R h, owns_elements (k_elements k) says Ls -> inside (k_layers k) says -> in_use h (Ls ++ R) -> (forall b h, try b h <> 0) ->
  let cs := told (repeat empty_layer (k_layers k)) says in
  exists h' ok t' tab l, td_build try pick (td_init t0) k true table h = Ok (h', (ok, t', tab)) /\ tab <> 0 /\
  exists L, in_use h' (L ++ (tab, BPointers l) :: Ls ++ R) /\
  if ok then exists L1 Lf, L = L1 ++ Lf /\ owns_simulation t' cs L1 /\ factors Lf else left_over try k t' cs L.
Proof.
  intros t0 k says table Ls R h OE IN U T cs. unfold td_build, bnd, try_malloc at 1. set (pos := try (raw (k_cells k)) h). destruct (Z.eqb_spec pos 0) as [X|NP]; [destruct (T _ _ X)|].
  set (h1 := (pos, raw (k_cells k)) :: h). unfold try_malloc at 1. set (tb := BPointers (repeat 0 (k_cells k))). set (tab := try tb h1). destruct (Z.eqb_spec tab 0) as [X|NT]; [destruct (T _ _ X)|].
  rewrite (proj2 (Z.eqb_neq _ _) NP), (proj2 (Z.eqb_neq _ _) NT). cbn [ret].
  assert (U1 : in_use h1 ([(pos, raw (k_cells k))] ++ Ls ++ R)).
  { destruct (FAULTY (raw (k_cells k)) h) as [X|G]; [destruct (T _ _ X)|]. destruct U as [N P]. split; [|cbn [app]; apply perm_skip; exact P]. cbn. constructor; [apply get_none, G|exact N]. }
  assert (U2 : in_use ((tab, tb) :: h1) ([(pos, raw (k_cells k))] ++ (tab, tb) :: Ls ++ R)).
  { destruct (FAULTY tb h1) as [X|G]; [destruct (T _ _ X)|]. destruct U1 as [N P]. split; [cbn [map fst]; constructor; [apply get_none, G|exact N]|]. rewrite P. cbn [app]. apply perm_swap. }
  destruct (hoare_free pos (raw (k_cells k)) NP ((tab, tb) :: h1) _ U2) as (h3 & [] & L3 & E3 & -> & U3). change (@bnd unit) with (@bnd unit). cbn [app] in U3. unfold bnd. rewrite E3.
  destruct (C76_build t0 k says Ls ((tab, tb) :: R) h3 OE IN) as (h4 & ok & t' & E4 & P). { eapply in_use_perm; [|exact U3]. apply Permutation_middle. }
  rewrite E4. exists h4, ok, t', tab, (repeat 0 (k_cells k)). split; [reflexivity|]. split; [exact NT|].
  assert (PM : forall L, Permutation (L ++ Ls ++ (tab, tb) :: R) (L ++ (tab, tb) :: Ls ++ R)) by (intros L; apply Permutation_app_head; symmetry; apply Permutation_middle).
  destruct ok.
  - destruct P as (_ & _ & L & Lf & O & F & U4). exists (L ++ Lf). split; [|exists L, Lf; auto]. eapply in_use_perm; [|exact U4]. etransitivity; [|apply PM]. rewrite <- app_assoc. reflexivity.
  - destruct P as (Lost & LO & U4). exists Lost. split; [|exact LO]. eapply in_use_perm; [|exact U4]. apply PM.
Qed.
End Claims.

(** ** The hypotheses can be met *)
Definition some_memory (n : nat) (b : block) (h : heap) : addr := if (List.length h <? n)%nat then next h else 0.
Theorem C76_witness_allocators : (forall n, faulty (some_memory n)) /\ faulty (fun _ => next) /\ (forall h, next h <> 0) /\ allocator next /\ exhausted (some_memory 3).
Proof.
  pose proof C75_witness_allocator as A. split; [|split; [|split; [|split]]].
  - intros n b h. unfold some_memory. destruct (_ <? _)%nat; [right; apply A|left; reflexivity].
  - intros b h. right. apply A.
  - intros h. apply A.
  - exact A.
  - exists (BRaw 0), [(1, BRaw 0); (2, BRaw 0); (3, BRaw 0)]. reflexivity.
Qed.
(** A stack with a channel of two layers below a layer of silicon, and 3 layers of 2 cells. *)
Definition l_stack : heap := [(4, BText [99; 100]); (1, BText [97]); (3, BText [98]); (5, BText [99; 100])].
Definition l_case (refused singular : bool) : case := mkCase 3 6 2 2 14 84 84 10 [EChannel 0 2 (1 # 10) (mkMatV 4 2 3 3 3) 1; ELayer 2 (mkLayerV 3 0 (1 # 10) (mkMatV 5 2 3 3 3) list_init 0 0)] refused singular.
Definition junk : td_v := mkTd 11 (mkTg 12 13 14) (mkPg 15 16 17 18 19 20) (mkSm 21 22 23 24 25 26 27 gs_init so_init (mkLa 31 32 33 34 35 36 37 38 39) (mkUa 41 42 43 44) true) 28.
Lemma l_owned : exists says, owns_elements (k_elements (l_case false false)) says l_stack /\ inside 3 says.
Proof.
  assert (W : exists says, owns_elements (k_elements (l_case false false)) says ([(4, BText [99; 100]); (1, BText [97])] ++ [(3, BText [98]); (5, BText [99; 100])] ++ []) /\ inside 3 says); [|exact W].
  assert (M : forall a t, a <> 0 -> owns_material (mkMatV a 2 3 3 3) (TRec [TText t; TNum 2; TNum 3; TNum 3; TNum 3]) [(a, BText t)]).
  { intros a t N. eexists. split; [reflexivity|]. apply (fields_intro _ _ _ _ [_] []); [right; exists t; auto|]. do 4 (apply (fields_intro _ _ _ _ [] []); [split; reflexivity|]). exact (eq_refl : fields [] [] []). }
  eexists. split.
  - cbn [l_case k_elements owns_elements]. eexists. exists (numbered 2 [TRec [TText [98]; TNull; TNum (1 # 10); TRec [TText [99; 100]; TNum 2; TNum 3; TNum 3; TNum 3]; TRec []; TInt 0; TInt 0]] ++ []).
    exists [(4, BText [99; 100]); (1, BText [97])], ([(3, BText [98]); (5, BText [99; 100])] ++ []). split; [reflexivity|]. split; [reflexivity|]. split.
    + exists (TRec [TText [99; 100]; TNum 2; TNum 3; TNum 3; TNum 3]), (TText [97]), [(4, BText [99; 100])], [(1, BText [97])]. split; [apply M; discriminate|]. split; [right; exists [97]; split; [discriminate|auto]|]. split; reflexivity.
    + eexists _, [], _, []. split; [reflexivity|]. split; [reflexivity|]. split; [|split; reflexivity]. eexists. split; [|reflexivity].
      eexists. split; [reflexivity|]. apply (fields_intro _ _ _ _ [_] [_]); [right; exists [98]; split; [discriminate|auto]|]. apply (fields_intro _ _ _ _ [] [_]); [left; auto|]. apply (fields_intro _ _ _ _ [] [_]); [split; reflexivity|].
      apply (fields_intro _ _ _ _ [_] []); [apply M; discriminate|]. apply (fields_intro _ _ _ _ [] []); [apply list_blank|]. do 2 (apply (fields_intro _ _ _ _ [] []); [split; reflexivity|]). exact (eq_refl : fields [] [] []).
  - cbn. repeat constructor; cbn; lia.
Qed.
Lemma l_used : in_use l_stack (l_stack ++ []).
Proof. split; [|rewrite app_nil_r; reflexivity]. cbn. repeat constructor; cbn; intuition discriminate. Qed.
Theorem C76_witness : (exists says, owns_elements (k_elements (l_case false false)) says l_stack /\ inside 3 says) /\ in_use l_stack (l_stack ++ []) /\
  exists h', life (fun _ => next) next (td_init junk) (l_case false false) [false; true] l_stack = Ok (h', true) /\ List.length h' = 43%nat.
Proof.
  split; [exact l_owned|]. split; [exact l_used|]. set (e := life _ _ _ _ _ _). vm_compute in e. subst e. eexists. split; reflexivity.
Qed.
(** Destroying after a failed build frees the temperatures twice, if the stack was
    refused and if there was no memory; after a matrix without factors it is the
    second destruction. *)
Theorem C76_failed_destroy_refuted :
  (exists h t, td_build_rest (fun _ => next) next (td_init junk) (l_case true false) l_stack = Ok (h, (false, t)) /\ td_destroy t h = UB) /\
  (exists h t, td_build_rest (some_memory 17) next (td_init junk) (l_case false false) l_stack = Ok (h, (false, t)) /\ List.length h = 4%nat /\ td_destroy t h = UB) /\
  (exists h t, td_build_rest (fun _ => next) next (td_init junk) (l_case false true) l_stack = Ok (h, (false, t)) /\ td_destroy t h = UB).
Proof.
  split; [|split]; set (e := td_build_rest _ _ _ _ _); vm_compute in e; subst e; eexists; eexists; repeat split; vm_compute; reflexivity.
Qed.
