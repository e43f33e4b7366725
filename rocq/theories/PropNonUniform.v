(** * C38: parallel search of the connections of the non-uniform grid *)
From Coq Require Import ZArith List Bool QArith Lia Lqa Permutation.
From Verif Require Import Base QSum DList DListProofs Dims DimsSpec DimsProofs Floorplan FloorplanProofs Stack NonUniform NuParallel NuSpec NuGeomProofs NuContactProofs NuCountProofs NuPositionProofs NuRangeProofs NuConnProofs NuPairProofs NuParProofs NuGridProofs NuTouchProofs NuTileProofs.
Import ListNotations.
Local Open Scope Z_scope.

(** ** A stack: a plain layer on a die with two elements, the second with its own
    discretisation. *)
Definition demo_mat : material := mkMaterial 1 1 1 1.
Definition demo_layer : layer := mkLayer 10 demo_mat [].
Definition icel_a : nu_icel := mkNuIcel 0 0 100 300 0 0 None 0 0.
Definition icel_b : nu_icel := mkNuIcel 100 0 200 300 1 3 (Some (mkMaterial 2 2 2 2)) 0 0.
Definition demo_die : nu_die := mkNuDie [demo_layer; demo_layer] 1 1 1 [mkNuEl icel_a []; mkNuEl icel_b []].
Definition demo_stack : list nu_kind := [NuLayer 2 2; NuDie demo_die].
Definition demo_top : option top_sink := Some (SinkTop 1 300).
Definition demo_dims : dims := mkDims 100 100 100 100 100 [10; 20; 10]%Q 3 3 3 27 300 300.
Example demo_dims_read : parse_dims 300 300 100 100 (Uniform 100) [10; 20; 10]%Q 0 = Ok (Some demo_dims).
Proof. vm_compute. reflexivity. Qed.
Lemma demo_ok : nu_stack_ok demo_dims demo_top demo_stack /\ Forall some_cells demo_stack /\ Forall (fun e => 0 < nu_nlayers e) demo_stack /\ bottom_solid demo_stack.
Proof.
  split; [|split; [|split]].
  - split; [repeat constructor; try discriminate; vm_compute; try reflexivity; try discriminate|]. split; [discriminate|]. split; [unfold good_factors, two32; cbn; lia|]. split; [reflexivity|]. split; [reflexivity|]. split; [vm_compute; reflexivity|]. vm_compute. reflexivity.
  - repeat constructor.
  - repeat constructor.
  - reflexivity.
Qed.

(** ** C38 *)
(** Whatever the number of threads, the chunks, the order of the merges and the
    interleaving: if all the regions are left, the list holds the connections of
    one thread alone, in some order. *)
Theorem C38_any_schedule : forall d top past es,
    nu_stack_ok d top es -> Forall some_cells es -> Forall (fun e => 0 < nu_nlayers e) es -> bottom_solid es ->
    exists n es' st rs, nu_grid d top past es = Ok (n, es', st) /\ all_regions d st = Ok rs /\
    forall mem, par_run rs lstart mem ->
      exists cs, walk_forward (ls_heap mem) (ls_reg mem 0) = Ok cs /\
                 l_size (ls_reg mem 0) = u32 (Z.of_nat (length cs)) /\
                 Permutation cs (sequential rs).
Proof.
  intros d top past es OK SC POS B. destruct (connections_spec d top past es OK SC POS B) as (n & es' & st & rs & G & R & _).
  exists n, es', st, rs. split; [exact G|]. split; [exact R|]. intros mem RUN. exact (run_lists rs mem RUN).
Qed.
Print Assumptions C38_any_schedule.

(** No schedule gets stuck, and every insertion and merge a thread can attempt
    is defined (no access to freed or unallocated memory). *)
Theorem C38_no_deadlock : forall done mem r n p,
    par_run done lstart mem -> (0 < n)%nat -> par_steps r n (par_start r mem) p ->
    exists p', par_steps r n p p' /\ par_done n p'.
Proof. exact run_completes. Qed.
Print Assumptions C38_no_deadlock.
Theorem C38_steps_defined : forall done mem r n p,
    par_run done lstart mem -> par_steps r n (par_start r mem) p ->
    forall t, (forall c, exists m', lstep (pr_mem p) (LInsEnd (S t) c) = Ok m') /\
              exists m', lstep (pr_mem p) (LMerge 0%nat (S t)) = Ok m'.
Proof. exact run_defined. Qed.
Print Assumptions C38_steps_defined.

(** Every number of threads in each region has complete runs. *)
Theorem C38_runs_exist : forall rs (threads : list nat), length threads = length rs -> Forall (fun n => (0 < n)%nat) threads ->
    exists mem, par_run rs lstart mem.
Proof. intros rs ns L F. exact (run_exists rs lstart _ ns L F holds_start (fun _ => eq_refl)). Qed.

Example C38_witness : exists n es' st rs mem, nu_grid demo_dims demo_top 7 demo_stack = Ok (n, es', st) /\ all_regions demo_dims st = Ok rs /\
    length (sequential rs) = 28%nat /\ par_run rs lstart mem.
Proof.
  destruct demo_ok as (OK & SC & POS & B). destruct (connections_spec demo_dims demo_top 7 demo_stack OK SC POS B) as (n & es' & st & rs & G & R & E).
  destruct (C38_runs_exist rs (repeat 4%nat (length rs)) ltac:(apply repeat_length) ltac:(apply Forall_forall; intros k I; apply repeat_spec in I; lia)) as (mem & RUN).
  exists n, es', st, rs, mem. split; [exact G|]. split; [exact R|]. split; [|exact RUN]. rewrite E. vm_compute. reflexivity.
Qed.

(** The order does depend on the schedule: two threads that merge one way or the
    other. *)
Definition two_region : region := mkRegion 0 2 (fun i => [mkConn i (i + 1) 0 0 1 1]).
Lemma run_two : forall t u, t = 0%nat /\ u = 1%nat \/ t = 1%nat /\ u = 0%nat ->
    exists mem, par_run [two_region] lstart mem /\
      walk_forward (ls_heap mem) (ls_reg mem 0) = Ok [mkConn (Z.of_nat t) (Z.of_nat t + 1) 0 0 1 1; mkConn (Z.of_nat u) (Z.of_nat u + 1) 0 0 1 1].
Proof.
  intros t u C.
  assert (exists m1 m2 m3 m4, lstep lstart (LInsEnd (S t) (mkConn (Z.of_nat t) (Z.of_nat t + 1) 0 0 1 1)) = Ok m1 /\ lstep m1 (LInsEnd (S u) (mkConn (Z.of_nat u) (Z.of_nat u + 1) 0 0 1 1)) = Ok m2 /\
     lstep m2 (LMerge 0 (S t)) = Ok m3 /\ lstep m3 (LMerge 0 (S u)) = Ok m4 /\
     walk_forward (ls_heap m4) (ls_reg m4 0) = Ok [mkConn (Z.of_nat t) (Z.of_nat t + 1) 0 0 1 1; mkConn (Z.of_nat u) (Z.of_nat u + 1) 0 0 1 1]) as (m1 & m2 & m3 & m4 & E1 & E2 & E3 & E4 & E5).
  { destruct C as [(-> & ->)|(-> & ->)]; do 4 eexists; (split; [reflexivity|]); (split; [reflexivity|]); (split; [reflexivity|]); (split; [reflexivity|]); reflexivity. }
  exists m4. split; [|exact E5].
  destruct C as [(-> & ->)|(-> & ->)].
  - eapply (pr_cons two_region [] 2 lstart (mkPar _ _ _ _ m4) m4); [lia| | |exact (pr_nil m4)].
    + unfold par_start. change (rg_iterations two_region) with ([] ++ [0] ++ [1])%Z.
      eapply pss_step; [apply (ps_take two_region 2 0%nat [] [0] [1]); lia|]. cbn [app]. 
      eapply pss_step; [apply (ps_take two_region 2 1%nat [] [1] []); lia|]. cbn [app].
      eapply pss_step; [eapply (ps_begin two_region 2 0%nat 0 []); [lia|reflexivity|reflexivity]|].
      eapply pss_step; [eapply (ps_insert two_region 2 0%nat); [lia|reflexivity|exact E1]|].
      eapply pss_step; [eapply (ps_begin two_region 2 1%nat 1 []); [lia|reflexivity|reflexivity]|].
      eapply pss_step; [eapply (ps_insert two_region 2 1%nat); [lia|reflexivity|exact E2]|].
      eapply pss_step; [eapply (ps_merge two_region 2 0%nat); [lia|reflexivity|reflexivity|reflexivity|exact E3]|].
      eapply pss_step; [eapply (ps_merge two_region 2 1%nat); [lia|reflexivity|reflexivity|reflexivity|exact E4]|]. apply pss_refl.
    + split; [reflexivity|]. intros t T. cbn. destruct t as [|[|t]]; [repeat split|repeat split|lia].
  - eapply (pr_cons two_region [] 2 lstart (mkPar _ _ _ _ m4) m4); [lia| | |exact (pr_nil m4)].
    + unfold par_start. change (rg_iterations two_region) with ([] ++ [0] ++ [1])%Z.
      eapply pss_step; [apply (ps_take two_region 2 0%nat [] [0] [1]); lia|]. cbn [app]. 
      eapply pss_step; [apply (ps_take two_region 2 1%nat [] [1] []); lia|]. cbn [app].
      eapply pss_step; [eapply (ps_begin two_region 2 1%nat 1 []); [lia|reflexivity|reflexivity]|].
      eapply pss_step; [eapply (ps_insert two_region 2 1%nat); [lia|reflexivity|exact E1]|].
      eapply pss_step; [eapply (ps_begin two_region 2 0%nat 0 []); [lia|reflexivity|reflexivity]|].
      eapply pss_step; [eapply (ps_insert two_region 2 0%nat); [lia|reflexivity|exact E2]|].
      eapply pss_step; [eapply (ps_merge two_region 2 1%nat); [lia|reflexivity|reflexivity|reflexivity|exact E3]|].
      eapply pss_step; [eapply (ps_merge two_region 2 0%nat); [lia|reflexivity|reflexivity|reflexivity|exact E4]|]. apply pss_refl.
    + split; [reflexivity|]. intros t T. cbn. destruct t as [|[|t]]; [repeat split|repeat split|lia].
Qed.
Example C38_orders_differ : exists mem mem' cs cs', par_run [two_region] lstart mem /\ par_run [two_region] lstart mem' /\
    walk_forward (ls_heap mem) (ls_reg mem 0) = Ok cs /\ walk_forward (ls_heap mem') (ls_reg mem' 0) = Ok cs' /\ cs <> cs'.
Proof.
  destruct (run_two 0 1 ltac:(left; auto)) as (mem & R & E). destruct (run_two 1 0 ltac:(right; auto)) as (mem' & R' & E').
  exists mem, mem'. do 2 eexists. split; [exact R|]. split; [exact R'|]. split; [exact E|]. split; [exact E'|]. cbn. congruence.
Qed.
