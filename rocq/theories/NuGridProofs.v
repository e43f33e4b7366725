(** * The grid of a whole stack: cells, layers, connections *)
From Coq Require Import ZArith List Bool QArith Lia Permutation ZifyBool.
From Verif Require Import Base DList DListProofs Dims Floorplan FloorplanProofs Stack NonUniform NuParallel NuSpec NuGeomProofs NuContactProofs NuCountProofs NuPositionProofs NuRangeProofs NuConnProofs NuPairProofs NuParProofs.
Import ListNotations.
Local Open Scope Z_scope.

Lemma sources_fill : forall e, some_cells e -> sources_ok (fill e).
Proof.
  intros e H. destruct e as [x| |]; [|exact I|exact I]. cbn [fill sources_ok]. intros _. unfold positive_els. cbn [with_els nd_els]. fold (with_els x (map (fill_el x) (nd_els x))). apply Forall_map. eapply Forall_impl; [|exact H]. intros e E.
  pose proof (discretisation_fill x (map (fill_el x) (nd_els x)) e) as F. cbv beta. rewrite F. exact E.
Qed.

Theorem grid_spec : forall d top past es, nu_stack_ok d top es -> Forall some_cells es ->
    let g := grid d top es in
    exists st, nu_grid d top past es = Ok (Z.of_nat (length (grid_cells g)), rev (ranged_stack d [] (rev (map fill es))), st) /\
               st_at (d_heights d ++ [past]) (Z.to_nat (d_nlayers d + 1)) g st.
Proof.
  intros d top past es OK SC g. pose proof OK as (G & T & F & NL & HL & LW & CW). unfold nu_grid. rewrite update_spec by assumption. cbn [bind fst snd]. fold g in CW |- *. rewrite u32_id by lia.
  destruct (position_spec d top past (map fill es) (ok_fill d top es OK)) as (st & P & ST).
  - apply Forall_map. eapply Forall_impl; [|exact SC]. exact sources_fill.
  - rewrite grid_fill in P, ST. fold g in P, ST. rewrite P. cbn [bind fst snd]. exists st. split; [reflexivity|exact ST].
Qed.

Lemma number_rects : forall hs g l, map c_rect (number hs l g) = grid_rects g.
Proof.
  intros hs g. unfold grid_rects. induction g as [|L g IH]; intros l; [reflexivity|]. cbn [number grid_cells flat_map]. rewrite !map_app, IH, map_map. reflexivity.
Qed.

Lemma st_rects : forall hs N g st, st_at hs N g st -> map c_rect (ns_cells st) = grid_rects g.
Proof. intros hs N g st (C & _). rewrite C. apply number_rects. Qed.

(** Cells of layer [l]. *)
Lemma layer_slice : forall hs g l, (l < length g)%nat -> slice (number hs 0 g) (first_cell g l) (first_cell g (S l) - 1) = map (cell_of hs l) (snd (nth l g (0, []))).
Proof.
  intros hs g l L. destruct (nth_split g (0, []) L) as (g1 & g2 & E & LL). set (X := nth l g (0, [])) in *. destruct X as (t, c).
  rewrite E. rewrite <- LL. replace c with ([] ++ c ++ []) at 1 2 3 by apply app_nil_r. apply slice_cells; [cbn; lia|].
  replace (S (length g1)) with (length (g1 ++ [(t, [] ++ c ++ [])])) by (rewrite app_length; cbn; lia).
  replace (g1 ++ (t, [] ++ c ++ []) :: g2) with ((g1 ++ [(t, [] ++ c ++ [])]) ++ g2) at 1 by (rewrite <- app_assoc; reflexivity).
  rewrite first_cell_prefix by lia. rewrite first_cell_all. rewrite first_cell_prefix by lia. rewrite first_cell_all. rewrite grid_cells_app, app_length. unfold grid_cells at 2. cbn [flat_map snd app]. rewrite !app_nil_r. lia.
Qed.

Theorem connections_spec : forall d top past es, nu_stack_ok d top es -> Forall some_cells es -> Forall (fun e => 0 < nu_nlayers e) es -> bottom_solid es ->
    exists n es' st rs, nu_grid d top past es = Ok (n, es', st) /\ all_regions d st = Ok rs /\ sequential rs = all_conns d top es (grid_rects (grid d top es)).
Proof.
  intros d top past es OK SC POS B. destruct (grid_spec d top past es OK SC) as (st & P & ST).
  destruct (sequential_spec d top es _ st OK ST (bottom_types d top es B POS)) as (rs & R & E). rewrite (st_rects _ _ _ _ ST) in E.
  do 4 eexists. split; [exact P|]. split; [exact R|exact E].
Qed.

Lemma run_lists : forall rs mem, par_run rs lstart mem ->
    exists cs, walk_forward (ls_heap mem) (ls_reg mem 0) = Ok cs /\ l_size (ls_reg mem 0) = u32 (Z.of_nat (length cs)) /\ Permutation cs (sequential rs).
Proof.
  intros rs mem R. destruct (run_spec rs _ _ R (fun _ => []) holds_start ltac:(reflexivity)) as (s & H & P & _). exists (s 0%nat). destruct (holds_read _ _ H 0%nat) as (A & B). split; [exact A|]. split; [exact B|exact P].
Qed.

Lemma run_inv : forall rs mem, par_run rs lstart mem -> exists s, holds mem s /\ forall t, s (S t) = [].
Proof. intros rs mem R. destruct (run_spec rs _ _ R (fun _ => []) holds_start ltac:(reflexivity)) as (s & H & _ & E). exists s. auto. Qed.

Lemma run_completes : forall rs mem r n p, par_run rs lstart mem -> (0 < n)%nat -> par_steps r n (par_start r mem) p -> exists p', par_steps r n p p' /\ par_done n p'.
Proof.
  intros rs mem r n p R N ST. destruct (run_inv rs mem R) as (s & H & E). apply (completes r n N (s 0%nat) p). exact (inv_steps r n _ _ _ ST (inv_start r n mem (s 0%nat) s H eq_refl E)).
Qed.

Lemma run_defined : forall rs mem r n p, par_run rs lstart mem -> par_steps r n (par_start r mem) p ->
    forall t, (forall c, exists m', lstep (pr_mem p) (LInsEnd (S t) c) = Ok m') /\ exists m', lstep (pr_mem p) (LMerge 0%nat (S t)) = Ok m'.
Proof.
  intros rs mem r n p R ST t. destruct (run_inv rs mem R) as (s & H & E). destruct (inv_steps r n _ _ _ ST (inv_start r n mem (s 0%nat) s H eq_refl E)) as (s' & H' & _).
  split; [intros c; destruct (holds_step _ _ (LInsEnd (S t) c) H' I) as (m' & L & _); exists m'; exact L|]. destruct (holds_step _ _ (LMerge 0%nat (S t)) H' ltac:(discriminate)) as (m' & L & _). exists m'. exact L.
Qed.
