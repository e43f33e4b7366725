(** * A small stack with a coolant on the non-uniform grid: a plain layer, a
      channel with walls and another plain layer *)
From Coq Require Import ZArith List Bool QArith Lia Sorted Permutation.
From Verif Require Import Base QSum Dims DimsSpec DimsProofs FloorplanSpec CellProofs SourceProofs Queue QueueProofs Floorplan FloorplanProofs Stack StackSpec StackProofs PowerGrid Emulate EmulateSpec Conduct Matrix MatrixSpec BalanceSpec SimWitness MatrixWitness Flow NonUniform NuSpec NuCountProofs NuConnProofs NuPairProofs NuGridProofs NuMatrix NuMatrixSpec NuMatrixProofs NuSource NuSourceSpec NuEmulate NuRunSpec PropNonUniform PropNuGrid PropNuMatrix PropNuSource NuMini NuFlow.
Import ListNotations.
Local Open Scope Z_scope.

(** [n] columns of 100 by 3 rows of 100; the lower layer is cut in [a] by [b]. *)
Definition cool_dims (n : Z) : dims := mkDims 100 100 100 100 100 [10; 20; 10]%Q 3 3 n (9 * n) (qz (100 * n)) 300.
Definition cool_stack (a b : Z) : list nu_kind := [NuLayer 1 1; NuChannel CM_MC_4RM; NuLayer a b].
Definition cool_channel : channel := mkChannel CM_MC_4RM 1 0 20 0 0 1 demo_mat 1 1 1 1 300 100 0 0.
Definition cool_grid : tgrid := mkTgrid [LT_SOLID; LT_CHANNEL_4RM; LT_SOLID_AMBIENT] [demo_layer; mkLayer 20 demo_mat []; demo_layer] (Some cool_channel) demo_top None.
Definition cool_G (n a b : Z) : list nlayer := grid (cool_dims n) demo_top (cool_stack a b).
Definition cool_hs : list Q := [10; 20; 10; 7]%Q.
Definition cool_cells (n a b : Z) : list cell := number cool_hs 0 (cool_G n a b).
Definition cool_conns (n a b : Z) : list conn := all_conns (cool_dims n) demo_top (cool_stack a b) (grid_rects (cool_G n a b)).
Definition cool_case (n a b : Z) : Prop := (n = 3 /\ a = 1 /\ b = 1) \/ (n = 5 /\ a = 1 /\ b = 1) \/ (n = 3 /\ a = 3 /\ b = 3).
Ltac cool H := destruct H as [(-> & -> & ->)|[(-> & -> & ->)|(-> & -> & ->)]].

Lemma cool_ok : forall n a b, cool_case n a b -> nu_stack_ok (cool_dims n) demo_top (cool_stack a b) /\ Forall some_cells (cool_stack a b).
Proof.
  intros n a b H. split; [|cool H; repeat constructor].
  split; [cool H; repeat constructor; try discriminate; vm_compute; try reflexivity; try discriminate|]. split; [discriminate|]. split; [cool H; unfold good_factors, two32; cbn; lia|]. split; [reflexivity|]. split; [reflexivity|]. split; [vm_compute; reflexivity|]. cool H; vm_compute; reflexivity.
Qed.
Lemma cool_positive : forall n a b, cool_case n a b -> Forall positive_kind (cool_stack a b).
Proof. intros n a b H. cool H; repeat constructor; try discriminate. Qed.
Lemma cool_grid_good : forall n a b, cool_case n a b -> good_tgrid (cool_dims n) cool_grid.
Proof.
  intros n a b H. constructor; try (cbn; lia); try discriminate; try (intros _; reflexivity).
  - unfold good_grid, cool_dims. cbn. unfold two32. cool H; repeat split; try lia; try reflexivity; left; repeat split; reflexivity.
  - constructor; cbn; unfold two32; try (cool H; lia).
  - split; [intros (s & h & m & E); discriminate E|discriminate].
  - cbn. intros X. exfalso. apply X. reflexivity.
  - intros l L. cbn in L. assert (l = 0 \/ l = 1 \/ l = 2) as [-> | [-> | ->]] by lia.
    + left. cbn. repeat split; try discriminate.
    + right. exists 1, 0%nat. exists cool_channel. cbn. repeat split; try lia; destruct i as [|i]; cbn in H0; try discriminate; try (injection H0 as <-; reflexivity); destruct i; discriminate.
    + left. cbn. repeat split; try discriminate; intros; try lia. exists 1%Q, 300%Q. reflexivity.
Qed.
Lemma cool_physical : forall n, physical cool_grid (cool_dims n).
Proof.
  intros n. constructor.
  - repeat constructor.
  - repeat constructor; reflexivity.
  - intros ch [= <-]. split; [reflexivity|]. cbn. repeat split; reflexivity.
  - intros h a [= <- _]. reflexivity.
  - discriminate.
  - discriminate.
Qed.
Lemma cool_conns_good : forall n a b, cool_case n a b -> good_conns (Z.of_nat (length (cool_cells n a b))) (cool_conns n a b).
Proof.
  intros n a b H. constructor.
  - cool H; vm_compute; reflexivity.
  - apply (all_conns_NoDup (cool_dims n) demo_top (cool_stack a b)).
  - intros c I. pose proof (conn_range (cool_dims n) demo_top (cool_stack a b) _ c I) as X. unfold cool_cells. rewrite number_length. exact X.
  - cool H; vm_compute; reflexivity.
Qed.
Definition cool_cell_b (c : cell) : bool := (0 <=? c_layer c) && (c_layer c <? 3) && Qlt_bool 0 (c_length c) && Qlt_bool 0 (c_width c).
Lemma cool_cells_ok : forall n a b, cool_case n a b -> forall c, In c (cool_cells n a b) -> in_stack cool_grid (cool_dims n) c /\ one_material cool_grid c /\ positive_cell cool_grid c.
Proof.
  intros n a b H. assert (F : forallb cool_cell_b (cool_cells n a b) = true) by (cool H; vm_compute; reflexivity). intros c I. rewrite forallb_forall in F. specialize (F c I). unfold cool_cell_b in F.
  repeat (apply andb_true_iff in F; let X := fresh "X" in destruct F as (F & X)). apply Z.leb_le in F. apply Z.ltb_lt in X1. apply Qlt_bool_iff' in X, X0. unfold in_stack, one_material, positive_cell, cell_layer. cbn [d_nlayers cool_dims].
  split; [lia|]. assert (c_layer c = 0 \/ c_layer c = 1 \/ c_layer c = 2) as [E|[E|E]] by lia; rewrite E; cbn; repeat split; auto; discriminate.
Qed.
Lemma cool_describes : forall a b, describes (cool_stack a b) cool_grid [None; None; None] (fun _ => []).
Proof.
  intros a b. assert (E : profile (cool_stack a b) = [None; None; None]) by reflexivity. assert (CH : channels_of (cool_stack a b) = [false; true; false]) by reflexivity.
  assert (TY : forall l, (3 <= l)%nat -> type_of cool_grid (Z.of_nat l) = LT_NONE) by (intros l L; unfold type_of; rewrite Nat2Z.id; apply nth_overflow; cbn; lia).
  constructor; try reflexivity; rewrite ?E, ?CH.
  - intros l. destruct l as [|[|[|l]]]; try (split; [discriminate|intros (x & X); discriminate X]). rewrite TY by lia. split; [discriminate|intros (x & X)]. destruct l; discriminate X.
  - intros [|[|[|l]]] H; try discriminate H; try reflexivity. rewrite TY in H by lia. discriminate H.
  - intros [|[|[|l]]] x H; try discriminate H. destruct l; discriminate H.
Qed.

Definition cool_an : analysis := mkAnalysis AT_TRANSIENT 1000 10 0 300.
(** The matrix, the powers and a simulation at 300 K; a change of the flow rate. *)
Definition matrix_of (g : tgrid) (d : dims) (an : analysis) (cells : list cell) (cs : list conn) : outcome sysmatrix :=
  let nconn := nu_connections (Z.of_nat (length cs)) (Z.of_nat (length cells)) in
  do table <- nu_table g d an cells cs nconn ;
  if in_order (arrange table) then nu_vectors (system_matrix_build (Z.of_nat (length cells)) nconn) (arrange table) else UB.
Lemma matrix_of_good : forall g d an cells cs m, matrix_of g d an cells cs = Ok m -> nu_matrix g d an cells cs m.
Proof.
  intros g d an cells cs m H. unfold matrix_of in H. unfold nu_matrix. destruct (nu_table _ _ _ _ _ _) as [table| |] eqn:T; try discriminate. cbn [bind] in H. destruct (in_order (arrange table)) eqn:O; [|discriminate].
  exists table, (arrange table). split; [reflexivity|]. split; [|exact H]. split; [apply arrange_perm|apply in_order_sorted; exact O].
Qed.
Definition cool_sim (n a b : Z) : outcome (nsim unit) :=
  let cells := cool_cells n a b in let k := length cells in
  do m <- matrix_of cool_grid (cool_dims n) cool_an cells (cool_conns n a b) ; do pg <- nu_power_grid cool_grid (cool_dims n) cells (Z.of_nat k) [None; None; None] ; Ok (mkNsim (repeat 300%Q k) pg m cool_an tt).
Lemma cool_start : forall n a b s, cool_case n a b -> cool_sim n a b = Ok s ->
    nu_start cool_grid (cool_dims n) cool_hs (cool_G n a b) (cool_conns n a b) (fun _ => []) s /\ np_cells (n_pg s) = cool_cells n a b /\ n_an s = cool_an /\ n_temps s = repeat 300%Q (length (cool_cells n a b)).
Proof.
  intros n a b s C H. unfold cool_sim in H. cbv zeta in H. destruct (matrix_of _ _ _ _ _) as [m| |] eqn:M; try discriminate. cbn [bind] in H. destruct (nu_power_grid _ _ _ _ _) as [pg| |] eqn:P; try discriminate. cbn [bind] in H. injection H as <-. cbn [n_pg n_an n_temps].
  destruct (cool_ok n a b C) as (OK & SC). destruct (C58_stack (cool_dims n) demo_top 7 (cool_stack a b) cool_grid [None; None; None] (fun _ => []) pg OK SC (cool_positive n a b C) (cool_grid_good n a b C) eq_refl (cool_describes a b)) as (n1 & es' & st & EG & RD).
  destruct (C41_cells (cool_dims n) demo_top 7 (cool_stack a b) OK SC) as (n2 & es2 & st2 & EG2 & N & CE & _). rewrite EG in EG2. injection EG2 as <- <- <-. rewrite CE in RD.
  change (number (d_heights (cool_dims n) ++ [7%Q]) 0 (grid (cool_dims n) demo_top (cool_stack a b))) with (cool_cells n a b) in RD, CE. rewrite CE in N. rewrite N in RD. specialize (RD P).
  assert (PG : np_grid pg = cool_grid /\ np_cells pg = cool_cells n a b /\ nu_caps cool_grid (cool_dims n) (cool_cells n a b) (Z.of_nat (length (cool_cells n a b))) = Ok (np_caps pg)).
  { unfold nu_power_grid in P. destruct (nu_top_tcs _ _ _); try discriminate. cbn [bind] in P. destruct (nu_bottom_tcs _ _ _); try discriminate. cbn [bind] in P. destruct (nu_caps _ _ _ _); try discriminate. cbn [bind] in P. injection P as <-. repeat split. }
  destruct PG as (P1 & P2 & P3). split; [|repeat split; assumption]. constructor; cbn [n_pg n_matrix n_temps n_an]; rewrite ?P2; try assumption; try reflexivity.
  - constructor; [apply (cool_grid_good n a b C)|apply cool_physical|apply cool_cells_ok; exact C|apply cool_conns_good; exact C|apply matrix_of_good; exact M].
  - apply repeat_length.
  - cbn. unfold two32. lia.
  - discriminate.
  - intros sp h m2 X. discriminate X.
Qed.
Definition flow_of (d : dims) (cs : list conn) (s : nsim unit) (fr : Q) : outcome (error_t * nsim unit) :=
  match tg_channel (np_grid (n_pg s)) with
  | None => UB
  | Some ch =>
    let pg' := set_channel_npgrid (n_pg s) (set_flow ch (flow_rate_um3sec fr)) in
    do table <- nu_table (np_grid pg') d (n_an s) (np_cells pg') cs (nu_connections (Z.of_nat (length cs)) (Z.of_nat (length (np_cells pg')))) ;
    if in_order (arrange table) then
      do m <- nu_vectors (n_matrix s) (arrange table) ;
      do pg2 <- nu_update_channel pg' d ;
      Ok (TDICE_SUCCESS, mkNsim (n_temps s) pg2 m (n_an s) (n_plugin s))
    else NoFuel
  end.
Lemma flow_of_good : forall d cs s fr r, flow_of d cs s fr = r -> r <> NoFuel -> nu_update_flow (fun _ => TDICE_SUCCESS) d cs s fr r.
Proof.
  intros d cs s fr r <- NF. unfold flow_of, nu_update_flow in *. destruct (tg_channel (np_grid (n_pg s))); [|reflexivity]. cbv zeta in *. destruct (nu_table _ _ _ _ _ _) as [table| |]; try reflexivity. cbn [bind] in *.
  destruct (in_order (arrange table)) eqn:O; [|congruence]. exists (arrange table). split; [split; [apply arrange_perm|apply in_order_sorted; exact O]|]. reflexivity.
Qed.
