(** * A small simulation on the non-uniform grid: a plain layer on a die with two
      elements, 5 cells *)
From Coq Require Import ZArith List Bool QArith Lia Sorted Permutation.
From Verif Require Import Base QSum Dims DimsSpec DimsProofs FloorplanSpec CellProofs SourceProofs Queue QueueProofs Floorplan FloorplanProofs Stack StackSpec StackProofs PowerGrid Emulate EmulateSpec Conduct Matrix MatrixSpec BalanceSpec SimWitness MatrixWitness NonUniform NuSpec NuCountProofs NuConnProofs NuPairProofs NuGridProofs NuMatrix NuMatrixSpec NuMatrixProofs NuSource NuSourceSpec PropNonUniform PropNuGrid PropNuMatrix PropNuSource NuEmulate NuRunSpec.
Import ListNotations.
Local Open Scope Z_scope.

Definition mini_die : nu_die := mkNuDie [demo_layer] 0 1 1 [mkNuEl icel_a []; mkNuEl icel_b []].
Definition mini_stack : list nu_kind := [NuLayer 1 1; NuDie mini_die].
Definition mini_dims : dims := mkDims 100 100 100 100 100 [10; 20]%Q 2 3 3 18 300 300.
Definition mini_grid (b : option bottom_sink) : tgrid :=
  mkTgrid [match b with Some _ => LT_SOURCE_PCB | None => LT_SOURCE end; LT_SOLID_AMBIENT] [demo_layer; demo_layer] None demo_top b.
Definition mini_flps (p q : list Q) : list (option (list nu_source)) :=
  [Some [mkNuSource 1 1 (demo_queue (nth 0 p 0%Q) (nth 1 p 0%Q)); mkNuSource 1 3 (demo_queue (nth 0 q 0%Q) (nth 1 q 0%Q))]; None].
Definition mini_cells : list cell := number (d_heights mini_dims ++ [7%Q]) 0 (grid mini_dims demo_top mini_stack).
Definition mini_conns : list conn := all_conns mini_dims demo_top mini_stack (grid_rects (grid mini_dims demo_top mini_stack)).

(** A sorted arrangement of the entries. *)
Definition beforeb (a b : entry) : bool := (e_col a <? e_col b) || (e_col a =? e_col b) && (e_row a <? e_row b).
Fixpoint put (e : entry) (l : list entry) : list entry := match l with [] => [e] | a :: t => if beforeb e a then e :: l else a :: put e t end.
Definition arrange (l : list entry) : list entry := fold_right put [] l.
Fixpoint in_order (l : list entry) : bool := match l with [] => true | a :: t => forallb (beforeb a) t && in_order t end.
Lemma put_perm : forall e l, Permutation (e :: l) (put e l).
Proof. intros e l. induction l as [|a l IH]; [reflexivity|]. cbn [put]. destruct (beforeb e a); [reflexivity|]. rewrite perm_swap. constructor. exact IH. Qed.
Lemma arrange_perm : forall l, Permutation l (arrange l).
Proof. intros l. induction l as [|a l IH]; [reflexivity|]. cbn [arrange fold_right]. rewrite <- put_perm. constructor. exact IH. Qed.
Lemma in_order_sorted : forall l, in_order l = true -> StronglySorted before l.
Proof.
  intros l. induction l as [|a l IH]; intros H; [constructor|]. cbn [in_order] in H. apply andb_true_iff in H. destruct H as (H1 & H2). constructor; [apply IH; exact H2|].
  rewrite Forall_forall. rewrite forallb_forall in H1. intros b I. specialize (H1 b I). unfold beforeb, before in *. lia.
Qed.
Definition mini_an (t : analysis_type) : analysis := mkAnalysis t 1000 10 0 300.
Definition mini_matrix_of (b : option bottom_sink) (t : analysis_type) : outcome sysmatrix :=
  let nconn := nu_connections (Z.of_nat (length mini_conns)) (Z.of_nat (length mini_cells)) in
  do table <- nu_table (mini_grid b) mini_dims (mini_an t) mini_cells mini_conns nconn ;
  if in_order (arrange table) then nu_vectors (system_matrix_build (Z.of_nat (length mini_cells)) nconn) (arrange table) else UB.
Lemma mini_matrix_good : forall b t m, mini_matrix_of b t = Ok m -> nu_matrix (mini_grid b) mini_dims (mini_an t) mini_cells mini_conns m.
Proof.
  intros b t m H. unfold mini_matrix_of in H. unfold nu_matrix. destruct (nu_table _ _ _ _ _ _) as [table| |] eqn:T; try discriminate. cbn [bind] in H. destruct (in_order (arrange table)) eqn:O; [|discriminate].
  exists table, (arrange table). split; [reflexivity|]. split; [|exact H]. split; [apply arrange_perm|apply in_order_sorted; exact O].
Qed.

Lemma mini_ok : nu_stack_ok mini_dims demo_top mini_stack /\ Forall some_cells mini_stack.
Proof.
  split; [|repeat constructor].
  split; [repeat constructor; try discriminate; vm_compute; try reflexivity; try discriminate|]. split; [discriminate|]. split; [unfold good_factors, two32; cbn; lia|]. split; [reflexivity|]. split; [reflexivity|]. split; [vm_compute; reflexivity|]. vm_compute. reflexivity.
Qed.
Lemma mini_positive : Forall positive_kind mini_stack.
Proof. repeat constructor; try discriminate. Qed.
Lemma mini_grid_good : forall b, good_tgrid mini_dims (mini_grid b).
Proof.
  intros b. constructor; try (cbn; lia); try discriminate; try (intros _; reflexivity).
  - unfold good_grid, mini_dims. cbn. unfold two32. repeat split; try lia; try reflexivity. left. repeat split; reflexivity.
  - constructor; cbn; unfold two32; lia.
  - split; [intros (s & h & m & E); discriminate E|discriminate].
  - cbn. intros H. destruct b; [reflexivity|]. exfalso. apply H. reflexivity.
  - intros l L. cbn in L. left. assert (l = 0 \/ l = 1) as [-> | ->] by lia; destruct b; cbn; repeat split; try discriminate; intros; try lia; exists 1%Q, 300%Q; reflexivity.
Qed.
Lemma mini_physical : forall b, match b with Some x => (0 < bs_htc x)%Q | None => True end -> physical (mini_grid b) mini_dims.
Proof.
  intros b B. constructor.
  - repeat constructor.
  - repeat constructor; reflexivity.
  - discriminate.
  - intros h a [= <- _]. reflexivity.
  - intros x H. cbn in H. subst b. exact B.
  - discriminate.
Qed.
Lemma mini_conns_good : good_conns (Z.of_nat (length mini_cells)) mini_conns.
Proof.
  constructor.
  - vm_compute. reflexivity.
  - apply (all_conns_NoDup mini_dims demo_top mini_stack).
  - intros c I. exact (conn_range mini_dims demo_top mini_stack _ c I).
  - vm_compute. reflexivity.
Qed.
Definition mini_cell_b (c : cell) : bool :=
  (c_layer c =? 0) && Qlt_bool 0 (c_length c) && Qlt_bool 0 (c_width c) && Qlt_bool 0 (mt_vhc (c_mat c)) && Qlt_bool 0 (mt_kx (c_mat c)) && Qlt_bool 0 (mt_ky (c_mat c)) && Qlt_bool 0 (mt_kz (c_mat c))
  || (c_layer c =? 1) && Qlt_bool 0 (c_length c) && Qlt_bool 0 (c_width c).
Lemma mini_cells_ok : forall b c, In c mini_cells -> in_stack (mini_grid b) mini_dims c /\ one_material (mini_grid b) c /\ positive_cell (mini_grid b) c.
Proof.
  assert (H : forallb mini_cell_b mini_cells = true) by (vm_compute; reflexivity). intros b c I. rewrite forallb_forall in H. specialize (H c I). unfold mini_cell_b in H. apply orb_true_iff in H. destruct H as [H|H].
  - repeat (apply andb_true_iff in H; let X := fresh "X" in destruct H as (H & X)). apply Z.eqb_eq in H. apply Qlt_bool_iff' in X, X0, X1, X2, X3, X4. unfold in_stack, one_material, positive_cell, physical_material, cell_layer. rewrite H. cbn. repeat split; auto; lia.
  - repeat (apply andb_true_iff in H; let X := fresh "X" in destruct H as (H & X)). apply Z.eqb_eq in H. apply Qlt_bool_iff' in X, X0. unfold in_stack, one_material, positive_cell, cell_layer. rewrite H. cbn. repeat split; auto; try lia; discriminate.
Qed.
Definition mini_queue (p : list Q) : list Q := [nth 0 p 0%Q; nth 1 p 0%Q].
Definition mini_powers (p q : list Q) (l : nat) : list (list Q) := if (l =? 0)%nat then [mini_queue p; mini_queue q] else [].
Lemma mini_describes : forall b p q, describes mini_stack (mini_grid b) (mini_flps p q) (mini_powers p q).
Proof.
  intros b p q. assert (E : profile mini_stack = [Some mini_die; None]) by reflexivity. assert (CH : channels_of mini_stack = [false; false]) by reflexivity.
  assert (TY : forall l, (2 <= l)%nat -> type_of (mini_grid b) (Z.of_nat l) = LT_NONE) by (intros l L; unfold type_of; rewrite Nat2Z.id; apply nth_overflow; cbn; lia).
  constructor; try reflexivity; rewrite ?E, ?CH.
  - intros l. destruct l as [|[|l]].
    + split; [intros _; exists mini_die; reflexivity|destruct b; reflexivity].
    + split; [discriminate|intros (x & X); discriminate X].
    + rewrite TY by lia. split; [discriminate|intros (x & X)]. destruct l; discriminate X.
  - intros [|[|l]] H; try (destruct b; discriminate H). rewrite TY in H by lia. discriminate H.
  - intros [|[|l]] x H; try discriminate H; [|destruct l; discriminate H]. injection H as <-. eexists. split; [reflexivity|]. split; [reflexivity|]. unfold mini_powers. cbn [Nat.eqb]. repeat constructor; cbn [so_powers]; apply demo_queue_rep.
Qed.
Lemma mini_ready : forall b p q pg, nu_power_grid (mini_grid b) mini_dims mini_cells 5 (mini_flps p q) = Ok pg ->
    ready pg mini_dims (d_heights mini_dims ++ [7%Q]) (grid mini_dims demo_top mini_stack) (mini_powers p q) /\
    np_grid pg = mini_grid b /\ np_cells pg = mini_cells /\ nu_caps (mini_grid b) mini_dims mini_cells 5 = Ok (np_caps pg).
Proof.
  intros b p q pg E. destruct mini_ok as (OK & SC). destruct (C58_stack mini_dims demo_top 7 mini_stack (mini_grid b) (mini_flps p q) (mini_powers p q) pg OK SC mini_positive (mini_grid_good b) eq_refl (mini_describes b p q)) as (n & es' & st & EG & RD).
  destruct (C41_cells mini_dims demo_top 7 mini_stack OK SC) as (n2 & es2 & st2 & EG2 & N & CE & _). rewrite EG in EG2. injection EG2 as <- <- <-. rewrite CE in RD.
  assert (N5 : n = 5) by (rewrite N, CE; vm_compute; reflexivity). rewrite N5 in RD. split; [apply RD; exact E|].
  unfold nu_power_grid in E. destruct (nu_top_tcs _ _ _); try discriminate. cbn [bind] in E. destruct (nu_bottom_tcs _ _ _); try discriminate. cbn [bind] in E. destruct (nu_caps _ _ _ _); try discriminate. cbn [bind] in E. injection E as <-. repeat split.
Qed.
(** A simulation ready to start, all cells at 300 K. *)
Definition mini_hs : list Q := d_heights mini_dims ++ [7%Q].
Definition mini_G : list nlayer := grid mini_dims demo_top mini_stack.
Definition mini_sim (b : option bottom_sink) (t : analysis_type) (p q : list Q) : outcome (nsim unit) :=
  do m <- mini_matrix_of b t ; do pg <- nu_power_grid (mini_grid b) mini_dims mini_cells 5 (mini_flps p q) ; Ok (mkNsim (repeat 300%Q 5) pg m (mini_an t) tt).
Lemma mini_network : forall b t p q s, match b with Some x => (0 < bs_htc x)%Q | None => True end -> mini_sim b t p q = Ok s ->
    np_grid (n_pg s) = mini_grid b /\ n_an s = mini_an t /\ n_temps s = repeat 300%Q 5 /\ np_cells (n_pg s) = mini_cells /\
    ready (n_pg s) mini_dims mini_hs mini_G (mini_powers p q) /\ network (mini_grid b) mini_dims (mini_an t) (np_cells (n_pg s)) mini_conns (n_matrix s) /\
    nu_caps (mini_grid b) mini_dims mini_cells 5 = Ok (np_caps (n_pg s)).
Proof.
  intros b t p q s B H. unfold mini_sim in H. destruct (mini_matrix_of b t) as [m| |] eqn:M; try discriminate. cbn [bind] in H. destruct (nu_power_grid (mini_grid b) mini_dims mini_cells 5 (mini_flps p q)) as [pg| |] eqn:P; try discriminate. cbn [bind] in H. injection H as <-. cbn [n_pg n_an n_temps n_matrix].
  destruct (mini_ready b p q pg P) as (R1 & R2 & R3 & R4). do 4 (split; [assumption || reflexivity|]). split; [exact R1|]. split; [|exact R4]. rewrite R3. constructor; [apply mini_grid_good|apply mini_physical; exact B|apply mini_cells_ok|exact mini_conns_good|apply mini_matrix_good; exact M].
Qed.
Lemma mini_start : forall b p q s, match b with Some x => (0 < bs_htc x)%Q | None => True end -> mini_sim b AT_TRANSIENT p q = Ok s ->
    nu_start (mini_grid b) mini_dims mini_hs mini_G mini_conns (mini_powers p q) s.
Proof.
  intros b p q s B H. destruct (mini_network b _ p q s B H) as (E1 & E2 & E3 & E4 & E5 & E6 & E7). constructor; rewrite ?E2; try assumption.
  - rewrite E4. exact E7.
  - rewrite E3, E4. vm_compute. reflexivity.
  - reflexivity.
  - reflexivity.
  - cbn. unfold two32. lia.
  - reflexivity.
  - discriminate.
  - intros sp h m X. discriminate X.
Qed.
