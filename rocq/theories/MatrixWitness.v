(** * Concrete simulations with a filled matrix and an exact solver *)
From Coq Require Import ZArith List Bool QArith Lia.
From Verif Require Import Base QSum Dims DimsSpec DimsProofs Queue QueueProofs Floorplan FloorplanSpec FloorplanProofs Stack StackSpec PowerGrid Emulate EmulateSpec
     Conduct Matrix MatrixSpec BalanceSpec PropStack SimWitness.
Import ListNotations.
Local Open Scope Z_scope.

(** A solver that knows some vectors and answers with the first that solves the
    system exactly, if any. *)
Definition solves (m : sysmatrix) (b x : list Q) : bool :=
  (Z.of_nat (length x) =? Z.of_nat (length b)) &&
  forallb (fun i => Qeq_bool (row_times m (Z.of_nat (length b)) x i) (qat b i)) (zrange 0 (Z.of_nat (length b) - 1)).
Definition guess (known : list (list Q)) (m : sysmatrix) (b : list Q) : error_t * list Q :=
  match find (solves m b) known with Some x => (TDICE_SUCCESS, x) | None => (TDICE_FAILURE, b) end.

Lemma solves_solution : forall m b x, solves m b x = true -> solution m (Z.of_nat (length b)) b x.
Proof.
  intros m b x C. apply andb_true_iff in C. destruct C as (C1 & C2). apply Z.eqb_eq in C1.
  split; [exact C1|]. intros i I. rewrite forallb_forall in C2. apply Qeq_bool_eq. apply C2. apply in_zrange. lia.
Qed.
Lemma guess_exact : forall known, exact (guess known).
Proof.
  intros known m b x H. unfold guess in H. destruct (find (solves m b) known) as [y|] eqn:F; [|discriminate H].
  assert (X := f_equal snd H). cbn [snd] in X. subst x. apply find_some in F. apply solves_solution. apply F.
Qed.
Lemma guess_in_place : forall known, in_place (guess known) wplugin.
Proof.
  intros known. split; [|exact (proj2 w_in_place)].
  intros m b e x H. unfold guess in H. destruct (find (solves m b) known) as [y|] eqn:F.
  - assert (X := f_equal snd H). cbn [snd] in X. subst x. apply find_some in F. destruct (solves_solution m b y (proj2 F)) as (L & _). lia.
  - assert (X := f_equal snd H). cbn [snd] in X. subst x. reflexivity.
Qed.

Definition get {A} (x : A) (o : outcome A) : A := match o with Ok y => y | _ => x end.

(** ** A solid stack: the chip of [wd] with real materials. *)
Definition gsolid : tgrid :=
  mkTgrid [LT_SOLID_PCB; LT_SOURCE_AMBIENT] [wlayer 2; wlayer 1] None (Some (SinkTop 7 300)) (Some (mkBottomSink 3 310)).
Lemma wd_accepted : accepted wd.
Proof. constructor; cbn; unfold two32; lia. Qed.
Lemma gsolid_good : good_tgrid wd gsolid.
Proof.
  constructor; try (cbn; lia); try discriminate; try (intros _; reflexivity).
  - apply wd_good.
  - apply wd_accepted.
  - split; [intros (s & h & m & E); discriminate E|discriminate].
  - intros l L. left. assert (l = 0 \/ l = 1) as [-> | ->] by (cbn in L; lia); cbn.
    + repeat split; try discriminate.
    + repeat split; try discriminate; intros; try reflexivity; exists 7%Q, 300%Q; reflexivity.
Qed.

Definition wpgm (q1 q2 : queue) (src : list Q) : pgrid :=
  mkPgrid 2 8 4 [LT_SOLID_PCB; LT_SOURCE_AMBIENT] [None; Some (wfloor q1 q2)]
          (Some (SinkTop 7 300)) (Some (mkBottomSink 3 310)) None src
          (get [] (cells_capacities gsolid wd)) (get [] (top_tcs gsolid wd)) (get [] (bottom_tcs gsolid wd)).
Lemma wpgm_good : forall q1 q2 src, length src = 8%nat -> good_pgrid wd (wpgm q1 q2 src).
Proof.
  intros q1 q2 src L. destruct (wpg_good q1 q2 src L) as (A1 & A2 & A3 & A4 & A5 & A6 & A7 & A8 & A9 & A10 & A11 & A12 & A13).
  unfold good_pgrid. cbn [wpgm pg_nlayers pg_ncells pg_ncells_layer pg_types pg_flps pg_top pg_bottom pg_channel pg_sources pg_caps pg_top_tcs pg_bottom_tcs].
  split; [exact A1|]. split; [exact A2|]. split; [exact A3|]. split; [exact A4|]. split; [exact A5|]. split; [exact A6|]. split; [exact A7|].
  split; [exact A8|]. split; [vm_compute; reflexivity|]. split; [vm_compute; reflexivity|]. split; [vm_compute; reflexivity|]. split; [exact A12|exact A13].
Qed.
Definition msolid : sysmatrix := get (mkSysmatrix [] [] []) (fill_system_matrix (system_matrix_build 8 32) gsolid (wan 2 0) wd).
Lemma msolid_filled : forall L n, filled gsolid wd (wan L n) msolid.
Proof. intros L n. exists (system_matrix_build 8 32). split; [reflexivity|]. split; [reflexivity|]. vm_compute. reflexivity. Qed.
Lemma gsolid_physical : physical gsolid wd.
Proof.
  constructor; cbn.
  - repeat constructor.
  - repeat constructor.
  - discriminate.
  - intros h a E. injection E as <- _. reflexivity.
  - intros s E. injection E as <-. reflexivity.
  - discriminate.
Qed.
Definition wsimm (q1 q2 : queue) (src temps : list Q) (L : Z) : sim sysmatrix unit :=
  mkSim temps (wpgm q1 q2 src) msolid (wan L 0) tt.
Lemma wsimm_good : forall q1 q2 src temps L, length src = 8%nat -> length temps = 8%nat -> 0 < L < two32 ->
    good_sim wd (wsimm q1 q2 src temps L).
Proof.
  intros. unfold good_sim, wsimm. cbn [s_pg s_temps s_an wan an_type an_slot_length an_time].
  split; [apply wpgm_good; assumption|]. split; [cbn [wpgm pg_ncells]; lia|]. unfold two32. split; [reflexivity|]. split; [assumption|lia].
Qed.
Lemma wsimm_assembled : forall q1 q2 src temps L, assembled gsolid wd (wsimm q1 q2 src temps L).
Proof.
  intros. constructor; cbn [wsimm s_pg s_an s_matrix].
  - apply gsolid_good.
  - apply gsolid_physical.
  - constructor; try reflexivity; vm_compute; reflexivity.
  - apply msolid_filled.
  - reflexivity.
Qed.
Lemma wsimm_solid : solid_stack gsolid wd.
Proof. intros l L. cbn in L. assert (l = 0 \/ l = 1) as [-> | ->] by lia; reflexivity. Qed.

(** ** Coolant: three layers, the middle one a microchannel; columns wall,
    channel, wall; two rows, or one. *)
Definition dnone : dims := mkDims 0 0 0 0 0 [] 0 0 0 0 0 0.
Definition dcool (rows : Z) : dims :=
  match parse_dims 30 (5 * inject_Z rows) 10 5 (MC4RM 10 10 7 10) [2%Q; 3%Q; 4%Q] 0 with Ok (Some d) => d | _ => dnone end.
Lemma dcool_parsed : parse_dims 30 10 10 5 (MC4RM 10 10 7 10) [2%Q; 3%Q; 4%Q] 0 = Ok (Some (dcool 2)) /\
    parse_dims 30 5 10 5 (MC4RM 10 10 7 10) [2%Q; 3%Q; 4%Q] 0 = Ok (Some (dcool 1)).
Proof. split; vm_compute; reflexivity. Qed.
Definition chcool : channel :=
  get (mkChannel CM_NONE 0 0 0 0 0 0 wmat 0 0 0 0 0 0 0 0) (declare_channel (Decl4RM 3 wmat (3 # 1000000000000) 1 2 3 4 300) 30 3).
Definition gcool : tgrid :=
  mkTgrid [LT_SOLID; LT_CHANNEL_4RM; LT_SOLID_AMBIENT] [wlayer 2; wlayer 3; wlayer 4] (Some chcool) (Some (SinkTop 7 300)) None.
Lemma dcool_good : forall n, n = 1 \/ n = 2 -> good_grid (dcool n) /\ accepted (dcool n).
Proof.
  intros n [-> | ->]; (split; [unfold good_grid|constructor]; vm_compute; repeat split; try discriminate; try (right; exists 0; split; [discriminate|reflexivity]); intros; try discriminate).
Qed.
Lemma gcool_good : forall n, n = 1 \/ n = 2 -> good_tgrid (dcool n) gcool.
Proof.
  intros n N. destruct (dcool_good n N) as (D1 & D2). assert (d_nlayers (dcool n) = 3) as NL by (destruct N as [-> | ->]; reflexivity).
  constructor; rewrite ?NL; try (cbn; lia); try discriminate; try (intros _; reflexivity); try assumption.
  - split; [intros (s & h & m & E); discriminate E|discriminate].
  - intros H; exfalso; apply H; reflexivity.
  - intros l L. assert (l = 0 \/ l = 1 \/ l = 2) as [-> |[-> | ->]] by lia; unfold good_type; rewrite NL.
    + left. cbn. repeat split; discriminate.
    + right. exists 1, 0%nat, chcool. split; [reflexivity|]. split; [reflexivity|]. split; [lia|]. rewrite NL. split; [cbn; lia|]. split; [cbn; lia|].
      intros [|i] t E; [|destruct i; discriminate E]. injection E as <-. split; reflexivity.
    + left. cbn. repeat split; try discriminate; intros; try lia. exists 7%Q, 300%Q. reflexivity.
Qed.
Lemma gcool_physical : forall n, n = 1 \/ n = 2 -> physical gcool (dcool n).
Proof.
  intros n [-> | ->]; (constructor;
  [vm_compute; repeat constructor|vm_compute; repeat constructor
  |intros ch E; injection E as <-; vm_compute; repeat split
  |intros h a E; injection E as <- _; reflexivity|discriminate|discriminate]).
Qed.
Lemma gcool_flow : physical_flow gcool.
Proof. intros ch E. injection E as <-. vm_compute. split; [discriminate|reflexivity]. Qed.
Definition pgcool (n : Z) (src : list Q) : pgrid :=
  mkPgrid 3 (n * 9) (n * 3) [LT_SOLID; LT_CHANNEL_4RM; LT_SOLID_AMBIENT] [None; None; None]
          (Some (SinkTop 7 300)) None (Some chcool) src
          (get [] (cells_capacities gcool (dcool n))) (get [] (top_tcs gcool (dcool n))) (repeat 0%Q (Z.to_nat (n * 3))).
Definition mcool (n : Z) : sysmatrix := get (mkSysmatrix [] [] []) (fill_system_matrix (system_matrix_build (9 * n) 100) gcool (wan 1 0) (dcool n)).
Definition scool (n : Z) (src temps : list Q) : sim sysmatrix unit :=
  mkSim temps (pgcool n src) (mcool n) (wan 1 0) tt.
Lemma scool_good : forall n src temps, n = 1 \/ n = 2 -> Z.of_nat (length src) = 9 * n -> Z.of_nat (length temps) = 9 * n -> good_sim (dcool n) (scool n src temps).
Proof.
  intros n src temps N LS LT. assert (pg_ncells (pgcool n src) = 9 * n) as E by (unfold pgcool, pg_ncells; lia). unfold good_sim, scool.
  cbn [s_pg s_temps s_an wan an_type an_slot_length an_time]. split; [|rewrite E; unfold two32; repeat split; try lia].
  unfold good_pgrid. rewrite E. destruct (dcool_good n N) as (D1 & D2). split; [exact D1|].
  cbn [pgcool pg_nlayers pg_ncells pg_ncells_layer pg_types pg_flps pg_top pg_bottom pg_channel pg_sources pg_caps pg_top_tcs pg_bottom_tcs].
  rewrite LS, repeat_length.
  assert (Forall2 (good_layer (dcool n) (pgcool n src)) [LT_SOLID; LT_CHANNEL_4RM; LT_SOLID_AMBIENT] [None; None; None]) as F.
  { repeat constructor; cbn; try discriminate; try congruence; try (intros; exists 7%Q, 300%Q; reflexivity). }
  destruct N as [-> | ->]; (repeat (split; [solve [vm_compute; congruence | vm_compute; reflexivity | reflexivity|discriminate]|]); exact F).
Qed.
Lemma scool_assembled : forall n src temps, n = 1 \/ n = 2 -> assembled gcool (dcool n) (scool n src temps).
Proof.
  intros n src temps N. constructor; cbn [scool s_pg s_an s_matrix].
  - apply gcool_good. assumption.
  - apply gcool_physical. assumption.
  - destruct N as [-> | ->]; (constructor; try reflexivity; vm_compute; reflexivity).
  - exists (system_matrix_build (9 * n) 100). destruct N as [-> | ->]; (split; [reflexivity|split; [reflexivity|vm_compute; reflexivity]]).
  - reflexivity.
Qed.
