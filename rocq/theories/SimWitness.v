(** * A concrete simulation: a chip of 20 x 10 with cells of 10 x 5, two layers
      (PCB side solid, source layer under the ambient), two floorplan elements. *)
From Coq Require Import ZArith List Bool QArith Lia.
From Verif Require Import Base QSum Dims DimsSpec Queue QueueProofs Floorplan FloorplanSpec Stack StackSpec PowerGrid Emulate EmulateSpec PropFloorplan.
Import ListNotations.
Local Open Scope Z_scope.

Definition wd : dims := mkDims 10 10 10 10 5 [2%Q; 1%Q] 2 2 2 8 20 10.
Lemma wd_parsed : parse_dims 20 10 10 5 (Uniform 10) [2%Q; 1%Q] 0 = Ok (Some wd).
Proof. vm_compute. reflexivity. Qed.
Lemma wd_good : good_grid wd.
Proof. unfold good_grid, wd. cbn. unfold two32. repeat split; try lia; try reflexivity. left. repeat split; reflexivity. Qed.

Definition q_empty : queue := queue_build queue_init 10.
Lemma q_empty_rep : qrep q_empty []. Proof. apply build_rep. unfold two32. lia. Qed.
Definition q_put (q : queue) (p : Q) : queue := match queue_put q p with Ok q' => q' | _ => q end.
Lemma q_put_rep : forall q l p, qrep q l -> 2 * Z.of_nat (length l) < two32 -> qrep (q_put q p) (l ++ [p]).
Proof. intros q l p R H. destruct (queue_put_spec q l p R H) as (q' & E & R'). unfold q_put. rewrite E. exact R'. Qed.

Definition we1 (q : queue) : flpel := make_element [1] [mkIcel 0 0 10 10 0 0 1 0] q.
Definition we2 (q : queue) : flpel := make_element [2] [mkIcel 10 0 10 5 0 1 0 1] q.
Definition wmatrix : flpmatrix :=
  match fill_floorplan [we1 q_empty; we2 q_empty] wd with Ok f => f_matrix f | _ => mkFlpMatrix 0 0 0 [] [] [] end.
Definition wfloor (q1 q2 : queue) : floorplan := mkFlp 2 [we1 q1; we2 q2] [0%Q; 0%Q] wmatrix.

Lemma wfloor_good : forall q1 q2, good_floorplan wd (wfloor q1 q2).
Proof.
  intros q1 q2. exists [we1 q_empty; we2 q_empty]. 
  destruct (fill_floorplan [we1 q_empty; we2 q_empty] wd) as [f0| |] eqn:E; [|vm_compute in E; discriminate|vm_compute in E; discriminate].
  exists f0. split; [|split; [vm_compute; reflexivity|split; [reflexivity|split; [|split; reflexivity]]]].
  - constructor; [|constructor; [|constructor]].
    + eexists. exists [mkIcel 0 0 10 10 0 0 1 0], q_empty. split; [reflexivity|]. split; [discriminate|]. good_rects 10%nat.
    + eexists. exists [mkIcel 10 0 10 5 0 1 0 1], q_empty. split; [reflexivity|]. split; [discriminate|]. good_rects 10%nat.
  - unfold wfloor, wmatrix. rewrite E. reflexivity.
Qed.

Definition wpg (q1 q2 : queue) (src : list Q) : pgrid :=
  mkPgrid 2 8 4 [LT_SOLID_PCB; LT_SOURCE_AMBIENT] [None; Some (wfloor q1 q2)]
          (Some (SinkTop 7 300)) (Some (mkBottomSink 3 310)) None
          src (repeat 2%Q 8) (repeat 1%Q 4) (repeat 1%Q 4).
Lemma wpg_good : forall q1 q2 src, length src = 8%nat -> good_pgrid wd (wpg q1 q2 src).
Proof.
  intros q1 q2 src L. unfold good_pgrid. cbn [wpg pg_nlayers pg_ncells pg_ncells_layer pg_types pg_flps pg_top pg_bottom pg_channel pg_sources pg_caps pg_top_tcs pg_bottom_tcs].
  split; [apply wd_good|]. split; [cbn; lia|]. split; [reflexivity|]. split; [reflexivity|]. split; [unfold two32; lia|].
  split; [discriminate|]. split; [reflexivity|]. split; [rewrite L; reflexivity|]. repeat (split; [reflexivity|]).
  constructor; [|constructor; [|constructor]].
  - unfold good_layer. split; [discriminate|]. split; [cbn; split; [discriminate|congruence]|]. split; [discriminate|].
    split; [discriminate|]. split; [discriminate|discriminate].
  - unfold good_layer. split; [discriminate|]. split; [split; [discriminate|reflexivity]|].
    split; [intros f E; assert (f = wfloor q1 q2) as -> by congruence; apply wfloor_good|].
    split; [intros _; exists 7%Q, 300%Q; reflexivity|]. split; [discriminate|discriminate].
Qed.
Lemma wpg_queued : forall q1 q2 src l1 l2, qrep q1 l1 -> qrep q2 l2 -> queued (wpg q1 q2 src) [l1; l2].
Proof. intros. constructor; [assumption|]. constructor; [assumption|]. constructor. Qed.

(** A solver and a plugin that keep the vector. *)
Definition wsolve (_ : unit) (b : list Q) : error_t * list Q := (TDICE_SUCCESS, b).
Definition wplugin (_ : unit) (t v : list Q) : bool * list Q * unit := (false, v, tt).
Lemma w_in_place : in_place wsolve wplugin.
Proof. split; [intros m b e x E; injection E as _ <-; reflexivity|intros ps t v bad w ps' E; injection E as _ <- _; reflexivity]. Qed.

Definition wan (L time : Z) : analysis := mkAnalysis AT_TRANSIENT 1 L time 300.
Definition wsim (q1 q2 : queue) (src : list Q) (temps : list Q) (L time : Z) : sim unit unit :=
  mkSim temps (wpg q1 q2 src) tt (wan L time) tt.
Lemma wsim_good : forall q1 q2 src temps L time, length src = 8%nat -> length temps = 8%nat -> 0 < L < two32 -> 0 <= time < two32 ->
    good_sim wd (wsim q1 q2 src temps L time).
Proof.
  intros. unfold good_sim, wsim. cbn [s_pg s_temps s_an wan an_type an_slot_length an_time].
  split; [apply wpg_good; assumption|]. split; [cbn [wpg pg_ncells]; lia|]. auto.
Qed.
