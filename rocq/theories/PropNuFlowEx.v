(** * C61, examples: a change of the flow rate in the middle of a slot *)
From Coq Require Import ZArith List Bool QArith Lia ZifyBool Lqa.
From Verif Require Import Base QSum Dims DimsProofs Floorplan FloorplanProofs Stack Emulate EmulateSpec Conduct Matrix MatrixSpec BalanceSpec SimWitness MatrixWitness Flow NonUniform NuSpec NuCountProofs NuMatrix NuMatrixSpec NuSource NuSourceSpec NuEmulate NuRunSpec NuRunProofs NuFlatProofs NuTableProofs NuCoeffProofs PropNonUniform PropNuMatrix PropNuRun NuFlow NuFlowProofs NuCool PropNuFlow.
Import ListNotations.
Local Open Scope Z_scope.

(** Twice the flow rate. *)
Definition cool_fr : Q := 12 # 1000000000.
Definition cool_grid' : tgrid := with_flow cool_grid cool_channel cool_fr.
Definition run_of (n a b : Z) : outcome (nsim unit * nsim unit * outcome (error_t * nsim unit)) :=
  do s0 <- cool_sim n a b ;
  do x <- nu_emulate_step (guess [repeat 300%Q (length (cool_cells n a b))]) wplugin (cool_dims n) s0 ;
  match x with (TDICE_STEP_DONE, s1) => Ok (s0, s1, flow_of (cool_dims n) (cool_conns n a b) s1 cool_fr) | _ => UB end.
Lemma run_inv : forall n a b s0 s1 r, cool_case n a b -> run_of n a b = Ok (s0, s1, r) -> r <> NoFuel ->
    let solve := guess [repeat 300%Q (length (cool_cells n a b))] in
    in_place solve wplugin /\ exact solve /\ nu_start cool_grid (cool_dims n) cool_hs (cool_G n a b) (cool_conns n a b) (fun _ => []) s0 /\ n_temps s0 = repeat 300%Q (length (cool_cells n a b)) /\
    nu_emulate_step solve wplugin (cool_dims n) s0 = Ok (TDICE_STEP_DONE, s1) /\ nu_update_flow (fun _ => TDICE_SUCCESS) (cool_dims n) (cool_conns n a b) s1 cool_fr r /\
    running cool_grid (cool_dims n) cool_hs (cool_G n a b) (fun _ => []) s0 1 s1 /\ np_cells (n_pg s1) = cool_cells n a b /\ n_an s0 = cool_an.
Proof.
  intros n a b s0 s1 r C H NF solve. unfold run_of in H. destruct (cool_sim n a b) as [x0| |] eqn:E0; try discriminate. cbn [bind] in H. fold solve in H. destruct (nu_emulate_step solve wplugin (cool_dims n) x0) as [[r1 x1]| |] eqn:E1; try discriminate. cbn [bind] in H. destruct r1; try discriminate.
  assert (X : x0 = s0 /\ x1 = s1 /\ flow_of (cool_dims n) (cool_conns n a b) x1 cool_fr = r) by (revert H; generalize (flow_of (cool_dims n) (cool_conns n a b) x1 cool_fr); intros f H; injection H as -> -> ->; auto). destruct X as (-> & -> & FR).
  pose proof (guess_in_place [repeat 300%Q (length (cool_cells n a b))]) as IP. pose proof (guess_exact [repeat 300%Q (length (cool_cells n a b))]) as EX. fold solve in IP, EX.
  destruct (cool_start n a b s0 C E0) as (ST & CE & AE & TE). assert (RN : running cool_grid (cool_dims n) cool_hs (cool_G n a b) (fun _ => []) s0 1 s1).
  { apply (steps_running solve wplugin IP EX _ _ _ _ _ _ s0 ST); [|unfold two32; lia]. apply (NS_step _ _ _ 0 s0 TDICE_STEP_DONE s0 s1); [constructor|exact E1|left; reflexivity]. }
  split; [exact IP|]. split; [exact EX|]. split; [exact ST|]. split; [exact TE|]. split; [exact E1|]. split; [apply flow_of_good; assumption|]. split; [exact RN|]. split; [rewrite (rn_cells _ _ _ _ _ _ _ _ RN); exact CE|exact AE].
Qed.

(** Everything - chip, coolant and air - at 300 K, no power, and the flow rate is
    doubled after the first of ten steps of a slot. The inlet of the coolant, cell
    2, still has the heat of the old flow rate; the heat of the new one has been
    written over what the air gives to cell 10, the plain layer at the top; and the
    chip does not stay at 300 K, whatever solves the system. *)
Theorem C61_refuted : exists s0 s1 s2 : nsim unit, let solve := guess [repeat 300%Q 11] in let d := cool_dims 3 in let G := cool_G 3 1 1 in
    in_place solve wplugin /\ exact solve /\ nu_start cool_grid d cool_hs G (cool_conns 3 1 1) (fun _ => []) s0 /\
    n_temps s0 = repeat 300%Q 11 /\ nu_emulate_step solve wplugin d s0 = Ok (TDICE_STEP_DONE, s1) /\ Forall (fun t => t == 300)%Q (n_temps s1) /\
    nu_update_flow (fun _ => TDICE_SUCCESS) d (cool_conns 3 1 1) s1 cool_fr (Ok (TDICE_SUCCESS, s2)) /\
    inlet cool_grid' d 1 1 /\ first_cell G 1 + 1 = 2 /\
    (qat (np_sources (n_pg s2)) 2 == from_inlet cool_grid d 1 1)%Q /\ ~ (from_inlet cool_grid' d 1 1 == from_inlet cool_grid d 1 1)%Q /\
    first_cell G 2 = 10 /\ (qat (np_sources (n_pg s1)) 10 == from_air cool_grid d (grid_cell cool_hs G 2 0))%Q /\ (qat (np_sources (n_pg s2)) 10 == from_inlet cool_grid' d 1 1)%Q /\
    forall solve2 (plugin2 : unit -> list Q -> list Q -> bool * list Q * unit) r s3, in_place solve2 plugin2 -> exact solve2 -> nu_emulate_step solve2 plugin2 d s2 = Ok (r, s3) -> went_on r -> ~ Forall (fun t => t == 300)%Q (n_temps s3).
Proof.
  assert (C : cool_case 3 1 1) by (left; auto).
  assert (Y : match run_of 3 1 1 with Ok (s0, s1, Ok (TDICE_SUCCESS, s2)) => forallb (fun t => Qeq_bool t 300) (n_temps s1) && Qeq_bool (qat (np_sources (n_pg s2)) 2) 30000 && Qeq_bool (qat (np_sources (n_pg s1)) 10) 4500000 && Qeq_bool (qat (np_sources (n_pg s2)) 10) 60000
       && Qeq_bool (qsum (map (qat (np_sources (n_pg s2))) (zrange 0 10))) 90000 && forallb (fun t => Qeq_bool t 300) (n_temps s2) | _ => false end = true) by (vm_compute; reflexivity).
  destruct (run_of 3 1 1) as [[[s0 s1] [[[|] s2]| |]]| |] eqn:E; try discriminate Y. destruct (run_inv 3 1 1 s0 s1 _ C E ltac:(discriminate)) as (IP & EX & ST & TE & E1 & U & RN & CE & AE).
  change (length (cool_cells 3 1 1)) with 11%nat in *. repeat (apply andb_true_iff in Y; let X := fresh "Y" in destruct Y as (Y & X)). apply Qeq_bool_iff in Y4, Y3, Y2, Y1.
  exists s0, s1, s2. cbv zeta. split; [exact IP|]. split; [exact EX|]. split; [exact ST|]. split; [exact TE|]. split; [exact E1|]. split.
  { apply Forall_forall. intros t I. apply Qeq_bool_iff. rewrite forallb_forall in Y. apply Y, I. }
  split; [exact U|]. split; [exists (set_flow cool_channel (flow_rate_um3sec cool_fr)); vm_compute; auto|]. split; [reflexivity|]. split; [rewrite Y4; reflexivity|]. split; [vm_compute; discriminate|]. split; [reflexivity|]. split; [rewrite Y3; vm_compute; reflexivity|]. split; [rewrite Y2; vm_compute; reflexivity|].
  intros solve2 plugin2 r s3 IP2 EX2 E3 W AL.
  pose proof (flow_alive (fun _ => TDICE_SUCCESS) _ _ _ _ _ _ _ _ _ _ _ cool_channel (running_alive_of _ _ _ _ _ _ 10 s0 1 s1 ST ltac:(rewrite AE; reflexivity) RN ltac:(intros; constructor)) eq_refl U) as [ST2 EL ET _]. fold cool_grid' in ST2.
  pose proof ST2 as [S1 S2 S3 S4 S5 S6 S7 S8 S9 S10 S11]. cbn [at_time n_pg n_matrix n_temps n_an an_type an_step an_slot_length an_time] in *.
  assert (NC : length (np_cells (n_pg s2)) = 11%nat) by (rewrite (rd_cells _ _ _ _ _ S2); reflexivity).
  assert (LS : length (np_sources (n_pg s2)) = 11%nat) by (rewrite (rd_sources _ _ _ _ _ S2); reflexivity).
  unfold nu_emulate_step, slot_completed in E3. rewrite S6, EL, ET in E3. change (10 =? 0) with false in E3. cbv iota in E3. cbn [bind] in E3. change (Z.of_nat 1 mod 10 =? 0) with false in E3. cbv iota in E3. cbn [bind] in E3. unfold nu_pluggable in E3. cbn [n_pg] in E3. rewrite S1 in E3. change (tg_top cool_grid') with demo_top in E3. cbn [bind demo_top n_pg n_an n_temps n_matrix n_plugin] in E3.
  destruct (nu_rhs (n_pg s2) (an_step (n_an s2)) (n_temps s2)) as [b| |] eqn:RH; try discriminate E3. cbn [bind] in E3. destruct (solve2 (n_matrix s2) b) as (e3, x) eqn:SO. destruct e3; [|injection E3 as <- _; destruct W; discriminate].
  destruct (an_slot_length (increase_by_step_time (n_an s2)) =? 0); [discriminate|]. cbn [bind] in E3. assert (XE : n_temps s3 = x) by (injection E3 as _ <-; reflexivity). rewrite XE in AL. clear E3.
  destruct (rhs_values _ _ _ _ RH) as (BL & BV). rewrite NC in BL, BV. pose proof (EX2 _ _ _ SO) as SOL. rewrite BL in SOL.
  pose proof (C57_energy _ _ _ _ _ _ b x S3) as EN. cbv zeta in EN. rewrite NC in EN. specialize (EN SOL). change (Z.of_nat 11 - 1) with 10 in EN.
  pose proof (start_caps _ _ _ _ _ _ _ ST2) as SC. cbn [at_time n_pg] in SC. rewrite NC in SC.
  assert (T3 : forall i, 0 <= i < 11 -> (qat (n_temps s2) i == 300)%Q). { intros i I. apply Qeq_bool_iff. rewrite forallb_forall in Y0. apply Y0. apply nth_In. rewrite S5, NC. lia. }
  assert (X3 : forall i, 0 <= i < 11 -> (qat x i == 300)%Q). { intros i I. rewrite Forall_forall in AL. apply AL. apply nth_In. destruct SOL as (LX & _). lia. }
  assert (E1b : (qsum (map (qat b) (zrange 0 10)) == qsum (map (fun i => qat (np_sources (n_pg s2)) i) (zrange 0 10)) + qsum (map (fun i => heat_capacity cool_grid' (cool_dims 3) (at_cell (np_cells (n_pg s2)) i) / an_step (n_an s2) * 300) (zrange 0 10)))%Q).
  { rewrite <- qsum_plus. apply qsum_ext. intros i I. apply in_zrange in I. rewrite BV by lia. rewrite (SC i) by lia. rewrite (T3 i) by lia. reflexivity. }
  assert (E2b : (qsum (map (fun j => leaves cool_grid' (cool_dims 3) (n_an (at_time 0 s2)) (at_cell (np_cells (n_pg s2)) j) * qat x j) (zrange 0 10)) ==
      qsum (map (fun i => heat_capacity cool_grid' (cool_dims 3) (at_cell (np_cells (n_pg s2)) i) / an_step (n_an s2) * 300) (zrange 0 10)) + qsum (map (fun i => (to_air cool_grid' (cool_dims 3) (at_cell (np_cells (n_pg s2)) i) + carried_out cool_grid' (cool_dims 3) (at_cell (np_cells (n_pg s2)) i)) * 300) (zrange 0 10)))%Q).
  { rewrite <- qsum_plus. apply qsum_ext. intros i I. apply in_zrange in I. rewrite (X3 i) by lia. unfold leaves, stored_rate. cbn [at_time n_an an_type an_step]. rewrite S6. ring. }
  assert (V : (qsum (map (fun i => (to_air cool_grid' (cool_dims 3) (at_cell (np_cells (n_pg s2)) i) + carried_out cool_grid' (cool_dims 3) (at_cell (np_cells (n_pg s2)) i)) * 300) (zrange 0 10)) == 4560000)%Q) by (rewrite (rd_cells _ _ _ _ _ S2); vm_compute; reflexivity).
  change (mkAnalysis (an_type (n_an s2)) (an_step (n_an s2)) (an_slot_length (n_an s2)) 0 (an_initial (n_an s2))) with (n_an (at_time 0 s2)) in EN. rewrite E1b, E2b, V, Y1 in EN. lra.
Qed.
Print Assumptions C61_refuted.


(** With five columns the heat is written beyond the 17 cells. *)
Example C61_overflow_witness : exists s0 s1 : nsim unit, let d := cool_dims 5 in
    nu_start cool_grid d cool_hs (cool_G 5 1 1) (cool_conns 5 1 1) (fun _ => []) s0 /\ nu_emulate_step (guess [repeat 300%Q 17]) wplugin d s0 = Ok (TDICE_STEP_DONE, s1) /\
    nu_update_flow (fun _ => TDICE_SUCCESS) d (cool_conns 5 1 1) s1 cool_fr UB /\ inlet cool_grid d 1 3 /\ length (np_cells (n_pg s1)) = 17%nat /\ 1 * (d_nrows d * d_ncols d) + 3 = 18.
Proof.
  assert (C : cool_case 5 1 1) by (right; left; auto).
  assert (Y : match run_of 5 1 1 with Ok (s0, s1, UB) => true | _ => false end = true) by (vm_compute; reflexivity).
  destruct (run_of 5 1 1) as [[[s0 s1] [[[|] s2]| |]]| |] eqn:E; try discriminate Y. destruct (run_inv 5 1 1 s0 s1 _ C E ltac:(discriminate)) as (IP & EX & ST & TE & E1 & U & RN & CE & AE).
  change (length (cool_cells 5 1 1)) with 17%nat in *. exists s0, s1. cbv zeta. split; [exact ST|]. split; [exact E1|]. split; [exact U|]. split; [exists cool_channel; vm_compute; auto|]. split; [rewrite CE; reflexivity|reflexivity].
Qed.
(** With a lower layer of nine cells, the change is right. *)
Example C61_right_witness : exists s0 s1 s2 : nsim unit, let d := cool_dims 3 in let G := cool_G 3 3 3 in
    nu_start cool_grid d cool_hs G (cool_conns 3 3 3) (fun _ => []) s0 /\ nu_emulate_step (guess [repeat 300%Q 19]) wplugin d s0 = Ok (TDICE_STEP_DONE, s1) /\
    nu_update_flow (fun _ => TDICE_SUCCESS) d (cool_conns 3 3 3) s1 cool_fr (Ok (TDICE_SUCCESS, s2)) /\ tg_channel cool_grid = Some cool_channel /\ inlet cool_grid' d 1 1 /\
    (forall l, (l < length (tg_types cool_grid))%nat -> coolant_type (type_of cool_grid (Z.of_nat l)) = true -> first_cell G l = Z.of_nat l * (d_nrows d * d_ncols d)).
Proof.
  assert (C : cool_case 3 3 3) by (right; right; auto).
  assert (Y : match run_of 3 3 3 with Ok (s0, s1, Ok (TDICE_SUCCESS, s2)) => true | _ => false end = true) by (vm_compute; reflexivity).
  destruct (run_of 3 3 3) as [[[s0 s1] [[[|] s2]| |]]| |] eqn:E; try discriminate Y. destruct (run_inv 3 3 3 s0 s1 _ C E ltac:(discriminate)) as (IP & EX & ST & TE & E1 & U & RN & CE & AE).
  change (length (cool_cells 3 3 3)) with 19%nat in *. exists s0, s1, s2. cbv zeta. split; [exact ST|]. split; [exact E1|]. split; [exact U|]. split; [reflexivity|]. split; [exists (set_flow cool_channel (flow_rate_um3sec cool_fr)); vm_compute; auto|].
  intros [|[|[|l]]] L CT; try discriminate CT; [reflexivity|cbn in L; lia].
Qed.
(** A change before the first step; everything stays at 300 K. *)
Example C61_energy_witness : exists s0 s1 s2 : nsim unit, let solve := guess [repeat 300%Q 11] in let d := cool_dims 3 in
    in_place solve wplugin /\ exact solve /\ nu_start cool_grid d cool_hs (cool_G 3 1 1) (cool_conns 3 1 1) (fun _ => []) s0 /\
    nu_course solve wplugin (fun _ => TDICE_SUCCESS) d (cool_conns 3 1 1) s0 cool_grid' 0 0 s1 /\ nu_emulate_step solve wplugin d s1 = Ok (TDICE_STEP_DONE, s2) /\
    (enthalpy_in cool_grid' d (cool_G 3 1 1) == 60000)%Q /\ (enthalpy_in cool_grid d (cool_G 3 1 1) == 30000)%Q.
Proof.
  assert (C : cool_case 3 1 1) by (left; auto).
  assert (Y : match cool_sim 3 1 1 with Ok s0 => match flow_of (cool_dims 3) (cool_conns 3 1 1) s0 cool_fr with Ok (TDICE_SUCCESS, s1) => match nu_emulate_step (guess [repeat 300%Q 11]) wplugin (cool_dims 3) s1 with Ok (TDICE_STEP_DONE, s2) => true | _ => false end | _ => false end | _ => false end = true) by (vm_compute; reflexivity).
  destruct (cool_sim 3 1 1) as [s0| |] eqn:E0; try discriminate Y. destruct (flow_of (cool_dims 3) (cool_conns 3 1 1) s0 cool_fr) as [[[|] s1]| |] eqn:E1; try discriminate Y. destruct (nu_emulate_step (guess [repeat 300%Q 11]) wplugin (cool_dims 3) s1) as [[[] s2]| |] eqn:E2; try discriminate Y.
  destruct (cool_start 3 1 1 s0 C E0) as (ST & CE & AE & TE). exists s0, s1, s2. cbv zeta. split; [apply guess_in_place|]. split; [apply guess_exact|]. split; [exact ST|]. split; [|split; [exact E2|split; vm_compute; reflexivity]].
  apply (NC_flow _ _ _ _ _ _ cool_grid 0 0 s0); [|reflexivity|apply flow_of_good; [exact E1|discriminate]]. pose proof (NC_start (guess [repeat 300%Q 11]) wplugin (fun _ => TDICE_SUCCESS) (cool_dims 3) (cool_conns 3 1 1) s0) as X. rewrite (st_grid _ _ _ _ _ _ _ ST) in X. exact X.
Qed.
