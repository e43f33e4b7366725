(** * C59: energy of a simulation on the non-uniform grid *)
From Coq Require Import ZArith List Bool QArith Lia ZifyBool Lqa.
From Verif Require Import Base QSum Dims DimsSpec Queue QueueProofs Floorplan FloorplanProofs Stack StackSpec StackProofs PowerGrid Emulate EmulateSpec Conduct Matrix MatrixSpec BalanceSpec LayerProofs NodeProofs NonUniform NuSpec NuCountProofs NuMatrix NuMatrixSpec NuMatrixProofs NuTableProofs NuCoeffProofs NuLeaveProofs NuSource NuSourceSpec NuSourceProofs NuStepProofs PropNonUniform PropNuMatrix PropNuSource NuEmulate NuRunSpec NuFlatProofs NuRunProofs SimWitness MatrixWitness NuMini.
Import ListNotations.
Local Open Scope Z_scope.

(** ** Sums over the cells *)
Lemma over_ext : forall cells f h, (forall i, 0 <= i < Z.of_nat (length cells) -> (f i (at_cell cells i) == h i (at_cell cells i))%Q) -> (over_cells cells f == over_cells cells h)%Q.
Proof. intros cells f h H. unfold over_cells. apply qsum_ext. intros i I. apply in_zrange in I. apply H. lia. Qed.
Lemma over_plus : forall cells f h, (over_cells cells (fun i c => f i c + h i c) == over_cells cells f + over_cells cells h)%Q.
Proof. intros cells f h. unfold over_cells. apply (qsum_plus (fun i => f i (at_cell cells i)) (fun i => h i (at_cell cells i))). Qed.
Lemma over_scale : forall cells f k, (over_cells cells (fun i c => f i c * k) == over_cells cells f * k)%Q.
Proof. intros cells f k. unfold over_cells. apply (qsum_scale_r (fun i => f i (at_cell cells i)) k). Qed.
Lemma over_zero : forall cells f, (forall i, 0 <= i < Z.of_nat (length cells) -> (f i (at_cell cells i) == 0)%Q) -> (over_cells cells f == 0)%Q.
Proof. intros cells f H. unfold over_cells. apply qsum_zero. intros i I. apply in_zrange in I. apply H. lia. Qed.

Lemma layers_sum : forall (f : nat -> Q) m n, (m <= n)%nat -> (forall l, (m <= l)%nat -> (f l == 0)%Q) -> (qsum (map f (seq 0 n)) == qsum (map f (seq 0 m)))%Q.
Proof.
  intros f m n H Z0. replace n with (m + (n - m))%nat by lia. rewrite seq_app, map_app, qsum_app. rewrite (qsum_zero f (seq (0 + m) (n - m))) by (intros l I; apply in_seq in I; apply Z0; lia). ring.
Qed.
Lemma beyond : forall g l, (length (tg_types g) <= l)%nat -> type_of g (Z.of_nat l) = LT_NONE.
Proof. intros g l H. unfold type_of. rewrite Nat2Z.id. apply nth_overflow. exact H. Qed.

(** The heat of all cells: powers, air, board, inlet. *)
Lemma heat_sum : forall pg d hs G ps, let g := np_grid pg in good_tgrid d g -> (length (tg_types g) <= length G)%nat ->
    (forall l, (l < length (tg_types g))%nat -> is_source (type_of g (Z.of_nat l)) = true -> good_pieces (flp_at pg l) /\ all_pieces (flp_at pg l) = length (layer_block G l) /\ length (ps l) = length (flp_at pg l)) ->
    (qsum (map (fun l => qsum (map (heat_of pg d hs G ps l) (seq 0 (length (layer_block G l))))) (seq 0 (length G))) ==
     over_sources g (fun l => qsum (ps l)) + over_cells (number hs 0 G) (fun _ c => from_air g d c) + received_from_board g d (number hs 0 G) + enthalpy_in g d G)%Q.
Proof.
  intros pg d hs G ps g GT LG SRC. unfold received_from_board. rewrite !over_flat. unfold over_sources, enthalpy_in.
  rewrite <- (layers_sum (fun l => if is_source (type_of g (Z.of_nat l)) then qsum (ps l) else 0%Q) (length (tg_types g)) (length G) LG) by (intros l H; rewrite beyond by exact H; reflexivity).
  rewrite <- (layers_sum (fun l => qsum (map (from_inlet g d l) (seq 0 (length (layer_block G l))))) (length (tg_types g)) (length G) LG).
  2: { intros l H. apply qsum_zero. intros k _. unfold from_inlet. rewrite beyond by exact H. destruct (tg_channel g); reflexivity. }
  rewrite <- !qsum_plus. apply qsum_ext. intros l I. apply in_seq in I.
  assert (SH : (qsum (map (fun k => if is_source (type_of g (Z.of_nat l)) then share (flp_at pg l) (ps l) k else 0) (seq 0 (length (layer_block G l)))) == if is_source (type_of g (Z.of_nat l)) then qsum (ps l) else 0)%Q).
  { destruct (is_source (type_of g (Z.of_nat l))) eqn:S; [|apply qsum_zero; reflexivity]. assert (Ll : (l < length (tg_types g))%nat) by (destruct (Nat.lt_ge_cases l (length (tg_types g))) as [X|X]; [exact X|rewrite beyond in S by exact X; discriminate S]).
    destruct (SRC l Ll S) as (S1 & S2 & S3). rewrite <- S2. apply C58_layer_power; assumption. }
  rewrite <- SH. clear SH. set (S := seq 0 (length (layer_block G l))). set (f1 := fun k => if is_source (type_of g (Z.of_nat l)) then share (flp_at pg l) (ps l) k else 0%Q). set (f2 := fun k => from_air g d (grid_cell hs G l k)). set (f3 := fun k => from_board g d (grid_cell hs G l k)).
  pose proof (qsum_plus f1 f2 S) as E1. pose proof (qsum_plus (fun k => f1 k + f2 k)%Q f3 S) as E2. pose proof (qsum_plus (fun k => f1 k + f2 k + f3 k)%Q (from_inlet g d l) S) as E3. rewrite <- E1, <- E2, <- E3. apply qsum_ext. intros k K. unfold heat_of. fold g. reflexivity.
Qed.

Section Energy.
  Context {PS : Type}.
  Variable solve : sysmatrix -> list Q -> error_t * list Q.
  Variable plugin : PS -> list Q -> list Q -> bool * list Q * PS.
  Variables (g : tgrid) (d : dims) (hs : list Q) (G : list nlayer) (cs : list conn) (qs : nat -> list (list Q)) (s0 : nsim PS).
  Hypothesis ST : nu_start g d hs G cs qs s0.

  Lemma start_caps : forall i, 0 <= i < Z.of_nat (length (np_cells (n_pg s0))) -> (qat (np_caps (n_pg s0)) i == heat_capacity g d (at_cell (np_cells (n_pg s0)) i))%Q.
  Proof.
    pose proof (st_ready _ _ _ _ _ _ _ ST) as R. pose proof (st_caps _ _ _ _ _ _ _ ST) as E. pose proof (st_grid _ _ _ _ _ _ _ ST) as GE. pose proof (st_network _ _ _ _ _ _ _ ST) as NW.
    pose proof (rd_cells _ _ _ _ _ R) as CE. pose proof (nw_cells _ _ _ _ _ _ NW) as C. rewrite CE in *.
    destruct (caps_spec g d hs G _ (nw_grid _ _ _ _ _ _ NW) ltac:(rewrite <- GE; apply (rd_layers _ _ _ _ _ R)) ltac:(intros [X|X]; [rewrite <- GE; apply (rd_air _ _ _ _ _ R); rewrite GE; exact X|destruct (st_sink _ _ _ _ _ _ _ ST X)]) (st_spreader _ _ _ _ _ _ _ ST) ltac:(intros c I; destruct (C c I) as (C1 & C2 & _); auto) E) as (LE & V).
    intros i I. apply V. lia.
  Qed.
  Lemma start_caps_length : length (np_caps (n_pg s0)) = length (np_cells (n_pg s0)).
  Proof.
    pose proof (st_ready _ _ _ _ _ _ _ ST) as R. pose proof (st_caps _ _ _ _ _ _ _ ST) as E. pose proof (st_grid _ _ _ _ _ _ _ ST) as GE. pose proof (st_network _ _ _ _ _ _ _ ST) as NW.
    pose proof (rd_cells _ _ _ _ _ R) as CE. pose proof (nw_cells _ _ _ _ _ _ NW) as C. rewrite CE in *.
    apply (caps_spec g d hs G _ (nw_grid _ _ _ _ _ _ NW) ltac:(rewrite <- GE; apply (rd_layers _ _ _ _ _ R)) ltac:(intros [X|X]; [rewrite <- GE; apply (rd_air _ _ _ _ _ R); rewrite GE; exact X|destruct (st_sink _ _ _ _ _ _ _ ST X)]) (st_spreader _ _ _ _ _ _ _ ST) ltac:(intros c I; destruct (C c I) as (C1 & C2 & _); auto) E).
  Qed.
  Lemma queued_length : forall els vs, queued els vs -> length vs = length els.
  Proof. intros els vs H. induction H; cbn; congruence. Qed.

  (** All heat into the cells. *)
  Lemma sources_sum : forall ps (s : nsim PS), (forall l, length (ps l) = length (qs l)) -> np_cells (n_pg s) = np_cells (n_pg s0) ->
      (forall l i, (l < length (tg_types g))%nat -> (i < length (layer_block G l))%nat -> (qat (np_sources (n_pg s)) (first_cell G l + Z.of_nat i) == heat_of (n_pg s0) d hs G ps l i)%Q) ->
      (over_cells (np_cells (n_pg s0)) (fun i _ => qat (np_sources (n_pg s)) i) ==
       over_sources g (fun l => qsum (ps l)) + over_cells (np_cells (n_pg s0)) (fun _ c => from_air g d c) + received_from_board g d (np_cells (n_pg s0)) + enthalpy_in g d G + received_from_plugin d s)%Q.
  Proof.
    intros ps s LP CE V. pose proof (st_ready _ _ _ _ _ _ _ ST) as R. pose proof (st_network _ _ _ _ _ _ _ ST) as NW. pose proof (st_grid _ _ _ _ _ _ _ ST) as GE. pose proof (nw_grid _ _ _ _ _ _ NW) as GT.
    unfold received_from_plugin. rewrite CE, (rd_cells _ _ _ _ _ R). pose proof (rd_layers _ _ _ _ _ R) as LG. rewrite GE in LG.
    pose proof (heat_sum (n_pg s0) d hs G ps) as HS. cbv zeta in HS. rewrite GE in HS. rewrite <- HS; clear HS; [|exact GT|exact LG|].
    2: { intros l Ll S. destruct (rd_queues _ _ _ _ _ R l ltac:(rewrite GE; exact Ll) ltac:(rewrite GE; exact S)) as (_ & Q1 & Q2 & Q3). split; [exact Q2|]. split; [exact Q3|]. rewrite LP. apply queued_length. exact Q1. }
    rewrite !over_flat, <- qsum_plus. apply qsum_ext. intros l I. apply in_seq in I. rewrite <- qsum_plus. apply qsum_ext. intros k K. apply in_seq in K. cbn [grid_cell cell_of c_layer].
    pose proof (gt_types d g GT) as LT. destruct (Z.leb_spec (d_nlayers d) (Z.of_nat l)) as [B|B].
    - unfold heat_of. rewrite GE, beyond by lia. cbn [is_source]. unfold from_air, from_board, to_air, to_board, from_inlet. cbn [grid_cell cell_of c_layer]. rewrite beyond by lia. destruct (Z.leb_spec (d_nlayers d) (Z.of_nat l)); [|lia]. cbn [to_pcb coolant_type andb].
      destruct (tg_top g) as [[|]|]; destruct (tg_bottom g); destruct (tg_channel g); ring.
    - rewrite V by lia. ring.
  Qed.

  Lemma air_sum : forall cells x, ((over_cells cells (fun i c => to_air g d c * qat x i) - over_cells cells (fun _ c => from_air g d c)) == given_to_air g d cells x)%Q.
  Proof.
    intros cells x. unfold given_to_air, from_air. destruct (tg_top g) as [[h a|s h m]|] eqn:T.
    - rewrite (over_ext cells (fun i c => to_air g d c * (qat x i - a)) (fun i c => to_air g d c * qat x i + (a * to_air g d c) * - (1)))%Q by (intros; ring).
      rewrite over_plus, over_scale. ring.
    - rewrite (over_zero cells (fun i c => to_air g d c * qat x i)%Q). 2: { intros i _. unfold to_air. rewrite T. destruct (d_nlayers d <=? _); [ring|]. destruct (to_ambient _); ring. } rewrite over_zero by reflexivity. ring.
    - rewrite (over_zero cells (fun i c => to_air g d c * qat x i)%Q). 2: { intros i _. unfold to_air. rewrite T. destruct (d_nlayers d <=? _); [ring|]. destruct (to_ambient _); ring. } rewrite over_zero by reflexivity. ring.
  Qed.

  (** The balance, from the heat that enters the cells and the solved system. *)
  Lemma energy_of : forall ps (s s' : nsim PS) b, (forall l, length (ps l) = length (qs l)) -> np_cells (n_pg s') = np_cells (n_pg s0) ->
      (forall l i, (l < length (tg_types g))%nat -> (i < length (layer_block G l))%nat -> (qat (np_sources (n_pg s')) (first_cell G l + Z.of_nat i) == heat_of (n_pg s0) d hs G ps l i)%Q) ->
      solution (n_matrix s0) (Z.of_nat (length (np_cells (n_pg s0)))) b (n_temps s') ->
      (forall i, 0 <= i < Z.of_nat (length (np_cells (n_pg s0))) -> (qat b i == qat (np_sources (n_pg s')) i + qat (np_caps (n_pg s0)) i / an_step (n_an s0) * qat (n_temps s) i)%Q) ->
      let cells := np_cells (n_pg s0) in
      (heat_content g d cells (n_temps s') - heat_content g d cells (n_temps s) ==
       an_step (n_an s0) * (over_sources g (fun l => qsum (ps l)) + received_from_plugin d s' + received_from_board g d cells + enthalpy_in g d G
                            - given_to_air g d cells (n_temps s') - enthalpy_out g d cells (n_temps s')))%Q.
  Proof.
    intros ps s s' b LP CE V SOL BV cells.
    pose proof (st_network _ _ _ _ _ _ _ ST) as NW. pose proof (C57_energy _ _ _ _ _ _ _ _ NW SOL) as EN. cbv zeta in EN.
    pose proof (st_type _ _ _ _ _ _ _ ST) as TY. pose proof (st_step _ _ _ _ _ _ _ ST) as SP. set (dt := an_step (n_an s0)) in *.
    pose proof (sources_sum ps s' LP CE V) as SS. fold cells in SS.
    fold cells in EN. change (qsum (map (qat b) (zrange 0 (Z.of_nat (length cells) - 1)))) with (over_cells cells (fun i _ => qat b i)) in EN.
    change (qsum (map (fun j => leaves g d (n_an s0) (at_cell cells j) * qat (n_temps s') j)%Q (zrange 0 (Z.of_nat (length cells) - 1)))) with (over_cells cells (fun i c => leaves g d (n_an s0) c * qat (n_temps s') i)%Q) in EN.
    rewrite (over_ext cells (fun i _ => qat b i) (fun i c => qat (np_sources (n_pg s')) i + heat_capacity g d c * qat (n_temps s) i * / dt)%Q) in EN.
    2: { intros i I. rewrite BV by exact I. rewrite (start_caps i I). fold cells. field. lra. }
    rewrite over_plus, over_scale, SS in EN. clear SS.
    rewrite (over_ext cells (fun i c => leaves g d (n_an s0) c * qat (n_temps s') i)%Q (fun i c => (heat_capacity g d c * qat (n_temps s') i * / dt + to_air g d c * qat (n_temps s') i) + carried_out g d c * qat (n_temps s') i)%Q) in EN.
    2: { intros i I. unfold leaves, stored_rate. rewrite TY. fold dt. field. lra. }
    rewrite !over_plus, over_scale in EN. fold (heat_content g d cells (n_temps s')) (heat_content g d cells (n_temps s)) (enthalpy_out g d cells (n_temps s')) in EN.
    pose proof (air_sum cells (n_temps s')) as AS. set (A1 := over_cells cells (fun i c => to_air g d c * qat (n_temps s') i)%Q) in *. set (A2 := over_cells cells (fun _ c => from_air g d c)) in *. rewrite <- AS.
    set (P := over_sources g _) in *. set (H1 := heat_content g d cells (n_temps s')) in *. set (H2 := heat_content g d cells (n_temps s)) in *.
    assert (K : ((H1 - H2) * / dt == P + received_from_plugin d s' + received_from_board g d cells + enthalpy_in g d G - (A1 - A2) - enthalpy_out g d cells (n_temps s'))%Q) by lra.
    rewrite <- K. field. lra.
  Qed.
  (** One more step after any number of steps: the heat content changes by the
      step time multiplied by the powers of the slot and what the plugin, the board
      and the incoming coolant give, minus what the air receives and the coolant
      carries out. The queues have a value for the slot. *)
  Theorem energy_step : in_place solve plugin -> exact solve -> forall n s s' r, nu_steps solve plugin d n s0 s -> Z.of_nat n + 1 < two32 ->
      nu_emulate_step solve plugin d s = Ok (r, s') -> went_on r ->
      let cells := np_cells (n_pg s0) in
      (forall l, (l < length (tg_types g))%nat -> is_source (type_of g (Z.of_nat l)) = true -> Forall (fun q => (n / Z.to_nat (an_slot_length (n_an s0)) < length q)%nat) (qs l)) /\
      (heat_content g d cells (n_temps s') - heat_content g d cells (n_temps s) ==
       an_step (n_an s0) * (over_sources g (fun l => qsum (slot_powers (an_slot_length (n_an s0)) n (qs l))) + received_from_plugin d s' + received_from_board g d cells + enthalpy_in g d G
                            - given_to_air g d cells (n_temps s') - enthalpy_out g d cells (n_temps s')))%Q.
  Proof.
    intros IP EX n s s' r H B E W cells. pose proof (steps_running solve plugin IP EX g d hs G cs qs s0 ST n s H ltac:(lia)) as RN.
    destruct (step_spec solve plugin IP EX g d hs G cs qs s0 ST n s r s' RN B E W) as (RN' & FULL & V & b & SOL & BV). split; [exact FULL|].
    apply (energy_of (fun l => slot_powers (an_slot_length (n_an s0)) n (qs l)) s s' b); [intros l; unfold slot_powers; apply map_length|exact (rn_cells _ _ _ _ _ _ _ _ RN')|exact V|exact SOL|exact BV].
  Qed.
End Energy.

Theorem C59_energy : forall {PS} solve plugin g d hs G cs qs (s0 s s' : nsim PS) n r,
    in_place solve plugin -> exact solve -> nu_start g d hs G cs qs s0 ->
    nu_steps solve plugin d n s0 s -> Z.of_nat n + 1 < two32 -> nu_emulate_step solve plugin d s = Ok (r, s') -> went_on r ->
    let cells := np_cells (n_pg s0) in let slot := an_slot_length (n_an s0) in
    (forall l, (l < length (tg_types g))%nat -> is_source (type_of g (Z.of_nat l)) = true -> Forall (fun q => (n / Z.to_nat slot < length q)%nat) (qs l)) /\
    (heat_content g d cells (n_temps s') - heat_content g d cells (n_temps s) ==
     an_step (n_an s0) * (over_sources g (fun l => qsum (slot_powers slot n (qs l))) + received_from_plugin d s' + received_from_board g d cells + enthalpy_in g d G
                          - given_to_air g d cells (n_temps s') - enthalpy_out g d cells (n_temps s')))%Q.
Proof. intros PS solve plugin g d hs G cs qs s0 s s' n r IP EX ST H B E W. exact (energy_step solve plugin g d hs G cs qs s0 ST IP EX n s s' r H B E W). Qed.
Print Assumptions C59_energy.

(** Between two steps the plugin of a pluggable sink is given the temperatures of
    the cells of the spreader, and each of these cells loses the heat the plugin
    answers; and SLOT_DONE is the answer at the last step of a slot. *)
Theorem C59_plugin : forall {PS} solve plugin g d hs G cs qs (s0 s s' : nsim PS) n r,
    in_place solve plugin -> exact solve -> nu_start g d hs G cs qs s0 ->
    nu_steps solve plugin d n s0 s -> Z.of_nat n + 1 < two32 -> nu_emulate_step solve plugin d s = Ok (r, s') -> went_on r ->
    (r = TDICE_SLOT_DONE <-> (S n mod Z.to_nat (an_slot_length (n_an s0)) = 0)%nat) /\
    forall sp h m, tg_top g = Some (SinkPluggable sp h m) ->
      exists before flows, plugin (n_plugin s) (spreader_values g G (n_temps s)) before = (false, flows, n_plugin s') /\
        spreader_values g G (np_sources (n_pg s')) = map Qopp flows /\ (received_from_plugin d s' == - qsum flows)%Q.
Proof.
  intros PS solve plugin g d hs G cs qs s0 s s' n r IP EX ST H B E W. pose proof (steps_running solve plugin IP EX g d hs G cs qs s0 ST n s H ltac:(lia)) as RN.
  destruct (step_full solve plugin IP EX g d hs G cs qs s0 ST n s r s' RN B E W) as (RN' & _ & _ & _ & RS & PF). split; [exact RS|]. intros sp h m T. destruct (PF sp h m T) as (before & flows & F1 & F2 & F3).
  exists before, flows. split; [exact F1|]. split; [exact F3|]. pose proof (gt_types d g (nw_grid _ _ _ _ _ _ (st_network _ _ _ _ _ _ _ ST))) as LT. destruct (st_spreader _ _ _ _ _ _ _ ST sp h m T) as (LG & _).
  unfold received_from_plugin. rewrite (rn_cells _ _ _ _ _ _ _ _ RN'), (rd_cells _ _ _ _ _ (st_ready _ _ _ _ _ _ _ ST)), over_flat, LG, seq_S, map_app, qsum_app. cbn [Nat.add map grid_cell cell_of c_layer].
  rewrite qsum_zero. 2: { intros l I. apply in_seq in I. apply qsum_zero. intros k _. cbn [grid_cell cell_of c_layer]. destruct (Z.leb_spec (d_nlayers d) (Z.of_nat l)); [lia|reflexivity]. }
  rewrite qsum_cons. cbn [qsum]. rewrite (qsum_ext _ (fun k => qat (np_sources (n_pg s')) (first_cell G (length (tg_types g)) + Z.of_nat k))). 2: { intros k _. cbn [grid_cell cell_of c_layer]. destruct (Z.leb_spec (d_nlayers d) (Z.of_nat (length (tg_types g)))); [reflexivity|lia]. }
  fold (spreader_values g G (np_sources (n_pg s'))). rewrite F3. clear. induction flows as [|f flows IH]; [cbn; ring|]. cbn [map]. rewrite !qsum_cons. lra.
Qed.
Print Assumptions C59_plugin.

Lemma ends_core : forall {PS} solve plugin g d hs G cs qs0 qs (s0 s : nsim PS) L n,
    in_place solve plugin -> nu_start g d hs G cs qs0 s0 -> 0 < L < two32 ->
    np_grid (n_pg s) = g -> np_cells (n_pg s) = np_cells (n_pg s0) -> np_caps (n_pg s) = np_caps (n_pg s0) ->
    an_type (n_an s) = AT_TRANSIENT -> an_slot_length (n_an s) = L -> an_time (n_an s) = Z.of_nat n ->
    length (n_temps s) = length (np_cells (n_pg s0)) -> ready (n_pg s) d hs G (fun l => map (skipn (begun L n)) (qs l)) ->
    ((n mod Z.to_nat L <> 0)%nat -> forall l, (l < length (tg_types g))%nat -> is_source (type_of g (Z.of_nat l)) = true -> Forall (fun q => (n / Z.to_nat L < length q)%nat) (qs l)) ->
    exists r s', nu_emulate_step solve plugin d s = Ok (r, s') /\ r <> TDICE_WRONG_CONFIG /\
      (r = TDICE_END_OF_SIMULATION <->
       exists l, (l < length (tg_types g))%nat /\ is_source (type_of g (Z.of_nat l)) = true /\ Exists (fun q => (length q <= n / Z.to_nat L)%nat) (qs l)).
Proof.
  intros PS solve plugin g d hs G cs qs0 qs s0 s L n IP ST SP R1 R2 R3 TS RL RT R6 R7 R10.

  pose proof (st_network _ _ _ _ _ _ _ ST) as NW. pose proof (nw_grid _ _ _ _ _ _ NW) as GT. pose proof (nw_physical _ _ _ _ _ _ NW) as PH. pose proof (nw_cells _ _ _ _ _ _ NW) as CW. pose proof (rd_cells _ _ _ _ _ (st_ready _ _ _ _ _ _ _ ST)) as CN.
  assert (REST : forall pg1, np_grid pg1 = g -> np_cells pg1 = np_cells (n_pg s0) -> np_caps pg1 = np_caps (n_pg s0) -> length (np_sources pg1) = length (np_cells (n_pg s0)) ->
     exists r s', (do r2 <- nu_pluggable plugin (mkNsim (n_temps s) pg1 (n_matrix s) (n_an s) (n_plugin s)) ;
        let '(e2, s2) := r2 in
        match e2 with
        | TDICE_FAILURE => Ok (TDICE_SOLVER_ERROR, s2)
        | TDICE_SUCCESS =>
          do b <- nu_rhs (n_pg s2) (an_step (n_an s2)) (n_temps s2) ;
          let '(e3, x) := solve (n_matrix s2) b in
          match e3 with
          | TDICE_FAILURE => Ok (TDICE_SOLVER_ERROR, mkNsim x (n_pg s2) (n_matrix s2) (n_an s2) (n_plugin s2))
          | TDICE_SUCCESS =>
            let an := increase_by_step_time (n_an s2) in
            do done <- slot_completed an ;
            Ok (if done then TDICE_SLOT_DONE else TDICE_STEP_DONE, mkNsim x (n_pg s2) (n_matrix s2) an (n_plugin s2))
          end
        end) = Ok (r, s') /\ r <> TDICE_WRONG_CONFIG /\ r <> TDICE_END_OF_SIMULATION).
  { intros pg1 E1 E2 E3 E4. set (s1 := mkNsim (n_temps s) pg1 (n_matrix s) (n_an s) (n_plugin s)).
    assert (PL : exists e s2, nu_pluggable plugin s1 = Ok (e, s2)).
    { unfold nu_pluggable. cbn [s1 n_pg n_temps]. rewrite E1. destruct (tg_top g) as [[|sp h m]|] eqn:T; eauto. destruct (st_spreader _ _ _ _ _ _ _ ST sp h m T) as (LG & BB).
      assert (FIT : Z.of_nat (length (layer_block G (length (tg_types g)))) <= Z.of_nat (length (np_cells (n_pg s0)))).
      { rewrite CN, number_length. assert (K : (layer_block G (length (tg_types g))) = [] \/ (0 < length (layer_block G (length (tg_types g))))%nat) by (destruct (layer_block G (length (tg_types g))); [left; reflexivity|right; cbn; lia]). destruct K as [->|K]; [cbn; lia|].
        pose proof (first_fits G (length (tg_types g)) (length (layer_block G (length (tg_types g))) - 1) ltac:(lia) ltac:(lia)). unfold first_cell in *. lia. }
      pose proof (few_cells g d hs G cs qs0 s0 ST) as FC. pose proof (gt_spreader d g GT sp h m T) as GS.
      assert (U1 : u32 (s_ncols sp * s_nrows sp) = s_ncols sp * s_nrows sp) by (apply u32_id; lia).
      unfold nu_spreader_offset. rewrite U1, R6. rewrite u32_id by lia. rewrite E4.
      match goal with |- context [if ?c then _ else _] => replace c with true by lia end.
      destruct (plugin _ _ _) as ((bad, fl), ps). destruct bad; eauto. }
    destruct PL as (e & s2 & PL). rewrite PL. cbn [bind]. destruct (plugin_step solve plugin IP g d hs G cs qs0 s0 ST s1 s2 e R6 E4 E1 PL) as (P1 & P2 & P3 & P4 & P5 & _). destruct e; [|do 2 eexists; split; [reflexivity|split; discriminate]].
    cbn [s1 n_pg n_temps n_an n_matrix] in P1, P2, P3, P4.
    assert (RH : exists b, nu_rhs (n_pg s2) (an_step (n_an s2)) (n_temps s2) = Ok b).
    { eexists. unfold nu_rhs. apply (map_out_map _ (fun i => qat (np_sources (n_pg s2)) i + qat (np_caps (n_pg s2)) i / an_step (n_an s2) * qat (n_temps s2) i)%Q). intros i I. apply in_zrange in I.
      assert (C2 : np_cells (n_pg s2) = np_cells (n_pg s0)) by (rewrite P4; exact E2). rewrite C2 in I.
      assert (AG : forall (v : list Q), length v = length (np_cells (n_pg s0)) -> arr_get v i = Ok (qat v i)).
      { intros v LV. unfold arr_get, qat. rewrite LV. destruct ((0 <=? i) && (i <? Z.of_nat (length (np_cells (n_pg s0))))) eqn:Bb; [|lia]. destruct (nth_error v (Z.to_nat i)) eqn:NN; [rewrite (nth_error_nth _ _ _ NN); reflexivity|]. apply nth_error_None in NN. lia. }
      rewrite (AG _ P5). cbn [bind]. rewrite AG by (rewrite P4; cbn [put_sources np_caps]; rewrite E3; exact (start_caps_length g d hs G cs qs0 s0 ST)). cbn [bind]. rewrite P1, (AG _ R6). reflexivity. }
    destruct RH as (b & RH). rewrite RH. cbn [bind]. destruct (solve (n_matrix s2) b) as (e3, x). destruct e3; [|do 2 eexists; split; [reflexivity|split; discriminate]].
    rewrite P3. unfold increase_by_step_time, slot_completed. cbn [an_slot_length]. rewrite RL. destruct (Z.eqb_spec L 0); [lia|]. cbn [bind]. do 2 eexists. split; [reflexivity|]. destruct (_ =? _); split; discriminate. }
  assert (SC : slot_completed (n_an s) = Ok (Z.of_nat n mod L =? 0)) by (unfold slot_completed; rewrite RL, RT; destruct (Z.eqb_spec L 0); [lia|reflexivity]).
  unfold nu_emulate_step. rewrite TS, SC. cbn [bind].
  assert (MODE : (Z.of_nat n mod L =? 0) = (n mod Z.to_nat L =? 0)%nat).
  { rewrite <- (Z2Nat.id L) at 1 by lia. rewrite <- Nat2Z.inj_mod. destruct (Nat.eqb_spec (n mod Z.to_nat L) 0); lia. }
  rewrite MODE. destruct (Nat.eqb_spec (n mod Z.to_nat L) 0) as [BD|BD].
  - rewrite (begun_boundary L n) in R7 by (lia || assumption).
    assert (CW' : forall c, In c (number hs 0 G) -> in_stack (np_grid (n_pg s)) d c /\ one_material (np_grid (n_pg s)) c /\ positive_cell (np_grid (n_pg s)) c) by (rewrite R1, <- CN; exact CW).
    assert (DEC : (forall l, (l < length (tg_types g))%nat -> is_source (type_of g (Z.of_nat l)) = true -> Forall (fun q => q <> []) (map (skipn (n / Z.to_nat L)) (qs l))) \/
                  (exists l, (l < length (tg_types g))%nat /\ is_source (type_of g (Z.of_nat l)) = true /\ Exists (fun q => q = []) (map (skipn (n / Z.to_nat L)) (qs l)))).
    { assert (X : forall N, (forall l, (l < N)%nat -> is_source (type_of g (Z.of_nat l)) = true -> Forall (fun q => q <> []) (map (skipn (n / Z.to_nat L)) (qs l))) \/ (exists l, (l < N)%nat /\ is_source (type_of g (Z.of_nat l)) = true /\ Exists (fun q => q = []) (map (skipn (n / Z.to_nat L)) (qs l)))).
      { intros N. induction N as [|N IH]; [left; lia|]. destruct IH as [IH|(l & A & AA)]; [|right; exists l; split; [lia|exact AA]].
        destruct (Exists_dec (fun q : list Q => q = []) (map (skipn (n / Z.to_nat L)) (qs N))) as [Y|Y]; [intros [|]; [left; reflexivity|right; discriminate]| |].
        - destruct (is_source (type_of g (Z.of_nat N))) eqn:S; [right; exists N; auto|left]. intros l Ll SS. destruct (Nat.eq_dec l N) as [->|]; [congruence|apply IH; [lia|exact SS]].
        - left. intros l Ll SS. destruct (Nat.eq_dec l N) as [->|]; [|apply IH; [lia|exact SS]]. rewrite Forall_forall. rewrite Exists_exists in Y. intros q I ->. apply Y. eauto. }
      apply X. }
    destruct DEC as [NE|EM].
    + destruct (update_full (n_pg s) d hs G _ ltac:(rewrite R1; exact GT) ltac:(rewrite R1; exact PH) R7 CW') as (pg' & E & RD & G1 & C1 & P1 & _); [rewrite R1; exact NE|]. rewrite E. cbn [bind].
      destruct (REST pg') as (r & s' & RE & NW1 & NW2); [congruence|congruence|congruence|rewrite (rd_sources _ _ _ _ _ RD), CN, number_length; reflexivity|].
      exists r, s'. split; [exact RE|]. split; [exact NW1|]. split; [intros X; contradiction|]. intros (l & Ll & S & XE). exfalso. specialize (NE l Ll S). rewrite Exists_exists in XE. destruct XE as (q & I & XL). rewrite Forall_forall in NE. apply (NE (skipn (n / Z.to_nat L) q)); [apply in_map; exact I|apply skipn_all2; exact XL].
    + destruct (update_empty (n_pg s) d hs G _ ltac:(rewrite R1; exact GT) ltac:(rewrite R1; exact PH) R7 CW') as (pgf & F); [rewrite R1; exact EM|]. rewrite F. cbn [bind]. do 2 eexists. split; [reflexivity|]. split; [discriminate|]. split; [intros _|reflexivity].
      destruct EM as (l & Ll & S & XE). exists l. split; [exact Ll|]. split; [exact S|]. rewrite Exists_exists in *. destruct XE as (q & I & ->). apply in_map_iff in I. destruct I as (q0 & E0 & I). exists q0. split; [exact I|]. destruct (Nat.le_gt_cases (length q0) (n / Z.to_nat L)) as [X|X]; [exact X|]. apply (f_equal (@length Q)) in E0. rewrite skipn_length in E0. cbn in E0. lia.
  - cbn [bind]. destruct (REST (n_pg s)) as (r & s' & RE & NW1 & NW2); [exact R1|exact R2|exact R3|rewrite (rd_sources _ _ _ _ _ R7), CN, number_length; reflexivity|].
    exists r, s'. split; [exact RE|]. split; [exact NW1|]. split; [intros X; contradiction|]. intros (l & Ll & S & XE). exfalso. specialize (R10 BD l Ll S). rewrite Exists_exists in XE. destruct XE as (q & I & XL). rewrite Forall_forall in R10. specialize (R10 q I). lia.
Qed.
(** A step is always defined, and the simulation ends when, and only when, some
    element has no value for the slot. *)
Theorem C59_ends : forall {PS} solve plugin g d hs G cs qs (s0 s : nsim PS) n,
    in_place solve plugin -> exact solve -> nu_start g d hs G cs qs s0 -> nu_steps solve plugin d n s0 s -> Z.of_nat n < two32 ->
    exists r s', nu_emulate_step solve plugin d s = Ok (r, s') /\ r <> TDICE_WRONG_CONFIG /\
      (r = TDICE_END_OF_SIMULATION <->
       exists l, (l < length (tg_types g))%nat /\ is_source (type_of g (Z.of_nat l)) = true /\ Exists (fun q => (length q <= n / Z.to_nat (an_slot_length (n_an s0)))%nat) (qs l)).
Proof.
  intros PS solve plugin g d hs G cs qs s0 s n IP EX ST H B. pose proof (steps_running solve plugin IP EX g d hs G cs qs s0 ST n s H B) as RN. pose proof (st_slot _ _ _ _ _ _ _ ST) as SP.
  destruct RN as [R1 R2 R3 R4 R5 R6 R7 R8 R9 R10]. apply (ends_core solve plugin g d hs G cs qs qs s0 s); auto; rewrite R5; try reflexivity. exact (st_type _ _ _ _ _ _ _ ST).
Qed.
Print Assumptions C59_ends.

(** Steady state: all of the power leaves. *)
Theorem C59_steady : forall {PS} solve g d hs G cs qs (s s' : nsim PS) r,
    exact solve -> an_type (n_an s) = AT_STEADY -> has_ambient (tg_top g) ->
    np_grid (n_pg s) = g -> ready (n_pg s) d hs G qs -> network g d (n_an s) (np_cells (n_pg s)) cs (n_matrix s) ->
    (forall l, (l < length (tg_types g))%nat -> is_source (type_of g (Z.of_nat l)) = true -> Forall (fun q => q <> []) (qs l)) ->
    nu_emulate_steady solve d s = Ok (r, s') -> r <> TDICE_SOLVER_ERROR ->
    let cells := np_cells (n_pg s) in
    (over_sources g (fun l => qsum (powers_now (qs l))) + received_from_board g d cells + enthalpy_in g d G == given_to_air g d cells (n_temps s') + enthalpy_out g d cells (n_temps s'))%Q.
Proof.
  intros PS solve g d hs G cs qs s s' r EX TY (htc & amb & TA) GE R NW NE E NR cells. unfold nu_emulate_steady in E. rewrite TY, GE, TA in E.
  pose proof (nw_grid _ _ _ _ _ _ NW) as GT. pose proof (nw_physical _ _ _ _ _ _ NW) as PH. pose proof (nw_cells _ _ _ _ _ _ NW) as CW. pose proof (rd_cells _ _ _ _ _ R) as CN.
  destruct (update_full (n_pg s) d hs G qs ltac:(rewrite GE; exact GT) ltac:(rewrite GE; exact PH) R ltac:(rewrite GE, <- CN; exact CW) ltac:(rewrite GE; exact NE)) as (pg' & U & RD & G1 & C1 & _ & V & _). rewrite U in E. cbn [bind] in E.
  destruct (nu_rhs_steady pg') as [b| |] eqn:RH; try discriminate. cbn [bind] in E. destruct (solve (n_matrix s) b) as (e3, x) eqn:SO. destruct e3; [|injection E as <- <-; congruence]. injection E as <- <-. cbn [n_temps].
  assert (BL : length b = length cells).
  { unfold nu_rhs_steady in RH. apply map_out_forall in RH. assert (length b = length (zrange 0 (Z.of_nat (length (np_cells pg')) - 1))) as -> by (clear - RH; induction RH; cbn; congruence). rewrite zrange_seq, map_length, seq_length, C1. reflexivity. }
  assert (SOL := EX _ _ _ SO). rewrite BL in SOL. pose proof (C57_energy _ _ _ _ _ _ _ _ NW SOL) as EN. cbv zeta in EN. fold cells in EN.
  assert (LG : length G = length (tg_types g)) by (rewrite <- GE; apply (rd_air _ _ _ _ _ R); rewrite GE; unfold has_ambient; eauto).
  assert (BV : forall i, 0 <= i < Z.of_nat (length cells) -> qat b i = qat (np_sources pg') i).
  { intros i I. unfold nu_rhs_steady in RH. pose proof (map_out_nth _ _ _ (Z.to_nat i) 0 0%Q RH) as X. rewrite zrange_seq, map_length, seq_length, C1 in X. specialize (X ltac:(fold cells; lia)).
    rewrite (nth_indep _ 0 (Z.of_nat 0)) in X by (rewrite map_length, seq_length; fold cells; lia). rewrite map_nth, seq_nth in X by (fold cells; lia). replace (Z.of_nat (0 + Z.to_nat i)) with i in X by lia.
    unfold qat at 1. unfold arr_get in X. destruct ((0 <=? i) && (i <? Z.of_nat (length (np_sources pg')))); [|discriminate]. destruct (nth_error (np_sources pg') (Z.to_nat i)) eqn:NN; [|discriminate]. unfold qat. rewrite (nth_error_nth _ _ _ NN). injection X as <-. reflexivity. }
  change (qsum (map (qat b) (zrange 0 (Z.of_nat (length cells) - 1)))) with (over_cells cells (fun i _ => qat b i)) in EN.
  change (qsum (map (fun j => leaves g d (n_an s) (at_cell cells j) * qat x j)%Q (zrange 0 (Z.of_nat (length cells) - 1)))) with (over_cells cells (fun i c => leaves g d (n_an s) c * qat x i)%Q) in EN.
  rewrite (over_ext cells (fun i _ => qat b i) (fun i c => qat (np_sources pg') i)) in EN by (intros i I; rewrite BV by exact I; reflexivity).
  rewrite (over_ext cells (fun i c => leaves g d (n_an s) c * qat x i)%Q (fun i c => to_air g d c * qat x i + carried_out g d c * qat x i)%Q) in EN by (intros i I; unfold leaves, stored_rate; rewrite TY; ring).
  rewrite over_plus in EN. fold (enthalpy_out g d cells x) in EN. rewrite <- (air_sum g d cells x).
  pose proof (heat_sum (n_pg s) d hs G (fun l => powers_now (qs l))) as HS. cbv zeta in HS. rewrite GE in HS. specialize (HS GT ltac:(lia)). unfold cells in *. rewrite CN in *. 
  assert (SS : (over_cells (number hs 0 G) (fun i _ => qat (np_sources pg') i) == over_sources g (fun l => qsum (powers_now (qs l))) + over_cells (number hs 0 G) (fun _ c => from_air g d c) + received_from_board g d (number hs 0 G) + enthalpy_in g d G)%Q).
  { rewrite <- HS; clear HS.
    - rewrite over_flat. apply qsum_ext. intros l I. apply in_seq in I. apply qsum_ext. intros k K. apply in_seq in K. rewrite V by lia. unfold heat_in, heat_of. reflexivity.
    - intros l Ll S. destruct (rd_queues _ _ _ _ _ R l ltac:(rewrite GE; exact Ll) ltac:(rewrite GE; exact S)) as (_ & Q1 & Q2 & Q3). split; [exact Q2|]. split; [exact Q3|]. unfold powers_now. rewrite map_length. apply queued_length. exact Q1. }
  rewrite SS in EN. lra.
Qed.
Print Assumptions C59_steady.

(** Refuted with a bottom heat sink: a chip at the temperature of its surroundings,
    without power, warms up, because the heat from the board does not depend on the
    temperature. Every stack without coolant. *)
Theorem C59_board_refuted : forall {PS} solve plugin g d hs G cs qs (s0 s' : nsim PS) r b h x0,
    in_place solve plugin -> exact solve -> nu_start g d hs G cs qs s0 ->
    tg_bottom g = Some b -> bs_ambient b = x0 -> tg_top g = Some (SinkTop h x0) -> (0 < x0)%Q -> tg_channel g = None ->
    (forall l, Forall (Forall (fun p => p == 0)%Q) (qs l)) ->
    (forall i, 0 <= i < Z.of_nat (length (n_temps s0)) -> (qat (n_temps s0) i == x0)%Q) ->
    nu_emulate_step solve plugin d s0 = Ok (r, s') -> went_on r ->
    ~ (forall i, 0 <= i < Z.of_nat (length (n_temps s')) -> (qat (n_temps s') i == x0)%Q).
Proof.
  intros PS solve plugin g d hs G cs qs s0 s' r b h x0 IP EX ST TB AB TT XP NC Z0 U E W U'.
  destruct (C59_energy solve plugin g d hs G cs qs s0 s0 s' 0 r IP EX ST (NS_nil _ _ _ _) ltac:(unfold two32; lia) E W) as (_ & EN).
  pose proof (running_start g d hs G cs qs s0 ST) as RN. destruct (step_spec solve plugin IP EX g d hs G cs qs s0 ST 0 s0 r s' RN ltac:(unfold two32; lia) E W) as (RN' & _).
  pose proof (rn_temps _ _ _ _ _ _ _ _ RN') as LT'. pose proof (st_temps _ _ _ _ _ _ _ ST) as LT0. set (cells := np_cells (n_pg s0)) in *. rewrite LT' in U'. rewrite LT0 in U.
  pose proof (st_network _ _ _ _ _ _ _ ST) as NW. pose proof (nw_grid _ _ _ _ _ _ NW) as GT. pose proof (nw_physical _ _ _ _ _ _ NW) as PH. pose proof (nw_cells _ _ _ _ _ _ NW) as CW. fold cells in CW. pose proof (rd_cells _ _ _ _ _ (st_ready _ _ _ _ _ _ _ ST)) as CN. fold cells in CN.
  pose proof (st_step _ _ _ _ _ _ _ ST) as SP. pose proof (gt_types d g GT) as LT. pose proof (gt_one d g GT) as N1. pose proof (st_grid _ _ _ _ _ _ _ ST) as GE.
  assert (H1 : (heat_content g d cells (n_temps s') - heat_content g d cells (n_temps s0) == 0)%Q).
  { unfold heat_content. rewrite (over_ext cells (fun i c => heat_capacity g d c * qat (n_temps s') i)%Q (fun i c => heat_capacity g d c * qat (n_temps s0) i)%Q) by (intros i I; rewrite U, U' by exact I; reflexivity). ring. }
  assert (H2 : (given_to_air g d cells (n_temps s') == 0)%Q) by (unfold given_to_air; rewrite TT; apply over_zero; intros i I; rewrite U' by exact I; ring).
  assert (H3 : (enthalpy_out g d cells (n_temps s') == 0)%Q) by (unfold enthalpy_out; apply over_zero; intros i I; unfold carried_out; rewrite NC; destruct (d_nlayers d <=? _); [ring|destruct (_ && _); ring]).
  assert (H4 : (enthalpy_in g d G == 0)%Q) by (unfold enthalpy_in; apply qsum_zero; intros l _; apply qsum_zero; intros k _; unfold from_inlet; rewrite NC; reflexivity).
  assert (LG : length G = length (tg_types g)) by (rewrite <- GE; apply (rd_air _ _ _ _ _ (st_ready _ _ _ _ _ _ _ ST)); rewrite GE, TT; unfold has_ambient; eauto).
  assert (H5 : (received_from_plugin d s' == 0)%Q).
  { unfold received_from_plugin. rewrite (rn_cells _ _ _ _ _ _ _ _ RN'). fold cells. apply over_zero. intros i I. destruct (Z.leb_spec (d_nlayers d) (c_layer (at_cell cells i))) as [B|B]; [exfalso|reflexivity].
    assert (IN : In (at_cell cells i) cells) by (unfold at_cell; apply nth_In; lia). rewrite CN in IN at 2. apply number_layer in IN. lia. }
  assert (H6 : (over_sources g (fun l => qsum (slot_powers (an_slot_length (n_an s0)) 0 (qs l))) == 0)%Q).
  { unfold over_sources. apply qsum_zero. intros l _. destruct (is_source _); [|reflexivity]. unfold slot_powers. apply qsum_zero. intros q I. specialize (Z0 l). rewrite Forall_forall in Z0. specialize (Z0 q I).
    set (k := (0 / _)%nat). clearbody k. clear I. revert k. induction Z0 as [|p q P Z IH]; intros [|k]; try reflexivity; [exact P|apply IH]. }
  assert (TP : to_pcb (type_of g 0) = true) by (apply (gt_pcb d g GT); congruence).
  assert (H7 : (0 < received_from_board g d cells)%Q).
  { pose proof (rd_some _ _ _ _ _ (st_ready _ _ _ _ _ _ _ ST) 0%nat ltac:(lia)) as NB.
    assert (POS : forall c, In c cells -> (0 <= from_board g d c)%Q /\ (c_layer c = 0 -> (0 < from_board g d c)%Q)).
    { intros c IC. destruct (CW c IC) as ((C1 & C4) & C2 & C3a & C3b & C3c). unfold from_board. rewrite TB, AB. unfold to_board.
      assert (PO : to_pcb (type_of g (c_layer c)) = true -> (0 < c_length c * c_width c / (cell_height d c / 2 / mt_kz (cell_material g c)))%Q).
      { intros T. assert (Lc : 0 <= c_layer c < d_nlayers d) by (split; [lia|]; destruct (Z.eq_dec (c_layer c) (d_nlayers d)) as [Q|Q]; [exfalso; rewrite Q in T; unfold type_of in T; rewrite nth_overflow in T by lia; discriminate T|lia]).
        assert (KZ : (0 < mt_kz (cell_material g c))%Q).
        { unfold cell_material. destruct (is_source (type_of g (c_layer c))) eqn:S; [apply (C3c eq_refl)|]. pose proof (ph_layers _ _ PH) as PL. rewrite Forall_forall in PL. specialize (PL (cell_layer g c)). pose proof (gt_layers d g GT) as GL. specialize (PL ltac:(unfold cell_layer; apply nth_In; lia)). apply PL. }
        assert (HH : (0 < cell_height d c)%Q) by (pose proof (ph_heights _ _ PH) as PL; rewrite Forall_forall in PL; apply PL; unfold cell_height; apply nth_In; destruct (gt_accepted d g GT) as [_ _ AA _ _]; lia).
        apply Qlt_shift_div_l; [apply Qlt_shift_div_l; [exact KZ|]; rewrite Qmult_0_l; apply Qlt_shift_div_l; lra|]. rewrite Qmult_0_l. apply Qmult_lt_0_compat; assumption. }
      destruct (to_pcb (type_of g (c_layer c))) eqn:T.
      - specialize (PO eq_refl). split; [apply Qmult_le_0_compat; lra|intros _; apply Qmult_lt_0_compat; assumption].
      - split; [lra|]. intros X. rewrite X in T. congruence. }
    unfold received_from_board. destruct (layer_block G 0) as [|gc rest] eqn:LB; [congruence|].
    assert (L0 : exists c rest', cells = c :: rest' /\ c_layer c = 0). { rewrite CN. unfold layer_block in LB. destruct G as [|X G']; [cbn in LB; discriminate LB|]. cbn [nth] in LB. cbn [number]. rewrite LB. cbn [map app]. do 2 eexists. split; [reflexivity|]. reflexivity. }
    destruct L0 as (c & rest' & CE & CL). unfold over_cells. rewrite zrange_seq, map_map, CE. cbn [length seq map]. rewrite qsum_cons.
    assert (P0 : (0 < from_board g d (at_cell (c :: rest') (Z.of_nat 0)))%Q) by (apply POS; [rewrite CE; left; reflexivity|exact CL]).
    assert (P1 : (0 <= qsum (map (fun x => from_board g d (at_cell (c :: rest') (Z.of_nat x))) (seq 1 (length rest'))))%Q) by (apply qsum_nonneg; intros k I; apply in_seq in I; apply POS; rewrite CE; unfold at_cell; apply nth_In; cbn [length]; lia).
    lra. }
  rewrite H1, H2, H3, H4, H5, H6 in EN. assert (X : (0 < an_step (n_an s0) * received_from_board g d cells)%Q) by (apply Qmult_lt_0_compat; assumption). lra.
Qed.
Print Assumptions C59_board_refuted.

(** ** Witnesses: the small stack of NuMini.v, one step of 1000 s with 6 W and 9 W;
    the steady state of the same powers; and, with a board at the temperature of the
    air and no power, a step after which no cell is below 900 K. *)
Definition mini_after : list Q := [1327177755899#4423864100; 1327170565109#4423864100; 663585301747#2211932050; 1327170565109#4423864100; 265432791373#884772820].
Definition mini_rest : list Q := [493733326181#1645746000; 493730541581#1645746000; 493730560481#1645746000; 493730541581#1645746000; 1800011#6000].
Definition mini_board : list Q := [513985041900#310079773; 626771601900#310079773; 626244561900#310079773; 626771601900#310079773; 295806951900#310079773].
Definition mini_p : list Q := [6; 2]%Q.
Definition mini_q : list Q := [9; 3]%Q.
Example C59_witness : exists s0 s1 : nsim unit,
    in_place (guess [mini_after]) wplugin /\ exact (guess [mini_after]) /\
    nu_start (mini_grid None) mini_dims mini_hs mini_G mini_conns (mini_powers mini_p mini_q) s0 /\
    nu_emulate_step (guess [mini_after]) wplugin mini_dims s0 = Ok (TDICE_STEP_DONE, s1) /\ n_temps s1 = mini_after /\
    (over_sources (mini_grid None) (fun l => qsum (slot_powers 10 0 (mini_powers mini_p mini_q l))) == 15)%Q.
Proof.
  assert (Y : match mini_sim None AT_TRANSIENT mini_p mini_q with Ok s => match nu_emulate_step (guess [mini_after]) wplugin mini_dims s with Ok (TDICE_STEP_DONE, s') => n_temps s' | _ => [] end | _ => [] end = mini_after) by (vm_compute; reflexivity).
  destruct (mini_sim None AT_TRANSIENT mini_p mini_q) as [s0| |] eqn:E; try discriminate Y. destruct (nu_emulate_step (guess [mini_after]) wplugin mini_dims s0) as [[r s1]| |] eqn:S; try discriminate Y. destruct r; try discriminate Y.
  exists s0, s1. split; [apply guess_in_place|]. split; [apply guess_exact|]. split; [exact (mini_start None _ _ s0 I E)|]. split; [exact S|]. split; [exact Y|vm_compute; reflexivity].
Qed.
Example C59_steady_witness : exists s0 s1 : nsim unit,
    exact (guess [mini_rest]) /\ an_type (n_an s0) = AT_STEADY /\ has_ambient (tg_top (mini_grid None)) /\ np_grid (n_pg s0) = mini_grid None /\
    ready (n_pg s0) mini_dims mini_hs mini_G (mini_powers mini_p mini_q) /\ network (mini_grid None) mini_dims (n_an s0) (np_cells (n_pg s0)) mini_conns (n_matrix s0) /\
    nu_emulate_steady (guess [mini_rest]) mini_dims s0 = Ok (TDICE_END_OF_SIMULATION, s1) /\ n_temps s1 = mini_rest /\
    (given_to_air (mini_grid None) mini_dims (np_cells (n_pg s0)) (n_temps s1) == 15)%Q.
Proof.
  assert (Y : match mini_sim None AT_STEADY mini_p mini_q with Ok s => match nu_emulate_steady (guess [mini_rest]) mini_dims s with Ok (TDICE_END_OF_SIMULATION, s') => n_temps (s' : nsim unit) | _ => [] end | _ => [] end = mini_rest) by (vm_compute; reflexivity).
  destruct (mini_sim None AT_STEADY mini_p mini_q) as [s0| |] eqn:E; try discriminate Y. destruct (nu_emulate_steady (guess [mini_rest]) mini_dims s0) as [[r s1]| |] eqn:S; try discriminate Y. destruct r; try discriminate Y.
  destruct (mini_network None _ _ _ s0 I E) as (E1 & E2 & _ & E4 & E5 & E6 & _).
  exists s0, s1. split; [apply guess_exact|]. rewrite E2. split; [reflexivity|]. split; [exists 1%Q, 300%Q; reflexivity|]. do 4 (split; [assumption|]). split; [exact Y|]. rewrite E4, Y. vm_compute. reflexivity.
Qed.
Definition mini_off : list Q := [0; 0]%Q.
Example C59_board_witness : exists s0 s1 : nsim unit, let b := Some (mkBottomSink 1 300) in
    nu_start (mini_grid b) mini_dims mini_hs mini_G mini_conns (mini_powers mini_off mini_off) s0 /\ n_temps s0 = repeat 300%Q 5 /\
    (forall l, Forall (Forall (fun p => p == 0)%Q) (mini_powers mini_off mini_off l)) /\
    nu_emulate_step (guess [mini_board]) wplugin mini_dims s0 = Ok (TDICE_STEP_DONE, s1) /\ n_temps s1 = mini_board /\ Forall (fun t => 900 < t)%Q (n_temps s1).
Proof.
  assert (Y : match mini_sim (Some (mkBottomSink 1 300)) AT_TRANSIENT mini_off mini_off with Ok s => match nu_emulate_step (guess [mini_board]) wplugin mini_dims s with Ok (TDICE_STEP_DONE, s') => n_temps s' | _ => [] end | _ => [] end = mini_board) by (vm_compute; reflexivity).
  destruct (mini_sim (Some (mkBottomSink 1 300)) AT_TRANSIENT mini_off mini_off) as [s0| |] eqn:E; try discriminate Y. destruct (nu_emulate_step (guess [mini_board]) wplugin mini_dims s0) as [[r s1]| |] eqn:S; try discriminate Y. destruct r; try discriminate Y.
  exists s0, s1. cbv zeta. split; [exact (mini_start (Some (mkBottomSink 1 300)) _ _ s0 eq_refl E)|]. split; [exact (proj1 (proj2 (proj2 (mini_network (Some (mkBottomSink 1 300)) _ _ _ s0 eq_refl E))))|]. split; [|split; [exact S|split; [exact Y|rewrite Y; repeat constructor]]].
  intros l. unfold mini_powers. destruct (l =? 0)%nat; repeat constructor.
Qed.
