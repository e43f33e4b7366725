(** * C62: power values inserted in a simulation on the non-uniform grid, and
      histories of steps, insertions and changes of the flow rate *)
From Coq Require Import ZArith List Bool QArith Lia ZifyBool Lqa.
From Verif Require Import Base QSum Dims DimsSpec Queue QueueProofs Floorplan FloorplanProofs Stack StackSpec PowerGrid Emulate EmulateSpec SourceProofs StackProofs SourceVectorProofs Conduct Matrix MatrixSpec BalanceSpec Flow NonUniform NuSpec NuCountProofs NuMatrix NuMatrixSpec NuCoeffProofs NuTableProofs NuSource NuSourceSpec NuSourceProofs NuEmulate PropNuMatrix NuRunSpec NuFlatProofs NuRunProofs PropNuRun NuFlow NuFlowProofs PropNuFlow NuInsert MatrixWitness SimWitness PropNuSource NuMini.
Import ListNotations.
Local Open Scope Z_scope.

(** The queues of all elements: source layers from the bottom, elements in the
    order of the floorplan. *)
Definition layer_queues (g : tgrid) (qs : nat -> list (list Q)) : list (list (list Q)) :=
  map (fun l => if is_source (type_of g (Z.of_nat l)) then qs l else []) (seq 0 (length (tg_types g))).
Definition all_queues (g : tgrid) (qs : nat -> list (list Q)) : list (list Q) := concat (layer_queues g qs).

(** ** Proofs *)
Definition el_cut (e : nu_source) : Z * Z := (so_dx e, so_dy e).
Lemma els_spec : forall els qs vs pv, queued els qs -> qrep pv vs -> small_queues qs ->
    exists els' pv', nu_insert_els els pv = Ok (if (length qs <=? length vs)%nat then TDICE_SUCCESS else TDICE_FAILURE, els', pv') /\
      map el_cut els' = map el_cut els /\ queued els' (give qs vs) /\ qrep pv' (skipn (length qs) vs).
Proof.
  intros els qs vs pv F. revert vs pv. induction F as [|e l els qs R F IH]; intros vs pv V S2.
  - exists [], pv. cbn. split; [reflexivity|]. split; [reflexivity|]. split; [constructor|exact V].
  - cbn [nu_insert_els]. rewrite (qrep_empty _ _ V). destruct vs as [|v vs].
    + exists (e :: els), pv. cbn [length Nat.leb give skipn]. split; [reflexivity|]. split; [reflexivity|]. split; [constructor; assumption|exact V].
    + inversion S2 as [|? ? S3 S4]. subst. destruct (queue_get_spec _ _ _ V) as (pv1 & E & V1). rewrite E. cbn [bind fst snd].
      destruct (queue_put_spec _ _ v R S3) as (q' & E2 & R2). rewrite E2. cbn [bind].
      destruct (IH vs pv1 V1 S4) as (els' & pv' & E3 & S5 & Q & V2). rewrite E3. cbn [bind].
      eexists. exists pv'. split; [reflexivity|]. split; [cbn [map el_cut so_dx so_dy]; rewrite S5; reflexivity|].
      cbn [give skipn length]. split; [constructor; [exact R2|exact Q]|exact V2].
Qed.

Inductive lays : list layer_type -> list (option (list nu_source)) -> list (list (list Q)) -> Prop :=
| ly_nil : lays [] [] []
| ly_source : forall t els q ts fs QS, is_source t = true -> queued els q -> lays ts fs QS -> lays (t :: ts) (Some els :: fs) (q :: QS)
| ly_other : forall t f ts fs QS, is_source t = false -> t <> LT_NONE -> lays ts fs QS -> lays (t :: ts) (f :: fs) ([] :: QS).
Fixpoint deal (QS : list (list (list Q))) (vs : list Q) : list (list (list Q)) :=
  match QS with [] => [] | q :: t => give q vs :: deal t (skipn (length q) vs) end.
Lemma deal_concat : forall QS vs, concat (deal QS vs) = give (concat QS) vs.
Proof. induction QS as [|q QS IH]; intros vs; cbn [deal concat]; [reflexivity|]. rewrite give_app, IH. reflexivity. Qed.
Lemma deal_nil : forall QS, deal QS [] = QS.
Proof. induction QS as [|q QS IH]; cbn [deal]; [reflexivity|]. rewrite give_nil, skipn_nil, IH. reflexivity. Qed.
Lemma deal_length : forall QS vs, length (deal QS vs) = length QS.
Proof. induction QS as [|q QS IH]; intros vs; cbn [deal length]; auto. Qed.
Definition same_cut (f f' : option (list nu_source)) : Prop :=
  match f, f' with Some a, Some b => map el_cut b = map el_cut a | None, None => True | _, _ => False end.
Lemma same_cut_refl : forall fs, Forall2 same_cut fs fs.
Proof. induction fs as [|[a|] fs IH]; constructor; cbn; auto. Qed.

Lemma insert_layers_ok : forall ts fs QS, lays ts fs QS -> forall vs pv, qrep pv vs -> small_queues (concat QS) ->
    exists fs' pv', nu_insert_layers ts fs pv = Ok (if (length (concat QS) <=? length vs)%nat then TDICE_SUCCESS else TDICE_FAILURE, fs', pv') /\
      lays ts fs' (deal QS vs) /\ Forall2 same_cut fs fs' /\ qrep pv' (skipn (length (concat QS)) vs).
Proof.
  intros ts fs QS H. induction H as [|t els q ts fs QS IS Qd H IH|t f ts fs QS IS NN H IH]; intros vs pv V SM.
  - exists [], pv. cbn. split; [reflexivity|]. split; [constructor|]. split; [constructor|exact V].
  - cbn [concat] in SM. apply Forall_app in SM. destruct SM as [SA SB]. destruct (els_spec els q vs pv Qd V SA) as (els' & pv1 & E & C & Q' & V1).
    assert (X : nu_insert_layers (t :: ts) (Some els :: fs) pv = do r <- nu_insert_els els pv ; let '(e, els1, pv1) := r in
        match e with TDICE_FAILURE => Ok (TDICE_FAILURE, Some els1 :: fs, pv1)
        | TDICE_SUCCESS => do r2 <- nu_insert_layers ts fs pv1 ; let '(e2, fs2, pv2) := r2 in Ok (e2, Some els1 :: fs2, pv2) end) by (destruct t; try discriminate IS; reflexivity).
    rewrite X, E. cbn [bind concat deal]. rewrite app_length. destruct (length q <=? length vs)%nat eqn:B1.
    + apply Nat.leb_le in B1. destruct (IH (skipn (length q) vs) pv1 V1 SB) as (fs' & pv' & E2 & L2 & C2 & V2). rewrite E2. cbn [bind]. eexists. exists pv'. split.
      { refine (f_equal2 (fun a b => Ok (a, b, pv')) _ eq_refl). rewrite skipn_length. destruct (Nat.leb_spec (length (concat QS)) (length vs - length q)), (Nat.leb_spec (length q + length (concat QS)) (length vs)); (reflexivity || lia). }
      split; [constructor; assumption|]. split; [constructor; assumption|]. rewrite skipn_skipn' in V2. rewrite Nat.add_comm. exact V2.
    + apply Nat.leb_gt in B1. unfold power in *. eexists. exists pv1. split.
      { refine (f_equal2 (fun a b => Ok (a, b, pv1)) _ eq_refl). destruct (Nat.leb_spec (length q + length (concat QS)) (length vs)); (reflexivity || lia). }
      match goal with |- context [deal QS ?z] => replace z with (@nil Q) by (symmetry; apply skipn_all2; lia) end. rewrite deal_nil. split; [constructor; assumption|]. split; [constructor; [exact C|apply same_cut_refl]|].
      match goal with |- qrep _ ?z => replace z with (@nil Q) by (symmetry; apply skipn_all2; lia) end.
      match type of V1 with qrep _ ?z => replace z with (@nil Q) in V1 by (symmetry; apply skipn_all2; lia) end. exact V1.
  - cbn [concat app] in *. destruct (IH vs pv V SM) as (fs' & pv' & E2 & L2 & C2 & V2).
    assert (X : nu_insert_layers (t :: ts) (f :: fs) pv = do r2 <- nu_insert_layers ts fs pv ; let '(e2, fs2, pv2) := r2 in Ok (e2, f :: fs2, pv2)) by (destruct t; try discriminate IS; try congruence; reflexivity).
    rewrite X, E2. cbn [bind deal give length skipn]. exists (f :: fs'), pv'. split; [reflexivity|]. split; [constructor; assumption|]. split; [constructor; [destruct f; cbn; auto|assumption]|exact V2].
Qed.

Lemma lays_of : forall ts fs QS, length fs = length ts -> length QS = length ts -> Forall (fun t => t <> LT_NONE) ts ->
    (forall i, (i < length ts)%nat -> if is_source (nth i ts LT_NONE) then exists els, nth_error fs i = Some (Some els) /\ queued els (nth i QS []) else nth i QS [] = []) -> lays ts fs QS.
Proof.
  induction ts as [|t ts IH]; intros [|f fs] [|q QS] LF LQ NN H; try discriminate; [constructor|]. inversion NN as [|? ? N1 N2]; subst.
  assert (T : lays ts fs QS) by (apply IH; auto; intros i I; specialize (H (S i) ltac:(cbn [length]; lia)); exact H).
  specialize (H 0%nat ltac:(cbn [length]; lia)). cbn [nth nth_error] in H. destruct (is_source t) eqn:IS.
  - destruct H as (els & E & Q). injection E as ->. constructor; assumption.
  - subst q. constructor; assumption.
Qed.
Lemma lays_at : forall ts fs QS, lays ts fs QS -> length fs = length ts /\ length QS = length ts /\
    forall i, (i < length ts)%nat -> if is_source (nth i ts LT_NONE) then exists els, nth_error fs i = Some (Some els) /\ queued els (nth i QS []) else nth i QS [] = [].
Proof.
  intros ts fs QS H. induction H as [|t els q ts fs QS IS Q H IH|t f ts fs QS IS NN H IH]; [split; [reflexivity|split; [reflexivity|intros i I; cbn [length] in I; lia]]| |]; destruct IH as (A & B & C); (split; [cbn; lia|split; [cbn; lia|]]); intros [|i] I; cbn [length nth nth_error] in *; try (apply C; lia).
  - rewrite IS. eauto.
  - rewrite IS. reflexivity.
Qed.
Lemma layer_queues_nth : forall g qs l, (l < length (tg_types g))%nat -> nth l (layer_queues g qs) [] = if is_source (type_of g (Z.of_nat l)) then qs l else [].
Proof. intros g qs l H. unfold layer_queues. rewrite (nth_indep _ [] ((fun l => if is_source (type_of g (Z.of_nat l)) then qs l else []) 0%nat)) by (rewrite map_length, seq_length; exact H). rewrite (map_nth (fun l => if is_source (type_of g (Z.of_nat l)) then qs l else [])), seq_nth by exact H. reflexivity. Qed.
Lemma ready_lays : forall pg d hs G qs, good_tgrid d (np_grid pg) -> ready pg d hs G qs -> lays (tg_types (np_grid pg)) (np_flps pg) (layer_queues (np_grid pg) qs).
Proof.
  intros pg d hs G qs GT R. destruct (usual _ _ GT) as (NN & _). apply lays_of; [exact (rd_flps _ _ _ _ _ R)|unfold layer_queues; rewrite map_length, seq_length; reflexivity|exact NN|].
  intros i I. rewrite layer_queues_nth by exact I. unfold type_of at 1. rewrite Nat2Z.id. fold (type_of (np_grid pg) (Z.of_nat i)).
  assert (TE : type_of (np_grid pg) (Z.of_nat i) = nth i (tg_types (np_grid pg)) LT_NONE) by (unfold type_of; rewrite Nat2Z.id; reflexivity). rewrite <- TE. destruct (is_source (type_of (np_grid pg) (Z.of_nat i))) eqn:IS; [|reflexivity].
  destruct (rd_queues _ _ _ _ _ R i I IS) as ((els & E) & Q & _). exists els. split; [exact E|]. unfold flp_at in Q. rewrite (nth_error_nth _ _ _ E) in Q. exact Q.
Qed.
(** The queues after the insertion, layer by layer. *)
Definition dealt (g : tgrid) (qs : nat -> list (list Q)) (vs : list Q) (l : nat) : list (list Q) := nth l (deal (layer_queues g qs) vs) [].
Lemma deal_empty : forall QS vs l, nth l QS [] = [] -> nth l (deal QS vs) [] = [].
Proof. induction QS as [|q QS IH]; intros vs [|l] H; cbn [deal nth] in *; auto. subst q. reflexivity. Qed.
Lemma dealt_queues : forall g qs vs, layer_queues g (dealt g qs vs) = deal (layer_queues g qs) vs.
Proof.
  intros g qs vs. assert (LL : length (layer_queues g qs) = length (tg_types g)) by (unfold layer_queues; rewrite map_length, seq_length; reflexivity).
  apply (nth_ext _ _ [] []); [rewrite deal_length, LL; unfold layer_queues; rewrite map_length, seq_length; reflexivity|].
  intros l H. unfold layer_queues in H at 1. rewrite map_length, seq_length in H. rewrite layer_queues_nth by exact H. destruct (is_source (type_of g (Z.of_nat l))) eqn:IS; [reflexivity|]. symmetry. apply deal_empty. rewrite layer_queues_nth, IS by exact H. reflexivity.
Qed.
Lemma dealt_all : forall g qs vs, all_queues g (dealt g qs vs) = give (all_queues g qs) vs.
Proof. intros. unfold all_queues. rewrite dealt_queues. apply deal_concat. Qed.
Lemma deal_lengths : forall QS vs l, length (nth l (deal QS vs) []) = length (nth l QS []).
Proof. induction QS as [|q QS IH]; intros vs [|l]; cbn [deal nth]; auto. apply give_length. Qed.
Lemma same_cuts_at : forall fs fs', Forall2 same_cut fs fs' -> forall l els, nth_error fs l = Some (Some els) -> exists els', nth_error fs' l = Some (Some els') /\ map el_cut els' = map el_cut els.
Proof.
  intros fs fs' H. induction H as [|f f' fs fs' C H IH]; intros [|l] els E; try discriminate; cbn [nth_error] in *; [|apply IH; exact E]. injection E as ->. destruct f' as [els'|]; [|destruct C]. eauto.
Qed.
Lemma cut_pieces : forall a b, map el_cut a = map el_cut b -> map pieces a = map pieces b.
Proof. induction a as [|e a IH]; intros [|f b] H; try discriminate; [reflexivity|]. cbn [map el_cut] in *. injection H as H1 H2 H3. rewrite (IH b H3). unfold pieces. rewrite H1, H2. reflexivity. Qed.
Lemma cut_good : forall a b, map el_cut a = map el_cut b -> good_pieces a -> good_pieces b.
Proof. induction a as [|e a IH]; intros [|f b] H GA; try discriminate; [constructor|]. cbn [map el_cut] in *. injection H as H1 H2 H3. inversion GA; subst. constructor; [rewrite <- H1, <- H2; assumption|apply IH; assumption]. Qed.

Lemma insert_ready : forall pg d hs G qs vs pv, good_tgrid d (np_grid pg) -> ready pg d hs G qs -> qrep pv vs -> small_queues (all_queues (np_grid pg) qs) ->
    exists fs pv', nu_insert pg pv = Ok (if (length (all_queues (np_grid pg) qs) <=? length vs)%nat then TDICE_SUCCESS else TDICE_FAILURE, put_flps pg fs, pv') /\
      ready (put_flps pg fs) d hs G (dealt (np_grid pg) qs vs) /\ Forall2 same_cut (np_flps pg) fs /\ qrep pv' (skipn (length (all_queues (np_grid pg) qs)) vs).
Proof.
  intros pg d hs G qs vs pv GT R V SM. pose proof (ready_lays pg d hs G qs GT R) as LY. destruct (insert_layers_ok _ _ _ LY vs pv V SM) as (fs & pv' & E & LY' & C & V').
  exists fs, pv'. unfold nu_insert. rewrite E. cbn [bind]. split; [reflexivity|]. split; [|split; assumption]. destruct (lays_at _ _ _ LY') as (L1 & _ & L3).
  destruct R as [R1 R2 R3 R4 R5 R6 R7 R8 R9 R10]. constructor; cbn [put_flps np_grid np_cells np_flps np_sources np_top_tcs np_bottom_tcs]; auto.
  intros l Ll IS. destruct (R9 l Ll IS) as ((els & E0) & Q & GP & AP). destruct (same_cuts_at _ _ C l els E0) as (els' & E1 & CE).
  assert (F0 : flp_at pg l = els) by (unfold flp_at; rewrite (nth_error_nth _ _ _ E0); reflexivity).
  assert (F1 : flp_at (put_flps pg fs) l = els') by (unfold flp_at; cbn [put_flps np_flps]; rewrite (nth_error_nth _ _ _ E1); reflexivity).
  rewrite F0 in *. rewrite F1. split; [eauto|]. split; [|split; [apply (cut_good els); auto|rewrite <- AP; unfold all_pieces; rewrite (cut_pieces _ _ CE); reflexivity]].
  specialize (L3 l Ll). unfold type_of in IS. rewrite Nat2Z.id in IS. rewrite IS in L3. destruct L3 as (els2 & E2 & Q2). rewrite E1 in E2. injection E2 as <-. exact Q2.
Qed.

(** ** One insertion *)
(** Every element of the stack takes one value, in order; SUCCESS if and only if
    there are values for all of them. With too few values the first elements keep
    what they took. Nothing else changes. *)
Theorem C62_insert : forall {PS} g d hs G qs (s : nsim PS) pv vs,
    np_grid (n_pg s) = g -> good_tgrid d g -> ready (n_pg s) d hs G qs -> qrep pv vs -> small_queues (all_queues g qs) ->
    exists e s' pv', nu_insert_powers s pv = Ok (e, s', pv') /\
      (e = TDICE_SUCCESS <-> (length (all_queues g qs) <= length vs)%nat) /\ qrep pv' (skipn (length (all_queues g qs)) vs) /\
      n_temps s' = n_temps s /\ n_matrix s' = n_matrix s /\ n_an s' = n_an s /\ n_plugin s' = n_plugin s /\ np_sources (n_pg s') = np_sources (n_pg s) /\
      np_grid (n_pg s') = g /\ np_cells (n_pg s') = np_cells (n_pg s) /\ np_caps (n_pg s') = np_caps (n_pg s) /\
      exists qs', ready (n_pg s') d hs G qs' /\ all_queues g qs' = give (all_queues g qs) vs /\ forall l, length (qs' l) = length (if (l <? length (tg_types g))%nat && is_source (type_of g (Z.of_nat l)) then qs l else []).
Proof.
  intros PS g d hs G qs s pv vs GE GT R V SM. subst g. destruct (insert_ready _ _ _ _ _ _ _ GT R V SM) as (fs & pv' & E & R' & _ & V'). unfold nu_insert_powers. rewrite E. cbn [bind]. do 3 eexists. split; [reflexivity|]. cbn [n_temps n_pg n_matrix n_an n_plugin put_flps np_sources np_grid np_cells np_caps].
  split; [destruct (Nat.leb_spec (length (all_queues (np_grid (n_pg s)) qs)) (length vs)); split; intros; first [reflexivity|discriminate|lia]|]. split; [exact V'|]. repeat (split; [reflexivity|]).
  eexists. split; [exact R'|]. split; [apply dealt_all|]. intros l. unfold dealt. rewrite deal_lengths. destruct (Nat.ltb_spec l (length (tg_types (np_grid (n_pg s))))) as [B|B]; [rewrite layer_queues_nth by exact B; reflexivity|]. rewrite nth_overflow; [reflexivity|]. unfold layer_queues. rewrite map_length, seq_length. exact B.
Qed.
Print Assumptions C62_insert.

(** ** Histories *)
(** From [s0], whose elements had the values [tot0]: any sequence of steps that went
    well, insertions (successful or not) and changes of the flow rate.
    [nu_history g m n tot s]: [n] steps; the flow rate was last changed after [m]
    steps and is that of [g]; [tot] are all the values the elements were ever
    given. *)
Inductive nu_history {PS} solve (plugin : PS -> list Q -> list Q -> bool * list Q * PS) factor (d : dims) (cs : list conn) (s0 : nsim PS) (tot0 : list (list Q)) : tgrid -> nat -> nat -> list (list Q) -> nsim PS -> Prop :=
| NH_start : nu_history solve plugin factor d cs s0 tot0 (np_grid (n_pg s0)) 0 0 tot0 s0
| NH_step : forall g m n tot s r s', nu_history solve plugin factor d cs s0 tot0 g m n tot s -> nu_emulate_step solve plugin d s = Ok (r, s') -> went_on r -> nu_history solve plugin factor d cs s0 tot0 g m (S n) tot s'
| NH_insert : forall g m n tot s pv vs e s' pv', nu_history solve plugin factor d cs s0 tot0 g m n tot s -> qrep pv vs -> small_queues tot -> nu_insert_powers s pv = Ok (e, s', pv') ->
    nu_history solve plugin factor d cs s0 tot0 g m n (give tot vs) s'
| NH_flow : forall g m n tot s ch fr s', nu_history solve plugin factor d cs s0 tot0 g m n tot s -> tg_channel g = Some ch -> nu_update_flow factor d cs s fr (Ok (TDICE_SUCCESS, s')) ->
    nu_history solve plugin factor d cs s0 tot0 (with_flow g ch fr) n n tot s'.

Definition values_ok {PS} g d hs G (qs : nat -> list (list Q)) L n (s : nsim PS) : Prop :=
  forall l i, (l < length (tg_types g))%nat -> (i < length (layer_block G l))%nat ->
    (qat (np_sources (n_pg s)) (first_cell G l + Z.of_nat i) == heat_of (n_pg s) d hs G (fun l => slot_powers L n (qs l)) l i)%Q.

Lemma heat_of_same : forall pg pg' d hs G ps ps' l k, np_grid pg' = np_grid pg ->
    (is_source (type_of (np_grid pg) (Z.of_nat l)) = true -> ps' l = ps l /\ map pieces (flp_at pg' l) = map pieces (flp_at pg l)) -> heat_of pg' d hs G ps' l k = heat_of pg d hs G ps l k.
Proof.
  intros pg pg' d hs G ps ps' l k GE H. unfold heat_of. rewrite GE. destruct (is_source (type_of (np_grid pg) (Z.of_nat l))); [|reflexivity]. destruct (H eq_refl) as (P & F). rewrite P, (share_pieces _ _ _ _ F). reflexivity.
Qed.

Section History.
  Context {PS : Type}.
  Variable solve : sysmatrix -> list Q -> error_t * list Q.
  Variable plugin : PS -> list Q -> list Q -> bool * list Q * PS.
  Hypothesis IP : in_place solve plugin.
  Hypothesis EX : exact solve.
  Variables (g : tgrid) (d : dims) (hs : list Q) (G : list nlayer) (cs : list conn) (qs : nat -> list (list Q)) (L : Z).

  (** One step: what the cells receive, and the system solved. *)
  Lemma living_step : forall n (s : nsim PS) r s', alive g d hs G cs qs L n s -> ((n mod Z.to_nat L <> 0)%nat -> values_ok g d hs G qs L n s) -> Z.of_nat n + 1 < two32 ->
      nu_emulate_step solve plugin d s = Ok (r, s') -> went_on r ->
      alive g d hs G cs qs L (S n) s' /\ values_ok g d hs G qs L n s' /\ np_cells (n_pg s') = np_cells (n_pg s) /\ np_grid (n_pg s') = g /\
      (forall l, (l < length (tg_types g))%nat -> is_source (type_of g (Z.of_nat l)) = true -> map pieces (flp_at (n_pg s') l) = map pieces (flp_at (n_pg s) l)) /\
      exists b, solution (n_matrix s) (Z.of_nat (length (np_cells (n_pg s)))) b (n_temps s') /\
        forall i, 0 <= i < Z.of_nat (length (np_cells (n_pg s))) -> (qat b i == qat (np_sources (n_pg s')) i + qat (np_caps (n_pg s)) i / an_step (n_an s) * qat (n_temps s) i)%Q.
  Proof.
    intros n s r s' A VO B H W. pose proof A as [ST EL ET EN]. pose proof (st_slot _ _ _ _ _ _ _ ST) as SL. cbn [at_time n_an an_slot_length] in SL. rewrite EL in SL.
    assert (A' : alive g d hs G cs qs L (S n) s').
    { pose proof (alive_steps solve plugin IP EX g d hs G cs qs L 1 n s s' A ltac:(lia)) as X. rewrite Nat.add_1_r in X. apply X. apply (NS_step _ _ _ 0 _ r s _); auto. constructor. }
    split; [exact A'|]. destruct (Nat.eq_dec (n mod Z.to_nat L) 0) as [M|M].
    - assert (MODE : Z.of_nat n mod L = 0). { rewrite <- (Z2Nat.id L) at 1 by lia. rewrite <- Nat2Z.inj_mod. lia. }
      pose proof H as H2. rewrite <- (at_time_own s), ET in H2. destruct (step_time solve plugin d s (Z.of_nat n) 0 r s') as (T1 & T2 & T3); try assumption; try (unfold two32 in *; lia); [rewrite EL, Zmod_0_l; exact MODE|].
      destruct (step_spec solve plugin IP EX g d hs G cs _ _ ST 0 _ r _ (running_start _ _ _ _ _ _ _ ST) ltac:(unfold two32; lia) T3 W) as (RN & _ & V & b & SOL & BV). cbn [at_time n_pg n_matrix n_temps n_an an_step] in V, SOL, BV.
      pose proof (rn_pieces _ _ _ _ _ _ _ _ RN) as RP. pose proof (rn_grid _ _ _ _ _ _ _ _ RN) as RG. pose proof (rn_cells _ _ _ _ _ _ _ _ RN) as RC. cbn [at_time n_pg] in RP, RG, RC.
      pose proof (st_grid _ _ _ _ _ _ _ ST) as GE. cbn [at_time n_pg] in GE.
      split; [|split; [exact RC|split; [exact RG|split; [exact RP|exists b; split; assumption]]]].
      intros l i Ll I. rewrite (V l i Ll I). rewrite (heat_of_same (n_pg s) (n_pg s') d hs G (powers_at (fun l => map (skipn (begun L n)) (qs l)) (at_time 0 s) 0)); [reflexivity|congruence|]. intros IS. rewrite GE in IS. split; [|apply RP; assumption].
      unfold powers_at. cbn [at_time n_an an_slot_length]. rewrite EL. unfold slot_powers. rewrite map_map. apply map_ext. intros q. rewrite (begun_boundary L n) by (lia || assumption). rewrite (Nat.div_small 0) by lia. rewrite <- (hd_skipn (n / Z.to_nat L) q). destruct (skipn (n / Z.to_nat L) q); reflexivity.
    - pose proof ST as [S1 S2 S3 S4 S5 S6 S7 S8 S9 S10 S11]. cbn [at_time n_pg n_matrix n_temps n_an an_type an_step an_slot_length an_time] in *.
      unfold nu_emulate_step in H. rewrite S6 in H. unfold slot_completed in H. rewrite EL, ET in H. destruct (Z.eqb_spec L 0) as [E0|_]; [lia|]. cbn [bind] in H.
      assert (MODE : (Z.of_nat n mod L =? 0) = false). { rewrite <- (Z2Nat.id L) at 1 by lia. rewrite <- Nat2Z.inj_mod. lia. } rewrite MODE in H. cbn [bind] in H.
      destruct (nu_pluggable plugin _) as [[e2 s2]| |] eqn:PL in H; try discriminate. cbn [bind] in H. destruct e2; [|injection H as <- <-; destruct W; discriminate].
      assert (LSRC : length (np_sources (n_pg s)) = length (np_cells (n_pg s))) by (rewrite (rd_sources _ _ _ _ _ S2), (rd_cells _ _ _ _ _ S2), number_length; reflexivity).
      destruct (plugin_step solve plugin IP g d hs G cs _ (at_time 0 s) ST (mkNsim (n_temps s) (n_pg s) (n_matrix s) (n_an s) (n_plugin s)) _ _ S5 LSRC S1 PL) as (P1 & P2 & P3 & P4 & P5 & P6). cbn [n_temps n_matrix n_an n_pg] in *.
      destruct (nu_rhs (n_pg s2) (an_step (n_an s2)) (n_temps s2)) as [b| |] eqn:RH; try discriminate. cbn [bind] in H.
      destruct (solve (n_matrix s2) b) as (e3, x) eqn:SO. destruct e3; [|injection H as <- <-; destruct W; discriminate].
      destruct (an_slot_length (increase_by_step_time (n_an s2)) =? 0); [discriminate|]. cbn [bind] in H. injection H as _ <-. cbn [n_pg n_temps].
      destruct (rhs_values _ _ _ _ RH) as (BL & BV). assert (CE : np_cells (n_pg s2) = np_cells (n_pg s)) by (rewrite P4; reflexivity). assert (GE : np_grid (n_pg s2) = np_grid (n_pg s)) by (rewrite P4; reflexivity). assert (KE : np_caps (n_pg s2) = np_caps (n_pg s)) by (rewrite P4; reflexivity). assert (FE : forall l, flp_at (n_pg s2) l = flp_at (n_pg s) l) by (rewrite P4; reflexivity).
      rewrite CE in *. split; [|split; [reflexivity|split; [congruence|split; [intros l _ _; rewrite FE; reflexivity|]]]].
      + intros l i Ll I. cbn [n_pg]. rewrite (P6 l i Ll I). rewrite (VO M l i Ll I). rewrite (heat_of_same (n_pg s) (n_pg s2) d hs G (fun l => slot_powers L n (qs l))); [reflexivity|exact GE|]. intros _. rewrite FE. auto.
      + exists b. pose proof (EX _ _ _ SO) as SOL. rewrite BL, P2 in SOL. split; [exact SOL|]. intros i I. rewrite (BV i I), KE, P3, P1. reflexivity.
  Qed.
End History.

Lemma deal_skip : forall k QS vs, Forall (Forall (fun q => (k <= length q)%nat)) QS -> deal (map (map (skipn k)) QS) vs = map (map (skipn k)) (deal QS vs).
Proof.
  intros k. induction QS as [|qq QS IH]; intros vs H; [reflexivity|]. inversion H as [|? ? H1 H2]; subst. cbn [map deal]. rewrite map_length, IH by exact H2. f_equal. clear - H1. revert vs. induction H1 as [|q qq B H1 IH]; intros [|v vs]; cbn [map give]; try reflexivity. rewrite IH. f_equal.
  rewrite skipn_app. replace (k - length q)%nat with 0%nat by lia. reflexivity.
Qed.
Lemma give_prefix : forall qq vs, Forall2 (fun q q' => exists x, q' = q ++ x) qq (give qq vs).
Proof.
  induction qq as [|q qq IH]; intros [|v vs]; cbn [give]; try constructor; [exists []; rewrite app_nil_r; reflexivity| |eexists; reflexivity|apply IH]. rewrite <- (give_nil qq) at 2. apply IH.
Qed.
Lemma deal_prefix : forall QS vs l, Forall2 (fun q q' => exists x, q' = q ++ x) (nth l QS []) (nth l (deal QS vs) []).
Proof. induction QS as [|qq QS IH]; intros vs [|l]; cbn [deal nth]; try constructor; [apply give_prefix|apply IH]. Qed.
Lemma dealt_prefix : forall g qs vs l, (l < length (tg_types g))%nat -> is_source (type_of g (Z.of_nat l)) = true -> Forall2 (fun q q' => exists x, q' = q ++ x) (qs l) (dealt g qs vs l).
Proof. intros g qs vs l B IS. pose proof (deal_prefix (layer_queues g qs) vs l) as P. rewrite layer_queues_nth, IS in P by exact B. exact P. Qed.
Lemma prefix_enough : forall k a b, Forall2 (fun q q' => exists x, q' = q ++ x) a b -> Forall (fun q : list Q => (k <= length q)%nat) a -> Forall (fun q => (k <= length q)%nat) b.
Proof. intros k a b H. induction H as [|q q' a b (x & ->) H IH]; intros F; inversion F; subst; constructor; [rewrite app_length; lia|auto]. Qed.
Lemma prefix_nth : forall k a b, Forall2 (fun q q' => exists x, q' = q ++ x) a b -> Forall (fun q : list Q => (S k <= length q)%nat) a -> map (fun q => nth k q 0%Q) b = map (fun q => nth k q 0%Q) a.
Proof. intros k a b H. induction H as [|q q' a b (x & ->) H IH]; intros F; inversion F; subst; cbn [map]; [reflexivity|]. rewrite app_nth1 by lia. rewrite IH by assumption. reflexivity. Qed.
Lemma all_forall : forall (P : list Q -> Prop) g qs, Forall P (all_queues g qs) <-> forall l, (l < length (tg_types g))%nat -> is_source (type_of g (Z.of_nat l)) = true -> Forall P (qs l).
Proof.
  intros P g qs. unfold all_queues, layer_queues. rewrite Forall_concat, Forall_map. rewrite Forall_forall. split.
  - intros H l B IS. specialize (H l ltac:(apply in_seq; lia)). cbn beta in H. rewrite IS in H. exact H.
  - intros H l I. apply in_seq in I. destruct (is_source (type_of g (Z.of_nat l))) eqn:IS; [apply H; [lia|exact IS]|constructor].
Qed.
Lemma all_exists : forall (P : list Q -> Prop) g qs, Exists P (all_queues g qs) <-> exists l, (l < length (tg_types g))%nat /\ is_source (type_of g (Z.of_nat l)) = true /\ Exists P (qs l).
Proof.
  intros P g qs. unfold all_queues, layer_queues. rewrite Exists_concat, Exists_map, Exists_exists. split.
  - intros (l & I & H). apply in_seq in I. destruct (is_source (type_of g (Z.of_nat l))) eqn:IS; [exists l; repeat split; auto; lia|inversion H].
  - intros (l & B & IS & H). exists l. split; [apply in_seq; lia|]. rewrite IS. exact H.
Qed.
Lemma all_sum : forall g qs (f : list Q -> Q), (over_sources g (fun l => qsum (map f (qs l))) == qsum (map f (all_queues g qs)))%Q.
Proof.
  intros g qs f. unfold over_sources, all_queues, layer_queues. induction (seq 0 (length (tg_types g))) as [|l ls IH]; [reflexivity|]. cbn [map concat]. rewrite map_app, qsum_app, qsum_cons, IH. destruct (is_source (type_of g (Z.of_nat l))); reflexivity.
Qed.

Lemma insert_alive : forall {PS} g d hs G cs qs L n (s : nsim PS) pv vs e s' pv', alive g d hs G cs qs L n s -> qrep pv vs -> small_queues (all_queues g qs) -> nu_insert_powers s pv = Ok (e, s', pv') ->
    alive g d hs G cs (dealt g qs vs) L n s' /\ np_sources (n_pg s') = np_sources (n_pg s) /\ np_grid (n_pg s') = np_grid (n_pg s) /\
    forall l, (l < length (tg_types g))%nat -> is_source (type_of g (Z.of_nat l)) = true -> map pieces (flp_at (n_pg s') l) = map pieces (flp_at (n_pg s) l).
Proof.
  intros PS g d hs G cs qs L n s pv vs e s' pv' [ST EL ET EN] V SM H. pose proof ST as [S1 S2 S3 S4 S5 S6 S7 S8 S9 S10 S11]. cbn [at_time n_pg n_matrix n_temps n_an an_type an_step an_slot_length an_time] in *.
  set (k := begun L n) in *. pose proof (nw_grid _ _ _ _ _ _ S3) as GT.
  assert (LQ : layer_queues g (fun l => map (skipn k) (qs l)) = map (map (skipn k)) (layer_queues g qs)) by (unfold layer_queues; rewrite map_map; apply map_ext; intros l; destruct (is_source (type_of g (Z.of_nat l))); reflexivity).
  assert (SM2 : small_queues (all_queues g (fun l => map (skipn k) (qs l)))).
  { unfold all_queues. rewrite LQ. rewrite <- concat_map. apply Forall_map. eapply Forall_impl; [|exact SM]. cbn beta. intros q X. rewrite skipn_length. lia. }
  assert (EN2 : Forall (Forall (fun q => (k <= length q)%nat)) (layer_queues g qs)) by (rewrite <- Forall_concat; apply all_forall; exact EN).
  rewrite <- S1 in GT, SM2. destruct (insert_ready _ _ _ _ _ _ _ GT S2 V SM2) as (fs & pv2 & E & R' & C & V'). unfold nu_insert_powers in H. rewrite E in H. cbn [bind] in H. injection H as _ <- _. rewrite S1 in *. cbn [n_pg put_flps np_sources np_grid].
  split; [|split; [reflexivity|split; [exact (eq_sym (eq_sym S1)) || reflexivity|]]].
  - constructor; [|exact EL|exact ET|]. 
    + constructor; cbn [at_time n_pg n_matrix n_temps n_an an_type an_step an_slot_length an_time put_flps np_grid np_cells np_caps]; auto. apply (ready_ext _ _ _ _ (dealt g (fun l => map (skipn k) (qs l)) vs)); [|exact R']. intros l. unfold dealt. rewrite LQ, deal_skip by exact EN2. change (@nil (list Q)) with (map (@skipn Q k) []) at 1. rewrite map_nth. reflexivity.
    + intros l B IS. apply (prefix_enough _ _ _ (dealt_prefix g qs vs l B IS)). apply EN; assumption.
  - intros l B IS. destruct (rd_queues _ _ _ _ _ S2 l ltac:(rewrite S1; exact B) ltac:(rewrite S1; exact IS)) as ((els & E0) & _). destruct (same_cuts_at _ _ C l els E0) as (els' & E1 & CE).
    unfold flp_at. cbn [put_flps np_flps]. rewrite (nth_error_nth _ _ _ E0), (nth_error_nth _ _ _ E1). apply cut_pieces. exact CE.
Qed.

Lemma history_alive : forall {PS} solve plugin factor g0 d hs G cs qs0 (s0 : nsim PS), in_place solve plugin -> exact solve -> nu_start g0 d hs G cs qs0 s0 -> forall g m n tot s, nu_history solve plugin factor d cs s0 (all_queues g0 qs0) g m n tot s -> Z.of_nat n < two32 ->
    let L := an_slot_length (n_an s0) in
    exists qs, all_queues g qs = tot /\ alive g d hs G cs qs L n s /\ (m <= n)%nat /\ ((n mod Z.to_nat L <> 0)%nat -> (m <= n / Z.to_nat L * Z.to_nat L)%nat -> values_ok g d hs G qs L n s).
Proof.
  intros PS solve plugin factor g0 d hs G cs qs0 s0 IP EX ST g m n tot s H. cbv zeta. pose proof (st_slot _ _ _ _ _ _ _ ST) as SL. set (L := an_slot_length (n_an s0)) in *.
  induction H as [|g m n tot s r s' H IH E W|g m n tot s pv vs e s' pv' H IH V SM E|g m n tot s ch fr s' H IH TC U]; intros B.
  - exists qs0. rewrite (st_grid _ _ _ _ _ _ _ ST). split; [reflexivity|]. split; [apply start_alive; auto|]. split; [lia|]. intros X. exfalso. apply X. apply Nat.mod_0_l. lia.
  - destruct (IH ltac:(lia)) as (qs & T & A & M & VO). exists qs. split; [exact T|].
    assert (A' : alive g d hs G cs qs L (S n) s').
    { pose proof (alive_steps solve plugin IP EX g d hs G cs qs L 1 n s s' A ltac:(lia)) as X. rewrite Nat.add_1_r in X. apply X. apply (NS_step _ _ _ 0 _ r s _); auto. constructor. }
    split; [exact A'|]. split; [lia|]. intros NB MB.
    assert (DE : (S n / Z.to_nat L = n / Z.to_nat L)%nat).
    { pose proof (Nat.div_mod n (Z.to_nat L) ltac:(lia)) as D1. pose proof (Nat.div_mod (S n) (Z.to_nat L) ltac:(lia)) as D2. pose proof (Nat.mod_upper_bound n (Z.to_nat L) ltac:(lia)). pose proof (Nat.mod_upper_bound (S n) (Z.to_nat L) ltac:(lia)). apply (Nat.div_unique _ _ _ (S n mod Z.to_nat L - 1)); lia. }
    rewrite DE in MB. destruct (living_step solve plugin IP EX g d hs G cs qs L n s r s' A ltac:(intros X; apply VO; assumption) ltac:(lia) E W) as (_ & V & _). unfold values_ok, slot_powers in *. rewrite DE. exact V.
  - destruct (IH B) as (qs & T & A & M & VO). rewrite <- T in SM. destruct (insert_alive g d hs G cs qs L n s pv vs e s' pv' A V SM E) as (A' & SO & GE & FE). exists (dealt g qs vs). split; [rewrite dealt_all, T; reflexivity|]. split; [exact A'|]. split; [exact M|]. intros NB MB l i Ll I. rewrite SO, (VO NB MB l i Ll I).
    pose proof (st_grid _ _ _ _ _ _ _ (al_start _ _ _ _ _ _ _ _ _ A)) as GS. cbn [at_time n_pg] in GS.
    rewrite (heat_of_same (n_pg s) (n_pg s') d hs G (fun l => slot_powers L n (qs l)) (fun l => slot_powers L n (dealt g qs vs l))); [reflexivity|exact GE|]. intros IS. rewrite GS in IS. split; [|apply FE; assumption].
    unfold slot_powers. apply prefix_nth; [apply dealt_prefix; assumption|]. pose proof (al_enough _ _ _ _ _ _ _ _ _ A l Ll IS) as EN. rewrite begun_within in EN by (lia || exact NB). exact EN.
  - destruct (IH B) as (qs & T & A & M & VO). exists qs. split; [exact T|]. split; [apply (flow_alive factor g d hs G cs qs _ n s); auto|]. split; [lia|]. intros NB MB. exfalso. apply NB. pose proof (Nat.div_mod n (Z.to_nat L) ltac:(lia)). lia.
Qed.

(** In every history, a step that goes well changes the heat content by the step
    time multiplied by the powers of its slot (value number [n / slot] of every
    element, counting all that were ever given) and the other flows, as long as the
    flow rate was last changed before or at the beginning of the slot. *)
Theorem C62_energy : forall {PS} solve plugin factor g0 d hs G cs qs0 (s0 s s' : nsim PS) g m n tot r,
    in_place solve plugin -> exact solve -> nu_start g0 d hs G cs qs0 s0 ->
    nu_history solve plugin factor d cs s0 (all_queues g0 qs0) g m n tot s -> Z.of_nat n + 1 < two32 -> nu_emulate_step solve plugin d s = Ok (r, s') -> went_on r ->
    let cells := np_cells (n_pg s) in let slot := Z.to_nat (an_slot_length (n_an s0)) in
    (m <= n / slot * slot)%nat ->
    Forall (fun q => (n / slot < length q)%nat) tot /\
    (heat_content g d cells (n_temps s') - heat_content g d cells (n_temps s) ==
     an_step (n_an s) * (qsum (map (fun q => nth (n / slot) q 0) tot) + received_from_plugin d s' + received_from_board g d cells + enthalpy_in g d G
                         - given_to_air g d cells (n_temps s') - enthalpy_out g d cells (n_temps s')))%Q.
Proof.
  intros PS solve plugin factor g0 d hs G cs qs0 s0 s s' g m n tot r IP EX ST H B E W cells slot M. pose proof (st_slot _ _ _ _ _ _ _ ST) as SL.
  destruct (history_alive solve plugin factor g0 d hs G cs qs0 s0 IP EX ST g m n tot s H ltac:(lia)) as (qs & T & A & _ & VO). set (L := an_slot_length (n_an s0)) in *. subst slot.
  destruct (living_step solve plugin IP EX g d hs G cs qs L n s r s' A ltac:(intros X; apply VO; assumption) B E W) as (A' & V & CE & GE & FE & b & SOL & BV).
  pose proof A as [ST1 _ _ _]. pose proof (st_grid _ _ _ _ _ _ _ ST1) as GS. cbn [at_time n_pg] in GS. split.
  - rewrite <- T. apply all_forall. intros l Ll IS. pose proof (al_enough _ _ _ _ _ _ _ _ _ A' l Ll IS) as EN. rewrite begun_S in EN by lia. exact EN.
  - pose proof (energy_of g d hs G cs _ _ ST1 (fun l => slot_powers L n (qs l)) s s' b) as EG. cbn [at_time n_pg n_matrix n_temps n_an an_step] in EG. eapply Qeq_trans; [apply EG; clear EG|clear EG].
    6: { apply Qmult_comp; [reflexivity|]. rewrite <- T, <- all_sum. unfold slot_powers. reflexivity. }
    + intros l. unfold slot_powers. rewrite !map_length. reflexivity.
    + exact CE.
    + intros l i Ll I. rewrite (V l i Ll I). rewrite (heat_of_same (n_pg s) (n_pg s') d hs G (fun l => slot_powers L n (qs l))); [reflexivity|congruence|]. intros IS. rewrite GS in IS. auto.
    + exact SOL.
    + exact BV.
Qed.
Print Assumptions C62_energy.

(** In every history a step is defined, and it ends the simulation exactly when
    some element was never given a value for the slot. *)
Theorem C62_ends : forall {PS} solve plugin factor g0 d hs G cs qs0 (s0 s : nsim PS) g m n tot,
    in_place solve plugin -> exact solve -> nu_start g0 d hs G cs qs0 s0 ->
    nu_history solve plugin factor d cs s0 (all_queues g0 qs0) g m n tot s -> Z.of_nat n < two32 ->
    exists r s', nu_emulate_step solve plugin d s = Ok (r, s') /\ r <> TDICE_WRONG_CONFIG /\
      (r = TDICE_END_OF_SIMULATION <-> Exists (fun q => (length q <= n / Z.to_nat (an_slot_length (n_an s0)))%nat) tot).
Proof.
  intros PS solve plugin factor g0 d hs G cs qs0 s0 s g m n tot IP EX ST H B. pose proof (st_slot _ _ _ _ _ _ _ ST) as SL.
  destruct (history_alive solve plugin factor g0 d hs G cs qs0 s0 IP EX ST g m n tot s H B) as (qs & T & [ST1 EL ET EN] & _ & _). set (L := an_slot_length (n_an s0)) in *.
  destruct (ends_core solve plugin g d hs G cs _ qs (at_time 0 s) s L n IP ST1 SL) as (r & s' & E & NW & EE); auto.
  - exact (st_grid _ _ _ _ _ _ _ ST1).
  - exact (st_type _ _ _ _ _ _ _ ST1).
  - exact (st_temps _ _ _ _ _ _ _ ST1).
  - exact (st_ready _ _ _ _ _ _ _ ST1).
  - intros NB l Ll IS. specialize (EN l Ll IS). rewrite begun_within in EN by (lia || exact NB). exact EN.
  - exists r, s'. split; [exact E|]. split; [exact NW|]. rewrite EE, <- T, all_exists. reflexivity.
Qed.
Print Assumptions C62_ends.

(** Two values in each of two queues; one more for each before the first step, and
    after it a value for the first element only. *)
Definition single : queue := mkQueue (Some [4%Q]) 1 1 0 0.
Example C62_witness : exists s0 s1 s2 s3 : nsim unit, exists pv pv', let solve := guess [mini_after] in let tot0 := all_queues (mini_grid None) (mini_powers mini_p mini_q) in
    in_place solve wplugin /\ exact solve /\ nu_start (mini_grid None) mini_dims mini_hs mini_G mini_conns (mini_powers mini_p mini_q) s0 /\ good_tgrid mini_dims (mini_grid None) /\
    tot0 = [[6; 2]; [9; 3]]%Q /\ small_queues tot0 /\
    nu_insert_powers s0 (demo_queue 5 7) = Ok (TDICE_SUCCESS, s1, pv) /\ nu_emulate_step solve wplugin mini_dims s1 = Ok (TDICE_STEP_DONE, s2) /\
    nu_insert_powers s2 single = Ok (TDICE_FAILURE, s3, pv') /\
    nu_history solve wplugin (fun _ => TDICE_SUCCESS) mini_dims mini_conns s0 tot0 (mini_grid None) 0 1 [[6; 2; 5; 4]; [9; 3; 7]]%Q  s3 /\
    nu_history solve wplugin (fun _ => TDICE_SUCCESS) mini_dims mini_conns s0 tot0 (mini_grid None) 0 0 [[6; 2; 5]; [9; 3; 7]]%Q s1.
Proof.
  assert (Y : match mini_sim None AT_TRANSIENT mini_p mini_q with Ok s0 => match nu_insert_powers s0 (demo_queue 5 7) with Ok (TDICE_SUCCESS, s1, pv) => match nu_emulate_step (guess [mini_after]) wplugin mini_dims s1 with Ok (TDICE_STEP_DONE, s2) => match nu_insert_powers s2 single with Ok (TDICE_FAILURE, s3, _) => n_temps s2 | _ => [] end | _ => [] end | _ => [] end | _ => [] end = mini_after) by (vm_compute; reflexivity).
  destruct (mini_sim None AT_TRANSIENT mini_p mini_q) as [s0| |] eqn:E0; try discriminate Y. destruct (nu_insert_powers s0 (demo_queue 5 7)) as [[[[|] s1] pv]| |] eqn:E1; try discriminate Y. destruct (nu_emulate_step (guess [mini_after]) wplugin mini_dims s1) as [[[] s2]| |] eqn:E2; try discriminate Y.
  destruct (nu_insert_powers s2 single) as [[[[|] s3] pv']| |] eqn:E3; try discriminate Y.
  assert (ST : nu_start (mini_grid None) mini_dims mini_hs mini_G mini_conns (mini_powers mini_p mini_q) s0) by exact (mini_start None _ _ s0 I E0).
  assert (H1 : nu_history (guess [mini_after]) wplugin (fun _ => TDICE_SUCCESS) mini_dims mini_conns s0 (all_queues (mini_grid None) (mini_powers mini_p mini_q)) (mini_grid None) 0 0 [[6; 2; 5]; [9; 3; 7]]%Q s1).
  { apply (NH_insert _ _ _ _ _ _ _ _ _ _ (all_queues (mini_grid None) (mini_powers mini_p mini_q)) s0 (demo_queue 5 7) [5; 7]%Q TDICE_SUCCESS _ pv); [|apply demo_queue_rep|repeat constructor|exact E1].
    pose proof (NH_start (guess [mini_after]) wplugin (fun _ => TDICE_SUCCESS) mini_dims mini_conns s0 (all_queues (mini_grid None) (mini_powers mini_p mini_q))) as X. rewrite (st_grid _ _ _ _ _ _ _ ST) in X. exact X. }
  exists s0, s1, s2, s3, pv, pv'. cbv zeta. split; [apply guess_in_place|]. split; [apply guess_exact|]. split; [exact ST|]. split; [apply mini_grid_good|]. split; [reflexivity|]. split; [repeat constructor|]. split; [exact E1|]. split; [exact E2|]. split; [exact E3|]. split; [|exact H1].
  apply (NH_insert _ _ _ _ _ _ _ _ _ _ [[6; 2; 5]; [9; 3; 7]]%Q s2 single [4%Q] TDICE_FAILURE _ pv'); [|constructor; try (cbn; unfold two32; lia); try reflexivity; exists [4%Q]; repeat split|repeat constructor|exact E3].
  apply (NH_step _ _ _ _ _ _ _ _ _ _ _ s1 TDICE_STEP_DONE); [exact H1|exact E2|left; reflexivity].
Qed.
