(** * C65: the FMI heat sink plugin: the mapping between the cells of the spreader and
      those of the sink, and the heat exchanged through it *)
From Coq Require Import ZArith List Bool QArith Qminmax Lia Lqa.
From Verif Require Import Base Dims DimsSpec DimsProofs Queue QueueProofs Floorplan FloorplanProofs QSum Stack StackSpec PowerGrid Emulate EmulateSpec SourceVectorProofs EmulateProofs HistoryProofs
     Conduct Matrix MatrixSpec BalanceSpec VectorProofs StepProofs EnergyProofs LongRunProofs PropStack SimWitness MatrixWitness PropMatrix NonUniform NuSpec NuGeomProofs GridMap GridMapSpec GridMapProofs.
Import ListNotations.
Local Open Scope Z_scope.
Local Notation grid := GridMap.pgrid.

(** The list computed for a cell of the source names each cell of the target that
    it meets exactly once, and no other, with the area of the intersection times the
    value per unit of area; for both ways of counting rows. *)
Theorem C65_fragments : forall up (s t : grid) f r c, of_grid s r c ->
    exists frs, mat_at (map_grids s t f up) r c = Val frs /\ NoDup (map (fun fr => (fr_r fr, fr_c fr)) frs) /\
      (forall r' c', (exists fr, In fr frs /\ fr_r fr = r' /\ fr_c fr = c') <-> of_grid t r' c' /\ meet (cell_rect up s r c) (cell_rect up t r' c')) /\
      (forall fr, In fr frs -> (fr_feature fr == f * overlap (cell_rect up s r c) (cell_rect up t (fr_r fr) (fr_c fr)))%Q).
Proof.
  intros up s t f r c I. exists (fragments up s t f r c). split; [apply map_at, I|]. destruct (fragments_spec up s t f r c) as (ND & A & B). split; [exact ND|]. split.
  - intros r' c'. split; [|intros (O & M); apply (B r' c' O M)]. intros (fr & IF & <- & <-). destruct (A fr IF) as (O & M & _). split; assumption.
  - intros fr IF. destruct (A fr IF) as (_ & _ & E). exact E.
Qed.
Print Assumptions C65_fragments.

(** A cell outside the source: at throws an exception. *)
Theorem C65_fragments_outside : forall up (s t : grid) f r c, ~ of_grid s r c -> mat_at (map_grids s t f up) r c = Throw.
Proof.
  intros up s t f r c N. unfold mat_at. cbn [map_grids mx_rows mx_cols]. destruct ((r <? 0) || (c <? 0) || (gr_nr s <=? r) || (gr_nc s <=? c)) eqn:E; [reflexivity|]. exfalso. apply N. unfold of_grid. apply orb_false_elim in E. destruct E as (E & E4). apply orb_false_elim in E. destruct E as (E & E3). apply orb_false_elim in E. destruct E as (E1 & E2). apply Z.ltb_ge in E1. apply Z.ltb_ge in E2. apply Z.leb_gt in E3. apply Z.leb_gt in E4. lia.
Qed.
Print Assumptions C65_fragments_outside.

(** The two mappings agree: a pair of cells is in one with the value it has in the other. *)
Theorem C65_reciprocal : forall up (s t : grid) f r c r' c' frs frs' fr, of_grid s r c -> of_grid t r' c' ->
    mat_at (map_grids s t f up) r c = Val frs -> mat_at (map_grids t s f up) r' c' = Val frs' ->
    In fr frs -> fr_r fr = r' -> fr_c fr = c' ->
    exists fr', In fr' frs' /\ fr_r fr' = r /\ fr_c fr' = c /\ (fr_feature fr' == fr_feature fr)%Q.
Proof.
  intros up s t f r c r' c' frs frs' fr I I' E E' IF R C. rewrite map_at in E by exact I. rewrite map_at in E' by exact I'. assert (frs = fragments up s t f r c) as -> by congruence. assert (frs' = fragments up t s f r' c') as -> by congruence.
  destruct (fragments_spec up s t f r c) as (_ & A & _). destruct (A fr IF) as (O & M & Q1). rewrite R, C in *.
  destruct (fragments_spec up t s f r' c') as (_ & A' & B'). destruct (B' r c I) as (fr' & IF' & R' & C'). { destruct M as (x & y & M1 & M2). exists x, y. split; assumption. }
  exists fr'. split; [exact IF'|]. split; [exact R'|]. split; [exact C'|]. destruct (A' fr' IF') as (_ & _ & Q2). rewrite R', C' in Q2. rewrite Q1, Q2, overlap_sym. reflexivity.
Qed.
Print Assumptions C65_reciprocal.

Lemma cell_order : forall up g r c, sound g -> (r_x0 (cell_rect up g r c) <= r_x1 (cell_rect up g r c) /\ r_y0 (cell_rect up g r c) <= r_y1 (cell_rect up g r c))%Q.
Proof.
  intros up g r c ((X & Y) & NR & NC). cbn [cell_rect r_x0 r_x1 r_y0 r_y1].
  assert (K : forall a n m, (0 < a)%Q -> 1 <= n -> (qz m * (a / qz n) <= qz (m + 1) * (a / qz n))%Q).
  { intros a n m A N. pose proof (qz_pos n ltac:(lia)). assert (0 < a / qz n)%Q by (apply Qlt_shift_div_l; lra). rewrite qz_plus. change (qz 1) with 1%Q. lra. }
  pose proof (K _ _ c X NC). pose proof (K _ _ (if up then r else gr_nr g - 1 - r) Y NR). split; lra.
Qed.
Lemma cell_area : forall up g r c, sound g -> (rect_area (cell_rect up g r c) == (gr_x g / qz (gr_nc g)) * (gr_y g / qz (gr_nr g)))%Q.
Proof. intros up g r c _. unfold rect_area. cbn [cell_rect r_x0 r_x1 r_y0 r_y1]. rewrite !qz_plus. change (qz 1) with 1%Q. ring. Qed.

(** A cell of the source inside the target is distributed whole: nothing is lost and
    nothing is counted twice. *)
Theorem C65_covered : forall up (s t : grid) f r c, sound s -> sound t -> of_grid s r c -> within (cell_rect up s r c) (whole t) ->
    exists frs, mat_at (map_grids s t f up) r c = Val frs /\ (qsum (map fr_feature frs) == f * ((gr_x s / qz (gr_nc s)) * (gr_y s / qz (gr_nr s))))%Q.
Proof.
  intros up s t f r c S T I W. exists (fragments up s t f r c). split; [apply map_at, I|]. destruct (cell_order up s r c S) as (OX & OY).
  rewrite (qsum_ext _ (fun fr => fr_feature fr * 1)%Q) by (intros; ring). rewrite (fragments_sum up s t f r c (fun _ _ => 1%Q)). rewrite <- (cell_area up s r c S). rewrite <- (cover_sum up t _ T OX OY W). unfold over_grid. rewrite <- qsum_scale. apply qsum_ext. intros k _. rewrite <- qsum_scale. apply qsum_ext. intros h _. ring.
Qed.
Print Assumptions C65_covered.

(** Counting the rows from the top is counting them from the bottom with the rows of
    both grids reversed. *)
Theorem C65_mirrored : forall (s t : grid) f r c r' c' q, of_grid s r c ->
    (exists frs fr, mat_at (map_grids s t f false) r c = Val frs /\ In fr frs /\ fr_r fr = r' /\ fr_c fr = c' /\ (fr_feature fr == q)%Q) <->
    (exists frs fr, mat_at (map_grids s t f true) (gr_nr s - 1 - r) c = Val frs /\ In fr frs /\ fr_r fr = gr_nr t - 1 - r' /\ fr_c fr = c' /\ (fr_feature fr == q)%Q).
Proof.
  intros s t f r c r' c' q I. assert (I2 : of_grid s (gr_nr s - 1 - r) c) by (unfold of_grid in *; lia).
  assert (CR : forall (g : grid) a b, cell_rect true g (gr_nr g - 1 - a) b = cell_rect false g a b) by reflexivity.
  assert (CR2 : forall (g : grid) a b, cell_rect false g (gr_nr g - 1 - a) b = cell_rect true g a b) by (intros g a b; unfold cell_rect; replace (gr_nr g - 1 - (gr_nr g - 1 - a)) with a by lia; reflexivity).
  destruct (fragments_spec false s t f r c) as (_ & A & B). destruct (fragments_spec true s t f (gr_nr s - 1 - r) c) as (_ & A' & B'). rewrite CR in A', B'. split.
  - intros (frs & fr & E & IF & <- & <- & QE). rewrite map_at in E by exact I. assert (frs = fragments false s t f r c) as -> by congruence. destruct (A fr IF) as (O & M & F1).
    destruct (B' (gr_nr t - 1 - fr_r fr) (fr_c fr)) as (fr' & IF' & R' & C'); [unfold of_grid in *; lia|rewrite CR; exact M|].
    exists (fragments true s t f (gr_nr s - 1 - r) c), fr'. split; [apply map_at, I2|]. split; [exact IF'|]. split; [exact R'|]. split; [exact C'|]. destruct (A' fr' IF') as (_ & _ & F2). rewrite R', C', CR in F2. rewrite F2, <- F1. exact QE.
  - intros (frs & fr & E & IF & R1 & C1 & QE). rewrite map_at in E by exact I2. assert (frs = fragments true s t f (gr_nr s - 1 - r) c) as -> by congruence. destruct (A' fr IF) as (O & M & F1). rewrite R1, C1, CR in *.
    destruct (B r' c') as (fr' & IF' & R' & C'); [unfold of_grid in *; lia|exact M|].
    exists (fragments false s t f r c), fr'. split; [apply map_at, I|]. split; [exact IF'|]. split; [exact R'|]. split; [exact C'|]. destruct (A fr' IF') as (_ & _ & F2). rewrite R', C' in F2. rewrite F2, <- F1. exact QE.
Qed.
Print Assumptions C65_mirrored.

(** ** The steps of the plugin *)

(** What heatsink_init is called with, and what the FMU must say of itself. *)
Definition good_plate (nrows ncols : Z) (cell_width cell_length : Q) (i : fmu_info) : Prop :=
  1 <= nrows /\ 1 <= ncols /\ (0 < cell_width /\ 0 < cell_length)%Q /\ (0 < fi_length i /\ 0 < fi_width i)%Q /\ 1 <= fi_rows i /\ 1 <= fi_cols i.
Lemma plate_sound : forall nr nc cw cl i, good_plate nr nc cw cl i -> sound (spreader_grid nr nc cw cl i) /\ sound (sink_grid i).
Proof.
  intros nr nc cw cl i (A & B & (C & D) & (E & G) & H & I). pose proof (qz_pos nr ltac:(lia)). pose proof (qz_pos nc ltac:(lia)). split.
  - split; [|split; assumption]. cbn [spreader_grid gr_x gr_y]. split; apply Qmult_lt_0_compat; assumption.
  - split; [|split; assumption]. cbn [sink_grid gr_x gr_y]. split; lra.
Qed.

(** A step answers each cell of the spreader with the heat it loses to the sink,
    gives each cell of the sink what it receives, and only the FMU can make it fail;
    what leaves the spreader is what enters the sink. *)
Theorem C65_flows : forall {F} (temps : F -> list Q) (fmu : F -> list Q -> Q -> Q -> option F) nr nc cw cl cond step i st ts,
    good_plate nr nc cw cl i -> Z.of_nat (length ts) = nr * nc -> Z.of_nat (length (temps (fst st))) = fi_rows i * fi_cols i ->
    let sp := spreader_grid nr nc cw cl i in let sk := sink_grid i in let k := conductance_per_area cw cl cond i in
    exists flows given,
      simulate_step temps fmu (fmi_init nr nc cw cl cond step i) st ts =
        match fmu (fst st) given (snd st) step with Some f => Val (flows, given, (f, (snd st + step)%Q)) | None => Throw end /\
      length flows = length ts /\ length given = length (temps (fst st)) /\
      (forall r c, of_grid sp r c -> (cell_value sp flows r c == outflow k sp sk ts (temps (fst st)) r c)%Q) /\
      (forall r c, of_grid sk r c -> (cell_value sk given r c == - outflow k sk sp (temps (fst st)) ts r c)%Q) /\
      (qsum flows == qsum given)%Q.
Proof.
  intros F temps fmu nr nc cw cl cond step i st ts GP LT LU sp sk k. destruct (plate_sound _ _ _ _ _ GP) as (S1 & S2).
  exact (simulate_spec F temps fmu sp sk k step S1 S2 st ts LT LU).
Qed.
Print Assumptions C65_flows.

(** The temperatures of all cells of the spreader are [t], those of the sink [u]: a
    cell of the spreader inside the sink loses (t - u) through its own conductance in
    series with its share of the conductance of a cell of the sink. *)
Theorem C65_series : forall {F} (temps : F -> list Q) (fmu : F -> list Q -> Q -> Q -> option F) nr nc cw cl cond step i st ts flows given st' t u r c,
    good_plate nr nc cw cl i -> Z.of_nat (length ts) = nr * nc -> Z.of_nat (length (temps (fst st))) = fi_rows i * fi_cols i ->
    (0 < cond)%Q -> (0 < fi_conductance i)%Q ->
    simulate_step temps fmu (fmi_init nr nc cw cl cond step i) st ts = Val (flows, given, st') ->
    Forall (fun x => x == t)%Q ts -> Forall (fun x => x == u)%Q (temps (fst st)) ->
    of_grid (spreader_grid nr nc cw cl i) r c -> within (cell_rect true (spreader_grid nr nc cw cl i) r c) (whole (sink_grid i)) ->
    let sink_area := (fi_length i * 1000000 / qz (fi_cols i) * (fi_width i * 1000000 / qz (fi_rows i)))%Q in
    let own := cond in let below := (fi_conductance i * (cw * cl) / sink_area)%Q in
    (nth (Z.to_nat (r * nc + c)) flows 0 == 1 / (1 / own + 1 / below) * (t - u))%Q.
Proof.
  intros F temps fmu nr nc cw cl cond step i st ts flows given st' t u r c GP LT LU C1 C2 E AT AU I W sink_area own below.
  destruct (C65_flows temps fmu nr nc cw cl cond step i st ts GP LT LU) as (fl & gi & E2 & _ & _ & FL & _). rewrite E in E2. destruct (fmu _ _ _ _); [|discriminate E2]. assert (fl = flows) as -> by congruence.
  specialize (FL r c I). unfold cell_value at 1 in FL. cbn [spreader_grid gr_nc] in FL. eapply Qeq_trans; [exact FL|]. clear FL E E2.
  destruct (plate_sound _ _ _ _ _ GP) as (S1 & S2). pose proof GP as (G1 & G2 & (CW & CL) & (FL & FW) & G3 & G4).
  set (sp := spreader_grid nr nc cw cl i) in *. set (sk := sink_grid i) in *. set (k := conductance_per_area cw cl cond i).
  assert (VT : (cell_value sp ts r c == t)%Q). { unfold cell_value. destruct I as (I1 & I2). change (gr_nr sp) with nr in *. change (gr_nc sp) with nc in *. rewrite Forall_forall in AT. apply AT, nth_In. nia. }
  unfold outflow. transitivity (k * (t - u) * over_grid sk (fun r' c' => overlap (cell_rect true sp r c) (cell_rect true sk r' c')))%Q.
  { unfold over_grid. rewrite <- qsum_scale. apply qsum_ext. intros r' IR. apply in_zrange in IR. rewrite <- qsum_scale. apply qsum_ext. intros c' IC. apply in_zrange in IC. rewrite VT.
    assert (VU : (cell_value sk (temps (fst st)) r' c' == u)%Q). { unfold cell_value. change (gr_nr sk) with (fi_rows i) in *. change (gr_nc sk) with (fi_cols i) in *. rewrite Forall_forall in AU. apply AU, nth_In. nia. }
    rewrite VU. ring. }
  destruct (cell_order true sp r c S1) as (OX & OY). rewrite (cover_sum true sk _ S2 OX OY W). rewrite (cell_area true sp r c S1). unfold sp, k, conductance_per_area, parallel. cbn [spreader_grid gr_x gr_y gr_nr gr_nc].
  pose proof (qz_pos nr ltac:(lia)) as N1. pose proof (qz_pos nc ltac:(lia)) as N2. pose proof (qz_pos (fi_rows i) ltac:(lia)) as N3. pose proof (qz_pos (fi_cols i) ltac:(lia)) as N4.
  unfold below, own, sink_area. set (R := qz (fi_rows i)) in *. set (C := qz (fi_cols i)) in *. set (L := fi_length i) in *. set (Wd := fi_width i) in *. set (K := fi_conductance i) in *.
  assert (P1 : (0 < K * R * C)%Q) by (apply Qmult_lt_0_compat; [apply Qmult_lt_0_compat|]; assumption).
  assert (P2 : (0 < cl * cw)%Q) by (apply Qmult_lt_0_compat; assumption).
  assert (P3 : (0 < cond * (L * Wd))%Q) by (apply Qmult_lt_0_compat; [assumption|apply Qmult_lt_0_compat; assumption]).
  assert (P4 : (0 < K * R * C * (cl * cw))%Q) by (apply Qmult_lt_0_compat; assumption).
  field. split; [|split; [|split; [|split; [|split; [|split; [|split; [|split]]]]]]]; lra || nra.
Qed.
Print Assumptions C65_series.

Lemma conductance_pos : forall nr nc cw cl cond i, good_plate nr nc cw cl i -> (0 < cond)%Q -> (0 < fi_conductance i)%Q -> (0 < conductance_per_area cw cl cond i)%Q.
Proof.
  intros nr nc cw cl cond i (G1 & G2 & (CW & CL) & (FL & FW) & G3 & G4) C1 C2. unfold conductance_per_area, parallel.
  pose proof (qz_pos (fi_rows i) ltac:(lia)) as N3. pose proof (qz_pos (fi_cols i) ltac:(lia)) as N4.
  assert (X : (0 < cond / (cl * cw))%Q) by (apply Qlt_shift_div_l; [apply Qmult_lt_0_compat; assumption|lra]).
  assert (Y : (0 < fi_conductance i / (fi_length i * 1000000 / qz (fi_cols i) * (fi_width i * 1000000 / qz (fi_rows i))))%Q).
  { apply Qlt_shift_div_l; [|lra]. apply Qmult_lt_0_compat; (apply Qlt_shift_div_l; [assumption|]; lra). }
  set (x := (cond / (cl * cw))%Q) in *. set (y := (fi_conductance i / _)%Q) in *. apply Qlt_shift_div_l; [lra|]. pose proof (Qmult_lt_0_compat _ _ X Y). lra.
Qed.

(** Heat flows from hot to cold: no cell of the spreader receives heat, and no cell of
    the sink loses any, when no cell of the spreader is colder than one of the sink;
    and conversely; so nothing flows when all are equally hot. *)
Theorem C65_direction : forall {F} (temps : F -> list Q) (fmu : F -> list Q -> Q -> Q -> option F) nr nc cw cl cond step i st ts flows given st',
    good_plate nr nc cw cl i -> Z.of_nat (length ts) = nr * nc -> Z.of_nat (length (temps (fst st))) = fi_rows i * fi_cols i ->
    (0 < cond)%Q -> (0 < fi_conductance i)%Q ->
    simulate_step temps fmu (fmi_init nr nc cw cl cond step i) st ts = Val (flows, given, st') ->
    ((forall x y, In x ts -> In y (temps (fst st)) -> (y <= x)%Q) -> Forall (fun q => 0 <= q)%Q flows /\ Forall (fun q => 0 <= q)%Q given) /\
    ((forall x y, In x ts -> In y (temps (fst st)) -> (x <= y)%Q) -> Forall (fun q => q <= 0)%Q flows /\ Forall (fun q => q <= 0)%Q given).
Proof.
  intros F temps fmu nr nc cw cl cond step i st ts flows given st' GP LT LU C1 C2 E.
  destruct (C65_flows temps fmu nr nc cw cl cond step i st ts GP LT LU) as (fl & gi & E2 & LF & LG & FL & GI & _). rewrite E in E2. destruct (fmu _ _ _ _); [|discriminate E2]. assert (fl = flows) as -> by congruence. assert (gi = given) as -> by congruence. clear E E2.
  pose proof (conductance_pos _ _ _ _ _ _ GP C1 C2) as KP. pose proof GP as (G1 & G2 & _ & _ & G3 & G4).
  set (sp := spreader_grid nr nc cw cl i) in *. set (sk := sink_grid i) in *. set (k := conductance_per_area cw cl cond i) in *. set (us := temps (fst st)) in *.
  assert (INS : forall r c, of_grid sp r c -> In (cell_value sp ts r c) ts) by (intros r c (R & C); change (gr_nr sp) with nr in *; change (gr_nc sp) with nc in *; apply nth_In; change (gr_nc sp) with nc; nia).
  assert (INK : forall r c, of_grid sk r c -> In (cell_value sk us r c) us) by (intros r c (R & C); change (gr_nr sk) with (fi_rows i) in *; change (gr_nc sk) with (fi_cols i) in *; apply nth_In; change (gr_nc sk) with (fi_cols i); nia).
  assert (ALL : forall (P : Q -> Prop) (g : grid) v, (forall a b, (a == b)%Q -> P a -> P b) -> 1 <= gr_nc g -> Z.of_nat (length v) = gr_nr g * gr_nc g -> (forall r c, of_grid g r c -> P (cell_value g v r c)) -> Forall P v).
  { intros P g v PE N L H. rewrite Forall_forall. intros x I. apply (In_nth _ _ 0%Q) in I. destruct I as (n & B & <-). destruct (flat_inv (gr_nc g) (gr_nr g) (Z.of_nat n) ltac:(lia) ltac:(lia)) as (R & C & EN). specialize (H _ _ (conj R C)). unfold cell_value in H. rewrite <- EN, Nat2Z.id in H. exact H. }
  assert (OUT : forall (a b : grid) ta tb r c, (forall r' c', of_grid b r' c' -> (cell_value b tb r' c' <= cell_value a ta r c)%Q) -> (0 <= outflow k a b ta tb r c)%Q).
  { intros a b ta tb r c H. unfold outflow, over_grid. apply qsum_nonneg. intros r' IR. apply in_zrange in IR. apply qsum_nonneg. intros c' IC. apply in_zrange in IC.
    pose proof (H r' c' ltac:(split; lia)). apply Qmult_le_0_compat; [apply Qmult_le_0_compat; [lra|apply overlap_nonneg]|lra]. }
  assert (OUT2 : forall (a b : grid) ta tb r c, (forall r' c', of_grid b r' c' -> (cell_value a ta r c <= cell_value b tb r' c')%Q) -> (outflow k a b ta tb r c <= 0)%Q).
  { intros a b ta tb r c H. setoid_replace (outflow k a b ta tb r c) with (- over_grid b (fun r' c' => k * overlap (cell_rect true a r c) (cell_rect true b r' c') * (cell_value b tb r' c' - cell_value a ta r c)))%Q.
    2: { unfold outflow, over_grid. rewrite <- qsum_opp. apply qsum_ext. intros r' _. rewrite <- qsum_opp. apply qsum_ext. intros c' _. ring. }
    assert (0 <= over_grid b (fun r' c' => k * overlap (cell_rect true a r c) (cell_rect true b r' c') * (cell_value b tb r' c' - cell_value a ta r c)))%Q; [|lra].
    unfold over_grid. apply qsum_nonneg. intros r' IR. apply in_zrange in IR. apply qsum_nonneg. intros c' IC. apply in_zrange in IC.
    pose proof (H r' c' ltac:(split; lia)). apply Qmult_le_0_compat; [apply Qmult_le_0_compat; [lra|apply overlap_nonneg]|lra]. }
  split; intros H; split.
  - apply (ALL _ sp); [intros a b AB; lra|exact G2|change (gr_nr sp) with nr; change (gr_nc sp) with nc; lia|]. intros r c O. rewrite (FL r c O). apply OUT. intros r' c' O'. apply H; [apply INS, O|apply INK, O'].
  - apply (ALL _ sk); [intros a b AB; lra|exact G4|change (gr_nr sk) with (fi_rows i); change (gr_nc sk) with (fi_cols i); lia|]. intros r c O. rewrite (GI r c O). assert (outflow k sk sp us ts r c <= 0)%Q; [|lra]. apply OUT2. intros r' c' O'. apply H; [apply INS, O'|apply INK, O].
  - apply (ALL _ sp); [intros a b AB; lra|exact G2|change (gr_nr sp) with nr; change (gr_nc sp) with nc; lia|]. intros r c O. rewrite (FL r c O). apply OUT2. intros r' c' O'. apply H; [apply INS, O|apply INK, O'].
  - apply (ALL _ sk); [intros a b AB; lra|exact G4|change (gr_nr sk) with (fi_rows i); change (gr_nc sk) with (fi_cols i); lia|]. intros r c O. rewrite (GI r c O). assert (0 <= outflow k sk sp us ts r c)%Q; [|lra]. apply OUT. intros r' c' O'. apply H; [apply INS, O'|apply INK, O].
Qed.
Print Assumptions C65_direction.

(** ** The plugin in a simulation of the chip *)

(** A completed step calls the plugin once, with the temperatures of the spreader, and
    each of its cells loses what the plugin answers. *)
Theorem C65_called : forall {M PS} solve plugin d (s s' : sim M PS) qs r sp h m,
    in_place solve plugin -> good_sim d s -> queued (s_pg s) qs -> pg_top (s_pg s) = Some (SinkPluggable sp h m) ->
    emulate_step solve plugin d s = Ok (r, s') -> r = TDICE_STEP_DONE \/ r = TDICE_SLOT_DONE ->
    exists before flows, plugin (s_plugin s) (skipn (Z.to_nat (chip_cells d)) (s_temps s)) before = (false, flows, s_plugin s') /\
      Z.of_nat (length (skipn (Z.to_nat (chip_cells d)) (s_temps s))) = s_nrows sp * s_ncols sp /\
      Z.of_nat (length before) = s_nrows sp * s_ncols sp /\
      skipn (Z.to_nat (chip_cells d)) (pg_sources (s_pg s')) = map Qopp flows.
Proof.
  intros M PS solve plugin d s s' qs r sp h m IP GS Q T E D. unfold emulate_step in E. pose proof GS as (GP & LT & TY & SL & TM). rewrite TY in E. rewrite slot_completed_spec in E by lia. cbn [bind] in E.
  match type of E with context [(do r1 <- ?u ; _)] => set (upd := u) in E end. destruct upd as [[e1 pg1]| |] eqn:U; [|discriminate E|discriminate E]. cbn [bind] in E. destruct e1; [|exfalso; destruct D; congruence].
  assert (GT : good_pgrid d pg1 /\ pg_top pg1 = pg_top (s_pg s) /\ pg_ncells pg1 = pg_ncells (s_pg s)).
  { unfold upd in U. destruct (_ =? _) in U.
    - destruct (update_source_vector_spec _ _ _ GP Q) as (pg2 & E2 & GP1 & SF & _). rewrite E2 in U. assert (pg2 = pg1) as -> by congruence. split; [exact GP1|]. split; apply SF.
    - assert (pg1 = s_pg s) as -> by congruence. auto. }
  destruct GT as (GP1 & T1 & N1). rewrite T in T1. clear U upd. unfold pluggable_heatsink in E. cbn [s_pg s_temps s_plugin s_matrix s_an] in E. rewrite T1 in E.
  destruct (spreader_offset_0 d pg1 sp h m GP1 T1) as (EO & EN & CP & SPP). rewrite EO, EN in E. rewrite T1 in *. cbn [spreader_cells] in *.
  pose proof GP1 as (_ & _ & _ & NC & _ & _ & _ & LS & _). rewrite T1 in NC. cbn [spreader_cells] in NC.
  set (off := Z.to_nat (chip_cells d)) in *. set (n := Z.to_nat (s_nrows sp * s_ncols sp)) in *.
  assert (LS' : length (pg_sources pg1) = (off + n)%nat) by (unfold off, n; lia).
  assert (LT' : length (s_temps s) = (off + n)%nat) by (unfold off, n; lia).
  replace (off + n <=? length (pg_sources pg1))%nat with true in E by (symmetry; apply Nat.leb_le; lia).
  replace (off + n <=? length (s_temps s))%nat with true in E by (symmetry; apply Nat.leb_le; lia). cbn [andb] in E.
  rewrite (firstn_all2 (skipn off (s_temps s))) in E by (rewrite skipn_length; lia).
  destruct (plugin (s_plugin s) (skipn off (s_temps s)) (firstn n (skipn off (pg_sources pg1)))) as ((bad, flows), ps) eqn:EP. pose proof (proj2 IP _ _ _ _ _ _ EP) as LF. rewrite firstn_length, skipn_length in LF.
  destruct bad; [cbn [bind] in E; exfalso; destruct D; congruence|]. cbn [bind s_pg s_temps s_plugin s_matrix s_an] in E.
  match type of E with context [(do b <- ?u ; _)] => destruct u as [b| |] end; [|discriminate E|discriminate E]. cbn [bind] in E. destruct (solve (s_matrix s) b) as (e3, x). destruct e3; [|exfalso; destruct D; congruence].
  unfold slot_completed, increase_by_step_time in E. cbn [an_slot_length] in E. destruct (Z.eqb_spec (an_slot_length (s_an s)) 0); [lia|]. cbn [bind] in E.
  match type of E with Ok (?a, ?z) = _ => assert (z = s') as <- by congruence end. cbn [s_plugin s_pg].
  exists (firstn n (skipn off (pg_sources pg1))), flows. split; [exact EP|]. split; [rewrite skipn_length; unfold off, n in *; lia|]. split; [rewrite firstn_length, skipn_length; unfold off, n in *; lia|].
  cbn [set_sources pg_sources]. rewrite skipn_app. rewrite skipn_all2 by (rewrite firstn_length; lia). rewrite firstn_length, LS'. replace (off - Nat.min off (off + n))%nat with 0%nat by lia. cbn [app skipn]. rewrite (skipn_all2 (pg_sources pg1)) by lia. apply app_nil_r.
Qed.
Print Assumptions C65_called.

Lemma in_place_fmi : forall {M F} (solve : M -> list Q -> error_t * list Q) (temps : F -> list Q) fmu w,
    (forall m b e x, solve m b = (e, x) -> length x = length b) -> in_place solve (fmi_plugin temps fmu w).
Proof.
  intros M F solve temps fmu w H. split; [exact H|]. intros ps t v bad fl ps'. unfold fmi_plugin. destruct (simulate_step temps fmu w ps t) as [((flows & given), st')| |]; [|congruence|congruence].
  destruct (Nat.leb_spec (length flows) (length v)); [|congruence]. intros E. assert (fl = flows ++ skipn (length flows) v) as -> by congruence. rewrite app_length, skipn_length. lia.
Qed.

(** Chip and sink together: over a step the heat content of chip and spreader grows by
    the powers of the slot minus what the sink is given minus what is lost elsewhere;
    the time of the plugin advances by its step; solid stacks. *)
Theorem C65_energy : forall {F} solve (temps : F -> list Q) (fmu : F -> list Q -> Q -> Q -> option F) cw cl cond step i g d
      (s s1 s2 : sim sysmatrix (F * Q)) qs t r sp h m,
    (forall m b e x, solve m b = (e, x) -> length x = length b) -> exact solve ->
    good_plate (s_nrows sp) (s_ncols sp) cw cl i -> (forall f, Z.of_nat (length (temps f)) = fi_rows i * fi_cols i) ->
    let plugin := fmi_plugin temps fmu (fmi_init (s_nrows sp) (s_ncols sp) cw cl cond step i) in
    assembled g d s -> good_sim d s -> an_time (s_an s) = 0 -> queued (s_pg s) qs ->
    pg_top (s_pg s) = Some (SinkPluggable sp h m) -> solid_stack g d ->
    history solve plugin d s t s1 -> Forall went_well t -> small_queues (given qs t) -> Z.of_nat (steps_of t) + 1 < two32 ->
    emulate_step solve plugin d s1 = Ok (r, s2) -> done r ->
    let k := Z.to_nat (slots_begun (an_slot_length (s_an s)) (Z.of_nat (steps_of t) + 1)) in
    exists to_sink f', fmu (fst (s_plugin s1)) to_sink (snd (s_plugin s1)) step = Some f' /\ s_plugin s2 = (f', (snd (s_plugin s1) + step)%Q) /\
      Z.of_nat (length to_sink) = fi_rows i * fi_cols i /\
      (forall r c, of_grid (sink_grid i) r c -> (cell_value (sink_grid i) to_sink r c ==
         - outflow (conductance_per_area cw cl cond i) (sink_grid i) (spreader_grid (s_nrows sp) (s_ncols sp) cw cl i)
                   (temps (fst (s_plugin s1))) (skipn (Z.to_nat (chip_cells d)) (s_temps s1)) r c)%Q) /\
      (heat_content s2 - heat_content s1 ==
       an_step (s_an s) * (qsum (map (fun l => nth (k - 1) l 0) (given qs t)) - qsum to_sink - lost_top d s2 - lost_bottom d s2))%Q.
Proof.
  intros F solve temps fmu cw cl cond step i g d s s1 s2 qs t r sp h m LEN EX GP LU plugin A GS T0 Q T S H W SM B E D k.
  assert (IP : in_place solve plugin) by (apply in_place_fmi; exact LEN).
  pose proof (C28_energy solve plugin g d s s1 s2 qs t r IP EX A GS T0 Q S H W SM B E D) as EN. cbv zeta in EN. fold k in EN.
  destruct (history_at solve plugin IP d s t s1 H _ 0 qs (at_start d s qs GS T0 Q) W ltac:(lia) SM) as (AT & (K1 & K2 & K3 & K4 & K5) & _).
  assert (T1 : pg_top (s_pg s1) = Some (SinkPluggable sp h m)) by (rewrite <- T; apply K1).
  destruct AT as [GS1 _ _ _ _ QU _].
  destruct (C65_called solve plugin d s1 s2 _ r sp h m IP GS1 QU T1 E D) as (before & flows & P & LT & LB & SRC).
  unfold plugin, fmi_plugin in P.
  destruct (C65_flows temps fmu (s_nrows sp) (s_ncols sp) cw cl cond step i (s_plugin s1) _ GP LT (LU _)) as (fl & gi & E2 & LF & LG & FL & GI & EQ). rewrite E2 in P.
  destruct (fmu (fst (s_plugin s1)) gi (snd (s_plugin s1)) step) as [f'|] eqn:FM; [|discriminate P].
  replace (length fl <=? length before)%nat with true in P by (symmetry; apply Nat.leb_le; lia). rewrite (skipn_all2 before) in P by lia. rewrite app_nil_r in P.
  assert (fl = flows) as -> by congruence. assert (PS : s_plugin s2 = (f', (snd (s_plugin s1) + step)%Q)) by congruence.
  exists gi, f'. split; [exact FM|]. split; [exact PS|]. split; [rewrite LG; apply LU|]. split; [exact GI|]. rewrite EN. unfold from_plugin. rewrite SRC. rewrite <- EQ.
  setoid_replace (qsum (map Qopp flows)) with (- qsum flows)%Q; [reflexivity|]. clear. induction flows as [|x l IH]; [reflexivity|]. cbn [map]. rewrite !qsum_cons, IH. ring.
Qed.
Print Assumptions C65_energy.

(** ** Witnesses: the chip of SimWitness under a spreader of its own size (2 x 2 cells of
    10 x 5 um); a sink of 2 x 1 cells of 30 x 10 um, the spreader at (5, 7), so that its
    lower row lies on both cells of the sink. *)
Definition pl_info : fmu_info := mkInfo 60 (30 # 1000000) (20 # 1000000) (5 # 1000000) (7 # 1000000) 2 1.
Definition pl_spreader : spreader := mkSpreader 2 2 0 0 10 5.
Definition pl_grid : tgrid :=
  mkTgrid [LT_SOLID_PCB; LT_SOURCE_SPREADER] [wlayer 2; wlayer 1] None (Some (SinkPluggable pl_spreader 4 wmat)) (Some (mkBottomSink 3 310)).
Lemma pl_good : good_tgrid wd pl_grid.
Proof.
  constructor; try (cbn; lia); try discriminate; try (intros _; reflexivity).
  - apply wd_good.
  - apply wd_accepted.
  - intros s h m E. injection E as <- _ _. constructor; cbn; unfold two32; lia.
  - split; [reflexivity|]. intros _. do 3 eexists. reflexivity.
  - intros (h & t & E). discriminate E.
  - intros l L. left. assert (l = 0 \/ l = 1) as [-> | ->] by (cbn in L; lia); cbn.
    + repeat split; try discriminate.
    + repeat split; try discriminate; try lia.
Qed.
Lemma pl_physical : physical pl_grid wd.
Proof.
  constructor; cbn.
  - repeat constructor.
  - repeat constructor.
  - discriminate.
  - discriminate.
  - intros s E. injection E as <-. reflexivity.
  - intros s h m E. injection E as <- <- <-. repeat constructor.
Qed.
Definition pl_pg (q1 q2 : queue) (src : list Q) : PowerGrid.pgrid :=
  PowerGrid.mkPgrid 2 12 4 [LT_SOLID_PCB; LT_SOURCE_SPREADER] [None; Some (wfloor q1 q2)]
          (Some (SinkPluggable pl_spreader 4 wmat)) (Some (mkBottomSink 3 310)) None src
          (get [] (cells_capacities pl_grid wd)) (get [] (top_tcs pl_grid wd)) (get [] (bottom_tcs pl_grid wd)).
Definition pl_matrix : sysmatrix := get (mkSysmatrix [] [] []) (fill_system_matrix (system_matrix_build 12 64) pl_grid (wan 2 0) wd).
Lemma pl_pg_good : forall q1 q2 src, length src = 12%nat -> good_pgrid wd (pl_pg q1 q2 src).
Proof.
  intros q1 q2 src L. unfold good_pgrid. cbn [pl_pg pg_nlayers pg_ncells pg_ncells_layer pg_types pg_flps pg_top pg_bottom pg_channel pg_sources pg_caps pg_top_tcs pg_bottom_tcs].
  split; [apply wd_good|]. split; [cbn; lia|]. split; [reflexivity|]. split; [reflexivity|]. split; [unfold two32; lia|].
  split; [intros s h m E; assert (s = pl_spreader) as -> by congruence; cbn; lia|]. split; [reflexivity|]. split; [rewrite L; reflexivity|]. split; [vm_compute; reflexivity|]. split; [vm_compute; reflexivity|]. split; [vm_compute; reflexivity|]. split; [reflexivity|].
  constructor; [|constructor; [|constructor]].
  - unfold good_layer. split; [discriminate|]. split; [cbn; split; [discriminate|congruence]|]. split; [discriminate|].
    split; [discriminate|]. split; [discriminate|discriminate].
  - unfold good_layer. split; [discriminate|]. split; [split; [discriminate|reflexivity]|].
    split; [intros f E; assert (f = wfloor q1 q2) as -> by congruence; apply wfloor_good|].
    split; [discriminate|]. split; [discriminate|discriminate].
Qed.

(** The FMU: two temperatures, each growing with the heat received. *)
Definition pl_temps (f : Q * Q) : list Q := [fst f; snd f].
Definition pl_fmu (f : Q * Q) (q : list Q) (time step : Q) : option (Q * Q) :=
  match q with [q1; q2] => Some (fst f + q1 * step / 1000, snd f + q2 * step / 1000)%Q | _ => None end.
Definition pl_plugin := fmi_plugin pl_temps pl_fmu (fmi_init (s_nrows pl_spreader) (s_ncols pl_spreader) 5 10 40 1 pl_info).
Definition pl_before : list Q := [154016 # 525; 52257 # 175; 61771 # 210; 314921 # 1050; 1987 # 6; 16409 # 50; 25348 # 75; 24088 # 75; 1781 # 6; 3593 # 12; 3571 # 12; 3617 # 12]%Q.
Definition pl_after : list Q := [304; 306; 305; 306; 308; 309; 310; 308; 300; 302; 301; 303]%Q.
Definition pl_sim : sim sysmatrix (Q * Q * Q) :=
  mkSim pl_before (pl_pg (qq 4 6) (qq 8 10) (repeat 0%Q 12)) pl_matrix (wan 2 0) ((290, 295), 0)%Q.
Definition pl_next : sim sysmatrix (Q * Q * Q) :=
  match emulate_step (guess [pl_after]) pl_plugin wd pl_sim with Ok p => snd p | _ => pl_sim end.

Example C65_plate_witness : good_plate (s_nrows pl_spreader) (s_ncols pl_spreader) 5 10 pl_info.
Proof. unfold good_plate. cbn. repeat split; try lia; reflexivity. Qed.

(** The mappings of the plate. *)
Example C65_fragments_witness :
  map (map (fun f => (fr_r f, fr_c f, Qred (fr_feature f)))) (mx_data (wr_spreader (fmi_init 2 2 5 10 40 1 pl_info))) =
    [[(0, 0, (24 # 5)%Q); (1, 0, (16 # 5)%Q)]; [(0, 0, (24 # 5)%Q); (1, 0, (16 # 5)%Q)]; [(1, 0, 8%Q)]; [(1, 0, 8%Q)]] /\
  map (map (fun f => (fr_r f, fr_c f, Qred (fr_feature f)))) (mx_data (wr_sink (fmi_init 2 2 5 10 40 1 pl_info))) =
    [[(0, 0, (24 # 5)%Q); (0, 1, (24 # 5)%Q)]; [(0, 0, (16 # 5)%Q); (1, 0, 8%Q); (0, 1, (16 # 5)%Q); (1, 1, 8%Q)]].
Proof. split; vm_compute; reflexivity. Qed.

(** All the cells of the spreader lie inside the sink (C65_series, C65_covered). *)
Example C65_within_witness : forall r c, of_grid (spreader_grid 2 2 5 10 pl_info) r c -> within (cell_rect true (spreader_grid 2 2 5 10 pl_info) r c) (whole (sink_grid pl_info)).
Proof.
  intros r c (R & C). cbn [spreader_grid gr_nr gr_nc] in R, C. assert (r = 0 \/ r = 1) as [-> | ->] by lia; assert (c = 0 \/ c = 1) as [-> | ->] by lia; vm_compute; repeat split; discriminate.
Qed.
Example C65_series_witness : exists flows given st',
    simulate_step pl_temps pl_fmu (fmi_init 2 2 5 10 40 1 pl_info) (300, 300, 0)%Q [310; 310; 310; 310]%Q = Val (flows, given, st') /\
    map Qred flows = [80; 80; 80; 80]%Q /\ map Qred given = [96; 224]%Q.
Proof. do 3 eexists. split; [vm_compute; reflexivity|]. split; vm_compute; reflexivity. Qed.

Example C65_energy_witness :
    (forall m b e x, guess [pl_after] m b = (e, x) -> length x = length b) /\ exact (guess [pl_after]) /\
    good_plate (s_nrows pl_spreader) (s_ncols pl_spreader) 5 10 pl_info /\ (forall f, Z.of_nat (length (pl_temps f)) = fi_rows pl_info * fi_cols pl_info) /\
    assembled pl_grid wd pl_sim /\ good_sim wd pl_sim /\ an_time (s_an pl_sim) = 0 /\ queued (s_pg pl_sim) [[4; 6]; [8; 10]]%Q /\
    pg_top (s_pg pl_sim) = Some (SinkPluggable pl_spreader 4 wmat) /\ solid_stack pl_grid wd /\
    emulate_step (guess [pl_after]) pl_plugin wd pl_sim = Ok (TDICE_STEP_DONE, pl_next) /\
    (fst (fst (s_plugin pl_next)) == 290 + (78 # 1000))%Q /\ (snd (s_plugin pl_next) == 1)%Q /\
    ~ (heat_content pl_next - heat_content pl_sim == 0)%Q.
Proof.
  split; [exact (proj1 (guess_in_place [pl_after]))|]. split; [apply guess_exact|]. split; [exact C65_plate_witness|]. split; [reflexivity|].
  split. { constructor; cbn [pl_sim s_pg s_an s_matrix]; [exact pl_good|exact pl_physical|constructor; try reflexivity; vm_compute; reflexivity| |reflexivity]. exists (system_matrix_build 12 64). split; [reflexivity|]. split; [reflexivity|]. vm_compute. reflexivity. }
  split. { unfold good_sim, pl_sim. cbn [s_pg s_temps s_an wan an_type an_slot_length an_time]. split; [apply pl_pg_good; reflexivity|]. split; [reflexivity|]. unfold two32. split; [reflexivity|]. lia. }
  split; [reflexivity|]. split. { constructor; [apply qq_rep|]. constructor; [apply qq_rep|]. constructor. }
  split; [reflexivity|]. split. { intros l L. cbn in L. assert (l = 0 \/ l = 1) as [-> | ->] by lia; reflexivity. }
  split. { assert (match emulate_step (guess [pl_after]) pl_plugin wd pl_sim with Ok p => Some (fst p) | _ => None end = Some TDICE_STEP_DONE) as A by (vm_compute; reflexivity). unfold pl_next. destruct (emulate_step (guess [pl_after]) pl_plugin wd pl_sim) as [(r, s')| |]; try discriminate A. cbn in A |- *. congruence. }
  split; [vm_compute; reflexivity|]. split; [vm_compute; reflexivity|]. vm_compute. discriminate.
Qed.
