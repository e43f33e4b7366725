(** * Networks of solids: the matrix seen as flows between cells *)
From Coq Require Import ZArith List Bool QArith Lia ZifyBool Lqa Permutation.
From Verif Require Import Base QSum Dims DimsSpec DimsProofs Queue QueueProofs Floorplan FloorplanSpec FloorplanProofs Stack StackSpec PowerGrid Emulate Conduct Matrix MatrixSpec CellProofs NetProofs NonUniform NuSpec NuMatrix NuMatrixSpec NuMatrixProofs NuTableProofs NuCoeffProofs NuLeaveProofs NuSource NuSourceSpec PropNuMatrix NuSolidSpec NuRunSpec.
Import ListNotations.
Local Open Scope Z_scope.

(** ** Flows that reach a cell with a loss *)
Section Linked.
  Context {A : Type}.
  Variables (cells : list A) (b : A -> Q) (nb : A -> list (A * Q)).
  Hypothesis B : forall a, In a cells -> (0 <= b a)%Q.
  Hypothesis N : forall a p, In a cells -> In p (nb a) -> In (fst p) cells /\ (0 <= snd p)%Q.
  Inductive leads : A -> Prop :=
  | Lead_here : forall a, (0 < b a)%Q -> leads a
  | Lead_on : forall a p, In p (nb a) -> (0 < snd p)%Q -> leads (fst p) -> leads a.
  Hypothesis L : forall a, In a cells -> leads a.

  Lemma qsum_all_zero : forall {X} (f : X -> Q) l, (forall x, In x l -> (f x <= 0)%Q) -> (0 <= qsum (map f l))%Q -> forall x, In x l -> (f x == 0)%Q.
  Proof.
    intros X f l. induction l as [|y l IH]; intros H S x I; [destruct I|]. cbn [map] in S. rewrite qsum_cons in S.
    assert (T : (qsum (map f l) <= 0)%Q).
    { assert (0 <= qsum (map (fun x => - f x) l))%Q by (apply qsum_nonneg; intros z Z; specialize (H z (or_intror Z)); lra). rewrite qsum_opp in H0. lra. }
    pose proof (H y (or_introl eq_refl)) as HY. destruct I as [->|I]; [lra|]. apply IH; auto; [intros z Z; apply H; right; exact Z|lra].
  Qed.
  Lemma positive_linked : forall z, (forall a, In a cells -> (0 <= outflow b nb z a)%Q) -> forall a, In a cells -> (0 <= z a)%Q.
  Proof.
    intros z H a Ha. destruct (exists_min z cells) as (m & Hm & Min); [intros E; rewrite E in Ha; destruct Ha|].
    assert (0 <= z m)%Q as Zm; [|specialize (Min a Ha); lra]. destruct (Qlt_le_dec (z m) 0) as [NEG|NN]; [exfalso|exact NN].
    assert (X : forall c, leads c -> In c cells -> (z c == z m)%Q -> False).
    { intros c LC. induction LC as [c Bc|c p Ip Gp LC IH]; intros Ic Zc.
      - specialize (H c Ic). unfold outflow in H.
        assert (S : (qsum (map (fun p => snd p * (z c - z (fst p))) (nb c)) <= 0)%Q).
        { assert (0 <= - qsum (map (fun p => snd p * (z c - z (fst p))) (nb c)))%Q; [|lra]. rewrite <- qsum_opp. apply qsum_nonneg. intros p Hp. destruct (N c p Ic Hp) as (I & G).
          specialize (Min _ I). assert (0 <= snd p * (z (fst p) - z c))%Q by (apply Qmult_le_0_compat; lra). lra. }
        assert (0 < b c * (- z c))%Q by (apply Qmult_lt_0_compat; lra). lra.
      - destruct (N c p Ic Ip) as (If & _). apply IH; [exact If|]. specialize (H c Ic). unfold outflow in H.
        assert (BZ : (b c * z c <= 0)%Q) by (specialize (B c Ic); assert (0 <= b c * (- z c))%Q by (apply Qmult_le_0_compat; lra); lra).
        assert (E : (snd p * (z c - z (fst p)) == 0)%Q).
        { apply (qsum_all_zero (fun p => snd p * (z c - z (fst p)))%Q (nb c)); [|lra|exact Ip]. intros q Iq. destruct (N c q Ic Iq) as (I & G). specialize (Min _ I). assert (0 <= snd q * (z (fst q) - z c))%Q by (apply Qmult_le_0_compat; lra). lra. }
        apply Qmult_integral in E. destruct E as [E|E]; lra. }
    apply (X m (L m Hm) Hm). reflexivity.
  Qed.
  Lemma linked_comparison : forall x y, (forall a, In a cells -> (outflow b nb x a <= outflow b nb y a)%Q) -> forall a, In a cells -> (x a <= y a)%Q.
  Proof.
    intros x y H a Ha. pose proof (positive_linked (fun a => y a - x a)%Q) as P. cbv beta in P. assert (0 <= y a - x a)%Q; [|lra]. apply P; [|exact Ha].
    intros c Hc. rewrite outflow_minus. specialize (H c Hc). lra.
  Qed.
End Linked.

Lemma half_pos : forall x, (0 < x -> 0 < x / 2)%Q.
Proof. intros x H. apply Qlt_shift_div_l; [reflexivity|rewrite Qmult_0_l; exact H]. Qed.
Lemma div_pos : forall x y, (0 < x -> 0 < y -> 0 < x / y)%Q.
Proof. intros x y H H'. apply Qlt_shift_div_l; [exact H'|rewrite Qmult_0_l; exact H]. Qed.

Section Solid.
  Variables (g : tgrid) (d : dims) (an : analysis) (cells : list cell) (cs : list conn) (m : sysmatrix) (a : Q).
  Hypothesis SL : solid_network g d an cells cs m a.
  Let n := Z.of_nat (length cells).
  Let NW := sl_network _ _ _ _ _ _ _ SL.

  Lemma cell_facts : forall i, 0 <= i < n -> let c := at_cell cells i in In c cells /\ solid_cell g d c /\ (0 < cell_height d c)%Q /\ physical_material (cell_material g c) /\ (0 < c_length c)%Q /\ (0 < c_width c)%Q.
  Proof.
    intros i I c. assert (IN : In c cells) by (unfold c, at_cell; apply nth_In; unfold n in I; lia). destruct (nw_cells _ _ _ _ _ _ NW c IN) as (_ & C2 & C3a & C3b & C3c). pose proof (sl_cells _ _ _ _ _ _ _ SL c IN) as SC. destruct SC as (S1 & S2 & S3).
    split; [exact IN|]. split; [split; auto|]. pose proof (nw_physical _ _ _ _ _ _ NW) as PH. pose proof (nw_grid _ _ _ _ _ _ NW) as GT. split; [|split; [|split; assumption]].
    - pose proof (ph_heights _ _ PH) as PL. rewrite Forall_forall in PL. apply PL. unfold cell_height. apply nth_In. destruct (gt_accepted d g GT) as [_ _ AA _ _]. lia.
    - unfold cell_material. destruct (is_source (type_of g (c_layer c))) eqn:S; [apply (C3c eq_refl)|]. pose proof (ph_layers _ _ PH) as PL. rewrite Forall_forall in PL. specialize (PL (cell_layer g c)). pose proof (gt_layers d g GT) as GL. specialize (PL ltac:(unfold cell_layer; apply nth_In; lia)). apply PL.
  Qed.
  Lemma reach_pos : forall i, 0 <= i < n -> (0 < reach g d (at_cell cells i))%Q.
  Proof. intros i I. destruct (cell_facts i I) as (_ & _ & H & _). assert (H2 : (0 < cell_height d (at_cell cells i) / 2)%Q) by (apply Qlt_shift_div_l; [reflexivity|rewrite Qmult_0_l; exact H]). unfold reach. destruct (type_of g (c_layer (at_cell cells i))); try destruct (at_end d _); try destruct (_ =? 0); try exact H; exact H2. Qed.
  Lemma series_pos : forall f da ka db kb, (0 < f -> 0 < da -> 0 < ka -> 0 < db -> 0 < kb -> 0 < in_series f da ka db kb)%Q.
  Proof.
    intros f da ka db kb F A1 A2 B1 B2. unfold in_series. assert (0 < da / ka)%Q by (apply Qlt_shift_div_l; [exact A2|rewrite Qmult_0_l; exact A1]). assert (0 < db / kb)%Q by (apply Qlt_shift_div_l; [exact B2|rewrite Qmult_0_l; exact B1]). apply Qlt_shift_div_l; [lra|rewrite Qmult_0_l; exact F].
  Qed.

  (** Connected cells exchange heat with a positive conductance. *)
  Lemma connected_exchange : forall k, In k cs -> exists x, (0 < x)%Q /\ exchange m (k_node1 k) (k_node2 k) x.
  Proof.
    intros k I. pose proof (gc_range _ _ (nw_conns _ _ _ _ _ _ NW) k I) as R. destruct (sl_conns _ _ _ _ _ _ _ SL k I) as (V & D). destruct (C57_solids _ _ _ _ _ _ k NW I) as (S1 & S2 & S0); [apply (cell_facts (k_node1 k)); unfold n; lia|apply (cell_facts (k_node2 k)); unfold n; lia|exact V|].
    destruct (cell_facts (k_node1 k) ltac:(unfold n; lia)) as (_ & _ & HA & (_ & XA & YA & ZA) & LA & WA). destruct (cell_facts (k_node2 k) ltac:(unfold n; lia)) as (_ & _ & HB & (_ & XB & YB & ZB) & LB & WB).
    destruct D as [D|([D|D] & LY)].
    - eexists. split; [|apply S0; exact D]. apply series_pos; auto; apply reach_pos; unfold n; lia.
    - eexists. split; [|apply S1; assumption]. apply series_pos; auto using half_pos. apply Qmult_lt_0_compat; assumption.
    - eexists. split; [|apply S2; assumption]. apply series_pos; auto using half_pos. apply Qmult_lt_0_compat; assumption.
  Qed.
  Definition joins (i j : Z) (k : conn) : Prop := k_node1 k = i /\ k_node2 k = j \/ k_node1 k = j /\ k_node2 k = i.
  Lemma joined_dec : forall i j, (exists k, In k cs /\ joins i j k) \/ (forall k, In k cs -> ~ joins i j k).
  Proof.
    intros i j. destruct (existsb (fun k => (k_node1 k =? i) && (k_node2 k =? j) || (k_node1 k =? j) && (k_node2 k =? i)) cs) eqn:E.
    - apply existsb_exists in E. destruct E as (k & I & E). left. exists k. split; [exact I|]. unfold joins. lia.
    - right. intros k I J. assert (X : existsb (fun k => (k_node1 k =? i) && (k_node2 k =? j) || (k_node1 k =? j) && (k_node2 k =? i)) cs = true); [|congruence]. apply existsb_exists. exists k. split; [exact I|]. unfold joins in J. lia.
  Qed.
  Lemma pair_facts : forall i j, 0 <= i < n -> 0 <= j < n -> i <> j ->
      (coefficient m i j == coefficient m j i)%Q /\ (coefficient m i j <= 0)%Q /\ ((exists k, In k cs /\ joins i j k) -> (coefficient m i j < 0)%Q).
  Proof.
    intros i j I J NE. destruct (joined_dec i j) as [(k & IK & JK)|NO].
    - destruct (connected_exchange k IK) as (x & X & E1 & E2). destruct JK as [(J1 & J2)|(J1 & J2)]; rewrite J1, J2 in E1, E2; (split; [rewrite E1, E2; reflexivity|split; [lra|intros _; lra]]).
    - assert (U : forall p q, (p = i /\ q = j \/ p = j /\ q = i) -> (coefficient m p q == 0)%Q).
      { intros p q PQ. apply (coefficient_unconnected g d an cells cs m (nw_conns _ _ _ _ _ _ NW) (nw_matrix _ _ _ _ _ _ NW)); fold n; [lia|lia|]. intros k IK. specialize (NO k IK). unfold joins in NO. split; intros E; injection E; intros; apply NO; lia. }
      rewrite (U i j), (U j i) by lia. repeat split; try lra. intros (k & IK & JK). exfalso. exact (NO k IK JK).
  Qed.

  Definition sl_b (i : Z) : Q := leaves g d an (at_cell cells i).
  Definition sl_nb (i : Z) : list (Z * Q) := map (fun j => (j, if j =? i then 0%Q else (- coefficient m i j)%Q)) (zrange 0 (n - 1)).
  Lemma row_sums : forall i, 0 <= i < n -> (qsum (map (fun j => coefficient m i j) (zrange 0 (n - 1))) == sl_b i)%Q.
  Proof.
    intros i I. unfold sl_b. rewrite <- (C57_columns _ _ _ _ _ _ NW i I). fold n. apply qsum_ext. intros j J. apply in_zrange in J. destruct (Z.eq_dec i j) as [->|NE]; [reflexivity|]. apply pair_facts; lia.
  Qed.
  Lemma row_outflow : forall x i, 0 <= i < n -> (row_times m n x i == outflow sl_b sl_nb (qat x) i)%Q.
  Proof.
    intros x i I. unfold outflow. rewrite <- (row_sums i I), <- qsum_scale_r. unfold sl_nb. rewrite map_map, <- qsum_plus. unfold row_times. apply qsum_ext. intros j _. cbn [fst snd]. destruct (Z.eqb_spec j i) as [->|]; ring.
  Qed.
  Lemma sl_nb_ok : forall i p, In i (zrange 0 (n - 1)) -> In p (sl_nb i) -> In (fst p) (zrange 0 (n - 1)) /\ (0 <= snd p)%Q.
  Proof.
    intros i p I H. unfold sl_nb in H. apply in_map_iff in H. destruct H as (j & <- & J). cbn [fst snd]. split; [exact J|]. apply in_zrange in I, J. destruct (Z.eqb_spec j i); [lra|]. destruct (pair_facts i j ltac:(lia) ltac:(lia) ltac:(lia)) as (_ & P & _). lra.
  Qed.

  Lemma air_nonneg : forall i, 0 <= i < n -> (0 <= to_air g d (at_cell cells i))%Q /\ (c_layer (at_cell cells i) = d_nlayers d - 1 -> (0 < to_air g d (at_cell cells i))%Q).
  Proof.
    intros i I. destruct (cell_facts i I) as (_ & (S1 & _) & H & (_ & _ & _ & KZ) & LA & WA). destruct (sl_top _ _ _ _ _ _ _ SL) as (h & T). pose proof (ph_top _ _ (nw_physical _ _ _ _ _ _ NW) h a T) as HP. unfold to_air. destruct (Z.leb_spec (d_nlayers d) (c_layer (at_cell cells i))); [lia|]. rewrite T.
    assert (P : (0 < c_length (at_cell cells i) * c_width (at_cell cells i) / (cell_height d (at_cell cells i) / 2 / mt_kz (cell_material g (at_cell cells i)) + 1 / h))%Q).
    { assert (0 < cell_height d (at_cell cells i) / 2 / mt_kz (cell_material g (at_cell cells i)))%Q by (apply div_pos; [apply half_pos; exact H|exact KZ]). assert (0 < 1 / h)%Q by (apply div_pos; [reflexivity|exact HP]). apply Qlt_shift_div_l; [lra|]. rewrite Qmult_0_l. apply Qmult_lt_0_compat; assumption. }
    destruct (to_ambient (type_of g (c_layer (at_cell cells i)))) eqn:TA; [split; [lra|intros _; exact P]|]. split; [lra|]. intros E. exfalso. rewrite E in TA. rewrite (gt_ambient d g (nw_grid _ _ _ _ _ _ NW)) in TA; [discriminate|]. rewrite T. exists h, a. reflexivity.
  Qed.
  Lemma capacity_pos : forall i, 0 <= i < n -> (0 < heat_capacity g d (at_cell cells i))%Q.
  Proof.
    intros i I. destruct (cell_facts i I) as (_ & (S1 & SCH & S3) & H & (VH & _) & LA & WA). unfold heat_capacity. destruct (Z.leb_spec (d_nlayers d) (c_layer (at_cell cells i))); [lia|].
    assert (P : (0 < mt_vhc (cell_material g (at_cell cells i)) * cell_volume d (at_cell cells i))%Q) by (unfold cell_volume; apply Qmult_lt_0_compat; [exact VH|]; apply Qmult_lt_0_compat; [apply Qmult_lt_0_compat; assumption|assumption]).
    rewrite (sl_channel _ _ _ _ _ _ _ SL). destruct S3 as [S3|S3]; [|rewrite S3; exact P]. destruct (type_of g (c_layer (at_cell cells i))); try discriminate S3; exact P.
  Qed.
  Lemma no_outlet : forall c, (carried_out g d c == 0)%Q.
  Proof. intros c. unfold carried_out. rewrite (sl_channel _ _ _ _ _ _ _ SL). destruct (d_nlayers d <=? c_layer c); [reflexivity|destruct (_ && _); reflexivity]. Qed.
  Lemma b_split : forall i, (sl_b i == stored_rate g d an (at_cell cells i) + to_air g d (at_cell cells i))%Q.
  Proof. intros i. unfold sl_b, leaves. rewrite no_outlet. ring. Qed.
  Lemma air_heat : forall c, (from_air g d c == a * to_air g d c)%Q.
  Proof. intros c. unfold from_air. destruct (sl_top _ _ _ _ _ _ _ SL) as (h & T). rewrite T. reflexivity. Qed.

  (** Transient: every cell stores heat. *)
  Hypothesis UNIQUE : an_type an = AT_TRANSIENT /\ (0 < an_step an)%Q \/ an_type an = AT_STEADY /\ (forall i, 0 <= i < n -> cooled d cells cs i).
  Lemma b_nonneg : forall i, In i (zrange 0 (n - 1)) -> (0 <= sl_b i)%Q.
  Proof.
    intros i I. apply in_zrange in I. rewrite b_split. destruct (air_nonneg i ltac:(lia)) as (A1 & _). unfold stored_rate. destruct UNIQUE as [(T & S)|(T & _)]; rewrite T; [|lra].
    pose proof (capacity_pos i ltac:(lia)). assert (0 < heat_capacity g d (at_cell cells i) / an_step an)%Q by (apply div_pos; assumption). lra.
  Qed.
  Lemma all_lead : forall i, In i (zrange 0 (n - 1)) -> leads sl_b sl_nb i.
  Proof.
    intros i I. pose proof I as I'. apply in_zrange in I'. destruct UNIQUE as [(T & S)|(T & C)].
    - apply Lead_here. rewrite b_split. destruct (air_nonneg i ltac:(lia)) as (A1 & _). unfold stored_rate. rewrite T. pose proof (capacity_pos i ltac:(lia)). assert (0 < heat_capacity g d (at_cell cells i) / an_step an)%Q by (apply div_pos; assumption). lra.
    - specialize (C i ltac:(lia)). clear I I'. induction C as [i I TOP|k IK C IH|k IK C IH].
      + apply Lead_here. rewrite b_split. destruct (air_nonneg i I) as (_ & A). specialize (A TOP). unfold stored_rate. rewrite T. lra.
      + pose proof (gc_range _ _ (nw_conns _ _ _ _ _ _ NW) k IK) as R. apply (Lead_on sl_b sl_nb (k_node1 k) (k_node2 k, (- coefficient m (k_node1 k) (k_node2 k))%Q)).
        * unfold sl_nb. apply in_map_iff. exists (k_node2 k). split; [destruct (Z.eqb_spec (k_node2 k) (k_node1 k)); [lia|reflexivity]|apply in_zrange; unfold n; lia].
        * cbn [snd]. destruct (pair_facts (k_node1 k) (k_node2 k) ltac:(unfold n; lia) ltac:(unfold n; lia) ltac:(lia)) as (_ & _ & P). specialize (P ltac:(exists k; split; [exact IK|left; split; reflexivity])). lra.
        * exact IH.
      + pose proof (gc_range _ _ (nw_conns _ _ _ _ _ _ NW) k IK) as R. apply (Lead_on sl_b sl_nb (k_node2 k) (k_node1 k, (- coefficient m (k_node2 k) (k_node1 k))%Q)).
        * unfold sl_nb. apply in_map_iff. exists (k_node1 k). split; [destruct (Z.eqb_spec (k_node1 k) (k_node2 k)); [lia|reflexivity]|apply in_zrange; unfold n; lia].
        * cbn [snd]. destruct (pair_facts (k_node2 k) (k_node1 k) ltac:(unfold n; lia) ltac:(unfold n; lia) ltac:(lia)) as (_ & _ & P). specialize (P ltac:(exists k; split; [exact IK|right; split; reflexivity])). lra.
        * exact IH.
  Qed.
  (** Less heat, less temperature. *)
  Lemma solid_compare : forall b b' x x', solution m n b x -> solution m n b' x' -> (forall i, 0 <= i < n -> (qat b i <= qat b' i)%Q) -> forall i, 0 <= i < n -> (qat x i <= qat x' i)%Q.
  Proof.
    intros b b' x x' (_ & S) (_ & S') H i I. apply (linked_comparison (zrange 0 (n - 1)) sl_b sl_nb b_nonneg sl_nb_ok all_lead (qat x) (qat x')); [|apply in_zrange; lia].
    intros j J. apply in_zrange in J. rewrite <- !row_outflow by lia. rewrite S, S' by lia. apply H. lia.
  Qed.
  Lemma solid_above : forall b x k, solution m n b x -> (forall i, 0 <= i < n -> (sl_b i * k <= qat b i)%Q) -> forall i, 0 <= i < n -> (k <= qat x i)%Q.
  Proof.
    intros b x k (_ & S) H i I. apply (linked_comparison (zrange 0 (n - 1)) sl_b sl_nb b_nonneg sl_nb_ok all_lead (fun _ => k) (qat x)); [|apply in_zrange; lia].
    intros j J. apply in_zrange in J. rewrite outflow_const, <- row_outflow, S by lia. apply H. lia.
  Qed.
  Lemma solid_below : forall b x k, solution m n b x -> (forall i, 0 <= i < n -> (qat b i <= sl_b i * k)%Q) -> forall i, 0 <= i < n -> (qat x i <= k)%Q.
  Proof.
    intros b x k (_ & S) H i I. apply (linked_comparison (zrange 0 (n - 1)) sl_b sl_nb b_nonneg sl_nb_ok all_lead (qat x) (fun _ => k)); [|apply in_zrange; lia].
    intros j J. apply in_zrange in J. rewrite outflow_const, <- row_outflow, S by lia. apply H. lia.
  Qed.
End Solid.
