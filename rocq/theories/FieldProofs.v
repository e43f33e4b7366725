(** * Temperatures along histories: bounds, monotonicity, equilibrium *)
From Coq Require Import ZArith List Bool QArith Lia Lqa Sorted Permutation.
From Verif Require Import Base QSum Dims DimsSpec DimsProofs Queue QueueProofs Floorplan FloorplanSpec FloorplanProofs FlpMatrixProofs TempProofs Stack StackSpec StackProofs PowerGrid Emulate EmulateSpec SourceProofs LayerProofs SourceVectorProofs EmulateProofs HistoryProofs Conduct Matrix MatrixSpec CellProofs NodeProofs LinkProofs SignProofs CscProofs NetProofs EnumProofs BalanceSpec BalanceProofs VectorProofs StepProofs EnergyProofs UniqueProofs.
Import ListNotations.
Local Open Scope Z_scope.

(** ** Powers *)
Lemma shares_le : forall d l r c, good_grid d -> forall els p1 p2, (forall x, In x els -> nice d (snd x)) -> Forall2 Qle p1 p2 ->
    (qsum (map (located_share d l r c) (combine els p1)) <= qsum (map (located_share d l r c) (combine els p2)))%Q.
Proof.
  intros d l r c G els p1 p2 N F. revert els N. induction F as [|a b p1 p2 H F IH]; intros els N.
  - destruct els; apply Qle_refl.
  - destruct els as [|x els]; [apply Qle_refl|]. cbn [combine map]. rewrite !qsum_cons.
    assert (located_share d l r c (x, a) <= located_share d l r c (x, b))%Q as K.
    { unfold located_share. cbn [fst snd]. destruct (fst x =? l); [|apply Qle_refl].
      destruct (nice_share d (snd x) G (N x (or_introl eq_refl))) as (_ & K). specialize (K r c).
      setoid_replace (a * covered_by d (snd x) r c / area_of (snd x))%Q with (a * (covered_by d (snd x) r c / area_of (snd x)))%Q by (unfold Qdiv; ring).
      setoid_replace (b * covered_by d (snd x) r c / area_of (snd x))%Q with (b * (covered_by d (snd x) r c / area_of (snd x)))%Q by (unfold Qdiv; ring).
      apply Qmult_le_compat_r; assumption. }
    specialize (IH els (fun y Y => N y (or_intror Y))). lra.
Qed.
Lemma located_nice : forall d pg x, good_pgrid d pg -> In x (located_elements pg) -> nice d (snd x).
Proof.
  intros d pg x (_ & _ & _ & _ & _ & _ & _ & _ & _ & _ & _ & _ & F) I.
  exact (proj2 (located_good d pg (pg_flps pg) (pg_types pg) 0 x F I)).
Qed.
Lemma expected_le : forall d pg p1 p2 l r c, good_pgrid d pg -> Forall2 Qle p1 p2 ->
    (expected_source pg d p1 l r c <= expected_source pg d p2 l r c)%Q.
Proof.
  intros d pg p1 p2 l r c G F. rewrite !expected_eq. pose proof G as (GG & _).
  pose proof (shares_le d l r c GG (located_elements pg) p1 p2 (fun x X => located_nice d pg x G X) F). lra.
Qed.
Lemma expected_zero : forall d pg ps l r c, Forall (fun p => p == 0)%Q ps -> (expected_source pg d ps l r c == boundary_source pg d l r c)%Q.
Proof.
  intros d pg ps l r c F. rewrite expected_eq. rewrite (qsum_zero _ (combine (located_elements pg) ps)); [ring|].
  intros [x p] I. apply in_combine_r in I. rewrite Forall_forall in F. specialize (F p I). unfold located_share. cbn [fst snd].
  destruct (fst x =? l); [|reflexivity]. rewrite F. unfold Qdiv. ring.
Qed.

Section Fields.
  Context {PS : Type}.
  Variable solve : sysmatrix -> list Q -> error_t * list Q.
  Variable plugin : PS -> list Q -> list Q -> bool * list Q * PS.
  Hypothesis IP : in_place solve plugin.
  Hypothesis EX : exact solve.
  Variables (g : tgrid) (d : dims).
  Hypothesis G : good_tgrid d g.
  Hypothesis P : physical g d.
  Notation sim := (sim sysmatrix PS).
  Notation NL := (d_nlayers d).
  Notation NR := (d_nrows d).
  Notation NC := (d_ncols d).
  Notation ix := (idx g d).
  Notation lk an n := (all_links (links_of g d an n)).

  Definition nb (an : analysis) (n : node) : list (node * Q) := map (fun p => (fst p, fdiag (snd p))) (lk an n).
  Definition kb (an : analysis) (n : node) : Q := k_base (links_of g d an n).

  Lemma solid_out : forall an x n, solid_stack g d -> valid g d n ->
      (heat_out g d an x n == outflow (kb an) (nb an) (fun m => qat x (ix m)) n)%Q.
  Proof.
    intros an x n S V. unfold heat_out, outflow, kb, nb.
    rewrite (dry_extra g d an n (solid_dry g d S n V)). rewrite map_map.
    apply Qplus_comp; [ring|]. apply qsum_ext. intros [m f] I. cbn [fst snd].
    destruct (solid_stack_pos g d an G P S n m f V I) as (y & -> & _). reflexivity.
  Qed.
  Lemma solid_cap : forall n, solid_stack g d -> valid g d n -> (0 < ncap g d n)%Q.
  Proof.
    intros n S V. destruct n as [l r c|r c].
    - cbn [valid] in V. unfold in_grid in V. specialize (S l ltac:(lia)).
      unfold ncap, cell_cap. apply (capacity_pos g d G P l r c); try lia; intros E; rewrite E in S; discriminate.
    - destruct V as (S1 & V). destruct (spr_good g d G S1) as (_ & E). destruct (ph_spreader g d P _ _ _ E) as ((A & B & C) & (D1 & D2)).
      unfold ncap, spreader_capacity. repeat (apply Qmult_lt_0_compat); try lra.
  Qed.
  Section Net.
    Variable an : analysis.
    Hypothesis S : solid_stack g d.
    Hypothesis TR : an_type an = AT_TRANSIENT.
    Hypothesis ST : (0 < an_step an)%Q.
    Lemma kb_pos : forall n, In n (nodes g d) -> (0 < kb an n)%Q.
    Proof.
      intros n I. apply in_nodes in I. apply (base_nonneg g d an G P TR ST n I). apply solid_cap; assumption.
    Qed.
    Lemma nb_ok : forall n p, In n (nodes g d) -> In p (nb an n) -> In (fst p) (nodes g d) /\ (0 <= snd p)%Q.
    Proof.
      intros n p I J. apply in_nodes in I. unfold nb in J. apply in_map_iff in J. destruct J as ([m f] & <- & J). cbn [fst snd].
      destruct (solid_stack_pos g d an G P S n m f I J) as (y & -> & Y). split; [|cbn; lra].
      apply in_nodes. destruct (reciprocal g d an G P n m _ I J); assumption.
    Qed.
    Lemma solid_compare : forall x y, (forall n, valid g d n -> heat_out g d an x n <= heat_out g d an y n)%Q ->
        forall n, valid g d n -> (qat x (ix n) <= qat y (ix n))%Q.
    Proof.
      intros x y H n V.
      apply (comparison (nodes g d) (kb an) (nb an) kb_pos nb_ok (fun m => qat x (ix m)) (fun m => qat y (ix m))); [|apply in_nodes; assumption].
      intros m I. apply in_nodes in I. rewrite <- !solid_out by assumption. apply H; assumption.
    Qed.
    Lemma solid_below : forall x k, (forall n, valid g d n -> heat_out g d an x n <= kb an n * k)%Q ->
        forall n, valid g d n -> (qat x (ix n) <= k)%Q.
    Proof.
      intros x k H n V.
      apply (below_bound (nodes g d) (kb an) (nb an) kb_pos nb_ok (fun m => qat x (ix m)) k); [|apply in_nodes; assumption].
      intros m I. apply in_nodes in I. rewrite <- !solid_out by assumption. apply H; assumption.
    Qed.
    Lemma solid_above : forall x k, (forall n, valid g d n -> kb an n * k <= heat_out g d an x n)%Q ->
        forall n, valid g d n -> (k <= qat x (ix n))%Q.
    Proof.
      intros x k H n V.
      apply (above_bound (nodes g d) (kb an) (nb an) kb_pos nb_ok (fun m => qat x (ix m)) k); [|apply in_nodes; assumption].
      intros m I. apply in_nodes in I. rewrite <- !solid_out by assumption. apply H; assumption.
    Qed.
  End Net.

  (** ** Without dissipated power *)
  (** All sources are those of the boundary: no power, nothing from a plugin. *)
  Definition unpowered (s : sim) : Prop :=
    forall n, valid g d n ->
      (qat (pg_sources (s_pg s)) (ix n) == nsink g d n * match n with Cell l _ _ => amb g l | _ => 0 end + inlet g d n * tin g)%Q.
  Lemma no_spreader_node : forall (s : sim) r c, assembled g d s -> no_plugin (s_pg s) -> ~ valid g d (Spr r c).
  Proof.
    intros s r c A NP ((h1 & m1 & m2 & E) & _). apply (NP h1 m1 m2). rewrite (go_top _ _ _ (as_power g d s A)). exact E.
  Qed.
  Lemma zero_unpowered : forall (s : sim) ps, assembled g d s -> no_plugin (s_pg s) -> dissipates (s_pg s) d ps ->
      Forall (fun p => p == 0)%Q ps -> unpowered s.
  Proof.
    intros s ps A NP D Z [l r c|r c] V; [|exfalso; exact (no_spreader_node s r c A NP V)].
    rewrite <- at_cell_qat. cbn [valid] in V. rewrite (D l r c) by (unfold in_grid in V; lia).
    rewrite (expected_zero _ _ _ _ _ _ Z), (boundary_eq g d G (s_pg s) (as_power g d s A)) by assumption.
    unfold inlet. cbn [nrow ncon]. destruct (wet g (Cell l r c) && (r =? 0)); ring.
  Qed.

  Lemma amb_between : forall (s : sim) lo hi l r c, assembled g d s -> ambient_between (s_pg s) lo hi -> in_grid d l r c ->
      (sink_of g d l r c * lo <= sink_of g d l r c * amb g l /\ sink_of g d l r c * amb g l <= sink_of g d l r c * hi)%Q.
  Proof.
    intros s lo hi l r c A (B1 & B2) I. pose proof (nsink_nonneg g d G P (Cell l r c) I) as N. cbn [nsink] in N.
    destruct (as_power g d s A) as [P1 P2 P3 P4 P5 P6 P7]. rewrite P2 in B1. rewrite P3 in B2.
    assert ((sink_of g d l r c == 0)%Q \/ (lo <= amb g l /\ amb g l <= hi)%Q) as [E|(E1 & E2)].
    { unfold sink_of, amb. destruct (to_ambient (type_of g l)) eqn:T.
      - right. assert (is_solid (type_of g l) = true) as S1 by (destruct (type_of g l); try discriminate T; reflexivity).
        unfold in_grid in I. destruct (solid_facts g d G l ltac:(lia) S1) as (F & _). destruct (F T) as (_ & (h & a & E)). rewrite E. cbn [top_ambient]. exact (B1 h a E).
      - destruct (to_pcb (type_of g l)) eqn:T2; [|left; reflexivity].
        right. assert (is_solid (type_of g l) = true) as S1 by (destruct (type_of g l); try discriminate T2; reflexivity).
        unfold in_grid in I. destruct (solid_facts g d G l ltac:(lia) S1) as (_ & _ & F). destruct (F T2) as (_ & E).
        destruct (tg_bottom g) as [k|]; [|congruence]. exact (B2 k eq_refl). }
    - rewrite E. split; lra.
    - rewrite !(Qmult_comm (sink_of g d l r c)). split; apply Qmult_le_compat_r; assumption.
  Qed.

  Lemma step_between : forall (s s' : sim) qs r lo hi, assembled g d s -> good_sim d s -> queued (s_pg s) qs -> solid_stack g d ->
      emulate_step solve plugin d s = Ok (r, s') -> done r -> unpowered s' -> ambient_between (s_pg s) lo hi ->
      between lo hi (s_temps s) -> between lo hi (s_temps s').
  Proof.
    intros s s' qs r lo hi A GS Qd S E D U AB B.
    destruct (step_nodes solve plugin IP EX g d s s' qs r A GS Qd E D) as (A' & GS' & SF & ST & EQ).
    assert (an_type (s_an s) = AT_TRANSIENT) as TR by (destruct GS as (_ & _ & TR & _); exact TR).
    pose proof (as_step g d s A) as SP.
    assert (forall n, valid g d n ->
      (kb (s_an s) n * lo <= heat_out g d (s_an s) (s_temps s') n /\ heat_out g d (s_an s) (s_temps s') n <= kb (s_an s) n * hi)%Q) as K.
    { intros n V. rewrite (EQ n V), (U n V). unfold kb. rewrite (base_eq g d (s_an s) n V). unfold capn. rewrite TR.
      unfold inlet. rewrite (solid_dry g d S n V). cbn [andb].
      pose proof (idx_range g d G n V) as R. pose proof (cells_count g d s A GS) as CC. destruct (B (ix n) ltac:(lia)) as (B1 & B2).
      set (q := (ncap g d n / an_step (s_an s))%Q).
      assert (0 <= q)%Q as Nq.
      { unfold q, Qdiv. apply Qmult_le_0_compat; [apply (ncap_nonneg g d G P n V)|]. apply Qlt_le_weak. apply Qinv_lt_0_compat. exact SP. }
      assert (q * lo <= q * qat (s_temps s) (ix n))%Q as K1 by (rewrite !(Qmult_comm q); apply Qmult_le_compat_r; assumption).
      assert (q * qat (s_temps s) (ix n) <= q * hi)%Q as K2 by (rewrite !(Qmult_comm q); apply Qmult_le_compat_r; assumption).
      destruct n as [l r0 c|r0 c].
      - destruct (amb_between s lo hi l r0 c A AB V) as (K3 & K4). cbn [nsink]. split; lra.
      - cbn [nsink]. split; lra. }
    intros i I. rewrite (cells_count g d s' A' GS') in I. destruct (node_of g d G i I) as (n & V & <-).
    split.
    - apply (solid_above (s_an s) S TR SP); [|assumption]. intros m W. apply K; assumption.
    - apply (solid_below (s_an s) S TR SP); [|assumption]. intros m W. apply K; assumption.
  Qed.

  (** ** Equilibrium *)
  Lemma conv_row : forall an n, no_single_row g d -> valid g d n ->
      (k_extra (links_of g d an n) - qsum (map (fun p => fconv (snd p)) (lk an n)) == inlet g d n)%Q.
  Proof.
    intros an n NS V. unfold inlet. destruct (wet g n) eqn:W.
    - destruct n as [l r c|r c]; [|discriminate W]. rewrite (wet_extra g d an l r c W). cbn [andb nrow ncon].
      rewrite (qsum_ext _ (fun p => match snd p with Cond _ => 0%Q | Conv v => (fun (_ : node) v => v) (fst p) v end)) by (intros [m []] _; reflexivity).
      rewrite (wet_conv g d an l r c (fun _ v => v) W). unfold inout.
      unfold valid, in_grid in V. pose proof (wet_opp g d G l r r c ltac:(lia) W) as O.
      destruct NS as [NS|NS]; [|rewrite (solid_dry g d NS (Cell l r c) V) in W; discriminate].
      destruct (r =? 0) eqn:E0; [apply Z.eqb_eq in E0; subst; destruct (0 =? NR - 1) eqn:E1; [apply Z.eqb_eq in E1; lia|]; cbn; rewrite O; ring|].
      destruct (r =? NR - 1) eqn:E1; cbn; rewrite ?O; ring.
    - rewrite (dry_extra g d an n W), (dry_conv_sum g d an n W). cbn. ring.
  Qed.
  Lemma heat_uniform : forall an x x0 n, no_single_row g d -> valid g d n -> (forall m, valid g d m -> qat x (ix m) == x0)%Q ->
      (heat_out g d an x n == (kb an n + inlet g d n) * x0)%Q.
  Proof.
    intros an x x0 n NS V U. unfold heat_out, kb. rewrite <- (conv_row an n NS V), (U n V).
    assert ((qsum (map (fun p => match snd p with Cond y => y * (qat x (ix n) - qat x (ix (fst p))) | Conv v => - v * qat x (ix (fst p)) end) (lk an n)) ==
               - (qsum (map (fun p => fconv (snd p)) (lk an n)) * x0))%Q) as K.
    { rewrite <- qsum_scale_r, <- qsum_opp. apply qsum_ext. intros [m f] I. cbn [fst snd].
      destruct (reciprocal g d an G P n m f V I) as (W & _). pose proof (U m W) as Um. pose proof (U n V) as Un. destruct f; cbn; rewrite ?Um, ?Un; ring. }
    rewrite K. ring.
  Qed.
  Lemma amb_uniform : forall (s : sim) x0 l r c, assembled g d s -> surroundings (s_pg s) x0 -> in_grid d l r c ->
      (sink_of g d l r c * amb g l == sink_of g d l r c * x0)%Q.
  Proof.
    intros s x0 l r c A (B1 & B2 & _) I.
    assert (ambient_between (s_pg s) x0 x0) as AB.
    { split; [intros h a E; rewrite (B1 h a E); split; apply Qle_refl|intros k E; rewrite (B2 k E); split; apply Qle_refl]. }
    destruct (amb_between s x0 x0 l r c A AB I). lra.
  Qed.
  Lemma inlet_uniform : forall (s : sim) x0 n, assembled g d s -> surroundings (s_pg s) x0 -> valid g d n ->
      (inlet g d n * tin g == inlet g d n * x0)%Q.
  Proof.
    intros s x0 n A (_ & _ & B) V. unfold inlet. destruct (wet g n && (nrow n =? 0)) eqn:W; [|ring].
    apply andb_true_iff in W. destruct W as (W & _). destruct (wet_channel g d G n V W) as (ch & T).
    unfold tin. rewrite T. rewrite (go_channel _ _ _ (as_power g d s A)) in B. rewrite (B ch T). reflexivity.
  Qed.
  (** The uniform field solves the equations of the step. *)
  Lemma uniform_row : forall (s s' : sim) x0 n y, assembled g d s' -> no_single_row g d ->
      unpowered s' -> surroundings (s_pg s') x0 -> an_type (s_an s) = AT_TRANSIENT -> valid g d n ->
      (forall m, valid g d m -> qat y (ix m) == x0)%Q ->
      (heat_out g d (s_an s) y n == qat (pg_sources (s_pg s')) (ix n) + ncap g d n / an_step (s_an s) * x0)%Q.
  Proof.
    intros s s' x0 n y A NS U SU TR V Y.
    rewrite (heat_uniform (s_an s) y x0 n NS V Y). unfold kb. rewrite (base_eq g d (s_an s) n V), (U n V). unfold capn. rewrite TR.
    rewrite (inlet_uniform s' x0 n A SU V). destruct n as [l r c|r c]; cbn [nsink]; [rewrite (amb_uniform s' x0 l r c A SU V)|]; ring.
  Qed.
  Lemma surroundings_same : forall pg pg' x0, same_fields pg pg' -> surroundings pg x0 -> surroundings pg' x0.
  Proof.
    intros pg pg' x0 (_ & _ & _ & _ & S2 & S3 & S4 & _) (A & B & C). unfold surroundings. rewrite S2, S3, S4. auto.
  Qed.
  Lemma step_uniform : forall (s s' : sim) qs r x0, assembled g d s -> good_sim d s -> queued (s_pg s) qs -> no_single_row g d -> physical_flow g ->
      emulate_step solve plugin d s = Ok (r, s') -> done r -> unpowered s' -> surroundings (s_pg s) x0 ->
      uniform x0 (s_temps s) -> uniform x0 (s_temps s').
  Proof.
    intros s s' qs r x0 A GS Qd NS FL E D U SU UN.
    destruct (step_nodes solve plugin IP EX g d s s' qs r A GS Qd E D) as (A' & GS' & SF & ST & EQ).
    assert (an_type (s_an s) = AT_TRANSIENT) as TR by (destruct GS as (_ & _ & TR & _); exact TR).
    pose proof (as_step g d s A) as SP.
    assert (forall m, valid g d m -> qat (s_temps s) (ix m) == x0)%Q as UM.
    { intros m V. apply UN. rewrite (cells_count g d s A GS). apply (idx_range g d G m V). }
    intros i I. rewrite (cells_count g d s' A' GS') in I. destruct (node_of g d G i I) as (n & V & <-).
    rewrite <- (UM n V). apply (unique_temps g d (s_an s) G P TR SP FL); [|assumption].
    intros m W. rewrite (EQ m W).
    rewrite (uniform_row s s' x0 m (s_temps s) A' NS U (surroundings_same _ _ _ SF SU) TR W UM), (UM m W). reflexivity.
  Qed.
End Fields.
