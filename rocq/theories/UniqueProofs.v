(** * The equations of a transient step determine the temperatures *)
From Coq Require Import ZArith List Bool QArith Lia Lqa Sorted Permutation.
From Verif Require Import Base QSum Dims DimsSpec DimsProofs Floorplan FloorplanSpec FloorplanProofs FlpMatrixProofs TempProofs Stack StackSpec StackProofs PowerGrid Emulate EmulateSpec Conduct Matrix MatrixSpec CellProofs NodeProofs LinkProofs SignProofs CscProofs NetProofs EnumProofs BalanceSpec BalanceProofs VectorProofs StepProofs EnergyProofs.
Import ListNotations.
Local Open Scope Z_scope.

Lemma sum_zero_all : forall {A} (f : A -> Q) l, (forall x, In x l -> 0 <= f x)%Q -> (qsum (map f l) == 0)%Q ->
    forall x, In x l -> (f x == 0)%Q.
Proof.
  intros A f l. induction l as [|a l IH]; intros N S x I; [destruct I|].
  cbn [map] in S. rewrite qsum_cons in S.
  pose proof (N a (or_introl eq_refl)) as Na.
  pose proof (qsum_nonneg f l (fun y Y => N y (or_intror Y))) as Nl.
  destruct I as [<-|I]; [lra|]. apply IH; auto; [intros; apply N; right; assumption|lra].
Qed.
Lemma Qsquare_zero : forall x : Q, (x * x == 0)%Q -> (x == 0)%Q.
Proof. intros x H. destruct (Qmult_integral x x H); assumption. Qed.
Lemma Qsquare_nonneg : forall x : Q, (0 <= x * x)%Q.
Proof.
  intros x. destruct (Qlt_le_dec x 0) as [L|L].
  - setoid_replace (x * x)%Q with ((- x) * (- x))%Q by ring. apply Qmult_le_0_compat; lra.
  - apply Qmult_le_0_compat; assumption.
Qed.

(** Quadratic form of a table of coefficients. *)
Section Form.
  Local Open Scope Q_scope.
  Context {A : Type}.
  Variables (L : list A) (a : A -> A -> Q) (z : A -> Q).
  Notation sum f := (qsum (map f L)).
  Lemma form_identity :
      (2 * sum (fun n => z n * sum (fun m => a n m * z m)) ==
       sum (fun n => (sum (a n) + sum (fun m => a m n)) * (z n * z n)) -
       sum (fun n => sum (fun m => a n m * ((z n - z m) * (z n - z m)))))%Q.
  Proof.
    assert ((sum (fun n => sum (fun m => a n m * ((z n - z m) * (z n - z m)))) ==
             sum (fun n => sum (a n) * (z n * z n)) + (-2) * sum (fun n => z n * sum (fun m => a n m * z m)) +
             sum (fun m => sum (fun n => a n m) * (z m * z m)))%Q) as K.
    { rewrite (qsum_ext _ (fun n => (sum (a n) * (z n * z n) + (-2) * (z n * sum (fun m => a n m * z m))) + sum (fun m => a n m * (z m * z m)))%Q).
      - rewrite qsum_plus, qsum_plus, qsum_scale. apply Qplus_comp; [reflexivity|].
        rewrite qsum_swap. apply qsum_ext. intros m _. rewrite qsum_scale_r. reflexivity.
      - intros n _.
        rewrite (qsum_ext _ (fun m => (a n m * (z n * z n) + (-2 * z n) * (a n m * z m)) + a n m * (z m * z m))%Q) by (intros; ring).
        rewrite qsum_plus, qsum_plus, qsum_scale_r, qsum_scale. ring. }
    rewrite K.
    rewrite (qsum_ext (fun n => (sum (a n) + sum (fun m => a m n)) * (z n * z n))%Q (fun n => sum (a n) * (z n * z n) + sum (fun m => a m n) * (z n * z n))%Q) by (intros; ring).
    rewrite qsum_plus. ring.
  Qed.
  Lemma form_symmetric :
      (2 * sum (fun n => sum (fun m => a n m * ((z n - z m) * (z n - z m)))) ==
       sum (fun n => sum (fun m => (a n m + a m n) * ((z n - z m) * (z n - z m)))))%Q.
  Proof.
    rewrite (qsum_ext (fun n => sum (fun m => (a n m + a m n) * ((z n - z m) * (z n - z m))))
               (fun n => sum (fun m => a n m * ((z n - z m) * (z n - z m))) + sum (fun m => a m n * ((z n - z m) * (z n - z m))))%Q).
    - rewrite qsum_plus.
      assert ((sum (fun n => sum (fun m => a m n * ((z n - z m) * (z n - z m)))) == sum (fun n => sum (fun m => a n m * ((z n - z m) * (z n - z m)))))%Q) as ->.
      { rewrite qsum_swap. apply qsum_ext. intros n _. apply qsum_ext. intros m _. ring. }
      ring.
    - intros n _. rewrite <- qsum_plus. apply qsum_ext. intros; ring.
  Qed.
  (** If the table has no positive link and no negative sum, a vector it sends to
      zero vanishes where the sum is positive and is constant along links. *)
  Hypothesis H1 : forall n, In n L -> (0 <= sum (a n) + sum (fun m => a m n))%Q.
  Hypothesis H2 : forall n m, In n L -> In m L -> n <> m -> (a n m + a m n <= 0)%Q.
  Hypothesis H3 : forall n m : A, {n = m} + {n <> m}.
  Lemma form_kernel : (forall n, In n L -> sum (fun m => a n m * z m) == 0)%Q ->
      (forall n, In n L -> 0 < sum (a n) + sum (fun m => a m n) -> z n == 0)%Q /\
      (forall n m, In n L -> In m L -> n <> m -> a n m + a m n < 0 -> z n == z m)%Q.
  Proof.
    intros Z.
    pose proof form_identity as E1. pose proof form_symmetric as E2.
    assert ((sum (fun n => z n * sum (fun m => a n m * z m)) == 0)%Q) as Z0.
    { apply qsum_zero. intros n I. rewrite (Z n I). ring. }
    set (S1 := sum (fun n => (sum (a n) + sum (fun m => a m n)) * (z n * z n))%Q) in *.
    set (S2 := sum (fun n => sum (fun m => (a n m + a m n) * ((z n - z m) * (z n - z m))))%Q) in *.
    set (S3 := sum (fun n => sum (fun m => a n m * ((z n - z m) * (z n - z m))))%Q) in *.
    assert (forall n, In n L -> 0 <= (sum (a n) + sum (fun m => a m n)) * (z n * z n))%Q as P1.
    { intros n I. apply Qmult_le_0_compat; [apply H1; assumption|apply Qsquare_nonneg]. }
    assert (forall n m, In n L -> In m L -> 0 <= - ((a n m + a m n) * ((z n - z m) * (z n - z m))))%Q as P2.
    { intros n m I J. destruct (H3 n m) as [->|N]; [setoid_replace (z m - z m)%Q with 0%Q by ring; setoid_replace (- ((a m m + a m m) * (0 * 0)))%Q with 0%Q by ring; apply Qle_refl|].
      setoid_replace (- ((a n m + a m n) * ((z n - z m) * (z n - z m))))%Q with (- (a n m + a m n) * ((z n - z m) * (z n - z m)))%Q by ring.
      apply Qmult_le_0_compat; [specialize (H2 n m I J N); lra|apply Qsquare_nonneg]. }
    assert (0 <= S1)%Q as Q1 by (apply qsum_nonneg; exact P1).
    assert (0 <= - S2)%Q as Q2.
    { unfold S2. rewrite <- qsum_opp. apply qsum_nonneg. intros n I. rewrite <- qsum_opp. apply qsum_nonneg. intros m J. apply P2; assumption. }
    assert (S1 == 0 /\ - S2 == 0)%Q as (K1 & K2) by (split; lra).
    split.
    - intros n I B. pose proof (sum_zero_all _ L P1 K1 n I) as K. cbv beta in K.
      destruct (Qmult_integral _ _ K) as [K'|K']; [lra|apply Qsquare_zero; exact K'].
    - intros n m I J N B. unfold S2 in K2. rewrite <- qsum_opp in K2.
      assert (forall x, In x L -> 0 <= - sum (fun m => (a x m + a m x) * ((z x - z m) * (z x - z m))))%Q as P3.
      { intros x X. rewrite <- qsum_opp. apply qsum_nonneg. intros y Y. apply P2; assumption. }
      pose proof (sum_zero_all _ L P3 K2 n I) as K. cbv beta in K. rewrite <- qsum_opp in K.
      pose proof (sum_zero_all _ L (fun y Y => P2 n y I Y) K m J) as K'. cbv beta in K'.
      assert (((z n - z m) * (z n - z m) == 0)%Q) as K3.
      { destruct (Qmult_integral (a n m + a m n) ((z n - z m) * (z n - z m))) as [K3|K3]; [lra|lra|exact K3]. }
      apply Qsquare_zero in K3. lra.
  Qed.
End Form.

Lemma node_dec : forall n m : node, {n = m} + {n <> m}.
Proof. decide equality; apply Z.eq_dec. Qed.

Section Unique.
  Variables (g : tgrid) (d : dims) (an : analysis).
  Hypothesis G : good_tgrid d g.
  Hypothesis P : physical g d.
  Notation NL := (d_nlayers d).
  Notation NR := (d_nrows d).
  Notation NC := (d_ncols d).
  Notation ty := (type_of g).
  Notation ix := (idx g d).
  Notation lks n := (links_of g d an n).
  Notation lk n := (all_links (links_of g d an n)).
  Notation M := (stored (map (col g d an) (nodes g d)) [] []).
  Notation N := (unknowns g d).
  Notation a n m := (coefficient M (ix n) (ix m)).

  (** Two coefficients of a pair of cells. *)
  Lemma pair_sum : forall n m, valid g d n -> valid g d m -> n <> m ->
      (a n m + a m n <= 0)%Q /\ forall y, In (m, Cond y) (lk n) -> (a n m + a m n == - (2 * y))%Q.
  Proof.
    intros n m V W D.
    destruct (in_dec node_dec m (map fst (lk n))) as [I|I].
    - apply in_map_iff in I. destruct I as ([m' f] & E & I). cbn [fst] in E. subst m'.
      pose proof (coeff_back g d an G [] [] P n m f V I) as C1. pose proof (coeff_link g d an G [] [] m n f V I) as C2.
      pose proof (links_NoDup g d an G n V) as ND.
      assert (forall y, In (m, Cond y) (lk n) -> Cond y = f) as U.
      { intros y Y. inversion ND as [|? ? _ ND']; subst. clear -ND' I Y.
        induction (lk n) as [|[k h] l IH]; [destruct I|]. cbn [map fst] in ND'. inversion ND' as [|? ? NI ND2]; subst.
        destruct I as [I|I]; destruct Y as [Y|Y].
        - congruence.
        - injection I as -> ->. exfalso. apply NI. apply (in_map fst) in Y. exact Y.
        - injection Y as -> ->. exfalso. apply NI. apply (in_map fst) in I. exact I.
        - apply IH; assumption. }
      destruct f as [y|v].
      + pose proof (links_nonneg g d an G P n m y V I) as Ny. split.
        * rewrite C1, C2. cbn. lra.
        * intros y' Y. injection (U y' Y) as ->. rewrite C1, C2. cbn. ring.
      + split; [rewrite C1, C2; cbn; lra|]. intros y Y. discriminate (U y Y).
    - split.
      + rewrite (coeff_none g d an G [] [] m n W V) by congruence.
        assert (~ In n (map fst (lk m))) as J.
        { intros J. apply in_map_iff in J. destruct J as ([n' f] & E & J). cbn [fst] in E. subst n'.
          destruct (reciprocal g d an G P m n f W J) as (_ & f' & J' & _). apply I. apply (in_map fst) in J'. exact J'. }
        rewrite (coeff_none g d an G [] [] n m V W) by congruence. lra.
      + intros y Y. exfalso. apply I. apply (in_map fst) in Y. exact Y.
  Qed.

  (** Row plus column. *)
  Lemma row_column : forall n, valid g d n ->
      (qsum (map (fun m => a n m) (nodes g d)) + qsum (map (fun m => a m n) (nodes g d)) == 2 * (k_base (lks n) + k_extra (lks n)))%Q.
  Proof.
    intros n V.
    assert ((qsum (map (fun m => a m n) (nodes g d)) == k_base (lks n) + k_extra (lks n) + qsum (map (fun p => fconv (snd p)) (lk n)))%Q) as ->.
    { rewrite <- (column_formula g d an G [] [] n V). rewrite (sum_nodes g d G (fun i => coefficient M i (ix n))). reflexivity. }
    assert ((qsum (map (fun m => a n m) (nodes g d)) == k_base (lks n) + k_extra (lks n) - qsum (map (fun p => fconv (snd p)) (lk n)))%Q) as ->; [|ring].
    set (one := map (fun _ : node => 1%Q) (nodes g d)).
    assert (forall m, valid g d m -> qat one (ix m) = 1%Q) as O by (intros m W; unfold one; apply (qat_nodes g d G (fun _ => 1%Q)); assumption).
    transitivity (row_times M N one (ix n)).
    - unfold row_times. rewrite (sum_nodes g d G (fun j => coefficient M (ix n) j * qat one j)%Q). apply qsum_ext. intros m I. apply in_nodes in I.
      rewrite (O m I). ring.
    - rewrite (row_formula g d an G [] [] P one n V). unfold heat_out. rewrite (O n V).
      assert ((qsum (map (fun p => match snd p with Cond y => y * (1 - qat one (ix (fst p))) | Conv v => - v * qat one (ix (fst p)) end) (lk n)) ==
               - qsum (map (fun p => fconv (snd p)) (lk n)))%Q) as ->; [|ring].
      rewrite <- qsum_opp. apply qsum_ext. intros [m f] I. cbn [fst snd].
      destruct (reciprocal g d an G P n m f V I) as (W & _). rewrite (O m W). destruct f; cbn; ring.
  Qed.

  Lemma nsink_nonneg : forall n, valid g d n -> (0 <= nsink g d n)%Q.
  Proof.
    intros [l r c|r c] V; [|apply Qle_refl]. unfold nsink, sink_of. cbn [valid] in V.
    destruct (to_ambient (ty l)) eqn:A.
    - apply Qlt_le_weak. apply (cT_pos g d G P l r c V); auto; intros E; rewrite E in A; discriminate.
    - destruct (to_pcb (ty l)) eqn:B; [|apply Qle_refl].
      apply Qlt_le_weak. apply (cB_pos g d G P l r c V); auto; intros E; rewrite E in B; discriminate.
  Qed.
  Lemma ncap_nonneg : forall n, valid g d n -> (0 <= ncap g d n)%Q.
  Proof.
    intros [l r c|r c] V; unfold ncap.
    - cbn [valid] in V. destruct (wall_dec (ty l)) as [E|(E1 & E2)].
      + unfold cell_cap, get_capacity. rewrite (at_layer_in g d G) by (unfold in_grid in V; lia).
        destruct E as [E|E]; rewrite E; apply Qle_refl.
      + unfold in_grid in V. apply Qlt_le_weak. apply (capacity_pos g d G P l r c); auto; lia.
    - destruct V as (S1 & V). destruct (spr_good g d G S1) as (_ & E). destruct (ph_spreader g d P _ _ _ E) as ((A & B & C) & (D1 & D2)).
      unfold spreader_capacity. repeat (apply Qmult_le_0_compat); try lra.
  Qed.
  Hypothesis TR : an_type an = AT_TRANSIENT.
  Hypothesis ST : (0 < an_step an)%Q.
  Hypothesis FL : physical_flow g.

  Lemma ncon_nonneg : forall n, valid g d n -> wet g n = true -> (0 <= ncon g d n)%Q.
  Proof.
    intros [l r c|r c] V W; [|discriminate W]. cbn [ncon]. cbn [valid] in V. pose proof V as V'. unfold in_grid in V'.
    destruct (wet_channel g d G (Cell l r c) V W) as (ch & T).
    destruct (wet_convection g d G ch l r c ltac:(lia) T) as (_ & E). rewrite <- (E W).
    pose proof (FL ch T) as F.
    pose proof (ph_channel g d P ch T) as (PV & PC).
    assert ((0 < ch_nchannels ch)%Z -> 0 < qz (ch_nchannels ch))%Q as F5 by (intros; unfold qz; unfold Qlt; cbn; lia).
    pose proof (cell_length_pos g d G c ltac:(lia)) as CL.
    pose proof (height_pos g d G P l ltac:(lia)) as HP.
    unfold convection, get_convective_term.
    destruct (ch_model ch).
    - apply Qle_refl.
    - destruct F as (F1 & F2). specialize (F5 F2). unfold Qdiv. repeat apply Qmult_le_0_compat; try lra. apply Qinv_le_0_compat. apply Qmult_le_0_compat; lra.
    - destruct F as (F1 & F2 & F3). specialize (F5 F2). destruct PC as (_ & _ & P1 & _). unfold Qdiv. repeat apply Qmult_le_0_compat; try lra. apply Qinv_le_0_compat. repeat apply Qmult_le_0_compat; lra.
    - rewrite (get_height g d G) by lia. cbn [bind]. unfold height in HP. unfold Qdiv. repeat apply Qmult_le_0_compat; try lra; try (vm_compute; discriminate).
    - rewrite (get_height g d G) by lia. cbn [bind]. unfold height in HP. unfold Qdiv. repeat apply Qmult_le_0_compat; try lra; try (vm_compute; discriminate).
  Qed.
  Lemma extra_nonneg : forall n, valid g d n -> (0 <= k_extra (lks n))%Q.
  Proof.
    intros n V. destruct (wet g n) eqn:W; [|rewrite (dry_extra g d an n W); apply Qle_refl].
    destruct n as [l r c|r c]; [|discriminate W]. rewrite (wet_extra g d an l r c W). unfold inout.
    destruct ((r =? 0) || (r =? NR - 1)); [|apply Qle_refl]. exact (ncon_nonneg (Cell l r c) V W).
  Qed.
  Lemma base_nonneg : forall n, valid g d n -> (0 <= k_base (lks n))%Q /\ (0 < ncap g d n -> 0 < k_base (lks n))%Q.
  Proof.
    intros n V. rewrite (base_eq g d an n V). unfold capn. rewrite TR.
    pose proof (nsink_nonneg n V). pose proof (ncap_nonneg n V).
    assert (0 < / an_step an)%Q by (apply Qinv_lt_0_compat; assumption).
    unfold Qdiv. split; [|intros C].
    - assert (0 <= ncap g d n * / an_step an)%Q by (apply Qmult_le_0_compat; lra). lra.
    - assert (0 < ncap g d n * / an_step an)%Q by (apply Qmult_lt_0_compat; lra). lra.
  Qed.

  (** Cells without capacity touch a cell that has one. *)
  Lemma cap_or_touch : forall n, valid g d n ->
      (0 < ncap g d n)%Q \/ exists m y, In (m, Cond y) (lk n) /\ (0 < y)%Q /\ (0 < ncap g d m)%Q.
  Proof.
    intros [l r c|r c] V.
    - cbn [valid] in V. pose proof V as V'. unfold in_grid in V'. destruct (wall_dec (ty l)) as [E|(E1 & E2)].
      + right.
        assert (forall m ll, m = Cell ll r c -> 0 <= ll < NL -> ty ll <> LT_TOP_WALL -> ty ll <> LT_BOTTOM_WALL -> (0 < ncap g d m)%Q) as CP.
        { intros m ll -> Hl A B. unfold ncap, cell_cap. apply (capacity_pos g d G P ll r c); auto; lia. }
        destruct E as [E|E].
        * destruct (place_top g d G l ltac:(lia) E) as (ch & F). pose proof F as (F1 & F2 & F3 & F4 & F5 & F6 & F7 & F8 & F9 & _).
          exists (Cell (l - 1) r c), (cT g d (l - 1) r c). rewrite (links_top g d an l r c E).
          replace (l - 3 + 2) with (l - 1) in * by lia.
          assert (ty (l - 1) <> LT_TOP_WALL /\ ty (l - 1) <> LT_BOTTOM_WALL) as (A & B) by (rewrite F8; unfold cool_of; destruct (ch_model ch); split; discriminate).
          split; [unfold all_links, top_links; cbn; auto|]. split; [apply (cT_pos g d G P); auto; [unfold in_grid; lia|left; lia]|].
          apply (CP _ (l - 1)); auto; lia.
        * destruct (place_bottom g d G l ltac:(lia) E) as (ch & F). pose proof F as (F1 & F2 & F3 & F4 & F5 & F6 & F7 & F8 & F9 & _).
          exists (Cell (l + 1) r c), (cT g d (l + 1) r c). rewrite (links_bottom g d an l r c E).
          assert (ty (l + 1) <> LT_TOP_WALL /\ ty (l + 1) <> LT_BOTTOM_WALL) as (A & B) by (rewrite F7; unfold wall_of; destruct (ch_model ch); split; discriminate).
          split; [unfold all_links, bottom_links; cbn; auto|]. split; [apply (cT_pos g d G P); auto; [unfold in_grid; lia|left; lia]|].
          apply (CP _ (l + 1)); auto; lia.
      + left. unfold ncap, cell_cap. apply (capacity_pos g d G P l r c); auto; lia.
    - left. destruct V as (S1 & V). destruct (spr_good g d G S1) as (_ & E). destruct (ph_spreader g d P _ _ _ E) as ((A & B & C) & (D1 & D2)).
      unfold ncap, spreader_capacity. repeat (apply Qmult_lt_0_compat); try lra.
  Qed.

  Lemma kernel_zero : forall x, (forall n, valid g d n -> heat_out g d an x n == 0)%Q -> forall n, valid g d n -> (qat x (ix n) == 0)%Q.
  Proof.
    intros x H.
    destruct (form_kernel (nodes g d) (fun n m => a n m) (fun n => qat x (ix n))) as (K1 & K2).
    - intros n I. apply in_nodes in I. rewrite (row_column n I). pose proof (base_nonneg n I) as (B & _). pose proof (extra_nonneg n I). lra.
    - intros n m I J D. apply in_nodes in I. apply in_nodes in J. apply pair_sum; assumption.
    - apply node_dec.
    - intros n I. apply in_nodes in I. rewrite <- (H n I), <- (row_formula g d an G [] [] P x n I). unfold row_times.
      rewrite (sum_nodes g d G (fun j => coefficient M (ix n) j * qat x j)%Q). reflexivity.
    - assert (forall n, valid g d n -> (0 < ncap g d n)%Q -> (qat x (ix n) == 0)%Q) as K3.
      { intros n V C. apply K1; [apply in_nodes; assumption|]. rewrite (row_column n V). pose proof (base_nonneg n V) as (_ & B). specialize (B C). pose proof (extra_nonneg n V). lra. }
      intros n V. destruct (cap_or_touch n V) as [C|(m & y & I & Y & C)]; [apply K3; assumption|].
      assert (valid g d m) as W by (destruct (reciprocal g d an G P n m _ V I); assumption).
      rewrite <- (K3 m W C).
      assert (n <> m) as D.
      { pose proof (links_NoDup g d an G n V) as ND. inversion ND as [|? ? NI _]; subst. intros ->. apply NI. apply (in_map fst) in I. exact I. }
      apply K2; try (apply in_nodes; assumption); auto. destruct (pair_sum n m V W D) as (_ & E). rewrite (E y I). lra.
  Qed.

  (** Rows are linear. *)
  Lemma heat_out_minus : forall x y z n, (forall m, valid g d m -> qat z (ix m) == qat x (ix m) - qat y (ix m))%Q -> valid g d n ->
      (heat_out g d an z n == heat_out g d an x n - heat_out g d an y n)%Q.
  Proof.
    intros x y z n H V. unfold heat_out. rewrite (H n V).
    rewrite (qsum_ext _ (fun p => match snd p with Cond w => w * (qat x (ix n) - qat x (ix (fst p))) | Conv v => - v * qat x (ix (fst p)) end +
                                  - match snd p with Cond w => w * (qat y (ix n) - qat y (ix (fst p))) | Conv v => - v * qat y (ix (fst p)) end)%Q).
    - rewrite qsum_plus, qsum_opp. ring.
    - intros [m f] I. destruct (reciprocal g d an G P n m f V I) as (W & _). cbn [fst snd]. pose proof (H m W) as Hm. pose proof (H n V) as Hn.
      destruct f; rewrite Hm, ?Hn; ring.
  Qed.
  Lemma unique_temps : forall x y, (forall n, valid g d n -> heat_out g d an x n == heat_out g d an y n)%Q ->
      forall n, valid g d n -> (qat x (ix n) == qat y (ix n))%Q.
  Proof.
    intros x y H n V.
    set (z := map (fun n => qat x (ix n) - qat y (ix n))%Q (nodes g d)).
    assert (forall m, valid g d m -> qat z (ix m) == qat x (ix m) - qat y (ix m))%Q as Z.
    { intros m W. unfold z. rewrite (qat_nodes g d G (fun n => qat x (ix n) - qat y (ix n))%Q m W). reflexivity. }
    assert ((qat z (ix n) == 0)%Q) as K.
    { apply kernel_zero; [|assumption]. intros m W. rewrite (heat_out_minus x y z m Z W), (H m W). ring. }
    rewrite (Z n V) in K. lra.
  Qed.
End Unique.
