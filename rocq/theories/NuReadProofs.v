(** * Reading temperatures on the non-uniform grid *)
From Coq Require Import ZArith List Bool QArith Lia Lqa Sorted ZifyBool.
From Verif Require Import Base Dims Floorplan FloorplanProofs TempProofs Stack QSum PowerGrid Inspect NonUniform NuSpec NuGeomProofs NuCountProofs NuPositionProofs NuGridProofs NuTileProofs NuFlatProofs NuInspect NuReadSpec.
Import ListNotations.
Local Open Scope Z_scope.

(** ** Search by coordinates *)
Lemma in_cell_spec : forall c x y, in_cell c x y = true <-> inside (c_rect c) x y.
Proof.
  intros c x y. unfold in_cell, inside, c_length, c_width. rewrite !andb_true_iff, !Qle_bool_iff, !Qlt_bool_iff.
  split; intros ((A & B) & (C & D)); (split; [split; lra|split; lra]).
Qed.

Lemma find_some : forall cs l x y i, 0 <= i -> i + Z.of_nat (length cs) < two32 ->
    (exists k, holds_point cs l x y k) -> exists k, holds_point cs l x y k /\ nu_find cs l x y i = i + Z.of_nat k.
Proof.
  intros cs l x y. induction cs as [|c cs IH]; intros i I N (k & H). { destruct H as (c & E & _). destruct k; discriminate E. }
  cbn [length] in N. cbn [nu_find]. destruct (_ && _) eqn:B.
  - exists 0%nat. split; [|lia]. exists c. split; [reflexivity|]. apply andb_prop in B. destruct B as (B1 & B2). split; [lia|]. apply in_cell_spec, B2.
  - destruct k as [|k]. { destruct H as (c' & E & L & P). cbn in E. injection E as <-. apply in_cell_spec in P. rewrite P in B. lia. }
    rewrite u32_id by lia. destruct (IH (i + 1) ltac:(lia) ltac:(lia)) as (k' & K & E); [exists k; destruct H as (c' & E & R); exists c'; split; [exact E|exact R]|].
    exists (S k'). split; [|lia]. destruct K as (c' & E' & R). exists c'. split; [exact E'|exact R].
Qed.
Lemma find_none : forall cs l x y i, (forall k, ~ holds_point cs l x y k) -> nu_find cs l x y i = 0.
Proof.
  intros cs l x y. induction cs as [|c cs IH]; intros i H; [reflexivity|]. cbn [nu_find]. destruct (_ && _) eqn:B.
  - exfalso. apply (H 0%nat). apply andb_prop in B. destruct B as (B1 & B2). exists c. split; [reflexivity|]. split; [lia|apply in_cell_spec, B2].
  - apply IH. intros k (c' & E & R). apply (H (S k)). exists c'. split; [exact E|exact R].
Qed.

(** ** Maps *)
Lemma map_spec : forall v l cs i, 0 <= i -> i + Z.of_nat (length cs) <= Z.of_nat (length v) -> Z.of_nat (length v) < two32 ->
    exists ns, StronglySorted lt ns /\ (forall k, In k ns <-> (Z.to_nat i <= k)%nat /\ of_layer cs l (k - Z.to_nat i)) /\
      nu_layer_map cs l i v = Ok (map (value v) ns) /\ forall n, 0 <= n -> n + Z.of_nat (length cs) < two32 -> nu_layer_count cs l n = n + Z.of_nat (length ns).
Proof.
  intros v l cs. induction cs as [|c cs IH]; intros i I L V.
  - exists []. split; [constructor|]. split; [|split; [reflexivity|intros; cbn; lia]]. intros k. split; [intros []|]. intros (_ & c & E & _). destruct (k - Z.to_nat i)%nat; discriminate E.
  - cbn [length] in L. destruct (IH (i + 1) ltac:(lia) ltac:(lia) V) as (ns & SO & IN & M & CN). cbn [nu_layer_map nu_layer_count]. rewrite u32_id by lia. rewrite M.
    assert (STEP : forall k, In k ns <-> (Z.to_nat i < k)%nat /\ of_layer (c :: cs) l (k - Z.to_nat i)).
    { intros k. rewrite IN. split; intros (A & B).
      - split; [lia|]. destruct B as (c' & E & R). exists c'. split; [|exact R]. replace (k - Z.to_nat i)%nat with (S (k - Z.to_nat (i + 1))) by lia. exact E.
      - split; [lia|]. destruct B as (c' & E & R). exists c'. split; [|exact R]. replace (k - Z.to_nat i)%nat with (S (k - Z.to_nat (i + 1))) in E by lia. exact E. }
    destruct (c_layer c =? l) eqn:B.
    + exists (Z.to_nat i :: ns). split. { constructor; [exact SO|]. apply Forall_forall. intros k K. apply STEP in K. lia. } split; [|split].
      * intros k. cbn [In]. rewrite STEP. split.
        -- intros [<-|(A & D)]; [split; [lia|]|split; [lia|exact D]]. rewrite Nat.sub_diag. exists c. split; [reflexivity|lia].
        -- intros (A & D). destruct (Nat.eq_dec (Z.to_nat i) k) as [->|NE]; [left; reflexivity|right; split; [lia|exact D]].
      * rewrite (arr_get_ok v i 0%Q) by lia. reflexivity.
      * intros n N N2. cbn [length] in N2. rewrite u32_id by lia. rewrite CN by lia. cbn [length]. lia.
    + exists ns. split; [exact SO|]. split; [|split; [reflexivity|intros n N N2; cbn [length] in N2; rewrite CN by lia; reflexivity]]. intros k. rewrite STEP. split; intros (A & D); [split; [lia|exact D]|].
      destruct (Nat.eq_dec (Z.to_nat i) k) as [E|NE]; [|split; [lia|exact D]]. exfalso. subst k. rewrite Nat.sub_diag in D. destruct D as (c' & E & R). cbn in E. injection E as <-. lia.
Qed.

(** ** Cells of a layer *)
Lemma number_find : forall hs g j i c, nth_error (number hs j g) i = Some c ->
    exists l k gc, (l < length g)%nat /\ nth_error (snd (nth l g (0, []))) k = Some gc /\ Z.of_nat i = first_cell g l + Z.of_nat k /\ c = cell_of hs (j + l) gc.
Proof.
  intros hs g. induction g as [|L g IH]; intros j i c H; [destruct i; discriminate H|]. cbn [number] in H. destruct (Nat.lt_ge_cases i (length (snd L))) as [A|A].
  - rewrite nth_error_app1, nth_error_map in H by (rewrite ?map_length; exact A). destruct (nth_error (snd L) i) as [gc|] eqn:E; [|discriminate H]. cbn in H.
    exists 0%nat, i, gc. split; [cbn; lia|]. split; [exact E|]. split; [cbn; lia|]. rewrite Nat.add_0_r. congruence.
  - rewrite nth_error_app2, map_length in H by (rewrite map_length; exact A). destruct (IH (S j) _ c H) as (l & k & gc & L1 & E & P & ->).
    exists (S l), k, gc. split; [cbn; lia|]. split; [exact E|]. split; [rewrite first_cons; lia|]. f_equal. lia.
Qed.
Lemma number_at : forall hs g j l k gc, (l < length g)%nat -> nth_error (snd (nth l g (0, []))) k = Some gc ->
    nth_error (number hs j g) (Z.to_nat (first_cell g l + Z.of_nat k)) = Some (cell_of hs (j + l) gc).
Proof.
  intros hs g. induction g as [|L g IH]; intros j l k gc LT E; [cbn in LT; lia|]. cbn [number]. assert (KL : (k < length (snd (nth l (L :: g) (0%Z, []))))%nat) by (apply nth_error_Some; congruence). destruct l as [|l].
  - cbn [nth] in *. change (first_cell (L :: g) 0) with 0. replace (Z.to_nat (0 + Z.of_nat k)) with k by lia. rewrite nth_error_app1, nth_error_map, E by (rewrite map_length; exact KL). rewrite Nat.add_0_r. reflexivity.
  - cbn [nth] in *. rewrite first_cons. assert (0 <= first_cell g l) by (unfold first_cell; lia).
    rewrite nth_error_app2 by (rewrite map_length; lia). rewrite map_length. replace (Z.to_nat (Z.of_nat (length (snd L)) + first_cell g l + Z.of_nat k) - length (snd L))%nat with (Z.to_nat (first_cell g l + Z.of_nat k)) by lia.
    rewrite (IH (S j) l k gc ltac:(cbn in LT; lia) E). f_equal. f_equal. lia.
Qed.

Lemma start_spec : forall remote hs g l, (l < length g)%nat -> snd (nth l g (0, [])) <> [] -> Z.of_nat (length (grid_cells g)) < two32 ->
    nu_layer_start remote (number hs 0 g) (Z.of_nat l) 0 = first_cell g l.
Proof.
  intros remote hs g l L NE.
  assert (K : forall g j l i, (l < length g)%nat -> snd (nth l g (0, [])) <> [] -> 0 <= i -> i + Z.of_nat (length (grid_cells g)) < two32 ->
      nu_layer_start remote (number hs j g) (Z.of_nat (j + l)) i = i + first_cell g l).
  { clear. induction g as [|L g IH]; intros j l i LT NE I N; [cbn in LT; lia|]. cbn [number]. change (grid_cells (L :: g)) with (snd L ++ grid_cells g) in N. rewrite app_length in N.
    destruct l as [|l].
    - cbn [nth] in NE. destruct (snd L) as [|c t]; [congruence|]. cbn [map app nu_layer_start cell_of c_layer]. rewrite Nat.add_0_r, Z.eqb_refl. change (first_cell (L :: g) 0) with 0. lia.
    - rewrite first_cons. cbn [nth] in NE.
      assert (W : forall cs i, 0 <= i -> i + Z.of_nat (length cs) + Z.of_nat (length (grid_cells g)) < two32 -> nu_layer_start remote (map (cell_of hs j) cs ++ number hs (S j) g) (Z.of_nat (j + S l)) i = i + Z.of_nat (length cs) + first_cell g l).
      { induction cs as [|c cs IC]; intros i' I' N'.
        - cbn [map app length]. replace (j + S l)%nat with (S j + l)%nat by lia. rewrite IH by (cbn in LT; lia || assumption || (cbn [length] in N'; lia)). lia.
        - cbn [map app nu_layer_start cell_of c_layer length] in *. replace (Z.of_nat j =? Z.of_nat (j + S l)) with false by lia. rewrite u32_id by lia. rewrite IC by lia. lia. }
      rewrite W by lia. lia. }
  intros N. pose proof (K g 0%nat l 0 L NE ltac:(lia) ltac:(lia)) as R. cbn [Nat.add] in R. rewrite R. lia.
Qed.

(** ** Elements of a list of lists *)
Lemma flat_find : forall {A B} (f : A -> list B) els k b, nth_error (flat_map f els) k = Some b ->
    exists j e k', nth_error els j = Some e /\ nth_error (f e) k' = Some b /\ k = (length (flat_map f (firstn j els)) + k')%nat.
Proof.
  intros A B f els. induction els as [|e els IH]; intros k b H; [destruct k; discriminate H|]. cbn [flat_map] in H. destruct (Nat.lt_ge_cases k (length (f e))) as [L|L].
  - rewrite nth_error_app1 in H by exact L. exists 0%nat, e, k. split; [reflexivity|]. split; [exact H|reflexivity].
  - rewrite nth_error_app2 in H by exact L. destruct (IH _ b H) as (j & e' & k' & E1 & E2 & E3). exists (S j), e', k'. split; [exact E1|]. split; [exact E2|]. cbn [firstn flat_map]. rewrite app_length. lia.
Qed.
Lemma flat_at : forall {A B} (f : A -> list B) els j e k b, nth_error els j = Some e -> nth_error (f e) k = Some b ->
    nth_error (flat_map f els) (length (flat_map f (firstn j els)) + k) = Some b.
Proof.
  intros A B f els. induction els as [|a els IH]; intros j e k b E N; [destruct j; discriminate E|]. assert (LK : forall e, nth_error (f e) k = Some b -> (k < length (f e))%nat) by (intros; apply nth_error_Some; congruence). destruct j as [|j].
  - cbn in E. injection E as <-. cbn [firstn flat_map length Nat.add]. rewrite nth_error_app1 by (apply LK, N). exact N.
  - cbn [nth_error] in E. cbn [firstn flat_map]. rewrite app_length, nth_error_app2 by lia. replace (length (f a) + length (flat_map f (firstn j els)) + k - length (f a))%nat with (length (flat_map f (firstn j els)) + k)%nat by lia. apply (IH j e k b E N).
Qed.

(** ** A range of cells *)
Lemma nodup_nat : forall l, NoDup l -> (forall z, In z l -> 0 <= z) -> NoDup (map Z.to_nat l).
Proof.
  intros l N. induction N as [|z l I N IH]; intros P; [constructor|]. cbn [map]. constructor; [|apply IH; intros; apply P; right; assumption].
  intros K. apply in_map_iff in K. destruct K as (y & E & K). pose proof (P y (or_intror K)). pose proof (P z (or_introl eq_refl)). assert (y = z) by lia. subst. contradiction.
Qed.
Section Range.
  Context (t : list Q) (i : nu_icel) (S : nat -> Prop).
  Hypothesis A0 : 0 <= ni_start i.
  Hypothesis AB : ni_start i <= ni_end i.
  Hypothesis BL : ni_end i < Z.of_nat (length t).
  Hypothesis RG : forall k, S k <-> ni_start i <= Z.of_nat k <= ni_end i.

  Let vs := map (fun k => nth (Z.to_nat k) t 0%Q) (zrange (ni_start i) (ni_end i)).
  Lemma range_reads : read_all t (zrange (ni_start i) (ni_end i)) = Ok vs.
  Proof. apply read_all_ok. apply Forall_forall. intros k K. apply in_zrange in K. lia. Qed.
  Lemma range_in : forall v, In v vs <-> exists k, S k /\ v = value t k.
  Proof.
    intros v. unfold vs. rewrite in_map_iff. split.
    - intros (k & <- & K). apply in_zrange in K. exists (Z.to_nat k). split; [apply RG; lia|reflexivity].
    - intros (k & K & ->). exists (Z.of_nat k). apply RG in K. split; [rewrite Nat2Z.id; reflexivity|apply in_zrange; lia].
  Qed.
  Lemma range_first : In (nth (Z.to_nat (ni_start i)) t 0%Q) vs.
  Proof. apply range_in. exists (Z.to_nat (ni_start i)). split; [apply RG; lia|reflexivity]. Qed.

  Lemma range_max : exists m, nu_icel_max i t = Ok m /\ hottest_of S t m.
  Proof.
    unfold nu_icel_max. rewrite (arr_get_ok t (ni_start i) 0%Q) by lia. cbn [bind]. rewrite range_reads. cbn [bind].
    destruct (fold_max qmax qmax_ge vs (nth (Z.to_nat (ni_start i)) t 0%Q)) as (_ & M2 & M3). eexists. split; [reflexivity|]. split.
    - apply range_in. destruct M3 as [M3|M3]; [rewrite M3; apply range_first|exact M3].
    - intros k K. apply M2. apply range_in. exists k. split; [exact K|reflexivity].
  Qed.
  Lemma range_min : exists m, nu_icel_min i t = Ok m /\ coldest_of S t m.
  Proof.
    unfold nu_icel_min. rewrite (arr_get_ok t (ni_start i) 0%Q) by lia. cbn [bind]. rewrite range_reads. cbn [bind].
    destruct (fold_min qmin qmin_le vs (nth (Z.to_nat (ni_start i)) t 0%Q)) as (_ & M2 & M3). eexists. split; [reflexivity|]. split.
    - apply range_in. destruct M3 as [M3|M3]; [rewrite M3; apply range_first|exact M3].
    - intros k K. apply M2. apply range_in. exists k. split; [exact K|reflexivity].
  Qed.
  Lemma range_avg : forall cs R a, (forall k, S k -> (cell_area cs k == a)%Q) -> (a * qz (ni_end i - ni_start i + 1) == area R)%Q ->
      exists m, nu_icel_avg i t = Ok m /\ mean_of S cs R t m.
  Proof.
    intros cs R a HA HR. unfold nu_icel_avg. rewrite range_reads. cbn [bind]. eexists. split; [reflexivity|].
    set (ns := map Z.to_nat (zrange (ni_start i) (ni_end i))).
    assert (LN : Z.of_nat (length ns) = ni_end i - ni_start i + 1) by (unfold ns; rewrite map_length, zrange_length; lia).
    assert (LV : length vs = length ns) by (unfold vs, ns; rewrite !map_length; reflexivity).
    assert (VN : vs = map (value t) ns) by (unfold vs, ns; rewrite map_map; reflexivity).
    assert (IN : forall k, In k ns <-> S k). { intros k. unfold ns. rewrite in_map_iff, RG. split; [intros (z & <- & Z1); apply in_zrange in Z1; lia|]. intros K. exists (Z.of_nat k). split; [apply Nat2Z.id|apply in_zrange; lia]. }
    assert (NZ : ~ (qz (Z.of_nat (length ns)) == 0)%Q). { pose proof (qz_pos (Z.of_nat (length ns)) ltac:(lia)). lra. }
    exists ns. split; [|split; [|split; [exact IN|]]].
    - apply nodup_nat; [apply zrange_NoDup|]. intros z K. apply in_zrange in K. lia.
    - intros E. rewrite E in LN. cbn in LN. lia.
    - rewrite fold_plus, LV, VN. split; [field; exact NZ|].
      rewrite (qsum_ext (fun k => value t k * cell_area cs k)%Q (fun k => value t k * a)%Q) by (intros k K; rewrite (HA k) by (apply IN, K); reflexivity).
      rewrite qsum_scale_r, <- HR, <- LN. field. exact NZ.
  Qed.
End Range.
