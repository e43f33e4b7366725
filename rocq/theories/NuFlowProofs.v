(** * Proofs about changes of the flow rate on the non-uniform grid *)
From Coq Require Import ZArith List Bool QArith Lia ZifyBool Lqa Permutation Sorted.
From Verif Require Import Base QSum Dims DimsSpec DimsProofs Queue QueueProofs Floorplan FloorplanProofs Stack StackSpec StackProofs PowerGrid Emulate EmulateSpec SourceProofs Conduct Matrix MatrixSpec BalanceSpec Flow FlowProofs NonUniform NuSpec NuCountProofs NuMatrix NuMatrixSpec NuMatrixProofs NuTableProofs NuCoeffProofs NuSource NuSourceSpec NuSourceProofs NuEmulate PropNuMatrix NuRunSpec NuFlatProofs NuRunProofs NuFlow.
Import ListNotations.
Local Open Scope Z_scope.

(** ** Filling the vectors a second time *)
Lemma list_eq_zat : forall (a b : list Z), length a = length b -> (forall j, 0 <= j < Z.of_nat (length a) -> zat a j = zat b j) -> a = b.
Proof.
  intros a b L H. apply (nth_ext a b 0 0 L). intros i I. specialize (H (Z.of_nat i) ltac:(lia)). unfold zat in H. rewrite Nat2Z.id in H. exact H.
Qed.
Lemma vectors_again : forall es n m, 0 < n -> StronglySorted before es -> (forall e, In e es -> 0 <= e_col e < n) -> (forall j, 0 <= j < n -> exists e, In e es /\ e_col e = j) ->
    Z.of_nat (length (sm_ptr m)) = n + 1 -> length (sm_rows m) = length es -> length (sm_vals m) = length es ->
    nu_vectors m es = nu_vectors (system_matrix_build n (Z.of_nat (length es))) es.
Proof.
  intros es n m N S R C LP LR LV. destruct (vectors_ok es n N S R C) as (ptr & E & L & P). rewrite E. unfold nu_vectors.
  rewrite arr_set_ok by lia. cbn [bind]. rewrite (arr_get_ok _ _ 0) by (rewrite list_set_length; lia). cbn [bind]. rewrite arr_set_ok by (rewrite list_set_length; lia). cbn [bind].
  destruct es as [|e t]; [destruct (C 0) as (e & [] & _); lia|].
  assert (E0 : e_col e = 0).
  { destruct (C 0) as (e1 & [<-|I1] & E1); [lia|exact E1|]. inversion S as [|? ? St Ft]; subst. rewrite Forall_forall in Ft. specialize (Ft _ I1). pose proof (R e (or_introl eq_refl)). unfold before in Ft. lia. }
  set (p0 := list_set (sm_ptr m) (Z.to_nat 0) 0). set (p1 := list_set p0 (Z.to_nat 1) (nth (Z.to_nat 0) p0 0)).
  assert (L0 : length p0 = length (sm_ptr m)) by (unfold p0; apply list_set_length). assert (Z0 : nth (Z.to_nat 0) p0 0 = 0) by (unfold p0; apply list_set_nth_same; lia).
  destruct (fill_ok (e :: t) [] p1 [] (sm_rows m) [] (sm_vals m) 0 1 0 n) as (ptr' & E' & L' & P'); auto; try lia.
  - intros j J. apply C. lia.
  - unfold p1. rewrite list_set_length. lia.
  - intros x [].
  - intros j J. unfold zat, counts. cbn [filter length]. unfold p1. rewrite Z0. destruct (Z.eq_dec j 1) as [->|N1]; [apply list_set_nth_same; lia|]. rewrite list_set_nth_other by lia. assert (j = 0) as -> by lia. exact Z0.
  - rewrite E0. cbn [app] in E'. rewrite E'. cbn [app]. do 2 f_equal. apply list_eq_zat; [lia|]. intros j J. rewrite P, P' by lia. reflexivity.
Qed.

Lemma layer_type_eqb_none : forall t : layer_type, {t = LT_NONE} + {t <> LT_NONE}.
Proof. intros t. destruct t; (left; reflexivity) || (right; discriminate). Qed.

(** ** The inlet heat *)
Section Inlet.
  Variables (g : tgrid) (d : dims) (ch : channel).
  Hypothesis TC : tg_channel g = Some ch.
  Definition inlet_of (l c : Z) : Q := (2 * convection ch d l c * co_tin ch)%Q.
  Definition put_inlet (l at_ : Z) (s : list Q) (c : Z) : outcome (list Q) :=
    if is_channel_column (ch_model ch) c then do x <- get_convective_term ch d l 0 c ; arr_set s (at_ + c) (2 * x * co_tin ch)%Q else Ok s.
  Lemma inlets_ok : forall l at_ cols s, 0 <= l < Z.of_nat (length (d_heights d)) -> 0 <= at_ -> (forall c, In c cols -> 0 <= c) ->
      (forall c, In c cols -> is_channel_column (ch_model ch) c = true -> at_ + c < Z.of_nat (length s)) ->
      exists s', fold_out (put_inlet l at_) s cols = Ok s' /\ length s' = length s /\
        (forall c, In c cols -> is_channel_column (ch_model ch) c = true -> qat s' (at_ + c) = inlet_of l c) /\
        (forall i, 0 <= i -> (forall c, In c cols -> is_channel_column (ch_model ch) c = true -> i <> at_ + c) -> qat s' i = qat s i).
  Proof.
    intros l at_ cols s L A NN. revert s. induction cols as [|c cols IH] using rev_ind; intros s B.
    - exists s. split; [reflexivity|]. split; [reflexivity|]. split; [intros c []|reflexivity].
    - assert (FO : forall {X Y} (f : X -> Y -> outcome X) xs y x, fold_out f x (xs ++ [y]) = (do z <- fold_out f x xs ; f z y)).
      { clear. intros X Y f. induction xs as [|a xs IH]; intros y x; cbn [app fold_out]; [cbn [bind]; destruct (f x y); reflexivity|]. destruct (f x a); cbn [bind]; auto. }
      destruct (IH ltac:(intros x I; apply NN, in_or_app; auto) s ltac:(intros x I; apply B, in_or_app; auto)) as (s1 & E1 & L1 & V1 & O1). rewrite FO, E1. cbn [bind]. unfold put_inlet.
      pose proof (NN c ltac:(apply in_or_app; right; left; reflexivity)) as NC. destruct (is_channel_column (ch_model ch) c) eqn:IC.
      + pose proof (B c ltac:(apply in_or_app; right; left; reflexivity) IC) as BC. rewrite convective_ok by exact L. cbn [bind]. rewrite arr_set_ok by lia. eexists. split; [reflexivity|]. split; [rewrite list_set_length; exact L1|].
        assert (SET : forall i, 0 <= i -> qat (list_set s1 (Z.to_nat (at_ + c)) (2 * convection ch d l c * co_tin ch)%Q) i = if i =? at_ + c then inlet_of l c else qat s1 i).
        { intros i I. unfold qat. destruct (Z.eqb_spec i (at_ + c)) as [->|NE]; [apply list_set_nth_same; lia|apply list_set_nth_other; lia]. }
        split.
        * intros x I W. specialize (NN x I). rewrite SET by lia. destruct (Z.eqb_spec (at_ + x) (at_ + c)) as [E|NE]; [f_equal; lia|]. apply in_app_or in I. destruct I as [I|[->|[]]]; [apply V1; assumption|lia].
        * intros i I F. rewrite SET by exact I. destruct (Z.eqb_spec i (at_ + c)) as [E|NE]; [exfalso; apply (F c); [apply in_or_app; right; left; reflexivity|exact IC|exact E]|]. apply O1; [exact I|]. intros x X. apply F, in_or_app. auto.
      + exists s1. split; [reflexivity|]. split; [exact L1|]. split.
        * intros x I W. apply in_app_or in I. destruct I as [I|[->|[]]]; [apply V1; assumption|congruence].
        * intros i I F. apply O1; [exact I|]. intros x X. apply F, in_or_app. auto.
  Qed.
  Lemma inlets_out : forall l at_ cols s, 0 <= l < Z.of_nat (length (d_heights d)) -> (exists c, In c cols /\ is_channel_column (ch_model ch) c = true /\ Z.of_nat (length s) <= at_ + c) ->
      fold_out (put_inlet l at_) s cols = UB.
  Proof.
    intros l at_ cols s L. revert s. induction cols as [|c cols IH]; intros s (x & I & W & B); [contradiction|]. cbn [fold_out]. destruct I as [->|I].
    - unfold put_inlet at 1. rewrite W, convective_ok by exact L. cbn [bind]. unfold arr_set. destruct ((0 <=? at_ + x) && (at_ + x <? Z.of_nat (length s))) eqn:X; [lia|reflexivity].
    - unfold put_inlet at 1. destruct (is_channel_column (ch_model ch) c); [|cbn [bind]; apply IH; eauto]. rewrite convective_ok by exact L. cbn [bind]. unfold arr_set at 1. destruct ((0 <=? at_ + c) && (at_ + c <? Z.of_nat (length s))) eqn:X; [|reflexivity]. cbn [bind]. apply IH. exists x. rewrite list_set_length. auto.
  Qed.

  (** [aimed l at_ ts i]: a cell of coolant of the layers [ts] whose heat goes to
      position [i]. *)
  Definition aimed (l at_ : Z) (ts : list layer_type) (k : nat) (c i : Z) : Prop :=
    exists t, nth_error ts k = Some t /\ coolant_type t = true /\ 0 <= c < d_ncols d /\ is_channel_column (ch_model ch) c = true /\ i = at_ + Z.of_nat k * get_layer_area d + c.
  Lemma channel_cons : forall l at_ t ts s, t <> LT_NONE ->
      nu_channel_layers g d l at_ (t :: ts) s = (do s1 <- (if coolant_type t then fold_out (put_inlet l at_) s (zrange 0 (last_column d)) else Ok s) ; nu_channel_layers g d (l + 1) (at_ + get_layer_area d) ts s1).
  Proof. intros l at_ t ts s NN. cbn [nu_channel_layers]. rewrite TC. destruct t; try reflexivity. congruence. Qed.
  Lemma aimed_cons : forall l at_ t ts k c i, aimed l at_ (t :: ts) (S k) c i <-> aimed (l + 1) (at_ + get_layer_area d) ts k c i.
  Proof. intros. unfold aimed. cbn [nth_error]. replace (Z.of_nat (S k)) with (Z.of_nat k + 1) by lia. split; intros (u & H1 & H2 & H3 & H4 & H5); exists u; repeat split; auto; lia. Qed.
  Lemma layers_ok : forall ts l at_ s, Forall (fun t => t <> LT_NONE) ts -> 0 <= l -> l + Z.of_nat (length ts) <= Z.of_nat (length (d_heights d)) -> 0 <= at_ -> 0 <= d_ncols d <= get_layer_area d -> last_column d = d_ncols d - 1 ->
      (forall k c i, aimed l at_ ts k c i -> i < Z.of_nat (length s)) ->
      exists s', nu_channel_layers g d l at_ ts s = Ok s' /\ length s' = length s /\
        (forall k c i, aimed l at_ ts k c i -> qat s' i = inlet_of (l + Z.of_nat k) c) /\ (forall i, 0 <= i -> (forall k c, ~ aimed l at_ ts k c i) -> qat s' i = qat s i).
  Proof.
    induction ts as [|t ts IH]; intros l at_ s NN L0 LH A NC LC B.
    - exists s. split; [reflexivity|]. split; [reflexivity|]. split; [|reflexivity]. intros [|k] c i (u & X & _); discriminate X.
    - inversion NN as [|? ? N1 N2]; subst. rewrite channel_cons by exact N1. cbn [length] in LH.
      assert (X : exists s1, (if coolant_type t then fold_out (put_inlet l at_) s (zrange 0 (last_column d)) else Ok s) = Ok s1 /\ length s1 = length s /\
        (forall c i, aimed l at_ (t :: ts) 0 c i -> qat s1 i = inlet_of l c) /\ (forall i, 0 <= i -> (forall c, ~ aimed l at_ (t :: ts) 0 c i) -> qat s1 i = qat s i)).
      { destruct (coolant_type t) eqn:CT.
        - destruct (inlets_ok l at_ (zrange 0 (last_column d)) s ltac:(lia) A) as (s1 & E1 & L1 & V1 & O1); [intros c I; apply in_zrange in I; lia| |].
          + intros c I W. apply in_zrange in I. apply (B 0%nat c). exists t. repeat split; auto; lia.
          + exists s1. split; [exact E1|]. split; [exact L1|]. split.
            * intros c i (u & U & _ & C & W & ->). replace (at_ + Z.of_nat 0 * get_layer_area d + c) with (at_ + c) by lia. apply V1; [apply in_zrange; lia|exact W].
            * intros i I F. apply O1; [exact I|]. intros c C W E. apply in_zrange in C. apply (F c). exists t. repeat split; auto; lia.
        - exists s. split; [reflexivity|]. split; [reflexivity|]. split; [|reflexivity]. intros c i (u & U & W & _). cbn in U. injection U as <-. congruence. }
      destruct X as (s1 & -> & L1 & V1 & O1). cbn [bind].
      destruct (IH (l + 1) (at_ + get_layer_area d) s1 N2) as (s' & E' & L' & V' & O'); try lia; [intros k c i H; rewrite L1; apply (B (S k) c i); apply aimed_cons; exact H|].
      exists s'. split; [exact E'|]. split; [lia|]. split.
      + intros [|k] c i H.
        * rewrite O'; [replace (l + Z.of_nat 0) with l by lia; exact (V1 c i H)| |].
          -- destruct H as (u & _ & _ & C & _ & ->). lia.
          -- intros k c' (u' & _ & _ & C' & _ & E2). destruct H as (u & _ & _ & C & _ & E1). nia.
        * apply aimed_cons in H. rewrite (V' k c i H). f_equal. lia.
      + intros i I F. rewrite O'; [|exact I|intros k c H; apply (F (S k) c); apply aimed_cons; exact H]. apply O1; [exact I|]. intros c. apply F.
  Qed.
  Lemma layers_out : forall ts l at_ s k c i, Forall (fun t => t <> LT_NONE) ts -> 0 <= l -> l + Z.of_nat (length ts) <= Z.of_nat (length (d_heights d)) -> 0 <= at_ -> 0 <= d_ncols d <= get_layer_area d -> last_column d = d_ncols d - 1 ->
      aimed l at_ ts k c i -> Z.of_nat (length s) <= i -> nu_channel_layers g d l at_ ts s = UB.
  Proof.
    induction ts as [|t ts IH]; intros l at_ s k c i NN L0 LH A NC LC H B.
    - destruct H as (u & X & _). destruct k; discriminate X.
    - inversion NN as [|? ? N1 N2]; subst. rewrite channel_cons by exact N1. cbn [length] in LH. destruct k as [|k].
      + destruct H as (u & U & W & C & IC & E). cbn in U. injection U as <-. rewrite W. rewrite inlets_out; [reflexivity|lia|]. exists c. split; [apply in_zrange; lia|]. split; [exact IC|lia].
      + apply aimed_cons in H. destruct (coolant_type t) eqn:CT; [|cbn [bind]; eapply (IH (l + 1)); eauto; lia].
        destruct (fold_out (put_inlet l at_) s (zrange 0 (last_column d))) as [s1| |] eqn:E1; [cbn [bind]|reflexivity|].
        * assert (length s1 = length s) as L1.
          { clear - E1. revert s E1. generalize (zrange 0 (last_column d)) as cols. induction cols as [|c cols IHc]; intros s E1; cbn [fold_out] in E1; [injection E1 as <-; reflexivity|]. destruct (put_inlet l at_ s c) as [s2| |] eqn:P; try discriminate. cbn [bind] in E1. rewrite (IHc s2 E1). unfold put_inlet in P. destruct (is_channel_column (ch_model ch) c); [|congruence]. destruct (get_convective_term ch d l 0 c); try discriminate. cbn [bind] in P. unfold arr_set in P. destruct (_ && _); [|discriminate]. injection P as <-. apply list_set_length. }
          apply (IH (l + 1) (at_ + get_layer_area d) s1 k c i); auto; lia.
        * exfalso. clear - E1 L0 LH. revert s E1. generalize (zrange 0 (last_column d)) as cols. induction cols as [|c cols IHc]; intros s E1; cbn [fold_out] in E1; [discriminate|]. destruct (put_inlet l at_ s c) as [s2| |] eqn:P; try discriminate; [exact (IHc s2 E1)|]. unfold put_inlet in P. destruct (is_channel_column (ch_model ch) c); [|discriminate]. rewrite convective_ok in P by lia. cbn [bind] in P. unfold arr_set in P. destruct (_ && _); discriminate.
  Qed.
  Lemma layers_length : forall ts l at_ s, 0 <= l -> l + Z.of_nat (length ts) <= Z.of_nat (length (d_heights d)) ->
      match nu_channel_layers g d l at_ ts s with Ok s' => length s' = length s | UB => True | NoFuel => False end.
  Proof.
    assert (PI : forall l at_ cols s, 0 <= l < Z.of_nat (length (d_heights d)) -> match fold_out (put_inlet l at_) s cols with Ok s' => length s' = length s | UB => True | NoFuel => False end).
    { intros l at_ cols. induction cols as [|c cols IH]; intros s L; cbn [fold_out]; [reflexivity|]. unfold put_inlet at 1. destruct (is_channel_column (ch_model ch) c); [|cbn [bind]; apply IH; exact L]. rewrite convective_ok by exact L. cbn [bind]. unfold arr_set at 1. destruct (_ && _); [|exact I]. cbn [bind].
      specialize (IH (list_set s (Z.to_nat (at_ + c)) (2 * convection ch d l c * co_tin ch)%Q) L). rewrite list_set_length in IH. exact IH. }
    induction ts as [|t ts IH]; intros l at_ s L0 LH; [reflexivity|]. cbn [length] in LH. destruct (layer_type_eqb_none t) as [->|NN]; [reflexivity|]. rewrite channel_cons by exact NN.
    specialize (PI l at_ (zrange 0 (last_column d)) s ltac:(lia)). destruct (coolant_type t).
    - destruct (fold_out (put_inlet l at_) s (zrange 0 (last_column d))) as [s1| |]; [cbn [bind]|exact I|contradiction]. specialize (IH (l + 1) (at_ + get_layer_area d) s1 ltac:(lia) ltac:(lia)). destruct (nu_channel_layers _ _ _ _ _ _); [congruence|exact I|contradiction].
    - cbn [bind]. apply IH; lia.
  Qed.
End Inlet.

(** ** The same simulation at another time *)
Definition at_time {PS} (t : Z) (s : nsim PS) : nsim PS :=
  mkNsim (n_temps s) (n_pg s) (n_matrix s) (mkAnalysis (an_type (n_an s)) (an_step (n_an s)) (an_slot_length (n_an s)) t (an_initial (n_an s))) (n_plugin s).
Lemma at_time_at : forall {PS} t u (s : nsim PS), at_time t (at_time u s) = at_time t s.
Proof. reflexivity. Qed.
Lemma at_time_own : forall {PS} (s : nsim PS), at_time (an_time (n_an s)) s = s.
Proof. intros PS [x p m [ty st sl ti ini] q]. reflexivity. Qed.
Lemma step_time : forall {PS} solve plugin d (s : nsim PS) t t' r s1, 0 <= t -> t + 1 < two32 -> 0 <= t' -> t' + 1 < two32 -> t mod an_slot_length (n_an s) = t' mod an_slot_length (n_an s) ->
    nu_emulate_step solve plugin d (at_time t s) = Ok (r, s1) -> went_on r -> an_time (n_an s1) = t + 1 /\ an_slot_length (n_an s1) = an_slot_length (n_an s) /\ nu_emulate_step solve plugin d (at_time t' s) = Ok (r, at_time (t' + 1) s1).
Proof.
  intros PS solve plugin d s t t' r s1 T1 T2 T3 T4 M E W. unfold nu_emulate_step in *. cbn [at_time n_an an_type n_pg n_temps n_matrix n_plugin] in *.
  destruct (an_type (n_an s)); try (injection E as <- _; destruct W; discriminate).
  unfold slot_completed in *. cbn [an_slot_length an_time] in *. destruct (an_slot_length (n_an s) =? 0) eqn:S0; [discriminate|]. cbn [bind] in *. rewrite <- M.
  destruct (if t mod an_slot_length (n_an s) =? 0 then nu_update_sources (n_pg s) d else Ok (TDICE_SUCCESS, n_pg s)) as [[e1 pg1]| |]; try discriminate. cbn [bind] in *. destruct e1; [|injection E as <- _; destruct W; discriminate].
  unfold nu_pluggable in *. cbn [n_pg n_temps n_matrix n_an n_plugin] in *.
  assert (NX : forall u, (0 <= u -> u + 1 < two32 -> (u + 1) mod an_slot_length (n_an s) = ((u mod an_slot_length (n_an s)) + 1) mod an_slot_length (n_an s))) by (intros u U1 U2; rewrite Zplus_mod_idemp_l; reflexivity).
  assert (TT : (t' + 1) mod an_slot_length (n_an s) = (t + 1) mod an_slot_length (n_an s)) by (rewrite (NX t T1 T2), (NX t' T3 T4), M; reflexivity).
  destruct (tg_top (np_grid pg1)) as [[h a|sp h m]|].
  - cbn [bind] in *. cbn [n_pg n_temps n_matrix n_an n_plugin an_step] in *. destruct (nu_rhs _ _ _) as [b| |]; try discriminate. cbn [bind] in *. destruct (solve _ _) as (e3, x). destruct e3; [|injection E as <- _; destruct W; discriminate].
    unfold increase_by_step_time in *. cbn [an_type an_step an_slot_length an_time an_initial] in *. rewrite S0 in *. cbn [bind] in *. rewrite !u32_id in * by lia. injection E as <- <-. cbn [n_an an_time]. split; [reflexivity|]. split; [reflexivity|]. rewrite TT. reflexivity.
  - destruct (_ && _); [|discriminate]. cbn [n_pg n_temps n_matrix n_an n_plugin] in *. destruct (plugin _ _ _) as [[bad fl] ps]. destruct bad; cbn [bind] in *; [injection E as <- _; destruct W; discriminate|].
    cbn [n_pg n_temps n_matrix n_an n_plugin an_step] in *. destruct (nu_rhs _ _ _) as [b| |]; try discriminate. cbn [bind] in *. destruct (solve _ _) as (e3, x). destruct e3; [|injection E as <- _; destruct W; discriminate].
    unfold increase_by_step_time in *. cbn [an_type an_step an_slot_length an_time an_initial] in *. rewrite S0 in *. cbn [bind] in *. rewrite !u32_id in * by lia. injection E as <- <-. cbn [n_an an_time]. split; [reflexivity|]. split; [reflexivity|]. rewrite TT. reflexivity.
  - cbn [bind] in *. cbn [n_pg n_temps n_matrix n_an n_plugin an_step] in *. destruct (nu_rhs _ _ _) as [b| |]; try discriminate. cbn [bind] in *. destruct (solve _ _) as (e3, x). destruct e3; [|injection E as <- _; destruct W; discriminate].
    unfold increase_by_step_time in *. cbn [an_type an_step an_slot_length an_time an_initial] in *. rewrite S0 in *. cbn [bind] in *. rewrite !u32_id in * by lia. injection E as <- <-. cbn [n_an an_time]. split; [reflexivity|]. split; [reflexivity|]. rewrite TT. reflexivity.
Qed.
Lemma steps_time : forall {PS} solve plugin d n (s s1 : nsim PS) t, 0 <= t -> t + Z.of_nat n < two32 -> t mod an_slot_length (n_an s) = 0 -> nu_steps solve plugin d n (at_time t s) s1 ->
    an_time (n_an s1) = t + Z.of_nat n /\ an_slot_length (n_an s1) = an_slot_length (n_an s) /\ nu_steps solve plugin d n (at_time 0 s) (at_time (Z.of_nat n) s1).
Proof.
  intros PS solve plugin d n. induction n as [|n IH]; intros s s1 t T1 T2 M H; inversion H as [|n1 x1 r s2 x2 H1 E W]; subst.
  - cbn [at_time n_an an_time an_slot_length]. split; [lia|]. split; [reflexivity|]. rewrite at_time_at. constructor.
  - destruct (IH s s2 t T1 ltac:(lia) M H1) as (A1 & A2 & A3). destruct (Z.eq_dec (an_slot_length (n_an s)) 0) as [Z0|NZ].
    { exfalso. unfold nu_emulate_step, slot_completed in E. rewrite A2, Z0 in E. cbn in E. destruct (an_type (n_an s2)); try discriminate; injection E as <- _; destruct W; discriminate. }
    rewrite <- (at_time_own s2), A1 in E. destruct (step_time solve plugin d s2 (t + Z.of_nat n) (Z.of_nat n) r s1) as (B1 & B2 & B3); try assumption; try lia.
    { rewrite A2. rewrite <- Zplus_mod_idemp_l, M. reflexivity. }
    split; [lia|]. split; [congruence|]. econstructor; [exact A3| |exact W]. replace (Z.of_nat (S n)) with (Z.of_nat n + 1) by lia. exact B3.
Qed.

(** ** A simulation on its way: ready to start but for the time *)
Lemma network_time : forall {PS} t (s : nsim PS) g d cells cs m, network g d (n_an s) cells cs m -> network g d (n_an (at_time t s)) cells cs m.
Proof. intros PS t s g d cells cs m [N1 N2 N3 N4 N5]. constructor; assumption. Qed.
Record alive {PS} (g : tgrid) (d : dims) (hs : list Q) (G : list nlayer) (cs : list conn) (qs : nat -> list (list Q)) (L : Z) (n : nat) (s : nsim PS) : Prop := {
  al_start : nu_start g d hs G cs (fun l => map (skipn (begun L n)) (qs l)) (at_time 0 s);
  al_slot : an_slot_length (n_an s) = L;
  al_time : an_time (n_an s) = Z.of_nat n;
  al_enough : forall l, (l < length (tg_types g))%nat -> is_source (type_of g (Z.of_nat l)) = true -> Forall (fun q => (begun L n <= length q)%nat) (qs l)
}.
Lemma start_ext : forall {PS} g d hs G cs qs qs' (s : nsim PS), (forall l, qs l = qs' l) -> nu_start g d hs G cs qs s -> nu_start g d hs G cs qs' s.
Proof. intros PS g d hs G cs qs qs' s E []. constructor; auto. apply (ready_ext _ _ _ _ qs); auto. Qed.
Lemma running_alive_of : forall {PS} g d hs G cs qs L (s0 : nsim PS) n s, nu_start g d hs G cs qs s0 -> an_slot_length (n_an s0) = L -> running g d hs G qs s0 n s ->
    (forall l, (l < length (tg_types g))%nat -> is_source (type_of g (Z.of_nat l)) = true -> Forall (fun q => (begun L n <= length q)%nat) (qs l)) -> alive g d hs G cs qs L n s.
Proof.
  intros PS g d hs G cs qs L s0 n s ST EL [R1 R2 R3 R4 R5 R6 R7 R8 R9 R10] EN. rewrite EL in *. destruct ST as [S1 S2 S3 S4 S5 S6 S7 S8 S9 S10 S11]. constructor; [|rewrite R5; reflexivity|rewrite R5; reflexivity|exact EN].
  constructor; cbn [at_time n_pg n_matrix n_temps n_an an_type an_step an_slot_length an_time]; rewrite ?R5; cbn [an_type an_step an_slot_length]; auto.
  - rewrite R2, R4. destruct S3 as [N1 N2 N3 N4 N5]. constructor; assumption.
  - rewrite R2, R3. exact S4.
  - rewrite R6, R2. reflexivity.
  - rewrite <- EL. exact S8.
Qed.
Lemma rhs_values : forall pg step temps b, nu_rhs pg step temps = Ok b -> length b = length (np_cells pg) /\
    forall i, 0 <= i < Z.of_nat (length (np_cells pg)) -> qat b i = (qat (np_sources pg) i + qat (np_caps pg) i / step * qat temps i)%Q.
Proof.
  intros pg step temps b RH. unfold nu_rhs in RH. split.
  - apply map_out_forall in RH. assert (length b = length (zrange 0 (Z.of_nat (length (np_cells pg)) - 1))) as -> by (clear - RH; induction RH; cbn; congruence). rewrite zrange_seq, map_length, seq_length. reflexivity.
  - intros i I. pose proof (map_out_nth _ _ _ (Z.to_nat i) 0 0%Q RH) as X. rewrite zrange_seq, map_length, seq_length in X. specialize (X ltac:(lia)).
    rewrite (nth_indep _ 0 (Z.of_nat 0)) in X by (rewrite map_length, seq_length; lia). rewrite map_nth, seq_nth in X by lia. replace (Z.of_nat (0 + Z.to_nat i)) with i in X by lia.
    assert (AG : forall (v : list Q) y, arr_get v i = Ok y -> y = qat v i).
    { intros v y H. unfold arr_get, qat in *. destruct ((0 <=? i) && (i <? Z.of_nat (length v))); [|discriminate]. destruct (nth_error v (Z.to_nat i)) eqn:NN; [|discriminate]. rewrite (nth_error_nth _ _ _ NN). congruence. }
    destruct (arr_get (np_sources pg) i) as [y| |] eqn:A1; try discriminate. cbn [bind] in X. destruct (arr_get (np_caps pg) i) as [c| |] eqn:A2; try discriminate. cbn [bind] in X. destruct (arr_get temps i) as [t| |] eqn:A3; try discriminate. cbn [bind] in X.
    rewrite <- (AG _ _ A1), <- (AG _ _ A2), <- (AG _ _ A3). unfold qat. congruence.
Qed.
Section Alive.
  Context {PS : Type}.
  Variable solve : sysmatrix -> list Q -> error_t * list Q.
  Variable plugin : PS -> list Q -> list Q -> bool * list Q * PS.
  Hypothesis IP : in_place solve plugin.
  Hypothesis EX : exact solve.
  Variables (g : tgrid) (d : dims) (hs : list Q) (G : list nlayer) (cs : list conn) (qs : nat -> list (list Q)) (L : Z).

  Lemma start_alive : forall (s0 : nsim PS), nu_start g d hs G cs qs s0 -> an_slot_length (n_an s0) = L -> alive g d hs G cs qs L 0 s0.
  Proof. intros s0 ST EL. apply (running_alive_of _ _ _ _ _ _ _ s0); auto; [apply (running_start g d hs G cs qs s0 ST)|]. intros l _ _. apply Forall_forall. intros q _. unfold begun. rewrite Nat.div_small; [lia|]. pose proof (st_slot _ _ _ _ _ _ _ ST). lia. Qed.

  Lemma mid_step : forall n (s : nsim PS) r s', alive g d hs G cs qs L n s -> (n mod Z.to_nat L <> 0)%nat -> Z.of_nat n + 1 < two32 -> nu_emulate_step solve plugin d s = Ok (r, s') -> went_on r -> alive g d hs G cs qs L (S n) s'.
  Proof.
    intros n s r s' [ST EL ET EN] M B H W. pose proof ST as [S1 S2 S3 S4 S5 S6 S7 S8 S9 S10 S11]. cbn [at_time n_pg n_matrix n_temps n_an an_type an_step an_slot_length an_time] in *. rewrite EL in S8.
    unfold nu_emulate_step in H. rewrite S6 in H. unfold slot_completed in H. rewrite EL, ET in H. destruct (Z.eqb_spec L 0) as [E0|_]; [lia|]. cbn [bind] in H.
    assert (MODE : (Z.of_nat n mod L =? 0) = false). { rewrite <- (Z2Nat.id L) at 1 by lia. rewrite <- Nat2Z.inj_mod. lia. } rewrite MODE in H. cbn [bind] in H.
    destruct (nu_pluggable plugin _) as [[e2 s2]| |] eqn:PL in H; try discriminate. cbn [bind] in H. destruct e2; [|injection H as <- <-; destruct W; discriminate].
    assert (LSRC : length (np_sources (n_pg s)) = length (np_cells (n_pg s))) by (rewrite (rd_sources _ _ _ _ _ S2), (rd_cells _ _ _ _ _ S2), number_length; reflexivity).
    destruct (plugin_step solve plugin IP g d hs G cs _ (at_time 0 s) ST (mkNsim (n_temps s) (n_pg s) (n_matrix s) (n_an s) (n_plugin s)) _ _ S5 LSRC S1 PL) as (P1 & P2 & P3 & P4 & P5 & _). cbn [n_temps n_matrix n_an n_pg] in *.
    destruct (nu_rhs (n_pg s2) (an_step (n_an s2)) (n_temps s2)) as [b| |] eqn:RH; try discriminate. cbn [bind] in H.
    destruct (solve (n_matrix s2) b) as (e3, x) eqn:SO. destruct e3; [|injection H as <- <-; destruct W; discriminate].
    destruct (an_slot_length (increase_by_step_time (n_an s2)) =? 0); [discriminate|]. cbn [bind] in H. injection H as _ <-.
    assert (BL : length b = length (np_cells (n_pg s))).
    { unfold nu_rhs in RH. apply map_out_forall in RH. assert (length b = length (zrange 0 (Z.of_nat (length (np_cells (n_pg s2))) - 1))) as -> by (clear - RH; induction RH; cbn; congruence). rewrite zrange_seq, map_length, seq_length, P4. reflexivity. }
    assert (LX : length x = length (np_cells (n_pg s))) by (rewrite <- BL; apply (proj1 IP _ _ _ _ SO)).
    rewrite P3. constructor; cbn [at_time n_pg n_matrix n_temps n_an increase_by_step_time an_type an_step an_slot_length an_time an_initial]; [|exact EL|rewrite ET, u32_id by lia; lia|rewrite begun_S by lia; rewrite (begun_within L n) in EN by (lia || assumption); exact EN].
    rewrite P2, P4. constructor; cbn [at_time n_pg n_matrix n_temps n_an an_type an_step an_slot_length an_time put_sources np_grid np_cells np_caps increase_by_step_time]; auto; try (rewrite EL; assumption).
    apply ready_put; [rewrite P5; symmetry; exact LSRC|]. apply (ready_ext _ _ _ _ (fun l => map (skipn (begun L n)) (qs l))); [|exact S2]. intros l. rewrite begun_S, (begun_within L n) by (lia || assumption). reflexivity.
  Qed.
  Lemma first_step : forall n (s : nsim PS) r s', alive g d hs G cs qs L n s -> (n mod Z.to_nat L = 0)%nat -> Z.of_nat n + 1 < two32 -> nu_emulate_step solve plugin d s = Ok (r, s') -> went_on r -> alive g d hs G cs qs L (S n) s'.
  Proof.
    intros n s r s' [ST EL ET EN] M B H W. pose proof (st_slot _ _ _ _ _ _ _ ST) as SL. cbn [at_time n_an an_slot_length] in SL. rewrite EL in SL.
    assert (MODE : Z.of_nat n mod L = 0). { rewrite <- (Z2Nat.id L) at 1 by lia. rewrite <- Nat2Z.inj_mod. lia. }
    pose proof H as H2. rewrite <- (at_time_own s), ET in H2. destruct (step_time solve plugin d s (Z.of_nat n) 0 r s') as (T1 & T2 & T3); try assumption; try (unfold two32 in *; lia); [rewrite EL, Zmod_0_l; exact MODE|].
    pose proof (steps_running solve plugin IP EX g d hs G cs _ _ ST 1 _ (NS_step _ _ _ 0 _ _ _ _ (NS_nil _ _ _ _) T3 W) ltac:(unfold two32; lia)) as RN.
    destruct (step_spec solve plugin IP EX g d hs G cs _ _ ST 0 _ r _ (running_start _ _ _ _ _ _ _ ST) ltac:(lia) T3 W) as (_ & FULL & _). cbn [at_time n_an an_slot_length] in FULL. rewrite EL in FULL. rewrite Nat.div_small in FULL by lia.
    assert (ENS : forall l, (l < length (tg_types g))%nat -> is_source (type_of g (Z.of_nat l)) = true -> Forall (fun q => (begun L (S n) <= length q)%nat) (qs l)).
    { intros l HL HS. specialize (FULL l HL HS). rewrite Forall_map in FULL. eapply Forall_impl; [|exact FULL]. cbn beta. intros q X. rewrite skipn_length in X. rewrite begun_S by lia. rewrite begun_boundary in X by (lia || assumption). lia. }
    pose proof (running_alive_of _ _ _ _ _ _ L _ _ _ ST EL RN) as A. destruct A as [A1 _ _ _].
    { intros l HL HS. rewrite Forall_map. eapply Forall_impl; [|exact (ENS l HL HS)]. cbn beta. intros q X. rewrite skipn_length. rewrite begun_S in X |- * by lia. rewrite begun_boundary by (lia || assumption). rewrite Nat.div_small by lia. lia. }
    constructor; [|congruence|rewrite T1; lia|exact ENS]. change (at_time 0 (at_time (0 + 1) s')) with (at_time 0 s') in A1. eapply start_ext; [|exact A1]. intros l. cbn beta. rewrite map_map. apply map_ext. intros q.
    rewrite (begun_boundary L n) by (lia || assumption). rewrite !begun_S by lia. rewrite Nat.div_small by lia. rewrite <- (tl_skipn (n / Z.to_nat L) q). destruct (skipn (n / Z.to_nat L) q); reflexivity.
  Qed.
  Lemma alive_steps : forall k n (s s' : nsim PS), alive g d hs G cs qs L n s -> Z.of_nat (n + k) < two32 -> nu_steps solve plugin d k s s' -> alive g d hs G cs qs L (n + k) s'.
  Proof.
    induction k as [|k IH]; intros n s s' A B H; inversion H as [|k1 x1 r s1 x2 H1 E W]; subst; [rewrite Nat.add_0_r; exact A|]. pose proof (IH n s s1 A ltac:(lia) H1) as A1. rewrite Nat.add_succ_r.
    destruct (Nat.eq_dec ((n + k) mod Z.to_nat L) 0) as [M|M]; [apply (first_step (n + k) s1 r s')|apply (mid_step (n + k) s1 r s')]; auto; lia.
  Qed.
End Alive.
