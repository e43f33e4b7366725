From Coq Require Import ZArith List Bool QArith Lia Lqa.
From Verif Require Import Base QSum Dims DimsSpec DimsProofs Queue QueueProofs Floorplan FloorplanSpec
     FloorplanProofs FlpMatrixProofs TempProofs Stack StackSpec StackProofs PowerGrid Emulate EmulateSpec.
Import ListNotations.
Local Open Scope Z_scope.

(** ** Products on the prefix of a vector *)
Lemma list_set_app : forall {A} (x y : list A) n v, (n < length x)%nat -> list_set (x ++ y) n v = list_set x n v ++ y.
Proof.
  intros A. induction x as [|h t IH]; intros y [|n] v H; cbn [length] in H; try lia; [reflexivity|].
  cbn [app list_set]. rewrite IH by lia. reflexivity.
Qed.
Lemma arr_get_inv : forall {A} (x : list A) i v, arr_get x i = Ok v -> 0 <= i < Z.of_nat (length x).
Proof.
  intros A x i v H. unfold arr_get in H. destruct (Z.leb_spec 0 i); [|discriminate].
  destruct (Z.ltb_spec i (Z.of_nat (length x))); [lia|discriminate].
Qed.
Lemma arr_get_app : forall {A} (x y : list A) i v, arr_get x i = Ok v -> arr_get (x ++ y) i = Ok v.
Proof.
  intros A x y i v H. pose proof (arr_get_inv _ _ _ H) as R.
  rewrite (arr_get_ok x i v R) in H. rewrite (arr_get_ok _ i v) by (rewrite app_length; lia).
  rewrite app_nth1 by lia. exact H.
Qed.
Lemma arr_set_inv : forall {A} (x x' : list A) i v, arr_set x i v = Ok x' ->
    0 <= i < Z.of_nat (length x) /\ x' = list_set x (Z.to_nat i) v.
Proof.
  intros A x x' i v H. unfold arr_set in H. destruct (Z.leb_spec 0 i); [|discriminate].
  destruct (Z.ltb_spec i (Z.of_nat (length x))); [|discriminate]. split; [lia|cbn in H; congruence].
Qed.
Lemma arr_set_app : forall {A} (x y x' : list A) i v, arr_set x i v = Ok x' -> arr_set (x ++ y) i v = Ok (x' ++ y).
Proof.
  intros A x y x' i v H. destruct (arr_set_inv _ _ _ _ H) as [R ->].
  rewrite arr_set_ok by (rewrite app_length; lia). rewrite list_set_app by lia. reflexivity.
Qed.

Lemma axpy_app : forall fuel m b i i1 x y x', axpy_loop fuel m b i i1 x = Ok x' ->
    axpy_loop fuel m b i i1 (x ++ y) = Ok (x' ++ y).
Proof.
  induction fuel as [|n IH]; intros m b i i1 x y x' H; cbn [axpy_loop] in *; [congruence|].
  destruct (i <? i1); [|congruence].
  destruct (arr_get (fm_rows m) i); cbn [bind] in *; try discriminate.
  destruct (arr_get (fm_vals m) i); cbn [bind] in *; try discriminate.
  destruct (arr_get x a) eqn:E; cbn [bind] in *; try discriminate. rewrite (arr_get_app x y _ _ E). cbn [bind].
  destruct (arr_set x a _) eqn:E2; cbn [bind] in *; try discriminate. rewrite (arr_set_app x y _ _ _ E2). cbn [bind].
  apply IH. exact H.
Qed.
Lemma multiply_loop_app : forall m b js x y x', multiply_loop m b js x = Ok x' -> multiply_loop m b js (x ++ y) = Ok (x' ++ y).
Proof.
  intros m b. induction js as [|j js IH]; intros x y x' H; cbn [multiply_loop] in *; [congruence|].
  destruct (arr_get b j) as [bj| |]; cbn [bind] in *; try discriminate.
  destruct (Qeq_bool bj 0); [apply IH; exact H|].
  destruct (arr_get (fm_colptr m) j) as [i0| |]; cbn [bind] in *; try discriminate.
  destruct (arr_get (fm_colptr m) (j + 1)) as [i1| |]; cbn [bind] in *; try discriminate.
  destruct (axpy_loop _ m bj i0 i1 x) as [x1| |] eqn:E; cbn [bind] in *; try discriminate.
  rewrite (axpy_app _ _ _ _ _ _ y _ E). cbn [bind]. apply IH. exact H.
Qed.
Lemma multiply_app : forall m x y b x', flpmatrix_multiply m x b = Ok x' -> flpmatrix_multiply m (x ++ y) b = Ok (x' ++ y).
Proof.
  intros m x y b x' H. unfold flpmatrix_multiply in *. destruct (_ || _); [congruence|]. apply multiply_loop_app. exact H.
Qed.

(** ** Taking one value per element *)
Definition same_element (e e' : flpel) : Prop := fe_id e' = fe_id e /\ fe_ics e' = fe_ics e.

Lemma same_element_refl : forall l, Forall2 same_element l l.
Proof. induction l; constructor; [split; reflexivity|assumption]. Qed.

Lemma qrep_empty : forall q l, qrep q l -> queue_is_empty q = match l with [] => true | _ => false end.
Proof.
  intros q l R. unfold queue_is_empty. rewrite (qrep_size _ _ R).
  destruct l; [reflexivity|]. apply Z.eqb_neq. cbn [length]. lia.
Qed.

Lemma take_powers_spec : forall els qs pre mid post,
    Forall2 (fun e l => qrep (fe_powers e) l) els qs -> length mid = length els ->
    exists els' mid',
      take_powers els (Z.of_nat (length pre)) (pre ++ mid ++ post) =
        Ok (if fst (fst (take_heads qs)) then TDICE_SUCCESS else TDICE_FAILURE, els', pre ++ mid' ++ post) /\
      length mid' = length mid /\ Forall2 same_element els els' /\
      Forall2 (fun e l => qrep (fe_powers e) l) els' (snd (fst (take_heads qs))) /\
      (fst (fst (take_heads qs)) = true -> mid' = snd (take_heads qs)).
Proof.
  intros els qs pre mid post F. revert pre mid. induction F as [|e l els qs R F IH]; intros pre mid Lm.
  - destruct mid; [|discriminate]. exists [], []. cbn. repeat split; try constructor. 
  - destruct mid as [|m0 mid]; [discriminate|]. cbn [take_powers]. rewrite (qrep_empty _ _ R).
    destruct l as [|x l].
    + cbn [take_heads fst snd]. exists (e :: els), (m0 :: mid). split; [reflexivity|]. split; [reflexivity|].
      split; [apply same_element_refl|]. split; [constructor; assumption|discriminate].
    + destruct (queue_get_spec _ _ _ R) as (q' & E & R'). rewrite E. cbn [bind fst snd].
      cbn [app]. rewrite (arr_set_mid pre m0 (mid ++ post) x _ eq_refl). cbn [bind].
      destruct (IH (pre ++ [x]) mid ltac:(cbn in Lm; lia)) as (els' & mid' & E2 & L2 & S2 & F2 & H2).
      replace (Z.of_nat (length pre) + 1) with (Z.of_nat (length (pre ++ [x]))) by (rewrite app_length; cbn; lia).
      rewrite <- app_assoc in E2. cbn [app] in E2. rewrite E2. cbn [bind].
      cbn [take_heads]. destruct (take_heads qs) as [[b r'] h] eqn:T. cbn [fst snd] in *.
      eexists. exists (x :: mid'). split; [rewrite <- !app_assoc; reflexivity|].
      split; [cbn [length]; lia|]. split; [constructor; [split; reflexivity|exact S2]|].
      split; [constructor; [exact R'|exact F2]|]. intro B. rewrite (H2 B). reflexivity.
Qed.

Lemma take_heads_app : forall a b,
    take_heads (a ++ b) =
      (let '(ok, a', h) := take_heads a in
       if ok then let '(ok2, b', h2) := take_heads b in (ok2, a' ++ b', h ++ h2)
       else (false, a' ++ b, h)).
Proof.
  induction a as [|[|x l] a IH]; intro b; cbn [app take_heads].
  - destruct (take_heads b) as [[? ?] ?]. reflexivity.
  - reflexivity.
  - rewrite IH. destruct (take_heads a) as [[ok a'] h]. destruct ok; [|reflexivity].
    destruct (take_heads b) as [[ok2 b'] h2]. reflexivity.
Qed.
Lemma take_heads_lengths : forall qs, length (snd (fst (take_heads qs))) = length qs /\
    (fst (fst (take_heads qs)) = true -> length (snd (take_heads qs)) = length qs).
Proof.
  induction qs as [|[|x l] r [IH1 IH2]]; cbn [take_heads].
  - cbn. auto.
  - cbn. split; [reflexivity|discriminate].
  - destruct (take_heads r) as [[b r'] h]. cbn [fst snd length] in *. split; [congruence|]. intro B. rewrite (IH2 B). reflexivity.
Qed.

Definition share (d : dims) (r c : Z) (pe : Q * flpel) : Q :=
  (fst pe * covered_by d (snd pe) r c / area_of (snd pe))%Q.

Lemma share_ics : forall d r c p e e', fe_ics e = fe_ics e' -> share d r c (p, e) = share d r c (p, e').
Proof. intros d r c p e e' H. unfold share, covered_by, area_of. cbn [fst snd]. rewrite H. reflexivity. Qed.

Lemma shares_ics : forall d r c b els els', map fe_ics els = map fe_ics els' ->
    map (share d r c) (combine b els) = map (share d r c) (combine b els').
Proof.
  intros d r c b els. revert b. induction els as [|e els IH]; intros b [|e' els'] H; cbn in H; try discriminate; [reflexivity|].
  injection H as H1 H2. destruct b as [|p b]; [reflexivity|]. cbn [combine map]. rewrite (share_ics d r c p e e' H1), (IH b els' H2). reflexivity.
Qed.

Lemma same_elements_ics : forall l l', Forall2 same_element l l' -> map fe_ics l' = map fe_ics l.
Proof. intros l l' F. induction F as [|a b l l' [_ H] F IH]; cbn; congruence. Qed.

Lemma multiply_good : forall d f x y b, good_grid d -> good_floorplan d f ->
    Z.of_nat (length x) = d_nrows d * d_ncols d -> length b = length (f_elements f) ->
    exists x', flpmatrix_multiply (f_matrix f) (x ++ y) b = Ok (x' ++ y) /\ length x' = length x /\
      (forall r c, 0 <= r < d_nrows d -> 0 <= c < d_ncols d ->
         (nth (Z.to_nat (r * d_ncols d + c)) x' 0 ==
          nth (Z.to_nat (r * d_ncols d + c)) x 0 + qsum (map (share d r c) (combine b (f_elements f))))%Q).
Proof.
  intros d f x y b G (els & f0 & GE & C & E & M & I & _) Lx Lb.
  assert (HE : Forall (good_el d) els) by (eapply Forall_impl; [|exact GE]; intros e He; apply good_element_el; auto).
  assert (Lb' : length b = length els).
  { rewrite Lb. rewrite <- (map_length fe_ics (f_elements f)), I, map_length. reflexivity. }
  destruct (multiply_ok d els f0 x b G HE C E Lx Lb') as (x' & E' & L' & W & _).
  exists x'. rewrite M. split; [apply multiply_app; exact E'|]. split; [exact L'|].
  intros r c Hr Hc. rewrite (W r c Hr Hc). rewrite (shares_ics d r c b (f_elements f) els I). reflexivity.
Qed.

Lemma fill_sources_spec : forall d f qs x y, good_grid d -> good_floorplan d f ->
    Forall2 (fun e l => qrep (fe_powers e) l) (f_elements f) qs ->
    Z.of_nat (length x) = d_nrows d * d_ncols d ->
    exists f' x',
      fill_sources_floorplan f (x ++ y) =
        Ok (if fst (fst (take_heads qs)) then TDICE_SUCCESS else TDICE_FAILURE, f', x' ++ y) /\
      length x' = length x /\ good_floorplan d f' /\ Forall2 same_element (f_elements f) (f_elements f') /\
      Forall2 (fun e l => qrep (fe_powers e) l) (f_elements f') (snd (fst (take_heads qs))) /\
      (fst (fst (take_heads qs)) = true ->
       forall r c, 0 <= r < d_nrows d -> 0 <= c < d_ncols d ->
         (nth (Z.to_nat (r * d_ncols d + c)) x' 0 ==
          nth (Z.to_nat (r * d_ncols d + c)) x 0 + qsum (map (share d r c) (combine (snd (take_heads qs)) (f_elements f))))%Q).
Proof.
  intros d f qs x y G GF F Lx. pose proof GF as (els & f0 & GE & C & E & M & I & LB).
  assert (LE : length (f_elements f) = length els) by (rewrite <- (map_length fe_ics), I, map_length; reflexivity).
  destruct (take_powers_spec (f_elements f) qs [] (f_bpowers f) [] F ltac:(congruence)) as (els' & bp & T & Lb & S2 & F2 & H2).
  cbn [app length] in T. rewrite !app_nil_r in T. change (Z.of_nat 0) with 0 in T.
  unfold fill_sources_floorplan. rewrite T. cbn [bind].
  assert (GF' : good_floorplan d (mkFlp (f_nelements f) els' bp (f_matrix f))).
  { exists els, f0. cbn [f_matrix f_elements f_bpowers]. rewrite (same_elements_ics _ _ S2), Lb. auto 10. }
  destruct (fst (fst (take_heads qs))) eqn:B.
  - destruct (multiply_good d f x y bp G GF Lx ltac:(congruence)) as (x' & E' & L' & W).
    rewrite E'. cbn [bind]. eexists. exists x'. split; [reflexivity|]. split; [exact L'|]. split; [exact GF'|].
    cbn [f_elements]. split; [exact S2|]. split; [exact F2|]. intros _ r c Hr Hc. rewrite (H2 eq_refl) in W. apply W; assumption.
  - eexists. exists x. split; [reflexivity|]. split; [reflexivity|]. split; [exact GF'|]. split; [exact S2|]. split; [exact F2|discriminate].
Qed.

(** ** Ambient and inlets *)
Lemma add_ambient_spec : forall n amb tcs x y, length x = n -> length tcs = n ->
    exists x', add_ambient n amb tcs (x ++ y) = Ok (x' ++ y) /\ length x' = n /\
      forall i, (i < n)%nat -> nth i x' 0%Q = (nth i x 0 + amb * nth i tcs 0)%Q.
Proof.
  induction n as [|n IH]; intros amb tcs x y Lx Lt.
  - destruct x; [|discriminate]. exists []. cbn. repeat split. intros i Hi. lia.
  - destruct x as [|x0 x]; [discriminate|]. destruct tcs as [|t tcs]; [discriminate|].
    destruct (IH amb tcs x y ltac:(cbn in *; lia) ltac:(cbn in *; lia)) as (x' & E & L & W).
    cbn [add_ambient app]. rewrite E. cbn [bind]. exists ((x0 + amb * t)%Q :: x'). split; [reflexivity|].
    split; [cbn; lia|]. intros [|i] Hi; [reflexivity|]. cbn [nth]. apply W. lia.
Qed.

Lemma convective_ok : forall ch d l c, 0 <= l < Z.of_nat (length (d_heights d)) ->
    get_convective_term ch d l 0 c = Ok (convection ch d l c).
Proof.
  intros ch d l c Hl. unfold convection.
  assert (exists v, get_convective_term ch d l 0 c = Ok v) as [v ->]; [|reflexivity].
  unfold get_convective_term. unfold get_cell_height.
  replace (Z.of_nat (length (d_heights d)) <? l) with false by (symmetry; apply Z.ltb_ge; lia).
  rewrite (arr_get_ok _ l 0%Q Hl). cbn [bind]. destruct (ch_model ch); eauto.
Qed.

Lemma set_inlets_spec : forall ch d l, 0 <= l < Z.of_nat (length (d_heights d)) ->
    forall n c0 s, 0 <= c0 -> c0 + Z.of_nat n <= Z.of_nat (length s) ->
    exists s', set_inlets ch d l (map (fun i => c0 + Z.of_nat i) (seq 0 n)) s = Ok s' /\ length s' = length s /\
      forall i, nth i s' 0%Q =
        if (c0 <=? Z.of_nat i) && (Z.of_nat i <? c0 + Z.of_nat n) && is_channel_column (ch_model ch) (Z.of_nat i)
        then (2 * convection ch d l (Z.of_nat i) * co_tin ch)%Q else nth i s 0%Q.
Proof.
  intros ch d l Hl. induction n as [|n IH]; intros c0 s Hc Hs.
  - exists s. cbn [seq map set_inlets]. split; [reflexivity|]. split; [reflexivity|]. intro i.
    destruct (Z.leb_spec c0 (Z.of_nat i)), (Z.ltb_spec (Z.of_nat i) (c0 + Z.of_nat 0)); cbn [andb]; try reflexivity. lia.
  - cbn [seq map]. rewrite <- seq_shift, map_map.
    rewrite (map_ext (fun i => c0 + Z.of_nat (S i)) (fun i => (c0 + 1) + Z.of_nat i)) by (intro; lia).
    cbn [set_inlets]. replace (c0 + Z.of_nat 0) with c0 by lia.
    destruct (is_channel_column (ch_model ch) c0) eqn:IC.
    + rewrite convective_ok by assumption. cbn [bind]. rewrite arr_set_ok by lia. cbn [bind].
      set (s1 := list_set s (Z.to_nat c0) (2 * convection ch d l c0 * co_tin ch)%Q).
      destruct (IH (c0 + 1) s1 ltac:(lia) ltac:(unfold s1; rewrite list_set_length; lia)) as (s' & E & L & W).
      exists s'. split; [exact E|]. split; [rewrite L; apply list_set_length|]. intro i. rewrite W.
      destruct (Z.eqb_spec (Z.of_nat i) c0) as [Ei|Ei].
      * replace (c0 + 1 <=? Z.of_nat i) with false by (symmetry; apply Z.leb_gt; lia). cbn [andb].
        replace (c0 <=? Z.of_nat i) with true by (symmetry; apply Z.leb_le; lia).
        replace (Z.of_nat i <? c0 + Z.of_nat (S n)) with true by (symmetry; apply Z.ltb_lt; lia). cbn [andb].
        rewrite Ei, IC. unfold s1. replace (Z.to_nat c0) with i by lia. rewrite list_set_nth_same by lia. reflexivity.
      * replace (c0 + 1 <=? Z.of_nat i) with (c0 <=? Z.of_nat i)
          by (destruct (Z.leb_spec c0 (Z.of_nat i)), (Z.leb_spec (c0 + 1) (Z.of_nat i)); (reflexivity || lia)).
        replace (c0 + 1 + Z.of_nat n) with (c0 + Z.of_nat (S n)) by lia.
        unfold s1. rewrite list_set_nth_other by lia. reflexivity.
    + destruct (IH (c0 + 1) s ltac:(lia) ltac:(lia)) as (s' & E & L & W).
      exists s'. split; [exact E|]. split; [exact L|]. intro i. rewrite W.
      destruct (Z.eqb_spec (Z.of_nat i) c0) as [Ei|Ei].
      * rewrite Ei, IC. rewrite !andb_false_r. reflexivity.
      * replace (c0 + 1 <=? Z.of_nat i) with (c0 <=? Z.of_nat i)
          by (destruct (Z.leb_spec c0 (Z.of_nat i)), (Z.leb_spec (c0 + 1) (Z.of_nat i)); (reflexivity || lia)).
        replace (c0 + 1 + Z.of_nat n) with (c0 + Z.of_nat (S n)) by lia. reflexivity.
Qed.
