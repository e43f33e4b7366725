(** * The matrix of the non-uniform grid: storage and coefficients (C39, C57) *)
From Coq Require Import ZArith List Bool QArith Permutation Sorted Lia Lqa ZifyBool.
From Verif Require Import Base QSum Dims Floorplan FloorplanProofs Stack StackProofs PowerGrid Emulate Conduct Matrix MatrixSpec NonUniform SourceProofs NuMatrix.
Import ListNotations.
Local Open Scope Z_scope.

Notation len l := (Z.of_nat (length l)).
Definition key (e : entry) : Z * Z := (e_row e, e_col e).
Definition same (a b : entry) : Prop := e_row a = e_row b /\ e_col a = e_col b /\ (e_val a == e_val b)%Q.
Definition lower (j : Z) (e : entry) : bool := e_col e <? j.
Definition at_col (j : Z) (e : entry) : bool := e_col e =? j.
Definition upper (j : Z) (e : entry) : bool := j <? e_col e.

Lemma filter_all : forall {A} (f : A -> bool) l, (forall x, In x l -> f x = true) -> filter f l = l.
Proof. intros A f. induction l as [|x t IH]; intros H; [reflexivity|]. cbn [filter]. rewrite (H x (or_introl eq_refl)), IH; [reflexivity|]. intros y I. apply H. right. exact I. Qed.
Lemma filter_no : forall {A} (f : A -> bool) l, (forall x, In x l -> f x = false) -> filter f l = [].
Proof. intros A f. induction l as [|x t IH]; intros H; [reflexivity|]. cbn [filter]. rewrite (H x (or_introl eq_refl)). apply IH. intros y I. apply H. right. exact I. Qed.

(** ** Sorting *)
Lemma before_trans : forall a b c, before a b -> before b c -> before a c.
Proof. unfold before. intros. lia. Qed.
Lemma before_irrefl : forall a, ~ before a a.
Proof. unfold before. intros. lia. Qed.
Lemma before_total : forall a b, key a <> key b -> before a b \/ before b a.
Proof.
  unfold before, key. intros a b H. destruct (Z.eq_dec (e_col a) (e_col b)) as [C|C]; [|lia].
  destruct (Z.eq_dec (e_row a) (e_row b)) as [R|R]; [|lia]. rewrite C, R in H. contradiction.
Qed.
Definition before_b (a b : entry) : bool := (e_col a <? e_col b) || ((e_col a =? e_col b) && (e_row a <? e_row b)).
Fixpoint put (e : entry) (l : list entry) : list entry :=
  match l with [] => [e] | x :: t => if before_b e x then e :: x :: t else x :: put e t end.
Lemma put_perm : forall e l, Permutation (e :: l) (put e l).
Proof.
  intros e. induction l as [|x t IH]; cbn [put]; [apply Permutation_refl|]. destruct (before_b e x); [apply Permutation_refl|].
  eapply perm_trans; [apply perm_swap|]. apply perm_skip, IH.
Qed.
Lemma put_sorted : forall e l, StronglySorted before l -> ~ In (key e) (map key l) -> StronglySorted before (put e l).
Proof.
  intros e. induction l as [|x t IH]; intros S N; cbn [put]; [constructor; constructor|].
  inversion S as [|? ? St Ft]; subst. destruct (before_b e x) eqn:B.
  - assert (E : before e x) by (unfold before, before_b in *; lia). constructor; [exact S|]. constructor; [exact E|].
    eapply Forall_impl; [|exact Ft]. intros y. apply before_trans, E.
  - constructor; [apply IH; [exact St|intros I; apply N; right; exact I]|].
    assert (E : before x e).
    { destruct (before_total x e) as [H|H]; [intros K; apply N; left; exact K|exact H|]. exfalso. unfold before, before_b in *. lia. }
    eapply Permutation_Forall; [apply put_perm|]. constructor; assumption.
Qed.
Lemma sort_exists : forall l, NoDup (map key l) -> exists s, qsorted l s.
Proof.
  induction l as [|e t IH]; intros N; [exists []; split; constructor|]. cbn [map] in N. inversion N as [|? ? NI Nt]; subst.
  destruct (IH Nt) as (s & P & S). exists (put e s). split.
  - eapply perm_trans; [apply perm_skip, P|apply put_perm].
  - apply put_sorted; [exact S|]. intros I. apply NI. eapply Permutation_in; [apply Permutation_map, Permutation_sym, P|exact I].
Qed.

(** Two sorted arrangements of lists with the same entries up to [same]. *)
Lemma sorted_same : forall l l', StronglySorted before l -> StronglySorted before l' ->
    (forall e, In e l -> exists e', In e' l' /\ same e e') -> (forall e', In e' l' -> exists e, In e l /\ same e e') -> Forall2 same l l'.
Proof.
  induction l as [|x t IH]; intros l' S S' H H'.
  - destruct l' as [|y u]; [constructor|]. destruct (H' y (or_introl eq_refl)) as (e & [] & _).
  - destruct l' as [|y u]; [destruct (H x (or_introl eq_refl)) as (e & [] & _)|].
    inversion S as [|? ? St Ft]; inversion S' as [|? ? Su Fu]; subst. rewrite Forall_forall in Ft, Fu.
    assert (XY : same x y).
    { destruct (H x (or_introl eq_refl)) as (e & [->|I] & E); [exact E|]. destruct (H' y (or_introl eq_refl)) as (e' & [->|I'] & E'); [exact E'|].
      exfalso. specialize (Fu _ I). specialize (Ft _ I'). unfold same, before in *. lia. }
    constructor; [exact XY|]. apply IH; auto.
    + intros e I. destruct (H e (or_intror I)) as (e' & [<-|I'] & E); [|exists e'; auto]. exfalso. specialize (Ft _ I). unfold same, before in *. lia.
    + intros e' I'. destruct (H' e' (or_intror I')) as (e & [<-|I] & E); [|exists e; auto]. exfalso. specialize (Fu _ I'). unfold same, before in *. lia.
Qed.

Lemma sorted_split : forall j l, StronglySorted before l -> l = filter (lower j) l ++ filter (at_col j) l ++ filter (upper j) l.
Proof.
  intros j. induction l as [|x t IH]; intros S; [reflexivity|]. inversion S as [|? ? St Ft]; subst. cbn [filter]. unfold lower at 1, at_col at 1, upper at 1.
  assert (Z0 : j <= e_col x -> filter (lower j) t = []).
  { intros J. apply incl_l_nil. intros e I. apply filter_In in I. destruct I as (I & L). rewrite Forall_forall in Ft. specialize (Ft _ I). unfold lower, before in *. lia. }
  assert (Z1 : j < e_col x -> filter (at_col j) t = []).
  { intros J. apply incl_l_nil. intros e I. apply filter_In in I. destruct I as (I & L). rewrite Forall_forall in Ft. specialize (Ft _ I). unfold at_col, before in *. lia. }
  specialize (IH St). destruct (Z.ltb_spec (e_col x) j), (Z.eqb_spec (e_col x) j), (Z.ltb_spec j (e_col x)); try lia.
  - cbn [app]. f_equal. exact IH.
  - rewrite Z0 in * by lia. cbn [app] in *. f_equal. exact IH.
  - rewrite Z0, Z1 in * by lia. cbn [app] in *. f_equal. exact IH.
Qed.

(** ** Filling the vectors *)
Definition counts (es : list entry) (j : Z) : Z := len (filter (lower j) es).
Lemma zat_set : forall (l : list Z) i x l' j, arr_set l i x = Ok l' -> 0 <= j -> zat l' j = if i =? j then x else zat l j.
Proof.
  intros l i x l' j H J. unfold arr_set in H. destruct ((0 <=? i) && (i <? len l)) eqn:B; [|discriminate]. injection H as <-. unfold zat.
  destruct (Z.eqb_spec i j) as [->|N]; [apply list_set_nth_same; lia|apply list_set_nth_other; lia].
Qed.

Lemma fill_ok : forall es done ptr rp rm vp vm i k col n,
    StronglySorted before es -> (forall e, In e es -> col <= e_col e < n) -> (forall j, col < j < n -> exists e, In e es /\ e_col e = j) ->
    k = col + 1 -> 0 <= col < n -> i = len done -> len ptr = n + 1 -> length rp = length done -> length vp = length done ->
    length rm = length es -> length vm = length es -> (forall e, In e done -> e_col e <= col) ->
    (forall j, 0 <= j <= k -> zat ptr j = counts done j) ->
    exists ptr', nu_fill (mkSysmatrix ptr (rp ++ rm) (vp ++ vm)) i k col es = Ok (mkSysmatrix ptr' (rp ++ map e_row es) (vp ++ map e_val es)) /\
      len ptr' = n + 1 /\ forall j, 0 <= j <= n -> zat ptr' j = counts (done ++ es) j.
Proof.
  induction es as [|e t IH]; intros done ptr rp rm vp vm i k col n S R C -> K -> LP LR LV LRM LVM D P.
  - destruct rm; [|discriminate]. destruct vm; [|discriminate]. cbn [nu_fill map]. exists ptr. rewrite !app_nil_r in *. repeat split; [exact LP|]. intros j J.
    apply P. destruct (Z_lt_le_dec (col + 1) n); [|lia]. destruct (C (col + 1)) as (e & [] & _). lia.
  - destruct rm as [|r0 rm]; [discriminate|]. destruct vm as [|v0 vm]; [discriminate|]. cbn [nu_fill sm_rows sm_vals sm_ptr].
    rewrite arr_set_mid by (rewrite LR; reflexivity). rewrite arr_set_mid by (rewrite LV; reflexivity). cbn [bind].
    pose proof (R e (or_introl eq_refl)) as RE. inversion S as [|? ? St Ft]; subst. rewrite Forall_forall in Ft.
    assert (NE : e_col e <= col + 1).
    { destruct (Z_le_gt_dec (e_col e) (col + 1)); [assumption|]. destruct (C (col + 1)) as (e1 & [<-|I1] & E1); [lia|lia|]. specialize (Ft _ I1). unfold before in Ft. lia. }
    assert (STEP : exists ptr2, len ptr2 = n + 1 /\ (forall j, 0 <= j <= e_col e + 1 -> zat ptr2 j = counts (done ++ [e]) j) /\
      (do next <- (if col =? e_col e then Ok (col + 1, ptr)
                else do p <- arr_get ptr (col + 1) ; do ptr <- arr_set ptr (col + 1 + 1) p ; Ok (col + 1 + 1, ptr)) ;
       do p <- arr_get (snd next) (fst next) ;
       do ptr <- arr_set (snd next) (fst next) (p + 1) ;
       nu_fill (mkSysmatrix ptr (rp ++ e_row e :: rm) (vp ++ e_val e :: vm)) (len done + 1) (fst next) (e_col e) t)
      = nu_fill (mkSysmatrix ptr2 (rp ++ e_row e :: rm) (vp ++ e_val e :: vm)) (len done + 1) (e_col e + 1) (e_col e) t).
    { assert (CD : forall j, counts (done ++ [e]) j = counts done j + (if e_col e <? j then 1 else 0)).
      { intros j. unfold counts. rewrite filter_app, app_length. cbn [filter]. unfold lower at 2. destruct (e_col e <? j); cbn [length]; lia. }
      assert (CA : forall j, col < j -> counts done j = len done).
      { intros j J. unfold counts. f_equal. f_equal. apply filter_all. intros x I. specialize (D x I). unfold lower. lia. }
      destruct (Z.eqb_spec col (e_col e)) as [E|E].
      - cbn [bind fst snd]. rewrite (arr_get_ok _ _ 0) by lia. cbn [bind]. fold (zat ptr (col + 1)).
        rewrite arr_set_ok by lia. cbn [bind]. eexists. split; [|split; [|rewrite <- E; reflexivity]]; [rewrite list_set_length; exact LP|].
        intros j J. erewrite zat_set by (first [apply arr_set_ok; lia|lia]). rewrite CD. destruct (Z.eqb_spec (col + 1) j) as [Ej|Ej].
        + rewrite P by lia. rewrite Ej. destruct (Z.ltb_spec (e_col e) j); lia.
        + rewrite P by lia. destruct (Z.ltb_spec (e_col e) j); lia.
      - assert (E1 : e_col e = col + 1) by lia. rewrite (arr_get_ok _ _ 0) by lia. cbn [bind]. fold (zat ptr (col + 1)).
        rewrite arr_set_ok by lia. cbn [bind fst snd]. rewrite (arr_get_ok _ _ 0) by (rewrite list_set_length; lia). cbn [bind].
        rewrite arr_set_ok by (rewrite list_set_length; lia). cbn [bind]. eexists. split; [|split; [|rewrite E1; reflexivity]]; [rewrite !list_set_length; exact LP|].
        intros j J. erewrite zat_set by (first [apply arr_set_ok; rewrite list_set_length; lia|lia]).
        assert (Z2 : zat (list_set ptr (Z.to_nat (col + 1 + 1)) (zat ptr (col + 1))) (col + 1 + 1) = zat ptr (col + 1)).
        { erewrite zat_set by (first [apply arr_set_ok; lia|lia]). rewrite Z.eqb_refl. reflexivity. }
        fold (zat (list_set ptr (Z.to_nat (col + 1 + 1)) (zat ptr (col + 1))) (col + 1 + 1)). rewrite Z2, CD. destruct (Z.eqb_spec (col + 1 + 1) j) as [Ej|Ej].
        + rewrite P by lia. rewrite CA by lia. rewrite <- Ej. rewrite CA by lia. destruct (Z.ltb_spec (e_col e) (col + 1 + 1)); lia.
        + erewrite zat_set by (first [apply arr_set_ok; lia|lia]). destruct (Z.eqb_spec (col + 1 + 1) j); [lia|]. rewrite P by lia. destruct (Z.ltb_spec (e_col e) j); lia. }
    destruct STEP as (ptr2 & L2 & P2 & ->).
    specialize (IH (done ++ [e]) ptr2 (rp ++ [e_row e]) rm (vp ++ [e_val e]) vm (len done + 1) (e_col e + 1) (e_col e) n).
    assert (LD : length (done ++ [e]) = Datatypes.S (length done)) by (rewrite app_length; cbn; lia).
    rewrite !app_length in IH. cbn [length] in *. rewrite <- !app_assoc in IH. cbn [app] in IH.
    destruct IH as (ptr' & E' & L' & P'); auto; try lia.
    + intros x I. split; [|apply R; right; exact I]. specialize (Ft _ I). unfold before in Ft. lia.
    + intros j J. destruct (C j) as (x & [<-|I] & X); [lia|lia|]. exists x. auto.
    + intros x I. apply in_app_or in I. destruct I as [I|[<-|[]]]; [specialize (D x I); lia|lia].
    + exists ptr'. cbn [map]. repeat split; auto.
Qed.

Lemma vectors_ok : forall es n, 0 < n -> StronglySorted before es -> (forall e, In e es -> 0 <= e_col e < n) ->
    (forall j, 0 <= j < n -> exists e, In e es /\ e_col e = j) ->
    exists ptr, nu_vectors (system_matrix_build n (len es)) es = Ok (mkSysmatrix ptr (map e_row es) (map e_val es)) /\
      len ptr = n + 1 /\ forall j, 0 <= j <= n -> zat ptr j = counts es j.
Proof.
  intros es n N S R C. unfold nu_vectors, system_matrix_build. cbn [sm_ptr sm_rows sm_vals]. rewrite Nat2Z.id.
  rewrite arr_set_ok by (rewrite repeat_length; lia). cbn [bind].
  assert (R0 : list_set (repeat 0 (Z.to_nat (n + 1))) (Z.to_nat 0) 0 = repeat 0 (Z.to_nat (n + 1))).
  { replace (Z.to_nat (n + 1)) with (Datatypes.S (Z.to_nat n)) by lia. reflexivity. }
  rewrite R0. rewrite (arr_get_ok _ _ 0) by (rewrite repeat_length; lia). cbn [bind].
  rewrite arr_set_ok by (rewrite repeat_length; lia). cbn [bind].
  destruct es as [|e t]; [destruct (C 0) as (e & [] & _); lia|].
  assert (E0 : e_col e = 0).
  { destruct (C 0) as (e1 & [<-|I1] & E1); [lia|exact E1|]. inversion S as [|? ? St Ft]; subst. rewrite Forall_forall in Ft. specialize (Ft _ I1). pose proof (R e (or_introl eq_refl)). unfold before in Ft. lia. }
  destruct (fill_ok (e :: t) [] (list_set (repeat 0 (Z.to_nat (n + 1))) (Z.to_nat 1) (nth (Z.to_nat 0) (repeat 0 (Z.to_nat (n + 1))) 0)) [] (repeat 0 (length (e :: t))) [] (repeat 0%Q (length (e :: t))) 0 1 0 n)
    as (ptr & E & L & P); auto; try lia.
  - intros j J. apply C. lia.
  - rewrite list_set_length, repeat_length. lia.
  - apply repeat_length.
  - apply repeat_length.
  - intros x [].
  - intros j J. erewrite zat_set by (first [apply arr_set_ok; rewrite repeat_length; lia|lia]). unfold zat, counts. rewrite !nth_repeat. destruct (1 =? j); reflexivity.
  - exists ptr. rewrite E0. cbn [app] in *. auto.
Qed.

(** What the stored matrix denotes. *)
Section Stored.
  Variables (es : list entry) (n : Z) (ptr : list Z).
  Hypotheses (SO : StronglySorted before es) (P : forall j, 0 <= j <= n -> zat ptr j = counts es j) (L : len ptr = n + 1) (N : 0 < n)
    (R : forall e, In e es -> 0 <= e_col e < n /\ 0 <= e_row e < n) (D : forall j, 0 <= j < n -> exists e, In e es /\ e_col e = j /\ e_row e = j).
  Notation M := (mkSysmatrix ptr (map e_row es) (map e_val es)).
  Notation e0 := (mkEntry 0 0 0).

  Lemma counts_next : forall j, counts es (j + 1) = counts es j + len (filter (at_col j) es).
  Proof.
    intros j. unfold counts. clear. induction es as [|e t IH]; [reflexivity|]. unfold lower, at_col in *. cbn [filter].
    destruct (Z.ltb_spec (e_col e) (j + 1)), (Z.ltb_spec (e_col e) j), (Z.eqb_spec (e_col e) j); cbn [length]; lia.
  Qed.
  Lemma at_counts : forall j i, 0 <= i < len (filter (at_col j) es) -> nth (Z.to_nat (counts es j + i)) es e0 = nth (Z.to_nat i) (filter (at_col j) es) e0.
  Proof.
    intros j i I. transitivity (nth (Z.to_nat (counts es j + i)) (filter (lower j) es ++ filter (at_col j) es ++ filter (upper j) es) e0); [f_equal; apply sorted_split, SO|]. unfold counts. rewrite app_nth2 by lia.
    replace (Z.to_nat (len (filter (lower j) es) + i) - length (filter (lower j) es))%nat with (Z.to_nat i) by lia. apply app_nth1. lia.
  Qed.
  Lemma row_at : forall k, zat (map e_row es) k = e_row (nth (Z.to_nat k) es e0).
  Proof. intros k. unfold zat. change 0 with (e_row e0). apply map_nth. Qed.
  Lemma val_at : forall k, qat (map e_val es) k = e_val (nth (Z.to_nat k) es e0).
  Proof. intros k. unfold qat. change 0%Q with (e_val e0). apply map_nth. Qed.
  Lemma counts_le : forall j, counts es j <= len es.
  Proof. intros j. unfold counts. pose proof (sorted_split j es SO) as E. apply (f_equal (@length entry)) in E. rewrite !app_length in E. lia. Qed.

  Lemma stored_csc : csc n M.
  Proof.
    constructor; cbn [sm_ptr sm_rows sm_vals].
    - exact L.
    - rewrite P by lia. unfold counts. rewrite filter_no; [reflexivity|]. intros e I. destruct (R e I). unfold lower. lia.
    - intros j J. rewrite !P by lia. rewrite counts_next. destruct (D j J) as (e & I & E & _).
      assert (H : In e (filter (at_col j) es)) by (apply filter_In; split; [exact I|unfold at_col; lia]). destruct (filter (at_col j) es); [destruct H|cbn [length]; lia].
    - rewrite P by lia. rewrite map_length. apply counts_le.
    - rewrite !map_length. reflexivity.
    - intros k K. rewrite P in K by lia. rewrite row_at. apply R. apply nth_In. pose proof (counts_le n). lia.
    - intros j k J K1 K2. rewrite !P in * by lia. rewrite counts_next in K2. rewrite !row_at.
      replace k with (counts es j + (k - counts es j)) by lia. replace (counts es j + (k - counts es j) + 1) with (counts es j + (k - counts es j + 1)) by lia.
      rewrite !at_counts by lia. set (i := k - counts es j) in *. assert (I : 0 <= i /\ i + 1 < len (filter (at_col j) es)) by lia. clearbody i. clear K1 K2 k.
      assert (S1 : StronglySorted before (filter (at_col j) es)).
      { clear - SO. induction SO as [|x t St IH Ft]; [constructor|]. specialize (IH St). cbn [filter]. destruct (at_col j x); [|exact IH]. constructor; [exact IH|]. rewrite Forall_forall in *. intros y Y. apply filter_In in Y. apply Ft, Y. }
      assert (C1 : forall x, In x (filter (at_col j) es) -> e_col x = j) by (intros x X; apply filter_In in X; unfold at_col in X; lia).
      revert i I S1 C1. generalize (filter (at_col j) es). clear. induction l as [|x t IH]; intros i I S C; [cbn in I; lia|].
      inversion S as [|? ? St Ft]; subst. destruct (Z.eq_dec i 0) as [->|NZ].
      + destruct t as [|y u]; [cbn in I; lia|]. change (e_row x < e_row y). rewrite Forall_forall in Ft. specialize (Ft y (or_introl eq_refl)). pose proof (C x (or_introl eq_refl)). pose proof (C y (or_intror (or_introl eq_refl))). unfold before in Ft. lia.
      + cbn [length] in I. specialize (IH (i - 1)). replace (Z.to_nat i) with (Datatypes.S (Z.to_nat (i - 1))) by lia. replace (Z.to_nat (i + 1)) with (Datatypes.S (Z.to_nat (i - 1 + 1))) by lia. cbn [nth]. apply IH; [lia|exact St|]. intros y Y. apply C. right. exact Y.
    - intros j J. destruct (D j J) as (e & I & E & RE). assert (H : In e (filter (at_col j) es)) by (apply filter_In; split; [exact I|unfold at_col; lia]).
      apply (In_nth _ _ e0) in H. destruct H as (i & LI & X). exists (counts es j + Z.of_nat i). rewrite !P by lia. rewrite counts_next. split; [lia|].
      rewrite row_at, at_counts by lia. rewrite Nat2Z.id, X. exact RE.
  Qed.

  Lemma stored_coefficient : forall i j, 0 <= j < n -> (coefficient M i j == qsum (map e_val (filter (fun e => (e_row e =? i) && at_col j e) es)))%Q.
  Proof.
    intros i j J. unfold coefficient. cbn [sm_ptr sm_rows sm_vals]. rewrite !P by lia. rewrite counts_next.
    transitivity (qsum (map (fun e => if e_row e =? i then e_val e else 0%Q) (filter (at_col j) es))).
    - assert (E : map (fun k => if zat (map e_row es) k =? i then qat (map e_val es) k else 0%Q) (zrange (counts es j) (counts es j + len (filter (at_col j) es) - 1))
                = map (fun e => if e_row e =? i then e_val e else 0%Q) (filter (at_col j) es)); [|rewrite E; reflexivity].
      rewrite (map_ext _ (fun k => (fun e => if e_row e =? i then e_val e else 0%Q) (nth (Z.to_nat k) es e0))) by (intros k; rewrite row_at, val_at; reflexivity).
      rewrite <- (map_map (fun k => nth (Z.to_nat k) es e0) (fun e => if e_row e =? i then e_val e else 0%Q)). f_equal. clear J.
      assert (ZS : forall m a, zrange a (a + Z.of_nat m - 1) = map (fun i => a + Z.of_nat i) (seq 0 m)).
      { intros m. unfold zrange. intros a. replace (Z.to_nat (a + Z.of_nat m - 1 - a + 1)) with m by lia. reflexivity. }
      rewrite ZS, map_map. apply nth_ext with (d := e0) (d' := e0); [rewrite map_length, seq_length; reflexivity|].
      intros q Q. rewrite map_length, seq_length in Q.
      rewrite (nth_indep _ e0 ((fun x => nth (Z.to_nat (counts es j + Z.of_nat x)) es e0) 0%nat)) by (rewrite map_length, seq_length; exact Q).
      rewrite (map_nth (fun x => nth (Z.to_nat (counts es j + Z.of_nat x)) es e0)). rewrite seq_nth by exact Q. cbn [plus]. rewrite at_counts by lia. rewrite Nat2Z.id. reflexivity.
    - clear. induction es as [|e t IH]; [reflexivity|]. cbn [filter]. destruct (at_col j e); rewrite ?andb_true_r, ?andb_false_r; [|exact IH].
      cbn [map]. rewrite qsum_cons, IH. destruct (e_row e =? i); cbn [map]; rewrite ?qsum_cons; ring.
  Qed.
End Stored.
