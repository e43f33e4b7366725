From Coq Require Import ZArith List Bool QArith Lia.
From Verif Require Import Base Dims Floorplan Stack StackSpec StackProofs.
Import ListNotations.
Local Open Scope Z_scope.

Lemma same_string_eq : forall a b, same_string a b = true <-> a = b.
Proof.
  induction a as [|x a IH]; intros [|y b]; cbn; split; intro H; try discriminate; try reflexivity.
  - apply andb_true_iff in H. destruct H as [H1 H2]. apply Z.eqb_eq in H1. apply IH in H2. congruence.
  - injection H as -> ->. rewrite Z.eqb_refl. cbn. apply IH. reflexivity.
Qed.

Lemma made_id : forall ch dc e, made ch dc e -> se_id e = decl_id dc.
Proof.
  intros ch dc e [o H]. destruct dc; cbn [make_element_decl decl_id] in *; try congruence.
  destruct ch; [congruence|discriminate].
Qed.
Lemma made_die : forall ch dc e, made ch dc e -> is_die e = is_die_decl dc.
Proof.
  intros ch dc e [o H]. unfold is_die. destruct dc; cbn [make_element_decl] in H.
  - assert (SKDie (make_die above source below f) = se_kind e) as <- by congruence. reflexivity.
  - assert (SKLayer l = se_kind e) as <- by congruence. reflexivity.
  - destruct ch; [|discriminate]. assert (SKChannel c = se_kind e) as <- by congruence. reflexivity.
Qed.
Lemma make_some : forall ch dc, (is_chan_decl dc = true -> ch <> None) <-> exists e, make_element_decl ch dc = Some e.
Proof.
  intros ch [ | | ]; cbn; try (split; [eauto|discriminate]).
  destruct ch; split; intros; eauto; try discriminate.
  - exfalso. apply H; reflexivity.
  - destruct H. discriminate.
Qed.

Lemma NoDup_app_cons : forall {A} (l : list A) x r, NoDup (l ++ x :: r) -> ~ In x l /\ NoDup ((l ++ [x]) ++ r).
Proof.
  intros A l x r H. rewrite <- app_assoc. split; [|exact H].
  apply NoDup_remove_2 in H. intro I. apply H. apply in_or_app. auto.
Qed.

Lemma NoDup_app_snoc : forall {A} (l : list A) x, NoDup l -> ~ In x l -> NoDup (l ++ [x]).
Proof.
  intros A l x N I. apply NoDup_rev in N. rewrite <- (rev_involutive (l ++ [x])). apply NoDup_rev.
  rewrite rev_app_distr. cbn. constructor; [|exact N]. rewrite <- in_rev. exact I.
Qed.

(** With a first element that is not a channel the loop fails exactly on a
    duplicate identifier or an undeclared channel. *)
Lemma add_elements_iff : forall ch ds first acc,
    is_channel first = false -> NoDup (map se_id (first :: acc)) ->
    ((exists es, add_elements ch (first :: acc) ds = Some es) <->
     NoDup (map se_id (first :: acc) ++ map decl_id ds) /\
     (forall dc, In dc ds -> is_chan_decl dc = true -> ch <> None)).
Proof.
  intros ch ds first. induction ds as [|dc ds IH]; intros acc F N.
  - cbn [add_elements map]. rewrite app_nil_r. split; [|eauto]. intros _. split; [exact N|]. intros dc [].
  - cbn [add_elements]. destruct (make_element_decl ch dc) as [e|] eqn:E.
    + pose proof (made_make _ _ _ E) as M. pose proof (made_id _ _ _ M) as MI.
      rewrite F. cbn [andb].
      change ((first :: acc) ++ [e]) with (first :: (acc ++ [e])).
      destruct (existsb (fun x => same_string (se_id x) (se_id e)) (first :: acc)) eqn:X.
      * split; [intros [es H]; discriminate|]. intros [H _].
        apply existsb_exists in X. destruct X as (x & I & Ex). apply same_string_eq in Ex.
        cbn [map] in H. change (map decl_id (dc :: ds)) with (decl_id dc :: map decl_id ds) in H.
        apply NoDup_app_cons in H. destruct H as [H _]. exfalso. apply H.
        rewrite <- MI, <- Ex. apply (in_map se_id) in I. exact I.
      * assert (N' : NoDup (map se_id (first :: acc ++ [e]))).
        { change (first :: acc ++ [e]) with ((first :: acc) ++ [e]). rewrite map_app.
          apply NoDup_app_snoc; [exact N|]. intro I. apply in_map_iff in I. destruct I as (x & Ex & I).
          assert (existsb (fun x => same_string (se_id x) (se_id e)) (first :: acc) = true); [|congruence].
          apply existsb_exists. exists x. split; [exact I|]. apply same_string_eq. exact Ex. }
        rewrite (IH (acc ++ [e]) F N').
        assert (EQ : map se_id (first :: acc ++ [e]) ++ map decl_id ds = map se_id (first :: acc) ++ map decl_id (dc :: ds)).
        { change (first :: acc ++ [e]) with ((first :: acc) ++ [e]). rewrite map_app, <- app_assoc. cbn [map app]. rewrite MI. reflexivity. }
        rewrite EQ. split; intros [H1 H2]; (split; [exact H1|]).
        -- intros d [->|I] C; [|apply (H2 d); assumption]. apply (proj2 (make_some ch d)); eauto.
        -- intros d I. apply H2. right. exact I.
    + split; [intros [es H]; discriminate|]. intros [_ H]. exfalso.
      destruct (proj1 (make_some ch dc) (H dc (or_introl eq_refl))) as [e' E']. congruence.
Qed.

Lemma add_elements_acceptable : forall ch dc ds, is_chan_decl dc = false ->
    ((exists es, add_elements ch [] (dc :: ds) = Some es) <->
     NoDup (map decl_id (dc :: ds)) /\ (forall d, In d (dc :: ds) -> is_chan_decl d = true -> ch <> None)).
Proof.
  intros ch dc ds C. cbn [add_elements].
  destruct (proj1 (make_some ch dc) ltac:(congruence)) as [e E]. rewrite E.
  pose proof (made_make _ _ _ E) as M.
  rewrite add_elements_iff; [|rewrite (made_chan _ _ _ M); exact C|constructor; [intros []|constructor]].
  cbn [map app]. rewrite (made_id _ _ _ M). split; intros [H1 H2]; (split; [exact H1|]).
  - intros d [->|I] Cd; [congruence|apply (H2 d); assumption].
  - intros d I. apply H2. right. exact I.
Qed.

Lemma parse_stack_accepts : forall ch ds,
    declared ch -> Z.of_nat (length (stack_heights ch ds)) < two32 ->
    (acceptable ch ds <-> exists es hs, parse_stack ch ds = Ok (Some (es, hs))) /\
    (~ acceptable ch ds -> parse_stack ch ds = Ok None).
Proof.
  intros ch ds D L. pose proof (declared_ok ch D) as Hc.
  assert (TOT : parse_stack ch ds = Ok None \/ exists es hs, parse_stack ch ds = Ok (Some (es, hs))).
  { unfold parse_stack. destruct (add_elements ch [] ds) as [es|] eqn:E; [|auto].
    apply add_elements_spec in E. destruct E as (es' & K & F). cbn in K. subst es.
    destruct es' as [|t r]; [auto|]. destruct (negb _); [auto|]. destruct (is_channel (last _ _)); [auto|].
    destruct (is_channel t); [auto|].
    pose proof (set_offsets_laid ch (rev ds) (rev (t :: r)) 0 Hc (Forall2_rev' _ _ _ F) ltac:(lia)) as S.
    rewrite stack_heights_rev_length in S. specialize (S ltac:(lia)).
    destruct (set_offsets (rev (t :: r)) 0) as [bu n] eqn:EB. cbn [fst snd] in S. destruct S as [S1 S2].
    pose proof (laid_heights _ _ _ _ Hc S1) as HH. rewrite rev_involutive in HH.
    rewrite HH, rev_length. rewrite (proj2 (Z.eqb_eq _ n)) by lia. eauto. }
  assert (IFF : acceptable ch ds <-> exists es hs, parse_stack ch ds = Ok (Some (es, hs))).
  { split.
    - intros (A1 & (d1 & I1 & Dd1) & (d2 & N2 & C2) & (d3 & N3 & C3) & A5).
      destruct ds as [|dc ds']; [discriminate|]. cbn in N2. assert (dc = d2) by congruence. subst d2.
      destruct (proj2 (add_elements_acceptable ch dc ds' C2)) as [es E].
      { split; [exact A1|]. intros d I Cd. apply A5. eauto. }
      destruct TOT as [T|T]; [|exact T]. exfalso. unfold parse_stack in T. rewrite E in T.
      apply add_elements_spec in E. destruct E as (es' & K & F). cbn in K. subst es.
      inversion F as [|? e0 ? r M0 F']; subst. 
      assert (X1 : existsb is_die (e0 :: r) = true).
      { apply existsb_exists. apply In_nth_error in I1. destruct I1 as [i I1].
        assert (exists e, nth_error (e0 :: r) i = Some e /\ made ch d1 e) as (e & Ne & Me).
        { clear - F I1. revert i I1. induction F as [|a b l l' R F IH]; intros [|i] I; cbn in *; try discriminate.
          - exists b. split; [reflexivity|congruence].
          - apply IH. exact I. }
        exists e. split; [eapply nth_error_In; eassumption|]. rewrite (made_die _ _ _ Me). exact Dd1. }
      rewrite X1 in T. cbn [negb] in T.
      assert (X2 : is_channel (last (e0 :: r) e0) = false).
      { assert (made ch d3 (last (e0 :: r) e0)) as M3.
        { clear - F N3. remember e0 as d eqn:Q in |- * at 2. clear Q.
          assert (forall (l : list stack_decl) (l' : list stkel), Forall2 (made ch) l l' -> l <> [] ->
                    forall d3, nth_error l (length l - 1) = Some d3 -> made ch d3 (last l' d)) as G.
          { intros l l' FF. induction FF as [|a b l l' R FF IH]; intros NE x N; [congruence|].
            destruct FF as [|a' b' l l' R' FF].
            - cbn in N |- *. congruence.
            - change (last (b :: b' :: l') d) with (last (b' :: l') d). apply IH; [discriminate|].
              cbn [length] in N |- *. replace (S (S (length l)) - 1)%nat with (S (length l)) in N by lia.
              replace (S (length l) - 1)%nat with (length l) by lia. exact N. }
          apply (G (dc :: ds') (e0 :: r) F); [discriminate|exact N3]. }
        rewrite (made_chan _ _ _ M3). exact C3. }
      rewrite X2 in T. rewrite (made_chan _ _ _ M0), C2 in T.
      destruct (set_offsets (rev (e0 :: r)) 0) as [bu n]. destruct (_ =? _) in T; discriminate.
    - intros (es & hs & P). pose proof (parse_stack_spec ch ds es hs Hc L P) as (LD & _ & NE & (e1 & H1 & C1) & (e2 & H2 & C2) & DI).
      assert (LL := laid_length _ _ _ _ LD). rewrite !rev_length in LL.
      assert (EL : forall i e, nth_error es i = Some e -> exists dc, nth_error ds i = Some dc /\ made ch dc e).
      { intros i e E. assert (Hi : (i < length es)%nat) by (apply nth_error_Some; rewrite E; discriminate).
        assert (E' : nth_error (rev es) (length es - 1 - i) = Some e).
        { rewrite nth_error_rev by lia. replace (length es - 1 - (length es - 1 - i))%nat with i by lia. exact E. }
        destruct (laid_nth _ _ _ _ LD _ _ E') as (dc & N & M & O). exists dc. split; [|exact M].
        rewrite nth_error_rev in N by lia. rewrite <- N. f_equal. lia. }
      assert (FST : exists dc, nth_error ds 0 = Some dc /\ is_chan_decl dc = false).
      { destruct (EL 0%nat e1) as (dc & N & M); [destruct es; [discriminate|exact H1]|].
        exists dc. split; [exact N|]. rewrite <- (made_chan _ _ _ M). exact C1. }
      destruct FST as (d0 & N0 & CD0).
      assert (ADD : NoDup (map decl_id ds) /\ (forall d, In d ds -> is_chan_decl d = true -> ch <> None)).
      { destruct ds as [|dc ds']; [discriminate|]. cbn in N0. assert (dc = d0) by congruence. subst dc.
        apply (add_elements_acceptable ch d0 ds' CD0).
        unfold parse_stack in P. destruct (add_elements ch [] (d0 :: ds')); [eauto|discriminate]. }
      destruct ADD as [ND CH]. unfold acceptable. split; [exact ND|].
      split; [|split; [eauto|split]].
      + apply existsb_exists in DI. destruct DI as (e & I & De). apply In_nth_error in I. destruct I as [i I].
        destruct (EL i e I) as (dc & N & M). exists dc. split; [eapply nth_error_In; eassumption|].
        rewrite <- (made_die _ _ _ M). exact De.
      + destruct (EL (length ds - 1)%nat e2) as (dc & N & M).
        { rewrite <- LL. assert (0 < length es)%nat by (destruct es; [congruence|cbn; lia]).
          replace (length es - 1)%nat with (length es - 1 - 0)%nat by lia.
          rewrite <- (nth_error_rev es 0) by lia. destruct (rev es); [discriminate|exact H2]. }
        exists dc. split; [exact N|]. rewrite <- (made_chan _ _ _ M). exact C2.
      + intros (d & I & Cd). apply (CH d I Cd). }
  split; [apply IFF|]. intro NA. destruct TOT as [T|T]; [exact T|]. exfalso. apply NA, IFF. exact T.
Qed.
