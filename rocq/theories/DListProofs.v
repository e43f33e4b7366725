From Coq Require Import ZArith List Bool Lia.
From Verif Require Import Base Queue DList.
Import ListNotations.

Section Proofs.
Context {A : Type}.

Fixpoint chain (m : nat -> option (node A)) (prev : ptr) (addrs : list nat) (xs : list A)
         (nxt : ptr) : Prop :=
  match addrs, xs with
  | [], [] => True
  | a :: t, x :: xt =>
      m a = Some (mkNode x prev (match t with [] => nxt | b :: _ => Some b end))
      /\ chain m (Some a) t xt nxt
  | _, _ => False
  end.

Definition hd_ptr (l : list nat) : ptr := match l with [] => None | a :: _ => Some a end.
Definition last_ptr (p : ptr) (l : list nat) : ptr := fold_left (fun _ a => Some a) l p.

Record lrep (h : heap A) (l : header) (addrs : list nat) (xs : list A) : Prop := {
  lr_chain : chain (hp_mem h) None addrs xs None;
  lr_first : l_first l = hd_ptr addrs;
  lr_last : l_last l = last_ptr None addrs;
  lr_size : l_size l = u32 (Z.of_nat (length xs));
  lr_nodup : NoDup addrs;
  lr_lt : Forall (fun a => a < hp_next h) addrs
}.

Lemma chain_length : forall addrs m p xs n, chain m p addrs xs n -> length addrs = length xs.
Proof.
  induction addrs as [|a t IH]; intros m p [|x xt] n H; simpl in *; try tauto.
  destruct H as [_ H]. f_equal. eapply IH; eauto.
Qed.

Lemma chain_ext : forall addrs m m' p xs n,
    (forall a, In a addrs -> m' a = m a) -> chain m p addrs xs n -> chain m' p addrs xs n.
Proof.
  induction addrs as [|a t IH]; intros m m' p [|x xt] n E H; simpl in *; try tauto.
  destruct H as [H1 H2]. split.
  - rewrite E by (left; reflexivity). exact H1.
  - eapply IH; eauto.
Qed.

Lemma last_ptr_app : forall l1 l2 p, last_ptr p (l1 ++ l2) = last_ptr (last_ptr p l1) l2.
Proof. intros. unfold last_ptr. apply fold_left_app. Qed.

Lemma last_ptr_some : forall l p, l <> [] -> exists a, last_ptr p l = Some a /\ In a l.
Proof.
  induction l as [|a t IH]; intros p H; [tauto|].
  destruct t as [|b t'].
  - exists a. simpl. auto.
  - destruct (IH (Some a)) as (c & Hc & Hin); [discriminate|].
    exists c. split; [exact Hc|right; exact Hin].
Qed.

Lemma chain_app : forall as1 xs1 m p n as2 xs2,
    length as1 = length xs1 ->
    (chain m p (as1 ++ as2) (xs1 ++ xs2) n <->
     chain m p as1 xs1 (match as2 with [] => n | b :: _ => Some b end)
     /\ chain m (last_ptr p as1) as2 xs2 n).
Proof.
  induction as1 as [|a t IH]; intros [|x xt] m p n as2 xs2 L; simpl in *; try discriminate.
  - tauto.
  - rewrite (IH xt m (Some a) n as2 xs2) by lia.
    destruct t as [|b t']; simpl; tauto.
Qed.

Lemma is_null_last : forall l, is_null (last_ptr None l) = is_null (hd_ptr l).
Proof.
  intros [|a t]; [reflexivity|].
  destruct (last_ptr_some (a :: t) None) as (c & Hc & _); [discriminate|].
  rewrite Hc. reflexivity.
Qed.

Lemma set_reg_same : forall {B} (f : nat -> B) r v, set_reg f r v r = v.
Proof. intros. unfold set_reg. rewrite Nat.eqb_refl. reflexivity. Qed.

Lemma set_reg_other : forall {B} (f : nat -> B) r v r', r' <> r -> set_reg f r v r' = f r'.
Proof.
  intros. unfold set_reg. destruct (Nat.eqb_spec r' r); [contradiction|reflexivity].
Qed.

(** frame: [h'] agrees with [h] on allocated addresses outside [touched] *)
Definition frame (h h' : heap A) (touched : list nat) : Prop :=
  hp_next h <= hp_next h' /\
  forall a, a < hp_next h -> ~ In a touched -> hp_mem h' a = hp_mem h a.

Lemma lrep_frame : forall h h' t l addrs xs,
    frame h h' t -> lrep h l addrs xs -> (forall a, In a addrs -> ~ In a t) ->
    lrep h' l addrs xs.
Proof.
  intros h h' t l addrs xs [Hn F] [Hc Hf Hl Hs Hnd Hlt] D.
  rewrite Forall_forall in Hlt.
  split; auto.
  - eapply chain_ext; [|exact Hc]. intros a Ha. apply F; auto.
  - apply Forall_forall. intros a Ha. specialize (Hlt a Ha). lia.
Qed.

(** *** insert_end *)
Lemma insert_end_spec : forall h l addrs xs x,
    lrep h l addrs xs ->
    exists h' l', list_insert_end h l x = Ok (h', l')
      /\ lrep h' l' (addrs ++ [hp_next h]) (xs ++ [x])
      /\ frame h h' addrs /\ hp_next h' = S (hp_next h).
Proof.
  intros h l addrs xs x [Hc Hf Hl Hs Hnd Hlt].
  unfold list_insert_end, new_node. rewrite Hf, Hl, is_null_last, andb_diag.
  pose proof (chain_length _ _ _ _ _ Hc) as Hlen.
  assert (u32 (l_size l + 1) = u32 (Z.of_nat (length (xs ++ [x])))) as Hsz.
  { rewrite Hs, app_length. cbn [length]. unfold u32. rewrite Zplus_mod_idemp_l. f_equal. lia. }
  rewrite Forall_forall in Hlt.
  assert (NoDup (addrs ++ [hp_next h])) as Hnd'.
  { clear - Hnd Hlt. induction addrs as [|a t IH]; simpl.
    - constructor; [simpl; tauto|constructor].
    - inversion Hnd; subst. constructor.
      + rewrite in_app_iff. simpl. intros [H|[H|[]]]; [contradiction|].
        specialize (Hlt a (or_introl eq_refl)). lia.
      + apply IH; auto. intros b Hb. apply Hlt. right; exact Hb. }
  assert (addrs = [] \/ addrs <> []) as [Ea|Hne] by (destruct addrs; [left|right]; congruence).
  - subst addrs. cbn [hd_ptr is_null]. destruct xs; [|simpl in Hlen; discriminate].
    eexists _, _. split; [reflexivity|]. split; [|split].
    + split; cbn; auto.
      rewrite set_reg_same. auto.
    + split; cbn; [lia|]. intros a Ha _. apply set_reg_other. lia.
    + reflexivity.
  - assert (is_null (hd_ptr addrs) = false) as Hnn by (destruct addrs; [congruence|reflexivity]).
    rewrite Hnn.
    destruct (last_ptr_some addrs None Hne) as (la & Hla & Hin).
    assert (exists ys y bs, xs = ys ++ [y] /\ addrs = bs ++ [la] /\ length bs = length ys)
      as (ys & y & bs & -> & Hbs & Hlb).
    { destruct (exists_last Hne) as (bs & b & Eb).
      rewrite Eb in Hla. rewrite last_ptr_app in Hla. simpl in Hla. injection Hla as ->.
      assert (xs <> []) as Hxne by (destruct xs; [destruct addrs; [congruence|simpl in Hlen; discriminate]|discriminate]).
      destruct (exists_last Hxne) as (ys & y & Ey).
      exists ys, y, bs. repeat split; auto. rewrite Eb, Ey, !app_length in Hlen. simpl in Hlen. lia. }
    subst addrs.
    rewrite (chain_app bs ys) in Hc by exact Hlb. destruct Hc as [Hc1 [Hc2 _]].
    cbn [hp_next].
    unfold write_prev, deref. cbn [hp_mem]. rewrite set_reg_same. cbn [bind n_data n_next].
    rewrite Hla. unfold write_next, deref, heap_set. cbn [hp_mem hp_next].
    assert (la < hp_next h) as Hlal by (apply Hlt; exact Hin).
    assert (forall b, In b bs -> b < hp_next h /\ b <> la) as Hb.
    { intros b Hb. split; [apply Hlt; apply in_or_app; auto|].
      intros ->. apply NoDup_remove_2 in Hnd. apply Hnd. rewrite app_nil_r. exact Hb. }
    rewrite !(set_reg_other _ (hp_next h)) by lia. rewrite Hc2. cbn [bind n_data n_prev].
    eexists _, _. split; [reflexivity|]. split; [|split].
    + split; cbn [l_first l_last l_size hp_mem hp_next]; auto.
      * rewrite <- !app_assoc. cbn [app].
        apply chain_app; [exact Hlb|]. split.
        -- eapply chain_ext; [|exact Hc1]. intros b Hbb. destruct (Hb b Hbb).
           rewrite !set_reg_other by lia. reflexivity.
        -- cbn [chain]. rewrite set_reg_same. split; [reflexivity|].
           rewrite set_reg_other by lia. rewrite !set_reg_same. auto.
      * destruct bs; reflexivity.
      * rewrite last_ptr_app. reflexivity.
      * apply Forall_forall. intros b Hbb. apply in_app_or in Hbb.
        destruct Hbb as [Hbb|[<-|[]]]; [specialize (Hlt b Hbb); lia|lia].
    + split; cbn [hp_next]; [lia|]. intros b Hb1 Hb2. cbn [hp_mem].
      assert (b <> la) by (intros ->; apply Hb2; apply in_or_app; right; left; reflexivity).
      rewrite !set_reg_other by lia. reflexivity.
    + reflexivity.
Qed.

(** *** insert_begin *)
Lemma insert_begin_spec : forall h l addrs xs x,
    lrep h l addrs xs ->
    exists h' l', list_insert_begin h l x = Ok (h', l')
      /\ lrep h' l' (hp_next h :: addrs) (x :: xs)
      /\ frame h h' addrs /\ hp_next h' = S (hp_next h).
Proof.
  intros h l addrs xs x [Hc Hf Hl Hs Hnd Hlt].
  unfold list_insert_begin, new_node. rewrite Hf, Hl, is_null_last, andb_diag, orb_diag.
  pose proof (chain_length _ _ _ _ _ Hc) as Hlen.
  assert (u32 (l_size l + 1) = u32 (Z.of_nat (length (x :: xs)))) as Hsz.
  { rewrite Hs. cbn [length]. unfold u32. rewrite Zplus_mod_idemp_l. f_equal. lia. }
  rewrite Forall_forall in Hlt.
  assert (NoDup (hp_next h :: addrs)) as Hnd'.
  { constructor; auto. intros H. specialize (Hlt _ H). lia. }
  destruct addrs as [|a0 t0]; cbn [hd_ptr is_null].
  - destruct xs; [|simpl in Hlen; discriminate].
    eexists _, _. split; [reflexivity|]. split; [|split].
    + split; cbn; auto. rewrite set_reg_same. auto.
    + split; cbn; [lia|]. intros a Ha _. apply set_reg_other. lia.
    + reflexivity.
  - destruct xs as [|x0 xs0]; [simpl in Hlen; discriminate|].
    destruct Hc as [Hc1 Hc2].
    assert (a0 < hp_next h) as Ha0 by (apply Hlt; left; reflexivity).
    unfold write_next, deref. cbn [hp_mem]. rewrite set_reg_same. cbn [bind n_data n_prev].
    unfold write_prev, deref, heap_set. cbn [hp_mem hp_next].
    rewrite !(set_reg_other _ (hp_next h)) by lia. rewrite Hc1. cbn [bind n_data n_next].
    inversion Hnd as [|? ? Hnotin Hnd0]; subst.
    eexists _, _. split; [reflexivity|]. split; [|split].
    + split; cbn [l_first l_last l_size hp_mem hp_next]; auto.
      * cbn [chain]. rewrite set_reg_other by lia. rewrite !set_reg_same.
        split; [reflexivity|]. split; [reflexivity|].
        eapply chain_ext; [|exact Hc2]. intros b Hb.
        assert (b < hp_next h) by (apply Hlt; right; exact Hb).
        assert (b <> a0) by (intros ->; contradiction).
        rewrite !set_reg_other by lia. reflexivity.
      * apply Forall_forall. intros b [<-|Hb]; [lia|]. specialize (Hlt b Hb). lia.
    + split; cbn [hp_next]; [lia|]. intros b Hb1 Hb2. cbn [hp_mem].
      assert (b <> a0) by (intros ->; apply Hb2; left; reflexivity).
      rewrite !set_reg_other by lia. reflexivity.
    + reflexivity.
Qed.

(** *** merge *)
Lemma merge_spec : forall h l1 l2 as1 as2 xs1 xs2,
    lrep h l1 as1 xs1 -> lrep h l2 as2 xs2 -> (forall a, In a as1 -> ~ In a as2) ->
    exists h' l1' l2', list_merge h l1 l2 = Ok (h', l1', l2')
      /\ lrep h' l1' (as1 ++ as2) (xs1 ++ xs2)
      /\ lrep h' l2' [] []
      /\ frame h h' (as1 ++ as2) /\ hp_next h' = hp_next h.
Proof.
  intros h l1 l2 as1 as2 xs1 xs2 R1 R2 D.
  pose proof R1 as [Hc1 Hf1 Hl1 Hs1 Hnd1 Hlt1]. pose proof R2 as [Hc2 Hf2 Hl2 Hs2 Hnd2 Hlt2].
  assert (forall h', lrep h' list_init [] []) as Remp.
  { intros h'. split; cbn; auto; constructor. }
  pose proof (chain_length _ _ _ _ _ Hc1) as Hlen1.
  pose proof (chain_length _ _ _ _ _ Hc2) as Hlen2.
  assert (frame h h (as1 ++ as2)) as Fid by (split; auto).
  unfold list_merge. rewrite Hf1.
  destruct as1 as [|a1 t1]; cbn [hd_ptr].
  - destruct xs1; [|simpl in Hlen1; discriminate].
    eexists _, _, _. split; [reflexivity|]. split; [|split; [|split]]; auto.
    cbn [app]. split; cbn; auto.
  - rewrite Hf2. destruct as2 as [|a2 t2]; cbn [hd_ptr].
    + destruct xs2; [|simpl in Hlen2; discriminate].
      eexists _, _, _. split; [reflexivity|]. split; [|split; [|split]]; auto.
      rewrite !app_nil_r. exact R1.
    + set (as1 := a1 :: t1) in *.
      assert (as1 <> []) as Hne by (subst as1; discriminate).
      assert (Some a1 = hd_ptr as1) as Hhd by reflexivity.
      destruct (exists_last Hne) as (bs & la & Eb).
      assert (xs1 <> []) as Hxne by (destruct xs1; [subst as1; simpl in Hlen1; discriminate|discriminate]).
      destruct (exists_last Hxne) as (ys & y & Ey).
      assert (length bs = length ys) as Hlb.
      { rewrite Eb, Ey, !app_length in Hlen1. simpl in Hlen1. lia. }
      clearbody as1.
      destruct xs2 as [|x2 xs2']; [simpl in Hlen2; discriminate|].
      subst as1 xs1. rewrite (chain_app bs ys) in Hc1 by exact Hlb.
      destruct Hc1 as [Hc1a [Hc1b _]]. destruct Hc2 as [Hc2a Hc2b].
      assert (last_ptr None (bs ++ [la]) = Some la) as Hla by (rewrite last_ptr_app; reflexivity).
      rewrite Hl1, Hla. unfold write_next, deref, heap_set. rewrite Hc1b. cbn [bind n_data n_prev].
      assert (la <> a2) as Hneq.
      { intros ->. apply (D a2); [apply in_or_app; right; left; reflexivity|left; reflexivity]. }
      unfold write_prev, deref, heap_set. cbn [hp_mem hp_next].
      rewrite set_reg_other by auto. rewrite Hc2a. cbn [bind n_data n_next].
      inversion Hnd2 as [|? ? Hni2 Hnd2']; subst.
      eexists _, _, _. split; [reflexivity|]. split; [|split; [|split]]; auto.
      * split; cbn [l_first l_last l_size hp_mem hp_next].
        -- rewrite <- !app_assoc. cbn [app]. apply chain_app; [exact Hlb|]. split.
           ++ eapply chain_ext; [|exact Hc1a]. intros b Hb.
              assert (b <> la).
              { intros ->. apply NoDup_remove_2 in Hnd1. apply Hnd1. rewrite app_nil_r. exact Hb. }
              assert (b <> a2).
              { intros ->. apply (D a2); [apply in_or_app; left; exact Hb|left; reflexivity]. }
              rewrite !set_reg_other by auto. reflexivity.
           ++ cbn [chain]. rewrite set_reg_other by auto. rewrite !set_reg_same.
              split; [reflexivity|]. split; [reflexivity|].
              eapply chain_ext; [|exact Hc2b]. intros b Hb.
              assert (b <> a2) by (intros ->; contradiction).
              assert (b <> la).
              { intros ->. apply (D la); [apply in_or_app; right; left; reflexivity|right; exact Hb]. }
              rewrite !set_reg_other by auto. reflexivity.
        -- rewrite Hhd. destruct bs; reflexivity.
        -- rewrite Hl2. rewrite last_ptr_app, Hla. reflexivity.
        -- rewrite Hs1, Hs2. rewrite (app_length (ys ++ [y])). unfold u32.
           rewrite <- Zplus_mod. f_equal. lia.
        -- clear - Hnd1 Hnd2 D.
           induction (bs ++ [la]) as [|b t IH]; [exact Hnd2|].
           inversion Hnd1; subst. cbn [app]. constructor.
           ++ rewrite in_app_iff. intros [H|H]; [contradiction|].
              apply (D b); [left; reflexivity|exact H].
           ++ apply IH; auto. intros a Ha. apply D. right; exact Ha.
        -- apply Forall_app. split; assumption.
      * split; cbn [hp_next]; [lia|]. intros b Hb1 Hb2. cbn [hp_mem].
        rewrite !in_app_iff in Hb2. simpl in Hb2.
        assert (b <> la) by (intros ->; tauto). assert (b <> a2) by (intros ->; tauto).
        rewrite !set_reg_other by auto. reflexivity.
Qed.

(** *** destroy *)
Lemma nodup_lt_length : forall (l : list nat) n,
    NoDup l -> Forall (fun a => a < n) l -> length l <= n.
Proof.
  intros l n Hnd Hlt. rewrite <- (seq_length n 0).
  apply NoDup_incl_length; auto.
  intros a Ha. rewrite Forall_forall in Hlt. apply in_seq. specialize (Hlt a Ha). lia.
Qed.

Lemma destroy_loop_spec : forall addrs xs fuel h p,
    chain (hp_mem h) p addrs xs None -> NoDup addrs -> length addrs <= fuel ->
    exists h', destroy_loop fuel h (hd_ptr addrs) = Ok h'
      /\ hp_next h' = hp_next h
      /\ (forall a, ~ In a addrs -> hp_mem h' a = hp_mem h a).
Proof.
  induction addrs as [|a t IH]; intros xs fuel h p Hc Hnd Hfu.
  - exists h. destruct fuel; cbn; auto.
  - destruct xs as [|x xt]; [destruct Hc|]. destruct Hc as [H1 H2].
    destruct fuel as [|f]; [simpl in Hfu; lia|]. simpl in Hfu.
    cbn [hd_ptr destroy_loop deref]. rewrite H1. cbn [bind n_next].
    inversion Hnd as [|? ? Hni Hnd']; subst.
    destruct (IH xt f (heap_set h a None) (Some a)) as (h' & Hh & Hn & Hf); auto.
    + eapply chain_ext; [|exact H2]. intros b Hb. cbn. apply set_reg_other.
      intros ->. contradiction.
    + lia.
    + exists h'. split.
      * destruct t; exact Hh.
      * split; [exact Hn|]. intros b Hb. simpl in Hb. rewrite Hf by tauto.
        cbn. apply set_reg_other. intros ->. tauto.
Qed.

Lemma destroy_spec : forall h l addrs xs, lrep h l addrs xs ->
    exists h', list_destroy h l = Ok (h', list_init)
      /\ frame h h' addrs /\ hp_next h' = hp_next h.
Proof.
  intros h l addrs xs [Hc Hf Hl Hs Hnd Hlt]. unfold list_destroy. rewrite Hf.
  destruct (destroy_loop_spec addrs xs (S (hp_next h)) h None Hc Hnd) as (h' & Hh & Hn & Hm).
  - pose proof (nodup_lt_length _ _ Hnd Hlt). lia.
  - rewrite Hh. cbn [bind]. exists h'. split; [reflexivity|]. split; [|exact Hn].
    split; [lia|]. intros a _ Ha. auto.
Qed.

(** *** copy *)
Lemma copy_nodes_spec : forall addrs xs fuel h p dst das dxs,
    chain (hp_mem h) p addrs xs None -> Forall (fun a => a < hp_next h) addrs ->
    lrep h dst das dxs -> (forall a, In a addrs -> ~ In a das) -> length addrs <= fuel ->
    exists h' dst' das', copy_nodes fuel h dst (hd_ptr addrs) = Ok (h', dst')
      /\ lrep h' dst' das' (dxs ++ xs) /\ frame h h' das
      /\ (forall a, In a das' -> In a das \/ hp_next h <= a).
Proof.
  induction addrs as [|a t IH]; intros xs fuel h p dst das dxs Hc Hlt Rd D Hfu.
  - destruct xs; [|destruct Hc]. exists h, dst, das. destruct fuel; cbn.
    all: rewrite app_nil_r; repeat split; auto.
    all: try (apply Rd).
  - destruct xs as [|x xt]; [destruct Hc|]. destruct Hc as [H1 H2].
    destruct fuel as [|f]; [simpl in Hfu; lia|]. simpl in Hfu.
    cbn [hd_ptr copy_nodes]. unfold deref at 1. rewrite H1. cbn [bind n_data].
    destruct (insert_end_spec h dst das dxs x Rd) as (h1 & d1 & E1 & R1 & F1 & N1).
    rewrite E1. cbn [bind fst snd]. unfold deref at 1.
    inversion Hlt as [|? ? Hal Hlt']; subst.
    assert (hp_mem h1 a = hp_mem h a) as Ea.
    { apply F1; auto. apply D. left; reflexivity. }
    rewrite Ea, H1. cbn [bind n_next].
    assert (forall b, In b t -> b < hp_next h) as Hltb.
    { intros b Hb. rewrite Forall_forall in Hlt'. auto. }
    destruct (IH xt f h1 (Some a) d1 (das ++ [hp_next h]) (dxs ++ [x]))
      as (h2 & d2 & das2 & E2 & R2 & F2 & S2); auto.
    + eapply chain_ext; [|exact H2]. intros b Hb. apply F1; auto.
      apply D. right; exact Hb.
    + apply Forall_forall. intros b Hb. specialize (Hltb b Hb). lia.
    + intros b Hb. rewrite in_app_iff. simpl. intros [Hd|[Hd|[]]].
      * apply (D b); auto. right; exact Hb.
      * specialize (Hltb b Hb). lia.
    + lia.
    + exists h2, d2, das2. split.
      { destruct t; exact E2. }
      rewrite <- app_assoc in R2. cbn [app] in R2. split; [exact R2|]. split.
      * split; [destruct F2; lia|]. intros b Hb1 Hb2.
        destruct F2 as [_ F2]. rewrite F2.
        -- apply F1; auto.
        -- lia.
        -- rewrite in_app_iff. simpl. intros [H|[H|[]]]; [contradiction|lia].
      * intros b Hb. destruct (S2 b Hb) as [H|H].
        -- apply in_app_or in H. destruct H as [H|[H|[]]]; [left; exact H|right; lia].
        -- right. lia.
Qed.

Lemma copy_spec : forall h dst src das sas dxs sxs,
    lrep h dst das dxs -> lrep h src sas sxs -> (forall a, In a sas -> ~ In a das) ->
    exists h' dst' das', list_copy h dst src = Ok (h', dst')
      /\ lrep h' dst' das' sxs /\ frame h h' das
      /\ (forall a, In a das' -> hp_next h <= a).
Proof.
  intros h dst src das sas dxs sxs Rd Rs D. unfold list_copy.
  destruct (destroy_spec h dst das dxs Rd) as (h1 & E1 & F1 & N1). rewrite E1. cbn [bind fst snd].
  assert (lrep h1 src sas sxs) as Rs1 by (eapply lrep_frame; eauto).
  pose proof Rs as [_ _ _ _ Hnd Hlt].
  destruct Rs1 as [Hc Hf Hl Hs Hnd1 Hlt1]. rewrite Hf.
  destruct (copy_nodes_spec sas sxs (S (hp_next h)) h1 None list_init [] [])
    as (h2 & d2 & das2 & E2 & R2 & F2 & S2); auto.
  - split; cbn; auto; constructor.
  - pose proof (nodup_lt_length _ _ Hnd Hlt). lia.
  - exists h2, d2, das2. split; [exact E2|]. split; [exact R2|]. split.
    + split; [destruct F2; lia|]. intros a Ha1 Ha2. destruct F2 as [_ F2].
      rewrite F2; [apply F1; auto|lia|simpl; tauto].
    + intros a Ha. destruct (S2 a Ha) as [[]|H]. lia.
Qed.

(** *** observations *)
Lemma walk_fwd_chain : forall addrs xs fuel h p,
    chain (hp_mem h) p addrs xs None -> length addrs <= fuel ->
    walk true fuel h (hd_ptr addrs) = Ok xs.
Proof.
  induction addrs as [|a t IH]; intros xs fuel h p Hc Hfu.
  - destruct xs; [|destruct Hc]. destruct fuel; reflexivity.
  - destruct xs as [|x xt]; [destruct Hc|]. destruct Hc as [H1 H2].
    destruct fuel as [|f]; [simpl in Hfu; lia|]. simpl in Hfu.
    cbn [hd_ptr walk deref]. rewrite H1. cbn [bind n_next n_data].
    match goal with |- context [walk true f h ?p] => change p with (hd_ptr t) end.
    rewrite (IH xt f h (Some a) H2) by lia. reflexivity.
Qed.

Lemma walk_bwd_chain : forall n addrs xs fuel h nxt,
    length addrs = n ->
    chain (hp_mem h) None addrs xs nxt -> length addrs <= fuel ->
    walk false fuel h (last_ptr None addrs) = Ok (rev xs).
Proof.
  induction n as [|n IH]; intros addrs xs fuel h nxt Hn Hc Hfu.
  - destruct addrs; [|discriminate]. destruct xs; [|destruct Hc]. destruct fuel; reflexivity.
  - pose proof (chain_length _ _ _ _ _ Hc) as Hlen.
    destruct (@exists_last _ addrs) as (bs & la & ->); [destruct addrs; discriminate|].
    destruct (@exists_last _ xs) as (ys & y & ->);
      [destruct xs; [rewrite app_length in Hlen; simpl in Hlen; lia|discriminate]|].
    rewrite !app_length in *. simpl in *.
    assert (length bs = length ys) as Hl by lia.
    rewrite (chain_app bs ys) in Hc by exact Hl. destruct Hc as [Hc1 [Hc2 _]].
    rewrite last_ptr_app. cbn [last_ptr fold_left].
    destruct fuel as [|f]; [lia|]. cbn [walk deref]. rewrite Hc2. cbn [bind n_prev n_data].
    rewrite (IH bs ys f h _ ltac:(lia) Hc1) by lia. cbn [bind].
    rewrite rev_app_distr. reflexivity.
Qed.

Lemma lrep_observe : forall h l addrs xs, lrep h l addrs xs ->
    walk_forward h l = Ok xs /\ walk_backward h l = Ok (rev xs)
    /\ l_size l = u32 (Z.of_nat (length xs)).
Proof.
  intros h l addrs xs [Hc Hf Hl Hs Hnd Hlt].
  pose proof (nodup_lt_length _ _ Hnd Hlt) as Hle.
  unfold walk_forward, walk_backward. rewrite Hf, Hl.
  split; [|split; [|exact Hs]].
  - eapply walk_fwd_chain; eauto.
  - eapply walk_bwd_chain; eauto.
Qed.

Lemma find_loop_chain : forall eq addrs xs fuel h p,
    chain (hp_mem h) p addrs xs None -> length addrs <= fuel ->
    find_loop eq fuel h (hd_ptr addrs) = Ok (find eq xs).
Proof.
  intros eq. induction addrs as [|a t IH]; intros xs fuel h p Hc Hfu.
  - destruct xs; [|destruct Hc]. destruct fuel; reflexivity.
  - destruct xs as [|x xt]; [destruct Hc|]. destruct Hc as [H1 H2].
    destruct fuel as [|f]; [simpl in Hfu; lia|]. simpl in Hfu.
    cbn [hd_ptr find_loop deref find]. rewrite H1. cbn [bind n_next n_data].
    destruct (eq x); [reflexivity|].
    match goal with |- context [find_loop eq f h ?p] => change p with (hd_ptr t) end.
    apply (IH xt f h (Some a) H2). lia.
Qed.

Lemma lrep_find : forall eq h l addrs xs, lrep h l addrs xs ->
    list_find eq h l = Ok (find eq xs).
Proof.
  intros eq h l addrs xs [Hc Hf Hl Hs Hnd Hlt].
  pose proof (nodup_lt_length _ _ Hnd Hlt) as Hle.
  unfold list_find. rewrite Hf. eapply find_loop_chain; eauto.
Qed.

(** *** programs *)
Definition srep (s : lstate A) (a : nat -> list A) : Prop :=
  exists fp : nat -> list nat,
    (forall r, lrep (ls_heap s) (ls_reg s r) (fp r) (a r)) /\
    (forall r r' x, r <> r' -> In x (fp r) -> ~ In x (fp r')).

Lemma lrep_lt : forall h l addrs xs a, lrep h l addrs xs -> In a addrs -> a < hp_next h.
Proof. intros h l addrs xs a [_ _ _ _ _ H] Hin. rewrite Forall_forall in H. auto. Qed.

Lemma step_single : forall s a fp r h' l' as' xs',
    (forall r, lrep (ls_heap s) (ls_reg s r) (fp r) (a r)) ->
    (forall r r' x, r <> r' -> In x (fp r) -> ~ In x (fp r')) ->
    lrep h' l' as' xs' -> frame (ls_heap s) h' (fp r) ->
    (forall x, In x as' -> In x (fp r) \/ hp_next (ls_heap s) <= x) ->
    srep (mkL h' (set_reg (ls_reg s) r l')) (set_reg a r xs').
Proof.
  intros s a fp r h' l' as' xs' HR HD R' F HS.
  exists (set_reg fp r as'). cbn [ls_heap ls_reg]. split.
  - intros r0. destruct (Nat.eq_dec r0 r) as [->|Hne].
    + rewrite !set_reg_same. exact R'.
    + rewrite !set_reg_other by exact Hne. eapply lrep_frame; eauto.
  - intros r1 r2 x Hne H1 H2.
    destruct (Nat.eq_dec r1 r) as [->|Hn1]; destruct (Nat.eq_dec r2 r) as [->|Hn2].
    + contradiction.
    + rewrite set_reg_same in H1. rewrite set_reg_other in H2 by exact Hn2.
      destruct (HS x H1) as [H|H]; [eapply (HD r r2); eauto|].
      pose proof (lrep_lt _ _ _ _ _ (HR r2) H2). lia.
    + rewrite set_reg_same in H2. rewrite set_reg_other in H1 by exact Hn1.
      destruct (HS x H2) as [H|H]; [eapply (HD r1 r); eauto|].
      pose proof (lrep_lt _ _ _ _ _ (HR r1) H1). lia.
    + rewrite set_reg_other in H1, H2 by assumption. eapply (HD r1 r2); eauto.
Qed.

Lemma lstep_refines : forall s a o, srep s a -> valid_lop o ->
    exists s', lstep s o = Ok s' /\ srep s' (slstep a o).
Proof.
  intros s a o (fp & HR & HD) V. destruct o as [r x|r x|r1 r2|d r|r]; cbn [lstep slstep].
  - destruct (insert_begin_spec _ _ _ _ x (HR r)) as (h' & l' & E & R & F & N).
    rewrite E. cbn [bind fst snd]. eexists; split; [reflexivity|].
    eapply step_single; eauto. intros b [<-|Hb]; [right; lia|left; exact Hb].
  - destruct (insert_end_spec _ _ _ _ x (HR r)) as (h' & l' & E & R & F & N).
    rewrite E. cbn [bind fst snd]. eexists; split; [reflexivity|].
    eapply step_single; eauto. intros b Hb. apply in_app_or in Hb.
    destruct Hb as [Hb|[<-|[]]]; [left; exact Hb|right; lia].
  - cbn in V.
    destruct (merge_spec _ _ _ _ _ _ _ (HR r1) (HR r2)) as (h' & l1 & l2 & E & R1 & R2 & F & N).
    { intros b Hb. apply HD with (r := r1); auto. }
    rewrite E. cbn [bind fst snd]. eexists; split; [reflexivity|].
    exists (set_reg (set_reg fp r1 (fp r1 ++ fp r2)) r2 []). cbn [ls_heap ls_reg].
    split.
    + intros r0. destruct (Nat.eq_dec r0 r2) as [->|H2].
      * rewrite !set_reg_same. exact R2.
      * rewrite !(set_reg_other _ r2) by exact H2.
        destruct (Nat.eq_dec r0 r1) as [->|H1].
        -- rewrite !set_reg_same. exact R1.
        -- rewrite !set_reg_other by exact H1. eapply lrep_frame; eauto.
           intros b Hb. rewrite in_app_iff. intros [H|H]; revert H; eapply HD; eauto.
    + assert (forall r0 b, In b (set_reg (set_reg fp r1 (fp r1 ++ fp r2)) r2 [] r0) ->
                 (r0 = r1 /\ (In b (fp r1) \/ In b (fp r2))) \/ (r0 <> r1 /\ r0 <> r2 /\ In b (fp r0)))
        as Hcase.
      { intros r0 b. destruct (Nat.eq_dec r0 r2) as [->|H2].
        - rewrite set_reg_same. intros [].
        - rewrite set_reg_other by exact H2. destruct (Nat.eq_dec r0 r1) as [->|H1].
          + rewrite set_reg_same. rewrite in_app_iff. auto.
          + rewrite set_reg_other by exact H1. auto. }
      intros ra rb b Hne Ha Hb. apply Hcase in Ha. apply Hcase in Hb.
      assert (forall x y z, x <> y -> In z (fp x) -> In z (fp y) -> False) as HD'
        by (intros x y z H1 H2 H3; exact (HD x y z H1 H2 H3)).
      destruct Ha as [[-> Ha]|(Ha1 & Ha2 & Ha3)]; destruct Hb as [[-> Hb]|(Hb1 & Hb2 & Hb3)].
      * contradiction.
      * destruct Ha; [eapply HD' with (x := r1) (y := rb)|eapply HD' with (x := r2) (y := rb)]; eauto.
      * destruct Hb; [eapply HD' with (x := r1) (y := ra)|eapply HD' with (x := r2) (y := ra)]; eauto.
      * eapply HD' with (x := ra) (y := rb); eauto.
  - cbn in V.
    destruct (copy_spec _ _ _ _ _ _ _ (HR d) (HR r)) as (h' & d' & das & E & R & F & S1).
    { intros b Hb. apply HD with (r := r); auto. }
    rewrite E. cbn [bind fst snd]. eexists; split; [reflexivity|].
    eapply step_single; eauto.
  - destruct (destroy_spec _ _ _ _ (HR r)) as (h' & E & F & N).
    rewrite E. cbn [bind fst snd]. eexists; split; [reflexivity|].
    eapply step_single with (as' := []); eauto.
    + split; cbn; auto; constructor.
    + intros b [].
Qed.

Lemma lrun_refines_gen : forall ops s a, srep s a -> Forall valid_lop ops ->
    exists s', lrun s ops = Ok s' /\ srep s' (fold_left slstep ops a).
Proof.
  induction ops as [|o os IH]; intros s a HR V.
  - exists s. auto.
  - inversion V; subst. cbn [lrun fold_left].
    destruct (lstep_refines s a o HR) as (s1 & E1 & R1); auto.
    rewrite E1. cbn [bind]. apply IH; auto.
Qed.

Lemma srep_start : srep lstart (fun _ => []).
Proof.
  exists (fun _ => []). split.
  - intros r. split; cbn; auto; constructor.
  - intros r r' x _ [].
Qed.

Lemma lrun_refines : forall ops : list (lop A), Forall valid_lop ops ->
    exists s', lrun lstart ops = Ok s' /\
      forall r, walk_forward (ls_heap s') (ls_reg s' r) = Ok (slrun ops r)
             /\ walk_backward (ls_heap s') (ls_reg s' r) = Ok (rev (slrun ops r))
             /\ l_size (ls_reg s' r) = u32 (Z.of_nat (length (slrun ops r))).
Proof.
  intros ops V. destruct (lrun_refines_gen ops lstart (fun _ => []) srep_start V) as (s' & E & fp & HR & _).
  exists s'. split; [exact E|]. intros r. eapply lrep_observe. apply HR.
Qed.

Lemma lrun_find : forall (ops : list (lop A)) eq, Forall valid_lop ops ->
    exists s', lrun lstart ops = Ok s' /\
      forall r, list_find eq (ls_heap s') (ls_reg s' r) = Ok (find eq (slrun ops r)).
Proof.
  intros ops eq V. destruct (lrun_refines_gen ops lstart (fun _ => []) srep_start V) as (s' & E & fp & HR & _).
  exists s'. split; [exact E|]. intros r. eapply lrep_find. apply HR.
Qed.

Lemma merge_program : forall (ops : list (lop A)) r1 r2,
    Forall valid_lop ops -> r1 <> r2 ->
    exists s s', lrun lstart ops = Ok s /\ lstep s (LMerge r1 r2) = Ok s' /\
      exists xs ys,
        walk_forward (ls_heap s) (ls_reg s r1) = Ok xs /\
        walk_forward (ls_heap s) (ls_reg s r2) = Ok ys /\
        walk_forward (ls_heap s') (ls_reg s' r1) = Ok (xs ++ ys) /\
        walk_backward (ls_heap s') (ls_reg s' r1) = Ok (rev (xs ++ ys)) /\
        l_size (ls_reg s' r1) = u32 (Z.of_nat (length xs + length ys)) /\
        walk_forward (ls_heap s') (ls_reg s' r2) = Ok [] /\
        walk_backward (ls_heap s') (ls_reg s' r2) = Ok [] /\
        l_size (ls_reg s' r2) = 0%Z.
Proof.
  intros ops r1 r2 V Hne.
  destruct (lrun_refines_gen ops lstart (fun _ => []) srep_start V) as (s & E & R).
  destruct (lstep_refines s _ (LMerge r1 r2) R Hne) as (s' & E' & R').
  exists s, s'. split; [exact E|]. split; [exact E'|].
  destruct R as (fp & HR & _). destruct R' as (fp' & HR' & _).
  set (a := fold_left slstep ops (fun _ : nat => [])) in *.
  exists (a r1), (a r2).
  destruct (lrep_observe _ _ _ _ (HR r1)) as (W1 & _ & _).
  destruct (lrep_observe _ _ _ _ (HR r2)) as (W2 & _ & _).
  destruct (lrep_observe _ _ _ _ (HR' r1)) as (W1' & B1' & S1').
  destruct (lrep_observe _ _ _ _ (HR' r2)) as (W2' & B2' & S2').
  cbn [slstep] in *. rewrite !set_reg_same in *. rewrite set_reg_other in W1', B1', S1' by exact Hne.
  rewrite set_reg_same in *. rewrite app_length in S1'.
  repeat split; auto.
Qed.

Lemma find_first : forall (eq : A -> bool) xs x,
    find eq xs = Some x <->
    exists before after, xs = before ++ x :: after /\ eq x = true /\
                         Forall (fun y => eq y = false) before.
Proof.
  intros eq. induction xs as [|y t IH]; intros x; cbn [find].
  - split; [discriminate|]. intros ([|? ?] & after & H & _); discriminate.
  - destruct (eq y) eqn:Ey.
    + split.
      * intros H. injection H as ->. exists [], t. auto.
      * intros ([|b bt] & after & H & Hx & HF); simpl in H; injection H as -> H.
        -- reflexivity.
        -- inversion HF; subst. congruence.
    + rewrite IH. split.
      * intros (b & after & -> & Hx & HF). exists (y :: b), after. auto.
      * intros ([|b bt] & after & H & Hx & HF); simpl in H; injection H as -> H.
        -- congruence.
        -- inversion HF; subst. exists bt, after. auto.
Qed.

Lemma find_none : forall (eq : A -> bool) xs,
    find eq xs = None <-> Forall (fun y => eq y = false) xs.
Proof.
  intros eq. induction xs as [|y t IH]; cbn [find]; [split; auto|].
  destruct (eq y) eqn:Ey.
  - split; [discriminate|]. intros H. inversion H; subst. congruence.
  - rewrite IH. split; [auto|]. intros H; inversion H; auto.
Qed.

Lemma find_program : forall (ops : list (lop A)) (eq : A -> bool),
    Forall valid_lop ops ->
    exists s', lrun lstart ops = Ok s' /\
      forall r xs, walk_forward (ls_heap s') (ls_reg s' r) = Ok xs ->
        (forall x, list_find eq (ls_heap s') (ls_reg s' r) = Ok (Some x) <->
                   exists before after, xs = before ++ x :: after /\ eq x = true /\
                                        Forall (fun y => eq y = false) before) /\
        (list_find eq (ls_heap s') (ls_reg s' r) = Ok None <->
         Forall (fun y => eq y = false) xs).
Proof.
  intros ops eq V. destruct (lrun_refines_gen ops lstart (fun _ => []) srep_start V) as (s' & E & fp & HR & _).
  exists s'. split; [exact E|]. intros r xs W.
  rewrite (lrep_find _ _ _ _ _ (HR r)).
  destruct (lrep_observe _ _ _ _ (HR r)) as (W1 & _ & _).
  rewrite W in W1. injection W1 as <-.
  split.
  - intros x. rewrite <- find_first. split; congruence.
  - rewrite <- find_none. split; congruence.
Qed.

End Proofs.
