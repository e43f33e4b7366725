From Coq Require Import ZArith List QArith Lia Bool.
From Verif Require Import Base Queue QueueSpec.
Import ListNotations.
Local Open Scope Z_scope.

Definition at_ (m : list power) (cap start : Z) (i : nat) : power :=
  nth (Z.to_nat ((start + Z.of_nat i) mod cap)) m power0.

(** Values held by a circular buffer, oldest first. *)
Definition contents (m : list power) (cap start size : Z) : list power :=
  map (at_ m cap start) (seq 0 (Z.to_nat size)).

(** Representation invariant of a built queue holding [l]. *)
Record qrep (q : queue) (l : list power) : Prop := {
  qr_mem : exists m, q_mem q = Some m /\ Z.of_nat (length m) = q_cap q
                     /\ contents m (q_cap q) (q_start q) (q_size q) = l;
  qr_cap : 0 < q_cap q < two32;
  qr_size : 0 <= q_size q <= q_cap q;
  qr_start : 0 <= q_start q < q_cap q;
  qr_end : q_end q = (q_start q + q_size q) mod q_cap q
}.

Lemma contents_length : forall m c s n, length (contents m c s n) = Z.to_nat n.
Proof. intros. unfold contents. rewrite map_length, seq_length. reflexivity. Qed.

Lemma contents_nth : forall m c s n i,
    (i < Z.to_nat n)%nat -> nth i (contents m c s n) power0 = at_ m c s i.
Proof. intros. unfold contents. apply nth_map_seq. assumption. Qed.

Lemma qrep_size : forall q l, qrep q l -> q_size q = Z.of_nat (length l).
Proof.
  intros q l [ (m & _ & _ & <-) _ Hs _ _]. rewrite contents_length. lia.
Qed.

(** store one value in a non-full queue *)
Definition store (q : queue) (p : power) : outcome queue :=
  match q_mem q with
  | None => UB
  | Some m =>
    do m' <- arr_set m (q_end q) p ;
    do e' <- umod (u32 (q_end q + 1)) (q_cap q) ;
    Ok (mkQueue (Some m') (q_cap q) (u32 (q_size q + 1)) (q_start q) e')
  end.

Lemma add_mod_neq : forall s n i c, 0 < c -> 0 <= i < n -> n < c ->
    (s + n) mod c <> (s + i) mod c.
Proof.
  intros s n i c Hc Hi Hn E.
  assert (((s + n) - (s + i)) mod c = 0) as H.
  { rewrite Zminus_mod, E, Z.sub_diag, Z.mod_0_l; lia. }
  replace (s + n - (s + i)) with (n - i) in H by lia.
  rewrite Z.mod_small in H; lia.
Qed.

Lemma store_spec : forall q l p, qrep q l -> q_size q < q_cap q ->
    exists q', store q p = Ok q' /\ qrep q' (l ++ [p]) /\ q_cap q' = q_cap q.
Proof.
  intros q l p R Hlt. pose proof (qrep_size q l R) as Hlen.
  destruct R as [(m & Hm & Hml & Hc) Hcap Hsz Hst He].
  unfold store. rewrite Hm.
  assert (0 <= q_end q < q_cap q) as Her by (rewrite He; apply Z.mod_pos_bound; lia).
  rewrite arr_set_ok by lia. cbn [bind].
  unfold umod. destruct (Z.eqb_spec (q_cap q) 0) as [E|_]; [lia|]. cbn [bind].
  eexists; split; [reflexivity|]. split; [|reflexivity].
  assert (u32 (q_size q + 1) = q_size q + 1) as Hu by (apply u32_id; lia).
  split; cbn [q_mem q_cap q_size q_start q_end]; try lia; rewrite ?Hu; try lia.
  - eexists; split; [reflexivity|]. rewrite list_set_length. split; [exact Hml|].
    apply nth_ext' with (d := power0).
    + rewrite contents_length, app_length. cbn [length]. lia.
    + intros i Hi. rewrite contents_length in Hi.
      rewrite contents_nth by exact Hi.
      unfold at_.
      destruct (Nat.eq_dec i (Z.to_nat (q_size q))) as [->|Hne].
      * rewrite app_nth2 by lia.
        replace (Z.to_nat (q_size q) - length l)%nat with 0%nat by lia. cbn [nth].
        rewrite Z2Nat.id by lia. rewrite <- He.
        apply list_set_nth_same. lia.
      * rewrite list_set_nth_other.
        -- rewrite app_nth1 by lia. rewrite <- Hc.
           rewrite contents_nth by lia. reflexivity.
        -- rewrite He. intros E. apply Z2Nat.inj in E; try (apply Z.mod_pos_bound; lia).
           revert E. apply add_mod_neq; lia.
  - rewrite u32_id by lia. rewrite He. rewrite Zplus_mod_idemp_l. f_equal. lia.
Qed.

Lemma put_f_notfull : forall f q l p, qrep q l -> q_size q < q_cap q ->
    queue_put_f (S f) q p = store q p.
Proof.
  intros f q l p R Hlt. cbn [queue_put_f]. unfold store, queue_is_full.
  destruct R as [(m & Hm & _ & _) _ _ _ _]. rewrite Hm.
  destruct (Z.eqb_spec (q_size q) (q_cap q)); [lia|]. cbn [bind]. rewrite Hm. reflexivity.
Qed.

Lemma build_rep : forall q c, 0 < c < two32 -> qrep (queue_build q c) [].
Proof.
  intros q c Hc. unfold queue_build, queue_destroy, queue_init.
  split; cbn [q_mem q_cap q_size q_start q_end]; try lia.
  - eexists; split; [reflexivity|]. rewrite repeat_length. split; [lia|]. reflexivity.
  - rewrite Z.mod_0_l; lia.
Qed.

(** The copy loop appends to [dst] the tail of the source contents. *)
Lemma copy_loop_spec : forall put src m,
    q_mem src = Some m -> Z.of_nat (length m) = q_cap src -> 0 < q_cap src < two32 ->
    forall tocopy dst index ld,
      (forall q l p, qrep q l -> q_size q < q_cap q -> put q p = store q p) ->
      qrep dst ld -> 0 <= index < q_cap src ->
      q_size dst + Z.of_nat tocopy <= q_cap dst ->
      exists dst', copy_loop put tocopy dst src index = Ok dst'
                   /\ qrep dst' (ld ++ contents m (q_cap src) index (Z.of_nat tocopy))
                   /\ q_cap dst' = q_cap dst.
Proof.
  intros put src m Hm Hml Hcap.
  induction tocopy as [|n IH]; intros dst index ld Hput Rd Hi Hroom.
  - exists dst. cbn. rewrite app_nil_r. auto.
  - cbn [copy_loop]. rewrite Hm. rewrite (arr_get_ok m index power0) by lia. cbn [bind].
    rewrite (Hput dst ld) by (auto; lia).
    destruct (store_spec dst ld (nth (Z.to_nat index) m power0) Rd ltac:(lia))
      as (d1 & Hs & R1 & Hc1).
    rewrite Hs. cbn [bind]. unfold umod.
    destruct (Z.eqb_spec (q_cap src) 0); [lia|]. cbn [bind].
    rewrite u32_id by lia.
    destruct (IH d1 ((index + 1) mod q_cap src) (ld ++ [nth (Z.to_nat index) m power0]))
      as (d2 & Hd2 & R2 & Hc2); auto.
    { apply Z.mod_pos_bound; lia. }
    { rewrite (qrep_size _ _ R1), app_length, Hc1. cbn [length].
      rewrite (qrep_size _ _ Rd) in Hroom. lia. }
    exists d2. split; [exact Hd2|]. split; [|lia].
    rewrite <- app_assoc in R2. cbn [app] in R2.
    replace (contents m (q_cap src) index (Z.of_nat (S n)))
      with (nth (Z.to_nat index) m power0
              :: contents m (q_cap src) ((index + 1) mod q_cap src) (Z.of_nat n)); [exact R2|].
    unfold contents. rewrite !Nat2Z.id. cbn [seq map]. f_equal.
    + unfold at_. rewrite Z.add_0_r, Z.mod_small by lia. reflexivity.
    + rewrite <- seq_shift, map_map. apply map_ext. intros i. unfold at_.
      rewrite Zplus_mod_idemp_l. do 3 f_equal. lia.
Qed.

Lemma copy_with_spec : forall put dst src l,
    (forall q l p, qrep q l -> q_size q < q_cap q -> put q p = store q p) ->
    qrep src l ->
    (q_mem dst = None \/ exists ld, qrep dst ld) ->
    exists dst', queue_copy_with put dst src = Ok dst' /\ qrep dst' l
                 /\ q_cap dst' = (if (q_cap dst <? q_cap src)
                                     || (match q_mem dst with None => true | _ => false end)
                                  then q_cap src else q_cap dst).
Proof.
  intros put dst src l Hput Rs Hd. pose proof (qrep_size _ _ Rs) as Hsz.
  unfold queue_copy_with.
  set (b := (q_cap dst <? q_cap src) || _).
  set (d0 := if b then _ else _).
  assert (qrep d0 [] /\ q_cap d0 = (if b then q_cap src else q_cap dst)
          /\ q_size d0 = 0 /\ q_cap src <= q_cap d0) as (R0 & Hc0 & Hs0 & Hle).
  { pose proof Rs as [_ Hcs _ _ _].
    subst d0 b. destruct (Z.ltb_spec (q_cap dst) (q_cap src)) as [Hlt|Hge]; cbn [orb].
    - split; [apply build_rep; exact Hcs|]. cbn. lia.
    - destruct Hd as [Hn|[ld Rd]].
      + rewrite Hn. split; [apply build_rep; exact Hcs|]. cbn. lia.
      + destruct Rd as [(m & Hm & Hml & _) Hc Hs Hst He]. rewrite Hm.
        split; [|cbn; lia].
        split; cbn; try lia.
        exists m. auto. }
  unfold queue_is_empty. destruct (Z.eqb_spec (q_size src) 0) as [E|NE].
  - exists d0. split; [reflexivity|]. split; [|exact Hc0].
    destruct l; [exact R0|]. cbn [length] in Hsz. lia.
  - pose proof Rs as [(m & Hm & Hml & Hcont) Hcs Hss Hsst _].
    destruct (copy_loop_spec put src m Hm Hml Hcs (Z.to_nat (q_size src)) d0 (q_start src) []
                Hput R0 Hsst ltac:(lia)) as (d1 & H1 & R1 & Hc1).
    rewrite H1. exists d1. split; [reflexivity|]. split; [|congruence].
    cbn [app] in R1. rewrite Z2Nat.id in R1 by lia. rewrite Hcont in R1. exact R1.
Qed.

Lemma queue_put_spec : forall q l p,
    qrep q l -> 2 * Z.of_nat (length l) < two32 ->
    exists q', queue_put q p = Ok q' /\ qrep q' (l ++ [p]).
Proof.
  intros q l p R Hsmall. pose proof (qrep_size _ _ R) as Hsz.
  unfold queue_put.
  destruct (Z.eq_dec (q_size q) (q_cap q)) as [Hfull|Hnf].
  - cbn [queue_put_f]. fold (queue_put_f 1).
    pose proof R as [(m & Hm & Hml & _) Hc Hs _ _]. rewrite Hm.
    unfold queue_is_full. rewrite Hfull, Z.eqb_refl.
    rewrite u32_id by lia.
    destruct (copy_with_spec (queue_put_f 1) (queue_build queue_init (q_cap q * 2)) q l)
      as (q1 & H1 & R1 & Hc1).
    + intros q0 l0 p0 R0 H0. apply (put_f_notfull 0 q0 l0 p0 R0 H0).
    + exact R.
    + right. exists []. apply build_rep. lia.
    + change (fun (q0 : queue) (p0 : power) => queue_put_f 1 q0 p0) with (queue_put_f 1) in *.
      match goal with |- context [queue_copy_with ?f _ _] => change f with (queue_put_f 1) end.
      rewrite H1. cbn [bind].
      cbn [queue_build q_cap q_mem] in Hc1.
      replace (q_cap q * 2 <? q_cap q) with false in Hc1 by (symmetry; apply Z.ltb_ge; lia).
      cbn [orb] in Hc1.
      destruct (store_spec q1 l p R1) as (q2 & H2 & R2 & _).
      { rewrite (qrep_size _ _ R1). lia. }
      unfold store in H2. exists q2. split; [exact H2|exact R2].
  - pose proof R as [_ Hc Hs _ _].
    rewrite (put_f_notfull 1 q l p R) by lia.
    destruct (store_spec q l p R) as (q2 & H2 & R2 & _); [lia|]. eauto.
Qed.

Lemma queue_get_spec : forall q x l,
    qrep q (x :: l) -> exists q', queue_get q = Ok (x, q') /\ qrep q' l.
Proof.
  intros q x l R. pose proof (qrep_size _ _ R) as Hsz. cbn [length] in Hsz.
  destruct R as [(m & Hm & Hml & Hc) Hcap Hs Hst He].
  unfold queue_get. rewrite Hm. unfold queue_is_empty.
  destruct (Z.eqb_spec (q_size q) 0) as [E|_]; [lia|].
  rewrite (arr_get_ok m _ power0) by lia. cbn [bind]. unfold umod.
  destruct (Z.eqb_spec (q_cap q) 0) as [E|_]; [lia|]. cbn [bind].
  assert (Z.to_nat (q_size q) = S (length l)) as Hn by lia.
  unfold contents in Hc. rewrite Hn in Hc. cbn [seq map] in Hc.
  injection Hc as Hx Hl.
  unfold at_ in Hx. rewrite Z.add_0_r, Z.mod_small in Hx by lia.
  eexists. split; [rewrite Hx; reflexivity|].
  rewrite !u32_id by lia.
  split; cbn [q_mem q_cap q_size q_start q_end]; try lia.
  - exists m. split; [reflexivity|]. split; [exact Hml|].
    rewrite <- Hl. unfold contents.
    replace (Z.to_nat (q_size q - 1)) with (length l) by lia.
    rewrite <- seq_shift, map_map. apply map_ext. intros i. unfold at_.
    rewrite Zplus_mod_idemp_l. do 3 f_equal. lia.
  - apply Z.mod_pos_bound; lia.
  - rewrite He. rewrite Zplus_mod_idemp_l. f_equal. lia.
Qed.

Lemma queue_get_empty : forall q, qrep q [] -> queue_get q = Ok (power0, q).
Proof.
  intros q R. pose proof (qrep_size _ _ R) as Hsz. cbn in Hsz.
  destruct R as [(m & Hm & _) _ _ _ _].
  unfold queue_get, queue_is_empty. rewrite Hm, Hsz. reflexivity.
Qed.

(** ** Lifting to programs *)
Definition reg_rep (q : queue) (o : option (list power)) : Prop :=
  match o with None => q = queue_init | Some l => qrep q l end.

Definition st_rep (s : qstate) (a : sqstate) : Prop := forall r, reg_rep (s r) (a r).

Definition bounded (a : sqstate) (n : Z) : Prop :=
  forall r l, a r = Some l -> Z.of_nat (length l) <= n.

Lemma st_rep_set : forall s a r q o,
    st_rep s a -> reg_rep q o -> st_rep (set_reg s r q) (set_reg a r o).
Proof.
  intros s a r q o H H0 r'. unfold set_reg. destruct (Nat.eqb r' r); auto.
Qed.

Lemma qstep_refines : forall s a o n,
    st_rep s a -> bounded a n -> 0 <= n -> 2 * n < two32 -> valid_qop a o ->
    exists s', qstep s o = Ok (fst (sqstep a o), s')
               /\ st_rep s' (snd (sqstep a o)) /\ bounded (snd (sqstep a o)) (n + 1).
Proof.
  intros s a o n HR HB Hn0 Hn V.
  assert (bounded a (n + 1)) as HB1 by (intros r l E; specialize (HB r l E); lia).
  assert (forall r o', (forall l, o' = Some l -> Z.of_nat (length l) <= n + 1) ->
                       bounded (set_reg a r o') (n + 1)) as Bset.
  { intros r o' Ho r' l. unfold set_reg. destruct (Nat.eqb r' r); [apply Ho | apply HB1]. }
  destruct o as [r c|r p|r|d r|r]; cbn [qstep sqstep fst snd valid_qop] in *.
  - eexists; split; [reflexivity|]. split.
    + apply st_rep_set; auto. cbn. apply build_rep; auto.
    + apply Bset. intros l E; injection E as <-; cbn; lia.
  - pose proof (HR r) as Hr. destruct (a r) as [l|] eqn:Ea; cbn in Hr.
    + destruct (queue_put_spec (s r) l p Hr) as (q' & Hq & Rq).
      { specialize (HB r l Ea). lia. }
      rewrite Hq. cbn [bind]. eexists; split; [reflexivity|]. split.
      * apply st_rep_set; auto.
      * apply Bset. intros l' E; injection E as <-. rewrite app_length. cbn [length].
        specialize (HB r l Ea). lia.
    + rewrite Hr. cbn. eexists; split; [reflexivity|]. split; auto.
      intros r'. unfold set_reg. destruct (Nat.eqb_spec r' r) as [->|_]; auto.
      rewrite Ea. reflexivity.
  - pose proof (HR r) as Hr. destruct (a r) as [[|x t]|] eqn:Ea; cbn in Hr.
    + rewrite (queue_get_empty _ Hr). cbn. eexists; split; [reflexivity|]. split; auto.
      intros r'. unfold set_reg. destruct (Nat.eqb_spec r' r) as [->|_]; auto.
    + destruct (queue_get_spec _ _ _ Hr) as (q' & Hq & Rq). rewrite Hq. cbn [bind fst snd].
      eexists; split; [reflexivity|]. split.
      * apply st_rep_set; auto.
      * apply Bset. intros l' E; injection E as <-. specialize (HB _ _ Ea). cbn [length] in HB. lia.
    + rewrite Hr. cbn. eexists; split; [reflexivity|]. split; auto.
      intros r'. unfold set_reg. destruct (Nat.eqb_spec r' r) as [->|_]; auto.
      rewrite Ea. reflexivity.
  - destruct V as [Hne Hs]. pose proof (HR r) as Hr. destruct (a r) as [l|] eqn:Ea; [|tauto].
    cbn in Hr.
    destruct (copy_with_spec queue_put (s d) (s r) l) as (q' & Hq & Rq & _).
    + intros q0 l0 p0 R0 H0. apply (put_f_notfull 1 q0 l0 p0 R0 H0).
    + exact Hr.
    + pose proof (HR d) as Hd. destruct (a d) as [ld|]; cbn in Hd.
      * right; eauto.
      * left. rewrite Hd. reflexivity.
    + unfold queue_copy. rewrite Hq. cbn [bind]. eexists; split; [reflexivity|]. split.
      * apply st_rep_set; auto.
      * apply Bset. intros l' E; injection E as <-. specialize (HB _ _ Ea). lia.
  - eexists; split; [reflexivity|]. split.
    + apply st_rep_set; auto. reflexivity.
    + apply Bset. discriminate.
Qed.

Lemma qrun_refines_gen : forall ops s a n,
    st_rep s a -> bounded a n -> 0 <= n -> 2 * (n + Z.of_nat (length ops)) < two32 ->
    valid_qops a ops ->
    exists s', qrun s ops = Ok (fst (sqrun a ops), s') /\ st_rep s' (snd (sqrun a ops)).
Proof.
  induction ops as [|o os IH]; intros s a n HR HB Hn0 Hn V.
  - cbn. eauto.
  - cbn [qrun sqrun]. destruct V as [V Vs]. cbn [length] in Hn.
    destruct (qstep_refines s a o n HR HB Hn0 ltac:(lia) V) as (s1 & H1 & R1 & B1).
    rewrite H1. cbn [bind snd fst].
    destruct (sqstep a o) as [v a1] eqn:E1. cbn [fst snd] in *.
    destruct (IH s1 a1 (n + 1) R1 B1 ltac:(lia) ltac:(lia) Vs) as (s2 & H2 & R2).
    rewrite H2. cbn [bind fst snd]. destruct (sqrun a1 os) as [vs a2]. cbn in *. eauto.
Qed.

Lemma qrun_refines : forall ops,
    valid_qops (fun _ => None) ops -> 2 * Z.of_nat (length ops) < two32 ->
    exists s', qrun (fun _ => queue_init) ops
               = Ok (fst (sqrun (fun _ => None) ops), s').
Proof.
  intros ops V H.
  destruct (qrun_refines_gen ops (fun _ => queue_init) (fun _ => None) 0) as (s' & Hs & _);
    auto; try lia.
  - intros r. reflexivity.
  - intros r l E. discriminate.
  - eauto.
Qed.

Lemma queue_copy_spec : forall dst src l,
    qrep src l -> (dst = queue_init \/ exists ld, qrep dst ld) ->
    exists dst', queue_copy dst src = Ok dst' /\ qrep dst' l.
Proof.
  intros dst src l Rs Hd.
  destruct (copy_with_spec queue_put dst src l) as (q & Hq & Rq & _).
  - intros q0 l0 p0 R0 H0. apply (put_f_notfull 1 q0 l0 p0 R0 H0).
  - exact Rs.
  - destruct Hd as [->|H]; [left; reflexivity|right; exact H].
  - eauto.
Qed.

(** A queue built with capacity 0 is not usable: the first put is undefined behaviour. *)
Lemma put_cap0_ub : forall q p, queue_put (queue_build q 0) p = UB.
Proof. intros. reflexivity. Qed.
