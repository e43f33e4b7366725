(** * C38: executions of the parallel regions *)
From Coq Require Import ZArith List Bool QArith Lia Permutation.
From Verif Require Import Base Queue QueueSpec DList DListProofs NonUniform NuParallel.
Import ListNotations.
Local Open Scope Z_scope.

(** Memory states reached by programs over the lists. *)
Definition holds (mem : lstate conn) (s : nat -> list conn) : Prop :=
  exists ops, Forall valid_lop ops /\ lrun lstart ops = Ok mem /\ forall r, slrun ops r = s r.

Lemma lrun_snoc : forall (ops : list (lop conn)) s o, lrun s (ops ++ [o]) = do s' <- lrun s ops ; lstep s' o.
Proof.
  induction ops as [|x ops IH]; intros s o.
  - cbn. destruct (lstep s o); reflexivity.
  - cbn [app lrun]. destruct (lstep s x); cbn [bind]; auto.
Qed.

Lemma holds_step : forall mem s o, holds mem s -> valid_lop o ->
    exists mem', lstep mem o = Ok mem' /\ holds mem' (slstep s o).
Proof.
  intros mem s o (ops & V & L & S) VO.
  assert (V2 : Forall valid_lop (ops ++ [o])) by (apply Forall_app; split; [exact V|constructor; [exact VO|constructor]]).
  destruct (lrun_refines (ops ++ [o]) V2) as (mem' & L' & _). rewrite lrun_snoc, L in L'. cbn [bind] in L'.
  exists mem'. split; [exact L'|]. exists (ops ++ [o]). split; [exact V2|]. split; [rewrite lrun_snoc, L; exact L'|].
  intros r. unfold slrun. rewrite fold_left_app. cbn [fold_left]. fold (slrun ops).
  unfold slrun in *. destruct o; cbn [slstep]; unfold set_reg; rewrite ?S; reflexivity.
Qed.

Lemma holds_read : forall mem s, holds mem s -> forall r,
    walk_forward (ls_heap mem) (ls_reg mem r) = Ok (s r) /\ l_size (ls_reg mem r) = u32 (Z.of_nat (length (s r))).
Proof.
  intros mem s (ops & V & L & S) r. destruct (lrun_refines ops V) as (mem' & L' & R). assert (mem' = mem) by congruence. subst.
  destruct (R r) as (A & _ & B). rewrite S in A, B. split; assumption.
Qed.

Lemma holds_start : holds lstart (fun _ => []).
Proof. exists []. split; [constructor|]. split; reflexivity. Qed.

Section Region.
  Variables (r : region) (n : nat).

  (** What thread t has to give: its list, the rest of its iteration, the iterations it took. *)
  Definition share (p : par) (s : nat -> list conn) (t : nat) : list conn :=
    s (S t) ++ pr_pending p t ++ flat_map (rg_body r) (pr_todo p t).

  Definition inv (g : list conn) (p : par) : Prop :=
    exists s, holds (pr_mem p) s /\
      Permutation (s 0%nat ++ flat_map (share p s) (seq 0 n) ++ flat_map (rg_body r) (pr_pool p))
                  (g ++ flat_map (rg_body r) (rg_iterations r)) /\
      (forall t, pr_merged p t = true -> s (S t) = [] /\ pr_pending p t = [] /\ pr_todo p t = [] /\ pr_pool p = []) /\
      (forall t, (n <= t)%nat -> s (S t) = []).

  Lemma flat_at : forall (F G : nat -> list conn) t, (t < n)%nat -> (forall u, u <> t -> F u = G u) ->
      exists X Y, flat_map F (seq 0 n) = X ++ F t ++ Y /\ flat_map G (seq 0 n) = X ++ G t ++ Y.
  Proof.
    intros F G t H E. exists (flat_map F (seq 0 t)), (flat_map F (seq (S t) (n - S t))).
    replace n with (t + S (n - S t))%nat by lia. rewrite seq_app. cbn [seq plus]. rewrite !flat_map_app. cbn [flat_map].
    replace (t + S (n - S t) - S t)%nat with (n - S t)%nat by lia. split; [reflexivity|].
    assert (EX : forall l, ~ In t l -> flat_map G l = flat_map F l).
    { induction l as [|u l IH]; intros NI; [reflexivity|]. cbn [flat_map]. rewrite IH by (intros I; apply NI; right; exact I).
      rewrite (E u); [reflexivity|]. intros ->. apply NI. left. reflexivity. }
    rewrite !EX; [reflexivity| |]; rewrite in_seq; lia.
  Qed.

  Lemma upd_same : forall A (f : nat -> A) t x, upd f t x t = x.
  Proof. intros. unfold upd. rewrite Nat.eqb_refl. reflexivity. Qed.
  Lemma upd_other : forall A (f : nat -> A) t x u, u <> t -> upd f t x u = f u.
  Proof. intros. unfold upd. destruct (Nat.eqb_spec u t); congruence. Qed.

  Lemma perm_in : forall (A0 X Y P X' : list conn) Z Z', Permutation X' X ->
      Permutation (A0 ++ (X ++ Z ++ Y) ++ P) Z' -> Permutation (A0 ++ (X' ++ Z ++ Y) ++ P) Z'.
  Proof. intros. rewrite H. exact H0. Qed.

  Lemma inv_step : forall g p q, inv g p -> par_step r n p q -> inv g q.
  Proof.
    intros g p q (s & H & P & MG & OUT) ST. destruct ST as [t a chunk b todo pending merged mem LT|t i is pool todo pending merged mem LT PE TE|t c cs pool todo pending merged mem mem' LT PE L|t todo pending merged mem mem' LT TE PE ME L]; cbn [pr_mem pr_pool pr_todo pr_pending pr_merged] in *.
    - exists s. split; [exact H|]. split; [|split; [|exact OUT]]; cbn [pr_mem pr_pool pr_todo pr_pending pr_merged].
      + rewrite <- P. apply Permutation_app_head.
        destruct (flat_at (share (mkPar (a ++ chunk ++ b) todo pending merged mem) s) (share (mkPar (a ++ b) (upd todo t (todo t ++ chunk)) pending merged mem) s) t LT) as (X & Y & E1 & E2).
        { intros u NE. unfold share. cbn. rewrite upd_other by exact NE. reflexivity. }
        rewrite E1, E2. unfold share. cbn [pr_pending pr_todo]. rewrite upd_same, !flat_map_app.
        rewrite <- !app_assoc. repeat apply Permutation_app_head.
        rewrite !app_assoc. apply Permutation_app_tail. rewrite <- !app_assoc.
        set (C := flat_map (rg_body r) chunk). set (A := flat_map (rg_body r) a).
        rewrite (Permutation_app_comm C (Y ++ A)). rewrite <- app_assoc. reflexivity.
      + intros u MU. destruct (MG u MU) as (A1 & A2 & A3 & A4). apply app_eq_nil in A4. destruct A4 as (-> & A4). apply app_eq_nil in A4. destruct A4 as (-> & ->).
        repeat split; auto. destruct (Nat.eq_dec u t) as [->|NE]; [rewrite upd_same, A3; reflexivity|rewrite upd_other; assumption].
    - exists s. split; [exact H|]. split; [|split; [|exact OUT]]; cbn [pr_mem pr_pool pr_todo pr_pending pr_merged].
      + rewrite <- P. apply Permutation_app_head.
        destruct (flat_at (share (mkPar pool todo pending merged mem) s) (share (mkPar pool (upd todo t is) (upd pending t (rg_body r i)) merged mem) s) t LT) as (X & Y & E1 & E2).
        { intros u NE. unfold share. cbn. rewrite !upd_other by exact NE. reflexivity. }
        rewrite E1, E2. unfold share. cbn [pr_pending pr_todo]. rewrite !upd_same, PE, TE. cbn [flat_map app]. reflexivity.
      + intros u MU. destruct (MG u MU) as (A1 & A2 & A3 & A4). assert (u <> t) by (intros ->; congruence).
        rewrite !upd_other by assumption. auto.
    - destruct (holds_step _ _ (LInsEnd (S t) c) H I) as (m' & L' & H'). assert (m' = mem') by congruence. subst m'.
      exists (slstep s (LInsEnd (S t) c)). split; [exact H'|]. cbn [slstep]. split; [|split]; cbn [pr_mem pr_pool pr_todo pr_pending pr_merged].
      + rewrite <- P. unfold set_reg at 1. cbn [Nat.eqb]. apply Permutation_app_head. apply Permutation_app_tail.
        destruct (flat_at (share (mkPar pool todo pending merged mem) s) (share (mkPar pool todo (upd pending t cs) merged mem') (set_reg s (S t) (s (S t) ++ [c]))) t LT) as (X & Y & E1 & E2).
        { intros u NE. unfold share, set_reg. cbn. rewrite upd_other by exact NE. destruct (Nat.eqb_spec u t); [congruence|reflexivity]. }
        rewrite E1, E2. unfold share. cbn [pr_pending pr_todo]. rewrite (upd_same _ pending), PE. unfold set_reg. rewrite Nat.eqb_refl.
        rewrite <- !app_assoc. reflexivity.
      + intros u MU. destruct (MG u MU) as (A1 & A2 & A3 & A4). assert (u <> t) by (intros ->; congruence).
        unfold set_reg. cbn. destruct (Nat.eqb_spec u t); [congruence|]. rewrite upd_other by assumption. auto.
      + intros u U. unfold set_reg. cbn. destruct (Nat.eqb_spec u t); [lia|]. apply OUT. exact U.
    - destruct (holds_step _ _ (LMerge 0%nat (S t)) H ltac:(discriminate)) as (m' & L' & H'). assert (m' = mem') by congruence. subst m'.
      exists (slstep s (LMerge 0%nat (S t))). split; [exact H'|]. cbn [slstep]. split; [|split]; cbn [pr_mem pr_pool pr_todo pr_pending pr_merged].
      + rewrite <- P. unfold set_reg at 1 2. cbn [Nat.eqb flat_map]. rewrite !app_nil_r.
        destruct (flat_at (share (mkPar [] todo pending merged mem) s) (share (mkPar [] todo pending (upd merged t true) mem') (set_reg (set_reg s 0%nat (s 0%nat ++ s (S t))) (S t) [])) t LT) as (X & Y & E1 & E2).
        { intros u NE. unfold share, set_reg. cbn. destruct (Nat.eqb_spec u t); [congruence|reflexivity]. }
        rewrite E1, E2. unfold share. cbn [pr_pending pr_todo]. rewrite PE, TE. unfold set_reg. rewrite Nat.eqb_refl. cbn [flat_map app].
        rewrite app_nil_r. rewrite <- app_assoc. apply Permutation_app_head. rewrite !app_assoc. apply Permutation_app_tail. apply Permutation_app_comm.
      + intros u MU. unfold set_reg. cbn. destruct (Nat.eqb_spec u t) as [->|NE]; [auto|]. rewrite upd_other in MU by assumption. apply (MG u MU).
      + intros u U. unfold set_reg. cbn. destruct (Nat.eqb_spec u t); [reflexivity|]. apply OUT. exact U.
  Qed.

  Lemma inv_steps : forall g p q, par_steps r n p q -> inv g p -> inv g q.
  Proof. intros g p q S. induction S as [|p q s ST _ IH]; auto. intros I. apply IH. exact (inv_step g p q I ST). Qed.

  Lemma inv_start : forall mem g s, holds mem s -> s 0%nat = g -> (forall t, s (S t) = []) -> inv g (par_start r mem).
  Proof.
    intros mem g s H G E. exists s. unfold par_start. cbn [pr_mem pr_pool pr_todo pr_pending pr_merged]. split; [exact H|]. split; [|split; [discriminate|auto]].
    assert (X : forall l, flat_map (share (mkPar (rg_iterations r) (fun _ => []) (fun _ => []) (fun _ => false) mem) s) l = []).
    { induction l as [|t l IH]; [reflexivity|]. cbn [flat_map]. rewrite IH. unfold share. cbn. rewrite E. reflexivity. }
    rewrite X, G. cbn [app]. reflexivity.
  Qed.

  Lemma inv_done : forall g p, inv g p -> par_done n p ->
      exists s, holds (pr_mem p) s /\ Permutation (s 0%nat) (g ++ flat_map (rg_body r) (rg_iterations r)) /\ forall t, s (S t) = [].
  Proof.
    intros g p (s & H & P & MG & OUT) (PL & D). exists s.
    assert (E : forall t, s (S t) = []).
    { intros t. destruct (le_lt_dec n t) as [L|L]; [apply OUT; exact L|]. destruct (D t L) as (_ & _ & M). apply (MG t M). }
    split; [exact H|]. split; [|exact E]. rewrite <- P, PL. cbn [flat_map]. rewrite app_nil_r.
    assert (X : forall l, Forall (fun t => (t < n)%nat) l -> flat_map (share p s) l = []).
    { induction l as [|t l IH]; intros F; [reflexivity|]. inversion F; subst. cbn [flat_map]. rewrite IH by assumption. unfold share.
      destruct (D t) as (T1 & T2 & _); [assumption|]. rewrite E, T1, T2. reflexivity. }
    rewrite X; [rewrite app_nil_r; reflexivity|]. apply Forall_forall. intros t I. apply in_seq in I. lia.
  Qed.

  Lemma steps_trans : forall p q s, par_steps r n p q -> par_steps r n q s -> par_steps r n p s.
  Proof. intros p q s A B. induction A; [exact B|]. eapply pss_step; eauto. Qed.

  (** From any state that satisfies the invariant the region can be completed. *)
  Lemma pending_done : forall g t, (t < n)%nat -> forall k p, inv g p -> length (pr_pending p t) = k ->
      exists p', par_steps r n p p' /\ pr_pool p' = pr_pool p /\ pr_todo p' = pr_todo p /\ pr_merged p' = pr_merged p /\ pr_pending p' t = [] /\
                 forall u, u <> t -> pr_pending p' u = pr_pending p u.
  Proof.
    intros g t LT. induction k as [|k IH]; intros p I E.
    - exists p. split; [constructor|]. repeat split; auto. destruct (pr_pending p t); [reflexivity|discriminate].
    - destruct (pr_pending p t) as [|c cs] eqn:PE; [discriminate|]. destruct p as [pool todo pending merged mem]. cbn in PE.
      pose proof I as (s & H & _). cbn [pr_mem] in H. destruct (holds_step _ _ (LInsEnd (S t) c) H Logic.I) as (mem' & L & _).
      pose proof (ps_insert r n t c cs pool todo pending merged mem mem' LT PE L) as ST.
      destruct (IH _ (inv_step _ _ _ I ST)) as (p' & SS & A1 & A2 & A3 & A4 & A5).
      { cbn. rewrite upd_same. cbn in E. lia. }
      exists p'. split; [eapply pss_step; eauto|]. cbn in *. repeat split; auto. intros u NE. rewrite (A5 u NE). apply upd_other. exact NE.
  Qed.

  Lemma todo_done : forall g t, (t < n)%nat -> forall k p, inv g p -> length (pr_todo p t) = k ->
      exists p', par_steps r n p p' /\ pr_pool p' = pr_pool p /\ pr_merged p' = pr_merged p /\ pr_pending p' t = [] /\ pr_todo p' t = [] /\
                 forall u, u <> t -> pr_pending p' u = pr_pending p u /\ pr_todo p' u = pr_todo p u.
  Proof.
    intros g t LT. induction k as [|k IH]; intros p I E; destruct (pending_done g t LT _ p I eq_refl) as (p1 & S1 & B1 & B2 & B3 & B4 & B5).
    - exists p1. split; [exact S1|]. rewrite B2. repeat split; auto. destruct (pr_todo p t); [reflexivity|discriminate].
    - pose proof (inv_steps _ _ _ S1 I) as I1. rewrite <- B2 in E. destruct p1 as [pool todo pending merged mem]. cbn in B1, B2, B3, B4, B5, E.
      destruct (todo t) as [|i is] eqn:TE; [discriminate|]. pose proof (ps_begin r n t i is pool todo pending merged mem LT B4 TE) as ST.
      destruct (IH _ (inv_step _ _ _ I1 ST)) as (p' & SS & A1 & A2 & A3 & A4 & A5).
      { cbn. rewrite upd_same. cbn in E. lia. }
      exists p'. split; [eapply steps_trans; [exact S1|]; eapply pss_step; eauto|]. cbn in *. rewrite <- B1, <- B3. repeat split; auto.
      + rewrite <- B5 by assumption. destruct (A5 u H) as (X & _). rewrite X. apply upd_other. assumption.
      + rewrite <- B2. destruct (A5 u H) as (_ & X). rewrite X. apply upd_other. assumption.
  Qed.

  Lemma completes : (0 < n)%nat -> forall g p, inv g p -> exists p', par_steps r n p p' /\ par_done n p'.
  Proof.
    intros N g p I.
    assert (E1 : exists p1, par_steps r n p p1 /\ pr_pool p1 = []).
    { destruct p as [pool todo pending merged mem]. pose proof (ps_take r n 0%nat [] pool [] todo pending merged mem N) as X. rewrite !app_nil_r in X. cbn [app] in X.
      eexists. split; [eapply pss_step; [exact X|constructor]|reflexivity]. }
    destruct E1 as (p1 & S1 & L1). pose proof (inv_steps _ _ _ S1 I) as I1. clear I.
    assert (E2 : forall k, (k <= n)%nat -> exists p2, par_steps r n p1 p2 /\ pr_pool p2 = [] /\ forall t, (t < k)%nat -> pr_todo p2 t = [] /\ pr_pending p2 t = []).
    { induction k as [|k IH]; intros K; [exists p1; split; [constructor|]; split; [exact L1|lia]|]. destruct IH as (p2 & S2 & L2 & T2); [lia|].
      destruct (todo_done g k K _ p2 (inv_steps _ _ _ S2 I1) eq_refl) as (p3 & S3 & A1 & A2 & A3 & A4 & A5). exists p3. split; [eapply steps_trans; eauto|]. split; [congruence|].
      intros t LT. destruct (Nat.eq_dec t k) as [->|NE]; [auto|]. destruct (A5 t NE) as (-> & ->). apply T2. lia. }
    destruct (E2 n (le_n n)) as (p2 & S2 & L2 & T2). pose proof (inv_steps _ _ _ S2 I1) as I2.
    assert (E3 : forall k, (k <= n)%nat -> exists p3, par_steps r n p2 p3 /\ pr_pool p3 = [] /\ (forall t, (t < n)%nat -> pr_todo p3 t = [] /\ pr_pending p3 t = []) /\ forall t, (t < k)%nat -> pr_merged p3 t = true).
    { induction k as [|k IH]; intros K; [exists p2; split; [constructor|]; split; [exact L2|]; split; [exact T2|lia]|]. destruct IH as (p3 & S3 & L3 & T3 & M3); [lia|].
      destruct (pr_merged p3 k) eqn:MK.
      - exists p3. split; [exact S3|]. split; [exact L3|]. split; [exact T3|]. intros t LT. destruct (Nat.eq_dec t k) as [->|NE]; [exact MK|]. apply M3. lia.
      - destruct (inv_steps _ _ _ S3 I2) as (s & H & _). destruct (holds_step _ _ (LMerge 0%nat (S k)) H ltac:(discriminate)) as (mem' & L & _).
        destruct (T3 k K) as (X1 & X2). destruct p3 as [pool todo pending merged mem]. cbn in *. subst pool.
        pose proof (ps_merge r n k todo pending merged mem mem' K X1 X2 MK L) as ST.
        eexists. split; [eapply steps_trans; [exact S3|]; eapply pss_step; [exact ST|constructor]|]. cbn. split; [reflexivity|]. split; [exact T3|].
        intros t LT. destruct (Nat.eq_dec t k) as [->|NE]; [apply upd_same|]. rewrite upd_other by exact NE. apply M3. lia. }
    destruct (E3 n (le_n n)) as (p3 & S3 & L3 & T3 & M3). exists p3. split; [eapply steps_trans; [exact S1|]; eapply steps_trans; eauto|].
    split; [exact L3|]. intros t LT. destruct (T3 t LT). auto.
  Qed.
End Region.

Lemma run_spec : forall rs mem mem', par_run rs mem mem' -> forall s, holds mem s -> (forall t, s (S t) = []) ->
    exists s', holds mem' s' /\ Permutation (s' 0%nat) (s 0%nat ++ sequential rs) /\ forall t, s' (S t) = [].
Proof.
  intros rs mem mem' R. induction R as [mem|r rs n mem p mem' N ST D R IH]; intros s H E.
  - exists s. split; [exact H|]. split; [|exact E]. unfold sequential. cbn. rewrite app_nil_r. reflexivity.
  - destruct (inv_done r n _ _ (inv_steps r n _ _ _ ST (inv_start r n mem (s 0%nat) s H eq_refl E)) D) as (s1 & H1 & P1 & E1).
    destruct (IH s1 H1 E1) as (s' & H' & P' & E'). exists s'. split; [exact H'|]. split; [|exact E'].
    rewrite P', P1. unfold sequential. cbn [flat_map]. rewrite app_assoc. reflexivity.
Qed.

Lemma run_exists : forall rs mem s (ns : list nat), length ns = length rs -> Forall (fun n => (0 < n)%nat) ns ->
    holds mem s -> (forall t, s (S t) = []) -> exists mem', par_run rs mem mem'.
Proof.
  induction rs as [|r rs IH]; intros mem s ns L F H E; destruct ns as [|n ns]; try discriminate; [exists mem; constructor|].
  inversion F; subst. pose proof (inv_start r n mem (s 0%nat) s H eq_refl E) as I.
  destruct (completes r n ltac:(assumption) _ _ I) as (p & ST & D).
  destruct (inv_done r n _ _ (inv_steps r n _ _ _ ST I) D) as (s1 & H1 & _ & E1).
  destruct (IH _ s1 ns ltac:(cbn in L; lia) ltac:(assumption) H1 E1) as (mem' & R). exists mem'. econstructor; eauto.
Qed.
