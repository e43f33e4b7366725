(** * Histories of copies, insertions and destructions *)
From Coq Require Import ZArith List Bool QArith Permutation Lia.
From Verif Require Import Base Own OwnSpec OwnProofs OwnKinds.
Import ListNotations.
Local Open Scope Z_scope.

Lemma upd_length : forall A (l : list A) i x, length (upd l i x) = length l.
Proof. induction l as [|y l IH]; intros [|i] x; cbn; auto. Qed.
Lemma upd_same : forall A (l : list A) i x, nth_error l i = None -> upd l i x = l.
Proof. induction l as [|y l IH]; intros [|i] x H; cbn in *; auto; [discriminate|]. rewrite IH; auto. Qed.
Lemma nth_upd : forall A (l : list A) i j x, nth_error (upd l i x) j = if Nat.eqb i j then match nth_error l j with Some _ => Some x | None => None end else nth_error l j.
Proof.
  induction l as [|y l IH]; intros i j x.
  - cbn. destruct j; cbn; destruct (Nat.eqb i _); reflexivity.
  - destruct i, j; cbn; auto.
Qed.
Lemma map_upd : forall A B (f : A -> B) l i x, map f (upd l i x) = upd (map f l) i (f x).
Proof. induction l as [|y l IH]; intros [|i] x; cbn; auto. rewrite IH. reflexivity. Qed.

Section Fields.
Context {V : Type} (own : V -> holds).
Notation all vs cs L := (fields (map own vs) cs L).
Lemma all_length : forall vs cs L, all vs cs L -> length vs = length cs.
Proof. induction vs as [|v vs IH]; intros [|c cs] L H; cbn in *; auto; try contradiction. destruct H as (L1 & L2 & _ & _ & H). f_equal. eapply IH, H. Qed.
Lemma all_nth : forall vs cs L i v, all vs cs L -> nth_error vs i = Some v -> exists c, nth_error cs i = Some c.
Proof. intros vs cs L i v H N. apply all_length in H. destruct (nth_error cs i) eqn:E; [eauto|]. apply nth_error_None in E. rewrite <- H in E. apply nth_error_None in E. congruence. Qed.
Lemma all_none : forall vs cs L i, all vs cs L -> nth_error vs i = None -> nth_error cs i = None.
Proof. intros vs cs L i H N. apply all_length in H. apply nth_error_None. rewrite <- H. apply nth_error_None, N. Qed.
(** Take a variable out, and put another value in its place. *)
Lemma all_take : forall vs cs L i v c, all vs cs L -> nth_error vs i = Some v -> nth_error cs i = Some c ->
  exists Lv F, own v c Lv /\ Permutation L (Lv ++ F) /\
  forall x cx Lx, own x cx Lx -> exists L', all (upd vs i x) (upd cs i cx) L' /\ Permutation L' (Lx ++ F).
Proof.
  induction vs as [|w vs IH]; intros [|cw cs] L i v c H N M; try (destruct i; discriminate).
  destruct H as (L1 & L2 & -> & O & H). destruct i as [|i]; cbn in N, M.
  - injection N as ->. injection M as ->. exists L1, L2. split; [exact O|]. split; [reflexivity|]. intros x cx Lx Ox.
    exists (Lx ++ L2). split; [|reflexivity]. exists Lx, L2. auto.
  - destruct (IH cs L2 i v c H N M) as (Lv & F & Ov & P & W). exists Lv, (L1 ++ F). split; [exact Ov|]. split; [rewrite P; perm|].
    intros x cx Lx Ox. destruct (W x cx Lx Ox) as (L' & A & P'). exists (L1 ++ L'). split; [|rewrite P'; perm]. exists L1, L'. auto.
Qed.
(** Two variables. *)
Lemma all_two : forall vs cs L i j d s cd c, all vs cs L -> i <> j -> nth_error vs i = Some d -> nth_error vs j = Some s -> nth_error cs i = Some cd -> nth_error cs j = Some c ->
  exists Ld Ls F, own d cd Ld /\ own s c Ls /\ Permutation L (Ld ++ Ls ++ F) /\
  forall x cx Lx, own x cx Lx -> exists L', all (upd vs i x) (upd cs i cx) L' /\ Permutation L' (Lx ++ Ls ++ F).
Proof.
  induction vs as [|w vs IH]; intros [|cw cs] L i j d s cd c H NE Ni Nj Mi Mj; try (destruct i; discriminate).
  destruct H as (L1 & L2 & -> & O & H). destruct i as [|i], j as [|j]; cbn in Ni, Nj, Mi, Mj; [congruence| | |].
  - injection Ni as ->. injection Mi as ->. destruct (all_take vs cs L2 j s c H Nj Mj) as (Ls & F & Os & P & _). exists L1, Ls, F.
    split; [exact O|]. split; [exact Os|]. split; [rewrite P; reflexivity|]. intros x cx Lx Ox. exists (Lx ++ L2). split; [exists Lx, L2; auto|rewrite P; reflexivity].
  - injection Nj as ->. injection Mj as ->. destruct (all_take vs cs L2 i d cd H Ni Mi) as (Ld & F & Od & P & W). exists Ld, L1, F.
    split; [exact Od|]. split; [exact O|]. split; [rewrite P; perm|]. intros x cx Lx Ox. destruct (W x cx Lx Ox) as (L' & A & P'). exists (L1 ++ L').
    split; [exists L1, L'; auto|rewrite P'; perm].
  - destruct (IH cs L2 i j d s cd c H) as (Ld & Ls & F & Od & Os & P & W); auto. exists Ld, Ls, (L1 ++ F). split; [exact Od|]. split; [exact Os|]. split; [rewrite P; perm|].
    intros x cx Lx Ox. destruct (W x cx Lx Ox) as (L' & A & P'). exists (L1 ++ L'). split; [exists L1, L'; auto|rewrite P'; perm].
Qed.
(** Both of two variables change. *)
Lemma all_both : forall vs cs L i j d s cd c, all vs cs L -> i <> j -> nth_error vs i = Some d -> nth_error vs j = Some s -> nth_error cs i = Some cd -> nth_error cs j = Some c ->
  exists Ld Ls F, own d cd Ld /\ own s c Ls /\ Permutation L (Ld ++ Ls ++ F) /\
  forall x cx Lx y cy Ly, own x cx Lx -> own y cy Ly -> exists L', all (upd (upd vs i x) j y) (upd (upd cs i cx) j cy) L' /\ Permutation L' (Lx ++ Ly ++ F).
Proof.
  induction vs as [|w vs IH]; intros [|cw cs] L i j d s cd c H NE Ni Nj Mi Mj; try (destruct i; discriminate).
  destruct H as (L1 & L2 & -> & O & H). destruct i as [|i], j as [|j]; cbn in Ni, Nj, Mi, Mj; [congruence| | |].
  - injection Ni as ->. injection Mi as ->. destruct (all_take vs cs L2 j s c H Nj Mj) as (Ls & F & Os & P & W). exists L1, Ls, F.
    split; [exact O|]. split; [exact Os|]. split; [rewrite P; reflexivity|]. intros x cx Lx y cy Ly Ox Oy. destruct (W y cy Ly Oy) as (L' & A & P').
    exists (Lx ++ L'). split; [exists Lx, L'; auto|rewrite P'; reflexivity].
  - injection Nj as ->. injection Mj as ->. destruct (all_take vs cs L2 i d cd H Ni Mi) as (Ld & F & Od & P & W). exists Ld, L1, F.
    split; [exact Od|]. split; [exact O|]. split; [rewrite P; perm|]. intros x cx Lx y cy Ly Ox Oy. destruct (W x cx Lx Ox) as (L' & A & P'). exists (Ly ++ L').
    split; [exists Ly, L'; auto|rewrite P'; perm].
  - destruct (IH cs L2 i j d s cd c H) as (Ld & Ls & F & Od & Os & P & W); auto. exists Ld, Ls, (L1 ++ F). split; [exact Od|]. split; [exact Os|]. split; [rewrite P; perm|].
    intros x cx Lx y cy Ly Ox Oy. destruct (W x cx Lx y cy Ly Ox Oy) as (L' & A & P'). exists (L1 ++ L'). split; [exists L1, L'; auto|rewrite P'; perm].
Qed.
Lemma all_init : forall init blank n, own init blank [] -> all (repeat init n) (repeat blank n) [].
Proof. induction n as [|n IH]; intros O; [reflexivity|]. cbn. exists [], []. auto. Qed.
Lemma all_blank : forall blank vs n L, (forall v L, own v blank L -> L = []) -> all vs (repeat blank n) L -> L = [].
Proof.
  induction vs as [|v vs IH]; intros [|n] L B H; cbn in H; auto; try contradiction. destruct H as (L1 & L2 & -> & O & H). rewrite (B _ _ O), (IH n L2 B H). reflexivity.
Qed.
End Fields.

Section Histories.
Variable pick : heap -> addr.
Hypothesis FRESH : allocator pick.
Context {V : Type} (inj : lnode V -> block) (prj : block -> option (lnode V)) (owns : V -> holds) (blank : tree).
Variables (init : V) (destroy : V -> M V) (assign copy : V -> V -> M V).
Hypothesis PI : forall n, prj (inj n) = Some n.
Hypothesis K : kind owns blank init destroy assign copy.
Notation lists := (owns_list inj owns).
Let KL := kind_list pick FRESH inj prj owns blank init destroy assign copy PI K.
Definition state_ok (st : list V * list lst) (m : list tree * list (list tree)) (L : heap) : Prop :=
  exists L1 L2, fields (map owns (fst st)) (fst m) L1 /\ fields (map lists (snd st)) (map TRec (snd m)) L2 /\ Permutation L (L1 ++ L2).
Lemma kind_self : forall W (own : W -> holds) b i d a c, kind own b i d a c -> forall v cv L, own v cv L -> hoare L (bnd (d v) (fun x => a x x)) (fun x L' => own x b [] /\ L' = []).
Proof.
  intros W own b i d a c KK v cv L O. apply (seq_gone _ _ _ _ _ L [] (fun x => own x b [])); [apply pull_end|eapply (k_destroy _ _ _ _ _ _ KK), O|].
  intros x Ox. eapply hoare_post; [|apply (k_assign _ _ _ _ _ _ KK x x b [] Ox Ox)]. intros y L' (Ly & Oy & P). rewrite app_nil_r in P.
  pose proof (k_blank _ _ _ _ _ _ KK y Ly Oy) as E. subst Ly. split; [exact Oy|]. apply Permutation_nil. symmetry. exact P.
Qed.
Lemma nth_trec : forall ks k, nth_error (map TRec ks) k = option_map TRec (nth_error ks k).
Proof. intros. apply nth_error_map. Qed.
Lemma perform_ok : forall o st m L, no_self_merge o -> state_ok st m L -> hoare L (perform pick inj prj init destroy assign copy st o) (fun st' L' => state_ok st' (meant blank m o) L').
Proof.
  intros o [vs ls] [cs ks] L NS (L1 & L2 & A & B & P). cbn [fst snd] in A, B. apply (hoare_perm _ _ _ _ _ P). unfold perform, meant.
  destruct o as [i j|i|k i|k i|k k'|k|k k'].
  - destruct (nth_error vs i) as [d|] eqn:Ni.
    2: { rewrite (all_none owns _ _ _ _ A Ni). apply hoare_ret. exists L1, L2. auto. }
    destruct (all_nth owns _ _ _ _ _ A Ni) as (cd & Mi). rewrite Mi. destruct (nth_error vs j) as [s|] eqn:Nj.
    2: { rewrite (all_none owns _ _ _ _ A Nj). apply hoare_ret. exists L1, L2. auto. }
    destruct (all_nth owns _ _ _ _ _ A Nj) as (c & Mj). rewrite Mj. destruct (Nat.eqb_spec i j) as [<-|NE].
    + destruct (all_take owns vs cs L1 i d cd A Ni Mi) as (Lv & F & Ov & PF & W).
      eapply (hoare_seq _ _ _ _ _ Lv (F ++ L2)); [rewrite PF; perm|eapply kind_self; [exact K|exact Ov]|]. cbn beta. intros x L' [Ox ->].
      destruct (W x blank [] Ox) as (L'' & A' & P'). apply hoare_ret. exists L'', L2. cbn [fst snd]. split; [exact A'|]. split; [exact B|]. rewrite P'. perm.
    + destruct (all_two owns vs cs L1 i j d s cd c A NE Ni Nj Mi Mj) as (Ld & Ls & F & Od & Os & PF & W).
      eapply (hoare_seq _ _ _ _ _ (Ld ++ Ls) (F ++ L2)); [rewrite PF; perm|eapply (kind_copy _ _ _ _ _ _ _ K); eassumption|]. cbn beta. intros x L' (Lx & Ox & PX).
      destruct (W x c Lx Ox) as (L'' & A' & P'). apply hoare_ret. exists L'', L2. cbn [fst snd]. split; [exact A'|]. split; [exact B|]. rewrite PX, P'. perm.
  - destruct (nth_error vs i) as [d|] eqn:Ni.
    2: { rewrite (upd_same _ cs i) by (apply (all_none owns _ _ _ _ A Ni)). apply hoare_ret. exists L1, L2. auto. }
    destruct (all_nth owns _ _ _ _ _ A Ni) as (cd & Mi). destruct (all_take owns vs cs L1 i d cd A Ni Mi) as (Lv & F & Ov & PF & W).
    eapply (seq_gone _ _ _ _ _ Lv (F ++ L2)); [rewrite PF; perm|eapply (k_destroy _ _ _ _ _ _ K), Ov|]. cbn beta. intros x Ox.
    destruct (W x blank [] Ox) as (L'' & A' & P'). apply hoare_ret. exists L'', L2. cbn [fst snd]. split; [exact A'|]. split; [exact B|]. rewrite P'. perm.
  - destruct (nth_error ls k) as [l|] eqn:Nk.
    2: { apply (all_none lists _ _ _ _ B) in Nk. rewrite nth_trec in Nk. destruct (nth_error ks k); [discriminate|]. apply hoare_ret. exists L1, L2. auto. }
    destruct (all_nth lists _ _ _ _ _ B Nk) as (t & Mk). pose proof Mk as Mk'. rewrite nth_trec in Mk'. destruct (nth_error ks k) as [kk|] eqn:Ek; [|discriminate]. injection Mk' as <-.
    destruct (nth_error vs i) as [d|] eqn:Ni.
    2: { rewrite (all_none owns _ _ _ _ A Ni). apply hoare_ret. exists L1, L2. auto. }
    destruct (all_nth owns _ _ _ _ _ A Ni) as (cd & Mi). rewrite Mi.
    destruct (all_take owns vs cs L1 i d cd A Ni Mi) as (Lv & F & Ov & PF & _). destruct (all_take lists ls (map TRec ks) L2 k l (TRec kk) B Nk Mk) as (Ll & G & Ol & PG & W).
    eapply (hoare_seq _ _ _ _ _ (Ll ++ Lv) (F ++ G)); [rewrite PF, PG; perm|eapply (list_inserts pick FRESH inj prj owns blank init destroy assign copy PI K); eassumption|]. cbn beta.
    intros x L' (Lx & Ox & PX). destruct (W x _ Lx Ox) as (L'' & B' & P'). apply hoare_ret. exists L1, L''. cbn [fst snd]. split; [exact A|]. split; [rewrite (map_upd _ _ TRec); exact B'|].
    rewrite PX, P', PF. perm.
  - destruct (nth_error ls k) as [l|] eqn:Nk.
    2: { apply (all_none lists _ _ _ _ B) in Nk. rewrite nth_trec in Nk. destruct (nth_error ks k); [discriminate|]. apply hoare_ret. exists L1, L2. auto. }
    destruct (all_nth lists _ _ _ _ _ B Nk) as (t & Mk). pose proof Mk as Mk'. rewrite nth_trec in Mk'. destruct (nth_error ks k) as [kk|] eqn:Ek; [|discriminate]. injection Mk' as <-.
    destruct (nth_error vs i) as [d|] eqn:Ni.
    2: { rewrite (all_none owns _ _ _ _ A Ni). apply hoare_ret. exists L1, L2. auto. }
    destruct (all_nth owns _ _ _ _ _ A Ni) as (cd & Mi). rewrite Mi.
    destruct (all_take owns vs cs L1 i d cd A Ni Mi) as (Lv & F & Ov & PF & _). destruct (all_take lists ls (map TRec ks) L2 k l (TRec kk) B Nk Mk) as (Ll & G & Ol & PG & W).
    eapply (hoare_seq _ _ _ _ _ (Ll ++ Lv) (F ++ G)); [rewrite PF, PG; perm|eapply (list_prepends pick FRESH inj prj owns blank init destroy assign copy PI K); eassumption|]. cbn beta.
    intros x L' (Lx & Ox & PX). destruct (W x _ Lx Ox) as (L'' & B' & P'). apply hoare_ret. exists L1, L''. cbn [fst snd]. split; [exact A|]. split; [rewrite (map_upd _ _ TRec); exact B'|].
    rewrite PX, P', PF. perm.
  - destruct (nth_error ls k) as [d|] eqn:Nk.
    2: { apply (all_none lists _ _ _ _ B) in Nk. rewrite nth_trec in Nk. destruct (nth_error ks k); [discriminate|]. apply hoare_ret. exists L1, L2. auto. }
    destruct (all_nth lists _ _ _ _ _ B Nk) as (t & Mk). pose proof Mk as Mk'. rewrite nth_trec in Mk'. destruct (nth_error ks k) as [kk|] eqn:Ek; [|discriminate]. injection Mk' as <-.
    destruct (nth_error ls k') as [s|] eqn:Nj.
    2: { apply (all_none lists _ _ _ _ B) in Nj. rewrite nth_trec in Nj. destruct (nth_error ks k'); [discriminate|]. apply hoare_ret. exists L1, L2. auto. }
    destruct (all_nth lists _ _ _ _ _ B Nj) as (t & Mj). pose proof Mj as Mj'. rewrite nth_trec in Mj'. destruct (nth_error ks k') as [kj|] eqn:Ej; [|discriminate]. injection Mj' as <-.
    destruct (Nat.eqb_spec k k') as [<-|NE].
    + destruct (all_take lists ls (map TRec ks) L2 k d (TRec kk) B Nk Mk) as (Lv & F & Ov & PF & W).
      eapply (hoare_seq _ _ _ _ _ Lv (F ++ L1)); [rewrite PF; perm|eapply kind_self; [exact KL|exact Ov]|]. cbn beta. intros x L' [Ox ->].
      destruct (W x (TRec []) [] Ox) as (L'' & B' & P'). apply hoare_ret. exists L1, L''. cbn [fst snd]. split; [exact A|]. split; [rewrite (map_upd _ _ TRec); exact B'|]. rewrite P'. perm.
    + destruct (all_two lists ls (map TRec ks) L2 k k' d s (TRec kk) (TRec kj) B NE Nk Nj Mk Mj) as (Ld & Ls & F & Od & Os & PF & W).
      eapply (hoare_seq _ _ _ _ _ (Ld ++ Ls) (F ++ L1)); [rewrite PF; perm|eapply (kind_copy _ _ _ _ _ _ _ KL); eassumption|]. cbn beta. intros x L' (Lx & Ox & PX).
      destruct (W x (TRec kj) Lx Ox) as (L'' & B' & P'). apply hoare_ret. exists L1, L''. cbn [fst snd]. split; [exact A|]. split; [rewrite (map_upd _ _ TRec); exact B'|]. rewrite PX, P'. perm.
  - destruct (nth_error ls k) as [d|] eqn:Nk.
    2: { apply (all_none lists _ _ _ _ B) in Nk. rewrite nth_trec in Nk. rewrite (upd_same _ ks k) by (destruct (nth_error ks k); [discriminate|reflexivity]). apply hoare_ret. exists L1, L2. auto. }
    destruct (all_nth lists _ _ _ _ _ B Nk) as (t & Mk). destruct (all_take lists ls (map TRec ks) L2 k d t B Nk Mk) as (Lv & F & Ov & PF & W).
    eapply (seq_gone _ _ _ _ _ Lv (F ++ L1)); [rewrite PF; perm|eapply (k_destroy _ _ _ _ _ _ KL), Ov|]. cbn beta. intros x Ox.
    destruct (W x (TRec []) [] Ox) as (L'' & B' & P'). apply hoare_ret. exists L1, L''. cbn [fst snd]. split; [exact A|]. split; [rewrite (map_upd _ _ TRec); exact B'|]. rewrite P'. perm.
  - destruct (nth_error ls k) as [d|] eqn:Nk.
    2: { apply (all_none lists _ _ _ _ B) in Nk. rewrite nth_trec in Nk. destruct (nth_error ks k); [discriminate|]. apply hoare_ret. exists L1, L2. auto. }
    destruct (all_nth lists _ _ _ _ _ B Nk) as (t & Mk). pose proof Mk as Mk'. rewrite nth_trec in Mk'. destruct (nth_error ks k) as [kk|] eqn:Ek; [|discriminate]. injection Mk' as <-.
    destruct (nth_error ls k') as [s|] eqn:Nj.
    2: { apply (all_none lists _ _ _ _ B) in Nj. rewrite nth_trec in Nj. destruct (nth_error ks k'); [discriminate|]. apply hoare_ret. exists L1, L2. auto. }
    destruct (all_nth lists _ _ _ _ _ B Nj) as (t & Mj). pose proof Mj as Mj'. rewrite nth_trec in Mj'. destruct (nth_error ks k') as [kj|] eqn:Ej; [|discriminate]. injection Mj' as <-.
    destruct (all_both lists ls (map TRec ks) L2 k k' d s (TRec kk) (TRec kj) B NS Nk Nj Mk Mj) as (Ld & Ls & F & Od & Os & PF & W).
    eapply (hoare_seq _ _ _ _ _ (Ld ++ Ls) (F ++ L1)); [rewrite PF; perm|eapply (list_merges inj prj owns PI); eassumption|]. cbn beta.
    intros [x y] L' (Lx & Ox & Oy & PX). cbn [fst snd] in Ox, Oy |- *. destruct (W x _ Lx y _ [] Ox Oy) as (L'' & B' & P').
    apply hoare_ret. exists L1, L''. cbn [fst snd]. split; [exact A|]. split; [rewrite !(map_upd _ _ TRec); exact B'|]. rewrite PX, P'. perm.
Qed.
Lemma run_ok : forall ops st m L, Forall no_self_merge ops -> state_ok st m L -> hoare L (run pick inj prj init destroy assign copy ops st) (fun st' L' => state_ok st' (fold_left (meant blank) ops m) L').
Proof.
  induction ops as [|o ops IH]; intros st m L FS H; cbn [run fold_left].
  - apply hoare_ret. exact H.
  - eapply hoare_seq; [apply pull_end|apply perform_ok; [exact (Forall_inv FS)|exact H]|]. cbn beta. intros st' L' H'. apply (hoare_perm _ _ _ L'); [rewrite app_nil_r; reflexivity|]. apply IH; [exact (Forall_inv_tail FS)|exact H'].
Qed.
Lemma upd_repeat : forall A (b : A) l k i, firstn i l = repeat b i -> i = k -> (i < length l)%nat -> firstn (Datatypes.S i) (upd l k b) = repeat b (Datatypes.S i).
Proof.
  intros A b l k i H <-. revert i H. induction l as [|x l IH]; intros [|i] H HL; cbn [length] in HL; try lia; cbn in *.
  - reflexivity.
  - injection H as -> H. f_equal. apply IH; [exact H|lia].
Qed.
Lemma destroys_vars : forall n cs ks, length cs = n -> fold_left (meant blank) (map ODestroy (seq 0 n)) (cs, ks) = (repeat blank n, ks).
Proof.
  intros n cs ks E. assert (W : forall j, (j <= n)%nat -> exists cs', fold_left (meant blank) (map ODestroy (seq 0 j)) (cs, ks) = (cs', ks) /\ length cs' = n /\ firstn j cs' = repeat blank j).
  { induction j as [|j IH]; intros J; [exists cs; auto|]. destruct IH as (cs' & F & N & R); [lia|]. rewrite seq_S, map_app, fold_left_app, F. cbn.
    exists (upd cs' j blank). split; [reflexivity|]. split; [rewrite upd_length; exact N|]. apply upd_repeat; [exact R|reflexivity|lia]. }
  destruct (W n (Nat.le_refl n)) as (cs' & F & N & R). rewrite F. f_equal. rewrite <- R. rewrite <- N. symmetry. apply firstn_all.
Qed.
Lemma destroys_lists : forall n cs ks, length ks = n -> fold_left (meant blank) (map OListDestroy (seq 0 n)) (cs, ks) = (cs, repeat [] n).
Proof.
  intros n cs ks E. assert (W : forall j, (j <= n)%nat -> exists ks', fold_left (meant blank) (map OListDestroy (seq 0 j)) (cs, ks) = (cs, ks') /\ length ks' = n /\ firstn j ks' = repeat [] j).
  { induction j as [|j IH]; intros J; [exists ks; auto|]. destruct IH as (ks' & F & N & R); [lia|]. rewrite seq_S, map_app, fold_left_app, F. cbn.
    exists (upd ks' j []). split; [reflexivity|]. split; [rewrite upd_length; exact N|]. apply upd_repeat; [exact R|reflexivity|lia]. }
  destruct (W n (Nat.le_refl n)) as (ks' & F & N & R). rewrite F. f_equal. rewrite <- R. rewrite <- N. symmetry. apply firstn_all.
Qed.
Lemma meant_length : forall ops cs ks, length (fst (fold_left (meant blank) ops (cs, ks))) = length cs /\ length (snd (fold_left (meant blank) ops (cs, ks))) = length ks.
Proof.
  induction ops as [|o ops IH]; intros cs ks; [auto|]. cbn [fold_left].
  assert (W : length (fst (meant blank (cs, ks) o)) = length cs /\ length (snd (meant blank (cs, ks) o)) = length ks).
  { destruct o; cbn [meant]; repeat match goal with |- context [match ?x with Some _ => _ | None => _ end] => destruct x end; cbn [fst snd]; rewrite ?upd_length; auto. }
  destruct (meant blank (cs, ks) o) as [cs' ks']. cbn [fst snd] in W. destruct W as [W1 W2]. rewrite <- W1, <- W2. apply IH.
Qed.
Lemma kind_histories : safe_histories pick inj prj owns blank init destroy assign copy.
Proof.
  intros n m ops h R FS I. pose proof (meant_length ops (repeat blank n) (repeat [] m)) as N. destruct (fold_left (meant blank) ops (repeat blank n, repeat [] m)) as [cs ks] eqn:E. cbn [fst snd] in N.
  rewrite !repeat_length in N. destruct N as [N1 N2].
  assert (S0 : state_ok (repeat init n, repeat list_init m) (repeat blank n, repeat [] m) []).
  { exists [], []. cbn [fst snd]. split; [apply all_init, (k_init _ _ _ _ _ _ K)|]. split; [|reflexivity]. replace (map TRec (repeat [] m)) with (repeat (TRec []) m) by (clear; induction m; cbn; congruence).
    apply (all_init lists list_init (TRec [])). apply (k_init _ _ _ _ _ _ KL). }
  destruct (run_ok ops _ _ _ FS S0 h R I) as (h1 & [vs ls] & L & E1 & S1 & I1). rewrite E in S1. pose proof S1 as (L1 & L2 & A & B & P). cbn [fst snd] in A, B.
  exists h1, vs, ls, L1, L2. split; [exact E1|]. split; [exact A|]. split; [exact B|]. split; [eapply in_use_perm; [|exact I1]; rewrite P, <- app_assoc; reflexivity|].
  assert (FD : Forall no_self_merge (destroy_all n m)).
  { apply Forall_forall. intros o Ho. apply in_app_or in Ho. destruct Ho as [Ho|Ho]; apply in_map_iff in Ho; destruct Ho as (i & <- & _); exact Logic.I. }
  destruct (run_ok (destroy_all n m) _ _ _ FD S1 h1 R I1) as (h2 & [vs2 ls2] & L' & E2 & (L3 & L4 & A2 & B2 & P2) & I2). unfold destroy_all in A2, B2. rewrite fold_left_app in A2, B2.
  rewrite destroys_vars, destroys_lists in A2, B2 by assumption. cbn [fst snd] in A2, B2.
  apply (all_blank owns blank) in A2; [|apply (k_blank _ _ _ _ _ _ K)]. replace (map TRec (repeat [] m)) with (repeat (TRec []) m) in B2 by (clear; induction m; cbn; congruence).
  apply (all_blank lists) in B2; [|apply (k_blank _ _ _ _ _ _ KL)]. subst. apply Permutation_sym, Permutation_nil in P2. subst L'. exists h2, (vs2, ls2). split; [exact E2|exact I2].
Qed.
End Histories.
