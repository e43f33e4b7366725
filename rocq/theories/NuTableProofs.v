(** * The entries of the matrix of the non-uniform grid: any order of the
      connections (C39) *)
From Coq Require Import ZArith List Bool QArith Permutation Sorted Lia Lqa ZifyBool.
From Verif Require Import Base QSum Dims Floorplan FloorplanProofs Stack StackProofs PowerGrid Emulate Conduct Matrix MatrixSpec NonUniform SourceProofs NuMatrix NuMatrixSpec NuMatrixProofs.
Import ListNotations.
Local Open Scope Z_scope.

Lemma good_perm : forall n cs cs', Permutation cs cs' -> good_conns n cs -> good_conns n cs'.
Proof.
  intros n cs cs' P [A B C D]. constructor; auto.
  - eapply Permutation_NoDup; [apply Permutation_map, P|exact B].
  - intros c I. apply C. eapply Permutation_in; [apply Permutation_sym, P|exact I].
  - apply Permutation_length in P. lia.
Qed.

(** ** map_out *)
Lemma map_out_forall : forall {A B} (f : A -> outcome B) l r, map_out f l = Ok r <-> Forall2 (fun x y => f x = Ok y) l r.
Proof.
  intros A B f. induction l as [|x t IH]; intros r; cbn [map_out].
  - split; [intros [= <-]; constructor|intros H; inversion H; reflexivity].
  - split.
    + destruct (f x) as [y| |] eqn:E; try discriminate. cbn [bind]. destruct (map_out f t) as [ys| |] eqn:E2; try discriminate. cbn [bind]. intros [= <-]. constructor; [exact E|apply IH, eq_refl].
    + intros H. inversion H as [|? y ? ys E H2]; subst. rewrite E. cbn [bind]. apply IH in H2. rewrite H2. reflexivity.
Qed.
Lemma map_out_perm : forall {A B} (f : A -> outcome B) l l', Permutation l l' -> forall r, map_out f l = Ok r -> exists r', map_out f l' = Ok r' /\ Permutation r r'.
Proof.
  intros A B f l l' P. induction P as [|x l l' P IH|x y l|l l' l'' P IH P2 IH2]; intros r E.
  - exists r. split; [exact E|apply Permutation_refl].
  - cbn [map_out] in *. destruct (f x) as [b| |]; try discriminate. cbn [bind] in *. destruct (map_out f l) as [bs| |]; try discriminate. injection E as <-. destruct (IH bs eq_refl) as (r' & -> & P'). exists (b :: r'). split; [reflexivity|apply perm_skip, P'].
  - cbn [map_out] in *. destruct (f x) as [b| |], (f y) as [c| |]; try discriminate; cbn [bind] in *; try discriminate. destruct (map_out f l) as [bs| |]; try discriminate. injection E as <-. exists (b :: c :: bs). split; [reflexivity|apply perm_swap].
  - destruct (IH r E) as (r1 & E1 & Q1). destruct (IH2 r1 E1) as (r2 & E2 & Q2). exists r2. split; [exact E2|eapply perm_trans; eassumption].
Qed.
Lemma concat_perm : forall {A} (l l' : list (list A)), Permutation l l' -> Permutation (concat l) (concat l').
Proof.
  intros A l l' P. induction P as [|x l l' P IH|x y l|l l' l'' P IH P2 IH2]; cbn [concat]; auto.
  - apply Permutation_app_head, IH.
  - rewrite !app_assoc. apply Permutation_app_tail, Permutation_app_comm.
  - eapply perm_trans; eassumption.
Qed.
Lemma qsum_perm : forall l l', Permutation l l' -> (qsum l == qsum l')%Q.
Proof.
  intros l l' P. induction P as [|x l l' P IH|x y l|l l' l'' P IH P2 IH2].
  - reflexivity.
  - rewrite !qsum_cons, IH. reflexivity.
  - rewrite !qsum_cons. ring.
  - rewrite IH. exact IH2.
Qed.
Lemma filter_perm : forall {A} (f : A -> bool) l l', Permutation l l' -> Permutation (filter f l) (filter f l').
Proof.
  intros A f l l' P. induction P as [|x l l' P IH|x y l|l l' l'' P IH P2 IH2]; cbn [filter]; auto.
  - destruct (f x); [apply perm_skip|]; exact IH.
  - destruct (f x), (f y); try apply perm_swap; apply Permutation_refl.
  - eapply perm_trans; eassumption.
Qed.

(** ** The diagonal *)
Lemma qat_set : forall (l : list Q) i x j, 0 <= i < len l -> 0 <= j -> qat (list_set l (Z.to_nat i) x) j = if i =? j then x else qat l j.
Proof.
  intros l i x j I J. unfold qat. destruct (Z.eqb_spec i j) as [->|N]; [apply list_set_nth_same; lia|apply list_set_nth_other; lia].
Qed.
Lemma add_ok : forall es diag, (forall e, In e es -> 0 <= e_col e < len diag) ->
    exists diag', add_to_diagonal diag es = Ok diag' /\ length diag' = length diag /\
      forall j, 0 <= j < len diag -> (qat diag' j == qat diag j - qsum (map e_val (filter (at_col j) es)))%Q.
Proof.
  induction es as [|e t IH]; intros diag R; cbn [add_to_diagonal].
  - exists diag. repeat split. intros j J. cbn [filter map]. rewrite qsum_nil. ring.
  - pose proof (R e (or_introl eq_refl)) as RE. rewrite (arr_get_ok _ _ 0%Q) by exact RE. cbn [bind]. rewrite arr_set_ok by exact RE. cbn [bind]. fold (qat diag (e_col e)).
    destruct (IH (list_set diag (Z.to_nat (e_col e)) (qat diag (e_col e) + - e_val e)%Q)) as (d' & E & L & S).
    { intros x I. rewrite list_set_length. apply R. right. exact I. }
    rewrite list_set_length in *. exists d'. split; [exact E|]. split; [exact L|]. intros j J. rewrite S by exact J. rewrite qat_set by lia. cbn [filter]. unfold at_col at 2.
    destruct (Z.eqb_spec (e_col e) j) as [->|N]; cbn [map]; rewrite ?qsum_cons; ring.
Qed.
Lemma add_inv : forall es diag d', add_to_diagonal diag es = Ok d' -> forall e, In e es -> 0 <= e_col e < len diag.
Proof.
  induction es as [|e t IH]; intros diag d' E x; [intros []|]. cbn [add_to_diagonal] in E.
  destruct (arr_get diag (e_col e)) as [v| |] eqn:G; try discriminate. cbn [bind] in E. apply arr_get_inv in G. rewrite arr_set_ok in E by exact G. cbn [bind] in E.
  intros [<-|I]; [exact G|]. specialize (IH _ _ E x I). rewrite list_set_length in IH. exact IH.
Qed.

Section Table.
  Variables (g : tgrid) (d : dims) (an : analysis) (cells : list cell).
  Notation n := (len cells).
  Notation entries_of := (nu_entries g d cells).

  Lemma entries_inv : forall k l, entries_of k = Ok l ->
      exists a b r, arr_get cells (k_node2 k) = Ok b /\ arr_get cells (k_node1 k) = Ok a /\ nu_conductance g d k b a = Ok r /\
        l = [mkEntry (k_node2 k) (k_node1 k) (fst r); mkEntry (k_node1 k) (k_node2 k) (snd r * fst r)%Q].
  Proof.
    intros k l E. unfold nu_entries in E. destruct (arr_get cells (k_node2 k)) as [b| |]; try discriminate. cbn [bind] in E. destruct (arr_get cells (k_node1 k)) as [a| |]; try discriminate. cbn [bind] in E.
    destruct (nu_conductance g d k b a) as [r| |] eqn:C; try discriminate. injection E as <-. exists a, b, r. auto.
  Qed.

  Lemma off_length : forall cs es, map_out entries_of cs = Ok es -> len (concat es) = 2 * len cs.
  Proof.
    intros cs es E. apply map_out_forall in E. induction E as [|k l cs es K E IH]; [reflexivity|]. apply entries_inv in K. destruct K as (a & b & r & _ & _ & _ & ->).
    cbn [concat app length]. lia.
  Qed.
  Lemma off_in : forall cs es e, map_out entries_of cs = Ok es -> In e (concat es) -> exists k l, In k cs /\ entries_of k = Ok l /\ In e l.
  Proof.
    intros cs es e E. apply map_out_forall in E. induction E as [|k l cs es K E IH]; [intros []|]. cbn [concat]. intros I. apply in_app_or in I. destruct I as [I|I].
    - exists k, l. repeat split; auto. left. reflexivity.
    - destruct (IH I) as (k' & l' & A & B & C). exists k', l'. repeat split; auto. right. exact A.
  Qed.
  Lemma off_keys : forall cs es, map_out entries_of cs = Ok es -> map key (concat es) = flat_map (fun k => [(k_node2 k, k_node1 k); (k_node1 k, k_node2 k)]) cs.
  Proof.
    intros cs es E. apply map_out_forall in E. induction E as [|k l cs es K E IH]; [reflexivity|]. apply entries_inv in K. destruct K as (a & b & r & _ & _ & _ & ->).
    cbn [concat app map flat_map]. rewrite IH. reflexivity.
  Qed.
  Lemma pairs_NoDup : forall cs, good_conns n cs -> NoDup (flat_map (fun k => [(k_node2 k, k_node1 k); (k_node1 k, k_node2 k)]) cs).
  Proof.
    intros cs [_ O R _]. induction cs as [|k t IH]; [constructor|]. cbn [map] in O. inversion O as [|? ? NI Ot]; subst.
    assert (RT : forall c, In c t -> 0 <= k_node1 c < k_node2 c /\ k_node2 c < n) by (intros c I; apply R; right; exact I).
    assert (NOT : forall c, In c t -> k_node1 c = k_node1 k -> k_node2 c = k_node2 k -> False).
    { intros c I A B. apply NI. rewrite <- A, <- B. apply (in_map (fun c => (k_node1 c, k_node2 c))). exact I. }
    pose proof (R k (or_introl eq_refl)) as RK. cbn [flat_map app]. constructor; [|constructor; [|apply IH; assumption]].
    - intros [H|H]; [injection H; lia|]. apply in_flat_map in H. destruct H as (c & I & [H|[H|[]]]); injection H as A B; [eapply NOT; eauto|specialize (RT c I); lia].
    - intros H. apply in_flat_map in H. destruct H as (c & I & [H|[H|[]]]); injection H as A B; [specialize (RT c I); lia|eapply NOT; eauto].
  Qed.

  Notation nconn cs := (nu_connections (len cs) n).
  Notation diag_of := (fun i => do c <- arr_get cells i ; nu_diagonal g d an c).
  Lemma nconn_eq : forall cs, good_conns n cs -> nconn cs = 2 * len cs + n.
  Proof. intros cs [A B C D]. unfold nu_connections. rewrite (u32_id (2 * len cs)) by lia. apply u32_id. lia. Qed.

  (** What the table is, when the program gets to it. *)
  Definition table_of (cs : list conn) (es : list (list entry)) (diag dv : list Q) (table : list entry) : Prop :=
    map_out entries_of cs = Ok es /\ map_out diag_of (zrange 0 (n - 1)) = Ok diag /\ len diag = n /\ len dv = n /\
    (forall j, 0 <= j < n -> (qat dv j == qat diag j - qsum (map e_val (filter (at_col j) (concat es))))%Q) /\
    table = concat es ++ map (fun i => mkEntry i i (qat dv i)) (zrange 0 (n - 1)).

  Lemma zlen : len (zrange 0 (n - 1)) = n.
  Proof. pose proof (zrange_length 0 (n - 1)). lia. Qed.
  Lemma map_out_len : forall {A B} (f : A -> outcome B) l r, map_out f l = Ok r -> length r = length l.
  Proof. intros A B f l r E. apply map_out_forall in E. induction E; [reflexivity|]. cbn [length]. congruence. Qed.

  Lemma col_range : forall cs es e, good_conns n cs -> map_out entries_of cs = Ok es -> In e (concat es) -> 0 <= e_col e < n /\ 0 <= e_row e < n /\ e_col e <> e_row e.
  Proof.
    intros cs es e G E I. destruct (off_in cs es e E I) as (k & l & IK & K & IL). apply entries_inv in K. destruct K as (a & b & r & _ & _ & _ & ->).
    pose proof (gc_range _ _ G k IK). destruct IL as [<-|[<-|[]]]; cbn [e_col e_row]; lia.
  Qed.

  Lemma table_ok : forall cs es diag, good_conns n cs -> map_out entries_of cs = Ok es -> map_out diag_of (zrange 0 (n - 1)) = Ok diag ->
      exists dv table, nu_table g d an cells cs (nconn cs) = Ok table /\ table_of cs es diag dv table.
  Proof.
    intros cs es diag G E D. unfold nu_table. rewrite E. cbn [bind]. rewrite (off_length cs es E), (nconn_eq cs G). replace (2 * len cs + n - 2 * len cs) with n by lia.
    destruct (Z.ltb_spec n 0); [lia|]. rewrite D. cbn [bind]. pose proof (map_out_len _ _ _ D) as LD. pose proof zlen as ZL. assert (LD' : len diag = n) by lia.
    destruct (add_ok (rev (concat es)) diag) as (dv & A & LV & S).
    { intros e I. rewrite LD'. apply (col_range cs es e G E). rewrite in_rev. exact I. }
    rewrite A. cbn [bind]. exists dv. eexists. split; [reflexivity|]. unfold table_of. repeat split; auto; [lia|].
    intros j J. rewrite S by lia. rewrite (qsum_perm (map e_val (filter (at_col j) (rev (concat es)))) (map e_val (filter (at_col j) (concat es)))); [reflexivity|].
    apply Permutation_map, filter_perm, Permutation_sym, Permutation_rev.
  Qed.
  Lemma table_inv : forall cs table, good_conns n cs -> nu_table g d an cells cs (nconn cs) = Ok table -> exists es diag dv, table_of cs es diag dv table.
  Proof.
    intros cs table G T. destruct (map_out entries_of cs) as [es| |] eqn:E; [|unfold nu_table in T; rewrite E in T; discriminate|unfold nu_table in T; rewrite E in T; discriminate].
    assert (D : exists diag, map_out diag_of (zrange 0 (n - 1)) = Ok diag).
    { unfold nu_table in T. rewrite E in T. cbn [bind] in T. rewrite (off_length cs es E), (nconn_eq cs G) in T. replace (2 * len cs + n - 2 * len cs) with n in T by lia.
      destruct (Z.ltb_spec n 0); [lia|]. destruct (map_out diag_of (zrange 0 (n - 1))) as [diag| |] eqn:D; try discriminate. exists diag. reflexivity. }
    destruct D as (diag & D). destruct (table_ok cs es diag G E D) as (dv & t' & T' & S). rewrite T in T'. injection T' as <-. exists es, diag, dv. exact S.
  Qed.

  Lemma NoDup_join : forall {A} (l m : list A), NoDup l -> NoDup m -> (forall x, In x l -> In x m -> False) -> NoDup (l ++ m).
  Proof.
    intros A. induction l as [|x t IH]; intros m L M H; [exact M|]. inversion L as [|? ? NI Lt]; subst. cbn [app]. constructor.
    - intros I. apply in_app_or in I. destruct I as [I|I]; [contradiction|]. apply (H x); [left; reflexivity|exact I].
    - apply IH; auto. intros y Y. apply H. right. exact Y.
  Qed.
  Lemma table_keys : forall cs es diag dv table, good_conns n cs -> table_of cs es diag dv table ->
      NoDup (map key table) /\ (forall e, In e table -> 0 <= e_col e < n /\ 0 <= e_row e < n) /\
      (forall j, 0 <= j < n -> In (mkEntry j j (qat dv j)) table) /\ len table = nconn cs.
  Proof.
    intros cs es diag dv table G (E & D & LD & LV & S & ->). rewrite nconn_eq by exact G. split; [|split; [|split]].
    - rewrite map_app, map_map. unfold key at 2. cbn [e_row e_col]. apply NoDup_join.
      + rewrite (off_keys cs es E). apply pairs_NoDup, G.
      + apply FinFun.Injective_map_NoDup; [intros x y [= H]; exact H|apply zrange_NoDup].
      + intros p I J. apply in_map_iff in I. destruct I as (e & <- & I). apply in_map_iff in J. destruct J as (j & EJ & _). destruct (col_range cs es e G E I) as (_ & _ & NE). unfold key in EJ. injection EJ as -> H. lia.
    - intros e I. apply in_app_or in I. destruct I as [I|I]; [destruct (col_range cs es e G E I) as (A & B & _); auto|].
      apply in_map_iff in I. destruct I as (j & <- & I). apply in_zrange in I. cbn [e_col e_row]. lia.
    - intros j J. apply in_or_app. right. apply in_map_iff. exists j. split; [reflexivity|]. apply in_zrange. lia.
    - rewrite app_length, map_length. rewrite Nat2Z.inj_add, (off_length cs es E), zlen. reflexivity.
  Qed.

  (** The matrix, when there is one. *)
  Lemma matrix_ok : forall cs es diag dv table, good_conns n cs -> nu_table g d an cells cs (nconn cs) = Ok table -> table_of cs es diag dv table ->
      exists m, nu_matrix g d an cells cs m.
  Proof.
    intros cs es diag dv table G T S. destruct (table_keys _ _ _ _ _ G S) as (N & R & D & LT). destruct (sort_exists table N) as (s & P & SO).
    destruct (vectors_ok s n) as (ptr & V & _); [exact (gc_some _ _ G)|exact SO| | |].
    - intros e I. apply R. eapply Permutation_in; [apply Permutation_sym, P|exact I].
    - intros j J. exists (mkEntry j j (qat dv j)). split; [|reflexivity]. eapply Permutation_in; [exact P|apply D, J].
    - eexists. exists table, s. split; [exact T|]. split; [split; assumption|]. rewrite <- LT. rewrite (Permutation_length P). exact V.
  Qed.
  Lemma matrix_inv : forall cs m, good_conns n cs -> nu_matrix g d an cells cs m ->
      exists es diag dv table s ptr, nu_table g d an cells cs (nconn cs) = Ok table /\ table_of cs es diag dv table /\ qsorted table s /\
        m = mkSysmatrix ptr (map e_row s) (map e_val s) /\ len ptr = n + 1 /\ (forall j, 0 <= j <= n -> zat ptr j = counts s j) /\
        (forall e, In e s -> 0 <= e_col e < n /\ 0 <= e_row e < n) /\ (forall j, 0 <= j < n -> In (mkEntry j j (qat dv j)) s).
  Proof.
    intros cs m G (table & s & T & (P & SO) & V). destruct (table_inv cs table G T) as (es & diag & dv & S). destruct (table_keys _ _ _ _ _ G S) as (N & R & D & LT).
    assert (R' : forall e, In e s -> 0 <= e_col e < n /\ 0 <= e_row e < n) by (intros e I; apply R; eapply Permutation_in; [apply Permutation_sym, P|exact I]).
    assert (D' : forall j, 0 <= j < n -> In (mkEntry j j (qat dv j)) s) by (intros j J; eapply Permutation_in; [exact P|apply D, J]).
    destruct (vectors_ok s n) as (ptr & V' & L & C); [exact (gc_some _ _ G)|exact SO|intros e I; apply R', I|intros j J; exists (mkEntry j j (qat dv j)); split; [apply D', J|reflexivity]|].
    rewrite <- LT, (Permutation_length P), V' in V. injection V as <-. exists es, diag, dv, table, s, ptr. split; [exact T|]. split; [exact S|]. split; [split; assumption|]. auto.
  Qed.

  Theorem matrix_csc : forall cs m, good_conns n cs -> nu_matrix g d an cells cs m -> csc n m.
  Proof.
    intros cs m G M. destruct (matrix_inv cs m G M) as (es & diag & dv & table & s & ptr & T & S & (P & SO) & -> & L & C & R & D).
    apply stored_csc; auto; [exact (gc_some _ _ G)|]. intros j J. exists (mkEntry j j (qat dv j)). auto.
  Qed.

  (** Equal matrices whatever the order. *)
  Lemma counts_same : forall s s' j, Forall2 same s s' -> counts s j = counts s' j.
  Proof.
    intros s s' j H. unfold counts. induction H as [|x y s s' (_ & C & _) H IH]; [reflexivity|]. unfold lower in *. cbn [filter]. rewrite C. destruct (e_col y <? j); cbn [length]; lia.
  Qed.
  Theorem matrix_any_order : forall cs cs' m m', good_conns n cs -> Permutation cs cs' -> nu_matrix g d an cells cs m -> nu_matrix g d an cells cs' m' -> same_matrix m m'.
  Proof.
    intros cs cs' m m' G PC M M'. pose proof (good_perm _ _ _ PC G) as G'.
    destruct (matrix_inv cs m G M) as (es & diag & dv & table & s & ptr & _ & S & (P & SO) & -> & L & C & _).
    destruct (matrix_inv cs' m' G' M') as (es' & diag' & dv' & table' & s' & ptr' & _ & S' & (P' & SO') & -> & L' & C' & _).
    assert (H : (forall e, In e table -> exists e', In e' table' /\ same e e') /\ (forall e', In e' table' -> exists e, In e table /\ same e e')).
    { destruct S as (E & D & LD & LV & SD & ->), S' as (E' & D' & LD' & LV' & SD' & ->). rewrite D in D'. injection D' as <-.
      destruct (map_out_perm entries_of cs cs' PC es E) as (es2 & E2 & PE). rewrite E' in E2. injection E2 as <-. apply concat_perm in PE.
      assert (DV : forall j, 0 <= j < n -> (qat dv j == qat dv' j)%Q).
      { intros j J. rewrite SD, SD' by exact J. rewrite (qsum_perm (map e_val (filter (at_col j) (concat es))) (map e_val (filter (at_col j) (concat es')))); [reflexivity|]. apply Permutation_map, filter_perm, PE. }
      split; intros e I; apply in_app_or in I; destruct I as [I|I].
      - exists e. split; [apply in_or_app; left; eapply Permutation_in; [exact PE|exact I]|]. repeat split; reflexivity.
      - apply in_map_iff in I. destruct I as (j & <- & I). exists (mkEntry j j (qat dv' j)). split; [apply in_or_app; right; apply in_map_iff; exists j; auto|]. apply in_zrange in I. repeat split. apply DV. lia.
      - exists e. split; [apply in_or_app; left; eapply Permutation_in; [apply Permutation_sym, PE|exact I]|]. repeat split; reflexivity.
      - apply in_map_iff in I. destruct I as (j & <- & I). exists (mkEntry j j (qat dv j)). split; [apply in_or_app; right; apply in_map_iff; exists j; auto|]. apply in_zrange in I. repeat split. apply DV. lia. }
    destruct H as (H1 & H2).
    assert (F : Forall2 same s s').
    { apply sorted_same; auto.
      - intros e I. apply (Permutation_in _ (Permutation_sym P)) in I. destruct (H1 e I) as (e' & I' & Q). exists e'. split; [eapply Permutation_in; eassumption|exact Q].
      - intros e I. apply (Permutation_in _ (Permutation_sym P')) in I. destruct (H2 e I) as (e' & I' & Q). exists e'. split; [eapply Permutation_in; eassumption|exact Q]. }
    unfold same_matrix. cbn [sm_ptr sm_rows sm_vals]. repeat split.
    - apply nth_ext with (d := 0) (d' := 0); [lia|]. intros i I. specialize (C (Z.of_nat i)). specialize (C' (Z.of_nat i)). unfold zat in *. rewrite Nat2Z.id in *. rewrite C, C' by lia. apply counts_same, F.
    - clear - F. induction F as [|x y s s' (E & _) F IH]; [reflexivity|]. cbn [map]. congruence.
    - clear - F. induction F as [|x y s s' (_ & _ & E) F IH]; [constructor|]. cbn [map]. constructor; assumption.
  Qed.
  Theorem matrix_order_exists : forall cs cs' m, good_conns n cs -> Permutation cs cs' -> nu_matrix g d an cells cs m -> exists m', nu_matrix g d an cells cs' m'.
  Proof.
    intros cs cs' m G PC M. pose proof (good_perm _ _ _ PC G) as G'. destruct (matrix_inv cs m G M) as (es & diag & dv & table & s & ptr & _ & (E & D & _) & _).
    destruct (map_out_perm entries_of cs cs' PC es E) as (es2 & E2 & PE). destruct (table_ok cs' es2 diag G' E2 D) as (dv' & table' & T' & S'). exact (matrix_ok cs' es2 diag dv' table' G' T' S').
  Qed.
End Table.
