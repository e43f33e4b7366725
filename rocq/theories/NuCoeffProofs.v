(** * The matrix of the non-uniform grid: definedness and coefficients *)
From Coq Require Import ZArith List Bool QArith Permutation Sorted Lia Lqa ZifyBool.
From Verif Require Import Base QSum Dims DimsProofs Floorplan FloorplanSpec FloorplanProofs Stack StackSpec StackProofs PowerGrid Emulate Conduct Matrix MatrixSpec CellProofs NonUniform SourceProofs NuMatrix NuMatrixSpec NuMatrixProofs NuTableProofs.
Import ListNotations.
Local Open Scope Z_scope.

(** ** Definedness *)
Section Defined.
  Variables (g : tgrid) (d : dims).
  Hypothesis G : good_tgrid d g.

  Notation in_stack := (in_stack g d).

  Lemma nu_layer_in : forall l k, 0 <= l < d_nlayers d -> nu_layer g d l k = k (type_of g l) (material_at d (layer_of g l) 0 0) (height d l).
  Proof.
    intros l k L. unfold nu_layer. pose proof (gt_types d g G). pose proof (gt_layers d g G).
    rewrite (arr_get_ok _ l LT_NONE) by lia. cbn [bind]. rewrite (arr_get_ok _ l layer0) by lia. cbn [bind].
    rewrite (get_height g d G) by lia. reflexivity.
  Qed.
  Ltac channel_case c L T :=
    let C := fresh in destruct (channel_some g d G (c_layer c) L) as (? & C); [rewrite T; reflexivity|]; unfold with_channel; rewrite C.
  Ltac chan := match goal with L : 0 <= c_layer ?c < _, T : type_of _ (c_layer ?c) = _ |- context [with_channel] => channel_case c L T end.

  Lemma convective_defined : forall ch l len, 0 <= l < d_nlayers d -> exists x, nu_convective ch d l len = Ok x.
  Proof. intros ch l len L. unfold nu_convective. destruct (ch_model ch); try (eexists; reflexivity); rewrite (get_height g d G) by exact L; eexists; reflexivity. Qed.

  Lemma spreader_defined : forall c (k : spreader -> Q -> material -> outcome Q), in_stack c -> c_layer c = d_nlayers d -> (forall s h m, exists x, k s h m = Ok x) -> exists x, with_spreader g k = Ok x.
  Proof. intros c k (_ & S) E K. destruct (S E) as (s & h & m & T). unfold with_spreader. rewrite T. apply K. Qed.

  Lemma nu_z_defined : forall v c up, in_stack c -> exists x, nu_z g d v c up = Ok x.
  Proof.
    intros v c up I. unfold nu_z. destruct (Z.leb_spec (d_nlayers d) (c_layer c)) as [L|L]; [apply (spreader_defined c); [exact I|destruct I; lia|eauto]|].
    assert (L0 : 0 <= c_layer c < d_nlayers d) by (destruct I; lia). rewrite nu_layer_in by exact L0.
    destruct (type_of g (c_layer c)) eqn:T; try chan; try destruct (c_channel c); try chan; try (eexists; reflexivity);
      pose proof (solid_facts g d G (c_layer c) L0) as F; rewrite T in F; destruct (F eq_refl) as (_ & F2 & _); specialize (F2 eq_refl); rewrite (last_layer_eq g d G), F2, Z.eqb_refl; eexists; reflexivity.
  Qed.
  Lemma nu_x_defined : forall v c, in_stack c -> exists x, nu_x g d v c = Ok x.
  Proof.
    intros v c I. unfold nu_x. destruct (Z.leb_spec (d_nlayers d) (c_layer c)) as [L|L]; [apply (spreader_defined c); [exact I|destruct I; lia|eauto]|].
    assert (L0 : 0 <= c_layer c < d_nlayers d) by (destruct I; lia). rewrite nu_layer_in by exact L0.
    destruct (type_of g (c_layer c)) eqn:T; try destruct (c_channel c); try chan; try (eexists; reflexivity).
  Qed.
  Lemma nu_y_defined : forall v c s, in_stack c -> exists x, nu_y g d v c s = Ok x.
  Proof.
    intros v c s I. unfold nu_y. destruct (Z.leb_spec (d_nlayers d) (c_layer c)) as [L|L]; [apply (spreader_defined c); [exact I|destruct I; lia|eauto]|].
    assert (L0 : 0 <= c_layer c < d_nlayers d) by (destruct I; lia). rewrite nu_layer_in by exact L0.
    destruct (type_of g (c_layer c)) eqn:T; try destruct (c_channel c); try chan; try (eexists; reflexivity);
      try (match goal with |- context [nu_convective ?ch d ?l ?len] => destruct (convective_defined ch l len L0) as (xx & ->); eexists; reflexivity end).
    match goal with |- context [get_convective_term ?ch d ?l 0 0] => assert (X : exists x, get_convective_term ch d l 0 0 = Ok x) end.
    { unfold get_convective_term. destruct (ch_model _); try (eexists; reflexivity); rewrite (get_height g d G) by exact L0; eexists; reflexivity. }
    destruct X as (xx & ->). eexists. reflexivity.
  Qed.
  Lemma nu_capacity_defined : forall c, in_stack c -> exists x, nu_capacity g d c = Ok x.
  Proof.
    intros c I. unfold nu_capacity. rewrite (gt_types d g G). destruct (Z.leb_spec (d_nlayers d) (c_layer c)) as [L|L]; [apply (spreader_defined c); [exact I|destruct I; lia|eauto]|].
    assert (L0 : 0 <= c_layer c < d_nlayers d) by (destruct I; lia). rewrite nu_layer_in by exact L0.
    destruct (type_of g (c_layer c)) eqn:T; try destruct (c_channel c); try chan; try (eexists; reflexivity).
  Qed.
  Lemma nu_conductance_defined : forall k a b, in_stack a -> in_stack b -> exists x, nu_conductance g d k a b = Ok x.
  Proof.
    intros k a b A B. unfold nu_conductance. destruct (k_dir k =? 0); [|destruct (k_dir k =? 1); [|destruct (k_dir k =? 2)]].
    - destruct (nu_z_defined (k_value k) a (c_layer a <? c_layer b) A) as (x & ->). destruct (nu_z_defined (k_value k) b (negb (c_layer a <? c_layer b)) B) as (y & ->). eexists. reflexivity.
    - destruct (nu_x_defined (k_value k) a A) as (x & ->). destruct (nu_x_defined (k_value k) b B) as (y & ->). eexists. reflexivity.
    - set (s := if Qlt_bool _ _ then _ else _). destruct (c_channel b).
      + destruct (nu_y_defined (k_value k) b s B) as (y & ->). eexists. reflexivity.
      + destruct (nu_y_defined (k_value k) a s A) as (x & ->). destruct (nu_y_defined (k_value k) b (- s)%Q B) as (y & ->). eexists. reflexivity.
    - eexists. reflexivity.
  Qed.
  Lemma nu_diagonal_defined : forall an c, in_stack c -> exists x, nu_diagonal g d an c = Ok x.
  Proof.
    intros an c I. unfold nu_diagonal.
    assert (B : exists base, match an_type an with AT_TRANSIENT => do x <- nu_capacity g d c ; Ok (x / an_step an)%Q | _ => Ok 0%Q end = Ok base).
    { destruct (an_type an); try (eexists; reflexivity). destruct (nu_capacity_defined c I) as (x & ->). eexists. reflexivity. }
    destruct B as (base & ->). cbn [bind]. destruct (Z.ltb_spec (c_layer c) (d_nlayers d)) as [L|L]; [|eexists; reflexivity].
    assert (L0 : 0 <= c_layer c < d_nlayers d) by (destruct I; lia). pose proof (gt_types d g G).
    rewrite (arr_get_ok _ (c_layer c) LT_NONE) by lia. cbn [bind]. fold (type_of g (c_layer c)).
    assert (TOP : to_ambient (type_of g (c_layer c)) = true -> forall k, (forall x, exists y, k x = Ok y) -> exists y, with_top g k = Ok y).
    { intros T k K. destruct (solid_facts g d G (c_layer c) L0) as (F & _); [destruct (type_of g (c_layer c)); try discriminate; reflexivity|]. destruct (F T) as (_ & h & t & E). unfold with_top. rewrite E. apply K. }
    destruct (type_of g (c_layer c)) eqn:T; try (eexists; reflexivity).
    all: try (rewrite nu_layer_in by exact L0; apply TOP; [reflexivity|eauto]).
    all: destruct (c_channel c && _); [|eexists; reflexivity].
    all: match goal with |- context [nu_y _ _ ?v ?cc _] => destruct (nu_y_defined v cc 1%Q I) as (x & ->) end; eexists; reflexivity.
  Qed.

  Theorem matrix_defined : forall an cells cs, Forall in_stack cells -> good_conns (len cells) cs -> exists m, nu_matrix g d an cells cs m.
  Proof.
    intros an cells cs S GC. rewrite Forall_forall in S.
    assert (AT : forall i, 0 <= i < len cells -> exists c, arr_get cells i = Ok c /\ in_stack c).
    { intros i I. destruct (nth_error cells (Z.to_nat i)) as [c|] eqn:N; [|apply nth_error_None in N; lia]. exists c. split; [|apply S, (nth_error_In _ _ N)]. unfold arr_get. rewrite N. destruct ((0 <=? i) && (i <? len cells)) eqn:B; [reflexivity|lia]. }
    assert (E : exists es, map_out (nu_entries g d cells) cs = Ok es).
    { pose proof (gc_range _ _ GC) as R. clear GC. induction cs as [|k t IH]; [eexists; reflexivity|]. destruct IH as (es & IH); [intros c I; apply R; right; exact I|].
      pose proof (R k (or_introl eq_refl)) as RK. destruct (AT (k_node2 k)) as (b & B & SB); [lia|]. destruct (AT (k_node1 k)) as (a & A & SA); [lia|].
      destruct (nu_conductance_defined k b a SB SA) as (r & C). cbn [map_out]. unfold nu_entries at 1. rewrite B. cbn [bind]. rewrite A. cbn [bind]. rewrite C. cbn [bind]. rewrite IH. eexists. reflexivity. }
    destruct E as (es & E).
    assert (D : exists diag, map_out (fun i => do c <- arr_get cells i ; nu_diagonal g d an c) (zrange 0 (len cells - 1)) = Ok diag).
    { assert (Z0 : forall i, In i (zrange 0 (len cells - 1)) -> 0 <= i < len cells) by (intros i I; apply in_zrange in I; lia). induction (zrange 0 (len cells - 1)) as [|i t IH]; [eexists; reflexivity|].
      destruct IH as (diag & IH); [intros j J; apply Z0; right; exact J|]. destruct (AT i (Z0 i (or_introl eq_refl))) as (c & A & SC). destruct (nu_diagonal_defined an c SC) as (x & X). cbn [map_out]. rewrite A. cbn [bind]. rewrite X. cbn [bind]. rewrite IH. eexists. reflexivity. }
    destruct D as (diag & D). destruct (table_ok g d an cells cs es diag GC E D) as (dv & table & T & TO). exact (matrix_ok g d an cells cs es diag dv table GC T TO).
  Qed.
End Defined.

(** ** Coefficients *)
Definition at_key (i j : Z) (e : entry) : bool := (e_row e =? i) && at_col j e.
Lemma filter_key : forall l e, NoDup (map key l) -> In e l -> filter (at_key (e_row e) (e_col e)) l = [e].
Proof.
  induction l as [|x t IH]; intros e N I; [destruct I|]. cbn [map] in N. inversion N as [|? ? NI Nt]; subst. cbn [filter]. destruct I as [->|I].
  - unfold at_key at 1, at_col. rewrite !Z.eqb_refl. cbn [andb]. f_equal. apply filter_no. intros y Y. unfold at_key, at_col.
    destruct (Z.eqb_spec (e_row y) (e_row e)) as [R|R]; [|reflexivity]. destruct (Z.eqb_spec (e_col y) (e_col e)) as [C|C]; [|reflexivity]. exfalso. apply NI. replace (key e) with (key y) by (unfold key; congruence). apply in_map, Y.
  - rewrite IH by assumption. unfold at_key, at_col. destruct (Z.eqb_spec (e_row x) (e_row e)) as [R|R]; [|reflexivity]. destruct (Z.eqb_spec (e_col x) (e_col e)) as [C|C]; [|reflexivity].
    exfalso. apply NI. replace (key x) with (key e) by (unfold key; congruence). apply in_map, I.
Qed.
Lemma sum_rows : forall l n j, (forall e, In e l -> 0 <= e_row e < n) ->
    (qsum (map (fun i => qsum (map e_val (filter (at_key i j) l))) (zrange 0 (n - 1))) == qsum (map e_val (filter (at_col j) l)))%Q.
Proof.
  induction l as [|e t IH]; intros n j R.
  - cbn [filter map]. apply qsum_zero. intros; reflexivity.
  - assert (RT : forall e, In e t -> 0 <= e_row e < n) by (intros x X; apply R; right; exact X). pose proof (R e (or_introl eq_refl)) as RE. cbn [filter].
    rewrite (qsum_ext _ (fun i => (if (e_row e =? i) && at_col j e then e_val e else 0) + qsum (map e_val (filter (at_key i j) t)))%Q).
    2:{ intros i _. unfold at_key at 1. destruct ((e_row e =? i) && at_col j e); cbn [map]; rewrite ?qsum_cons; ring. }
    rewrite qsum_plus, (IH n j RT). destruct (at_col j e).
    + cbn [map]. rewrite qsum_cons. assert (X : (qsum (map (fun i => if (e_row e =? i) && true then e_val e else 0%Q) (zrange 0 (n - 1))) == e_val e)%Q); [|rewrite X; reflexivity].
      assert (I : In (e_row e) (zrange 0 (n - 1))) by (apply in_zrange; lia). pose proof (zrange_NoDup 0 (n - 1)) as ND. revert I ND. generalize (zrange 0 (n - 1)). clear.
      induction l as [|i l IH]; intros I ND; [destruct I|]. inversion ND as [|? ? NI Nl]; subst. cbn [map]. rewrite qsum_cons. destruct (Z.eqb_spec (e_row e) i) as [E|E].
      * subst i. cbn [andb]. rewrite qsum_zero; [ring|]. intros i I2. destruct (Z.eqb_spec (e_row e) i) as [EQ|]; [rewrite EQ in NI; contradiction|reflexivity].
      * cbn [andb]. destruct I as [I|I]; [congruence|]. rewrite IH by assumption. ring.
    + rewrite qsum_zero; [ring|]. intros i _. rewrite andb_false_r. reflexivity.
Qed.
Lemma map_out_nth : forall {A B} (f : A -> outcome B) l r i a b, map_out f l = Ok r -> (i < length l)%nat -> f (nth i l a) = Ok (nth i r b).
Proof.
  intros A B f l r i a b E. apply map_out_forall in E. revert i. induction E as [|x y l r H E IH]; intros i I; [cbn in I; lia|]. destruct i as [|i]; [exact H|]. cbn [nth]. apply IH. cbn in I. lia.
Qed.

Section Coefficients.
  Variables (g : tgrid) (d : dims) (an : analysis) (cells : list cell) (cs : list conn) (m : sysmatrix).
  Notation n := (len cells).
  Hypotheses (GC : good_conns n cs) (M : nu_matrix g d an cells cs m).

  Lemma coefficient_table : exists es diag dv table, table_of g d an cells cs es diag dv table /\
      forall i j, 0 <= j < n -> (coefficient m i j == qsum (map e_val (filter (at_key i j) table)))%Q.
  Proof.
    destruct (matrix_inv g d an cells cs m GC M) as (es & diag & dv & table & s & ptr & T & S & (P & SO) & -> & L & C & R & D).
    exists es, diag, dv, table. split; [exact S|]. intros i j J. rewrite (stored_coefficient s n ptr SO C i j J). apply qsum_perm, Permutation_map, filter_perm, Permutation_sym, P.
  Qed.

  (** The coefficients of a connection. *)
  Theorem coefficient_connected : forall k, In k cs -> exists a b x s, arr_get cells (k_node1 k) = Ok a /\ arr_get cells (k_node2 k) = Ok b /\ nu_conductance g d k b a = Ok (x, s) /\
      (coefficient m (k_node2 k) (k_node1 k) == x)%Q /\ (coefficient m (k_node1 k) (k_node2 k) == s * x)%Q.
  Proof.
    intros k I. destruct coefficient_table as (es & diag & dv & table & S & C). pose proof (table_keys _ _ _ _ _ _ _ _ _ GC S) as (N & R & _ & _).
    pose proof S as (E & _ & _ & _ & _ & TE). pose proof (gc_range _ _ GC k I) as RK.
    assert (X : exists l, nu_entries g d cells k = Ok l /\ incl l table).
    { rewrite TE. clear - E I. apply map_out_forall in E. induction E as [|k' l cs es K E IH]; [destruct I|]. destruct I as [->|I].
      - exists l. split; [exact K|]. intros e J. apply in_or_app. left. cbn [concat]. apply in_or_app. left. exact J.
      - destruct (IH I) as (l' & A & B). exists l'. split; [exact A|]. intros e J. specialize (B e J). apply in_app_or in B. apply in_or_app. destruct B as [B|B]; [left; cbn [concat]; apply in_or_app; right; exact B|right; exact B]. }
    destruct X as (l & EL & IN). apply entries_inv in EL. destruct EL as (a & b & (x & s) & A & B & V & ->). exists a, b. cbn [fst snd] in *.
    exists x, s. split; [exact B|]. split; [exact A|]. split; [exact V|]. rewrite !C by lia.
    pose proof (filter_key table _ N (IN _ (or_introl eq_refl))) as F1. pose proof (filter_key table _ N (IN _ (or_intror (or_introl eq_refl)))) as F2. cbn [e_row e_col] in F1, F2. rewrite F1, F2. cbn [map e_val]. rewrite !qsum_cons, !qsum_nil. split; ring.
  Qed.
  (** Cells that are not connected. *)
  Theorem coefficient_unconnected : forall i j, 0 <= j < n -> i <> j -> (forall k, In k cs -> (k_node1 k, k_node2 k) <> (i, j) /\ (k_node1 k, k_node2 k) <> (j, i)) -> (coefficient m i j == 0)%Q.
  Proof.
    intros i j J NE NC. destruct coefficient_table as (es & diag & dv & table & S & C). rewrite C by exact J. destruct S as (E & _ & _ & _ & _ & ->). rewrite filter_no; [reflexivity|].
    intros e I. unfold at_key, at_col. apply in_app_or in I. destruct I as [I|I].
    - destruct (off_in g d cells cs es e E I) as (k & l & IK & K & IL). apply entries_inv in K. destruct K as (a & b & r & _ & _ & _ & ->). destruct (NC k IK) as (N1 & N2).
      destruct IL as [<-|[<-|[]]]; cbn [e_row e_col].
      + destruct (Z.eqb_spec (k_node2 k) i) as [E1|]; [|reflexivity]. destruct (Z.eqb_spec (k_node1 k) j) as [E2|]; [|reflexivity]. exfalso. apply N2. congruence.
      + destruct (Z.eqb_spec (k_node1 k) i) as [E1|]; [|reflexivity]. destruct (Z.eqb_spec (k_node2 k) j) as [E2|]; [|reflexivity]. exfalso. apply N1. congruence.
    - apply in_map_iff in I. destruct I as (q & <- & _). cbn [e_row e_col]. lia.
  Qed.
  (** Sums of the columns. *)
  Theorem column_sums : forall j, 0 <= j < n -> exists c base, arr_get cells j = Ok c /\ nu_diagonal g d an c = Ok base /\ (qsum (map (fun i => coefficient m i j) (zrange 0 (n - 1))) == base)%Q.
  Proof.
    intros j J. destruct coefficient_table as (es & diag & dv & table & S & C). pose proof (table_keys _ _ _ _ _ _ _ _ _ GC S) as (_ & R & _ & _). pose proof S as (E & D & LD & LV & SD & TE).
    pose proof (zlen cells) as ZL. pose proof (map_out_nth _ _ _ (Z.to_nat j) 0 0%Q D) as X.
    assert (NZ : nth (Z.to_nat j) (zrange 0 (n - 1)) 0 = j).
    { unfold zrange. rewrite (nth_indep _ 0 ((fun i => 0 + Z.of_nat i) 0%nat)) by (rewrite map_length, seq_length; lia). rewrite (map_nth (fun i => 0 + Z.of_nat i)), seq_nth by lia. lia. }
    rewrite NZ in X. specialize (X ltac:(lia)). destruct (arr_get cells j) as [c| |]; try discriminate. cbn [bind] in X. exists c. eexists. split; [reflexivity|]. split; [exact X|].
    rewrite (qsum_ext _ (fun i => qsum (map e_val (filter (at_key i j) table)))) by (intros i _; apply C, J). rewrite sum_rows by (intros e I; apply R, I). rewrite TE, filter_app, map_app, qsum_app.
    assert (F : filter (at_col j) (map (fun i => mkEntry i i (qat dv i)) (zrange 0 (n - 1))) = [mkEntry j j (qat dv j)]).
    { assert (F : forall l, NoDup l -> In j l -> filter (at_col j) (map (fun i => mkEntry i i (qat dv i)) l) = [mkEntry j j (qat dv j)]).
      { clear. induction l as [|i l IH]; intros ND I; [destruct I|]. inversion ND as [|? ? NI Nl]; subst. cbn [map filter]. unfold at_col at 1. cbn [e_col]. destruct (Z.eqb_spec i j) as [->|NE].
        - f_equal. apply filter_no. intros e X. apply in_map_iff in X. destruct X as (q & <- & X). unfold at_col. cbn [e_col]. destruct (Z.eqb_spec q j) as [EQ|]; [rewrite EQ in X; contradiction|reflexivity].
        - destruct I as [I|I]; [congruence|]. apply IH; assumption. }
      apply F; [apply zrange_NoDup|apply in_zrange; lia]. }
    rewrite F. cbn [map e_val]. rewrite qsum_cons, qsum_nil, SD by exact J. unfold qat. ring.
  Qed.
End Coefficients.
