(** * The pairs of cells compared, each of them once *)
From Coq Require Import ZArith List Bool QArith Lia ZifyBool.
From Verif Require Import Base Dims Floorplan FloorplanProofs Stack NonUniform NuSpec NuGeomProofs NuCountProofs NuPositionProofs NuConnProofs.
Import ListNotations.
Local Open Scope Z_scope.

Lemma NoDup_flat : forall {A B} (f : A -> list B) l, NoDup l -> (forall x, In x l -> NoDup (f x)) ->
    (forall x y z, In x l -> In y l -> In z (f x) -> In z (f y) -> x = y) -> NoDup (flat_map f l).
Proof.
  intros A B f l ND. induction ND as [|x l NI ND IH]; intros F D; [constructor|]. cbn [flat_map].
  assert (T : NoDup (flat_map f l)) by (apply IH; [intros y I; apply F; right; exact I|]; intros a b z IA IB; apply D; right; assumption).
  assert (X : NoDup (f x)) by (apply F; left; reflexivity).
  assert (DIS : forall z, In z (f x) -> ~ In z (flat_map f l)).
  { intros z I J. apply in_flat_map in J. destruct J as (y & IY & J). assert (x = y) by (apply (D x y z); [left; reflexivity|right; exact IY|exact I|exact J]). subst. contradiction. }
  clear - T X DIS. induction X as [|z fx NZ X IH]; [exact T|]. cbn [app]. constructor.
  - intros I. apply in_app_or in I. destruct I as [I|I]; [contradiction|]. apply (DIS z); [left; reflexivity|exact I].
  - apply IH. intros w I. apply DIS. right. exact I.
Qed.
Lemma NoDup_zrange : forall a b, NoDup (zrange a b).
Proof. intros a b. unfold zrange. apply FinFun.Injective_map_NoDup; [intros x y H; lia|apply seq_NoDup]. Qed.

Lemma first_cell_mono : forall g a b, (a <= b)%nat -> first_cell g a <= first_cell g b.
Proof.
  intros g a b H. unfold first_cell. apply Nat2Z.inj_le. replace b with (a + (b - a))%nat by lia. rewrite <- (firstn_skipn a (firstn (a + (b - a)) g)). rewrite grid_cells_app, app_length, firstn_firstn. rewrite Nat.min_l by lia. lia.
Qed.
Lemma in_layer_unique : forall g a b i, in_layer g a i -> in_layer g b i -> a = b.
Proof.
  intros g a b i (A1 & A2) (B1 & B2). destruct (Nat.lt_trichotomy a b) as [H|[H|H]]; [|exact H|].
  - pose proof (first_cell_mono g (S a) b ltac:(lia)). lia.
  - pose proof (first_cell_mono g (S b) a ltac:(lia)). lia.
Qed.
Lemma in_layer_range : forall g a i, in_layer g a i -> 0 <= i < Z.of_nat (length (grid_cells g)).
Proof.
  intros g a i (A1 & A2). pose proof (first_cell_mono g 0 a ltac:(lia)). pose proof (first_cell_mono g (S a) (length g) ltac:(lia)). rewrite first_cell_all in H0. change (first_cell g 0) with 0 in H. lia.
Qed.
Lemma in_layer_exists : forall g i, 0 <= i < Z.of_nat (length (grid_cells g)) -> exists a, in_layer g a i.
Proof.
  intros g i H. assert (K : forall n, (n <= length g)%nat -> first_cell g n <= i \/ exists a, (a < n)%nat /\ in_layer g a i).
  { induction n as [|n IH]; intros LE; [left; change (first_cell g 0) with 0; lia|]. destruct (IH ltac:(lia)) as [A|(a & A & B)]; [|right; exists a; split; [lia|exact B]].
    destruct (Z_lt_le_dec i (first_cell g (S n))) as [C|C]; [|left; exact C]. right. exists n. split; [lia|]. split; [lia|lia]. }
  destruct (K (length g) ltac:(lia)) as [A|(a & _ & A)]; [rewrite first_cell_all in A; lia|exists a; exact A].
Qed.

Lemma in_layer_pair_nodes : forall type layer i j a b c, In c (in_layer_pair type layer i j a b) -> nodes c = (i, j).
Proof.
  intros type layer i j a b c I. unfold in_layer_pair in I. destruct (_ && _); [|destruct I]. destruct (Qlt_bool _ _); [destruct (_ || _); [destruct I|]|destruct (Qlt_bool _ _); [destruct (_ || _); [destruct I|]|]]; destruct I as [<-|[]]; reflexivity.
Qed.
Lemma in_layer_pair_one : forall type layer i j a b, NoDup (in_layer_pair type layer i j a b) /\ (length (in_layer_pair type layer i j a b) <= 1)%nat.
Proof.
  intros type layer i j a b. assert (ONE : forall (A : Type) (l : list A), (length l <= 1)%nat -> NoDup l /\ (length l <= 1)%nat).
  { intros A l L. split; [|exact L]. destruct l as [|x [|y l]]; [constructor|repeat constructor; auto|cbn in L; lia]. }
  apply ONE. unfold in_layer_pair. destruct (_ && _); [|cbn; lia]. destruct (Qlt_bool _ _); [destruct (_ || _)|destruct (Qlt_bool _ _); [destruct (_ || _)|]]; cbn; lia.
Qed.
Lemma between_pair_nodes : forall layer i j a b c, In c (between_pair layer i j a b) -> nodes c = (i, j).
Proof. intros layer i j a b c I. unfold between_pair in I. destruct (_ && _); [|destruct I]. destruct I as [<-|[]]; reflexivity. Qed.
Lemma between_pair_one : forall layer i j a b, (length (between_pair layer i j a b) <= 1)%nat.
Proof. intros. unfold between_pair. destruct (_ && _); cbn; lia. Qed.
Lemma nodes_one : forall l : list conn, (length l <= 1)%nat -> NoDup (map nodes l).
Proof. intros l L. destruct l as [|x [|y l]]; [constructor|repeat constructor; auto|cbn in L; lia]. Qed.

Section Pairs.
  Variables (d : dims) (top : option top_sink) (es : list nu_kind) (ps : list rect).
  Let g := grid d top es.
  Let fc := first_cell g.

  (** Two layers that are compared, and the number given to the pair. *)
  Definition key := (nat * (nat * nat))%type.
  Definition key_links (l : nat) : list key :=
    if side_by_side g (l - 1) then [(l, (l - 2, l)); (l, (l - 1, S l))]%nat else [(l, (l - 1, l))]%nat.
  Definition keys : list key := map (fun l => (l, (l, l))) (seq 0 (length g)) ++ flat_map key_links (seq 1 (length g - 1)).
  Definition pair_conns (k : key) (i j : Z) : list conn :=
    let '(l, (a, b)) := k in
    if (a =? b)%nat then in_layer_pair (type_at g a) (Z.of_nat a) i j (rect_at ps i) (rect_at ps j)
    else between_pair (Z.of_nat l) i j (rect_at ps i) (rect_at ps j).
  Definition pair_cells (k : key) : list (Z * Z) :=
    let '(l, (a, b)) := k in
    flat_map (fun i => map (fun j => (i, j)) (if (a =? b)%nat then zrange (i + 1) (fc (S a) - 1) else zrange (fc b) (fc (S b) - 1))) (zrange (fc a) (fc (S a) - 1)).
  Definition key_conns (k : key) : list conn := flat_map (fun p => pair_conns k (fst p) (snd p)) (pair_cells k).

  Lemma flat_map_map : forall {A B C} (f : A -> B) (h : B -> list C) l, flat_map h (map f l) = flat_map (fun x => h (f x)) l.
  Proof. intros. induction l as [|x l IH]; [reflexivity|]. cbn. rewrite IH. reflexivity. Qed.
  Lemma flat_map_flat : forall {A B C} (f : A -> list B) (h : B -> list C) l, flat_map h (flat_map f l) = flat_map (fun x => flat_map h (f x)) l.
  Proof. intros. induction l as [|x l IH]; [reflexivity|]. cbn. rewrite flat_map_concat_map, map_app, concat_app, <- !flat_map_concat_map, IH. reflexivity. Qed.

  Lemma links_positive : forall l k, In k (key_links l) -> (1 <= l)%nat -> fst k = l /\ (fst (snd k) < snd (snd k))%nat.
  Proof.
    intros l k I L. unfold key_links in I. destruct (side_by_side g (l - 1)) eqn:S; [|destruct I as [<-|[]]; cbn; lia].
    destruct (side_grid d top es (l - 1) S) as (A & _). destruct I as [<-|[<-|[]]]; cbn; lia.
  Qed.

  Lemma in_pair_cells : forall l a b i j, (a < length g)%nat -> (b < length g)%nat ->
    In (i, j) (pair_cells (l, (a, b))) <-> in_layer g a i /\ in_layer g b j /\ (a = b -> i < j).
  Proof.
    intros l a b i j LA LB. unfold pair_cells. rewrite in_flat_map. split.
    - intros (x & IX & I). apply in_zrange in IX. apply in_map_iff in I. destruct I as (y & E & IY). inversion E; subst. destruct (Nat.eqb_spec a b) as [->|NE]; apply in_zrange in IY; unfold in_layer; fold fc; repeat split; try assumption; try lia.
    - intros (IA & IB & LT). unfold in_layer in *. fold fc in IA, IB. exists i. split; [apply in_zrange; lia|]. apply in_map_iff. exists j. split; [reflexivity|]. destruct (Nat.eqb_spec a b) as [->|NE]; apply in_zrange; lia.
  Qed.

  Lemma key_valid : forall l a b, In (l, (a, b)) keys -> (a < length g)%nat /\ (b < length g)%nat /\ (a = b \/ on_top g a b).
  Proof.
    intros l a b I. apply in_app_or in I. destruct I as [I|I].
    - apply in_map_iff in I. destruct I as (x & E & I). inversion E; subst. apply in_seq in I. cbn in I. repeat split; auto; lia.
    - apply in_flat_map in I. destruct I as (x & IX & I). apply in_seq in IX. unfold key_links in I. destruct (side_by_side g (x - 1)) eqn:S.
      + destruct (side_grid d top es (x - 1) S) as (A1 & A2 & _). fold g in A2. destruct I as [I|[I|[]]].
        * assert (E : (l = x /\ a = x - 2 /\ b = x)%nat) by (inversion I; auto). destruct E as (-> & -> & ->).
          split; [lia|]. split; [lia|]. right. split; [lia|]. right. split; [lia|]. right. replace (Datatypes.S (x - 2)) with (x - 1)%nat by lia. exact S.
        * assert (E : (l = x /\ a = x - 1 /\ b = Datatypes.S x)%nat) by (inversion I; auto). destruct E as (-> & -> & ->).
          split; [lia|]. split; [lia|]. right. split; [lia|]. right. split; [lia|]. left. exact S.
      + destruct I as [I|[]]. assert (E : (l = x /\ a = x - 1 /\ b = x)%nat) by (inversion I; auto). destruct E as (-> & -> & ->).
        split; [lia|]. split; [lia|]. right. split; [lia|]. left. split; [lia|exact S].
  Qed.

  Lemma key_exists : forall a b, (b < length g)%nat -> (a = b \/ on_top g a b) -> exists l, In (l, (a, b)) keys.
  Proof.
    intros a b LB [->|(_ & [(-> & S0)|(-> & S0)])].
    - exists b. apply in_or_app. left. apply in_map_iff. exists b. split; [reflexivity|]. apply in_seq. lia.
    - exists (S a). apply in_or_app. right. apply in_flat_map. exists (S a). split; [apply in_seq; lia|]. unfold key_links. replace (S a - 1)%nat with a by lia. rewrite S0. left. reflexivity.
    - destruct S0 as [S0|S0].
      + exists (S a). apply in_or_app. right. apply in_flat_map. exists (S a). split; [apply in_seq; lia|]. unfold key_links. replace (S a - 1)%nat with a by lia. rewrite S0. right. left. reflexivity.
      + exists (S (S a)). apply in_or_app. right. apply in_flat_map. exists (S (S a)). split; [apply in_seq; lia|]. unfold key_links. replace (S (S a) - 1)%nat with (S a) by lia. rewrite S0. left. repeat f_equal; lia.
  Qed.

  Lemma key_same : forall l l' a b, In (l, (a, b)) keys -> In (l', (a, b)) keys -> l = l'.
  Proof.
    assert (CASES : forall l a b, In (l, (a, b)) keys -> (a = b /\ l = a) \/ (b = S a /\ l = b) \/ (b = S (S a) /\ l = b /\ side_by_side g (S a) = true) \/ (b = S (S a) /\ l = S a /\ side_by_side g a = true)).
    { intros l a b I. apply in_app_or in I. destruct I as [I|I].
      - apply in_map_iff in I. destruct I as (x & E & I). inversion E; subst. left. auto.
      - apply in_flat_map in I. destruct I as (x & IX & I). apply in_seq in IX. unfold key_links in I. destruct (side_by_side g (x - 1)) eqn:S.
        + destruct (side_grid d top es (x - 1) S) as (A1 & A2 & _). destruct I as [I|[I|[]]].
          * assert (E : (l = x /\ a = x - 2 /\ b = x)%nat) by (inversion I; auto). destruct E as (-> & -> & ->).
            right. right. left. replace (Datatypes.S (x - 2)) with (x - 1)%nat by lia. repeat split; auto; lia.
          * assert (E : (l = x /\ a = x - 1 /\ b = Datatypes.S x)%nat) by (inversion I; auto). destruct E as (-> & -> & ->).
            right. right. right. repeat split; auto; lia.
        + destruct I as [I|[]]. assert (E : (l = x /\ a = x - 1 /\ b = x)%nat) by (inversion I; auto). destruct E as (-> & -> & ->). right. left. lia. }
    intros l l' a b I J. destruct (CASES l a b I) as [(A1 & A2)|[(A1 & A2)|[(A1 & A2 & A3)|(A1 & A2 & A3)]]]; destruct (CASES l' a b J) as [(B1 & B2)|[(B1 & B2)|[(B1 & B2 & B3)|(B1 & B2 & B3)]]]; try lia.
    - destruct (side_alone d top es a B3) as (K & _). unfold g in A3. congruence.
    - destruct (side_alone d top es a A3) as (K & _). unfold g in B3. congruence.
  Qed.

  Lemma keys_NoDup : NoDup keys.
  Proof.
    unfold keys. assert (P1 : NoDup (map (fun l => (l, (l, l))) (seq 0 (length g)))) by (apply FinFun.Injective_map_NoDup; [intros x y H; inversion H; reflexivity|apply seq_NoDup]).
    assert (P2 : NoDup (flat_map key_links (seq 1 (length g - 1)))).
    { apply NoDup_flat.
      - apply seq_NoDup.
      - intros l I. apply in_seq in I. unfold key_links. destruct (side_by_side g (l - 1)) eqn:S; [|repeat constructor; auto]. destruct (side_grid d top es (l - 1) S) as (A & _). constructor; [|repeat constructor; auto]. intros [E|[]]. inversion E. lia.
      - intros x y z IX IY I J. apply in_seq in IX, IY. destruct (links_positive x z I ltac:(lia)). destruct (links_positive y z J ltac:(lia)). congruence. }
    assert (DIS : forall k, In k (map (fun l => (l, (l, l))) (seq 0 (length g))) -> In k (flat_map key_links (seq 1 (length g - 1))) -> False).
    { intros k I J. apply in_map_iff in I. destruct I as (x & <- & _). apply in_flat_map in J. destruct J as (y & IY & J). apply in_seq in IY. destruct (links_positive y _ J ltac:(lia)). cbn in *. lia. }
    revert P1 DIS. generalize (map (fun l => (l, (l, l))) (seq 0 (length g))) as u. generalize dependent (flat_map key_links (seq 1 (length g - 1))). intros v P2 u P1 DIS.
    induction P1 as [|x u NI P1 IH]; [exact P2|]. cbn [app]. constructor; [intros I; apply in_app_or in I; destruct I as [I|I]; [contradiction|]; apply (DIS x); [left; reflexivity|exact I]|]. apply IH. intros k I. apply DIS. right. exact I.
  Qed.

  Lemma pair_cells_NoDup : forall k, NoDup (pair_cells k).
  Proof.
    intros (l & a & b). unfold pair_cells. apply NoDup_flat.
    - apply NoDup_zrange.
    - intros i _. apply FinFun.Injective_map_NoDup; [intros x y H; inversion H; reflexivity|]. destruct (a =? b)%nat; apply NoDup_zrange.
    - intros x y z _ _ I J. apply in_map_iff in I, J. destruct I as (? & <- & _). destruct J as (? & E & _). inversion E. reflexivity.
  Qed.

  Lemma pair_conns_nodes : forall k i j c, In c (pair_conns k i j) -> nodes c = (i, j).
  Proof. intros (l & a & b) i j c I. unfold pair_conns in I. destruct (a =? b)%nat; [eapply in_layer_pair_nodes; exact I|eapply between_pair_nodes; exact I]. Qed.
  Lemma pair_conns_one : forall k i j, (length (pair_conns k i j) <= 1)%nat.
  Proof. intros (l & a & b) i j. unfold pair_conns. destruct (a =? b)%nat; [apply in_layer_pair_one|apply between_pair_one]. Qed.

  Definition all_conns : list conn := flat_map key_conns keys.

  Lemma map_flat : forall {A B C} (h : B -> C) (f : A -> list B) l, map h (flat_map f l) = flat_map (fun x => map h (f x)) l.
  Proof. intros. induction l as [|x l IH]; [reflexivity|]. cbn. rewrite map_app, IH. reflexivity. Qed.

  Lemma in_key_conns : forall k c, In c (key_conns k) -> In (nodes c) (pair_cells k) /\ In c (pair_conns k (k_node1 c) (k_node2 c)).
  Proof.
    intros k c I. unfold key_conns in I. apply in_flat_map in I. destruct I as ((i, j) & IP & I). cbn [fst snd] in I. pose proof (pair_conns_nodes k i j c I) as E. rewrite E. split; [exact IP|]. unfold nodes in E. inversion E; subst. exact I.
  Qed.

  (** No pair of cells is connected twice. *)
  Theorem all_conns_NoDup : NoDup (map nodes all_conns).
  Proof.
    unfold all_conns. rewrite map_flat. apply NoDup_flat.
    - exact keys_NoDup.
    - intros k IK. unfold key_conns. rewrite map_flat. apply NoDup_flat.
      + apply pair_cells_NoDup.
      + intros (i & j) _. cbn [fst snd]. apply nodes_one. apply pair_conns_one.
      + intros (i & j) (i' & j') z _ _ I J. cbn [fst snd] in *. apply in_map_iff in I, J. destruct I as (c & <- & I). destruct J as (c' & E & J). apply pair_conns_nodes in I, J. congruence.
    - intros (l & a & b) (l' & a' & b') z IK IK' I J. apply in_map_iff in I, J. destruct I as (c & <- & I). destruct J as (c' & E & J). apply in_key_conns in I, J. destruct I as (I & _), J as (J & _). rewrite E in J.
      destruct (key_valid l a b IK) as (V1 & V2 & _). destruct (key_valid l' a' b' IK') as (V1' & V2' & _). unfold nodes in I, J. apply in_pair_cells in I; auto. apply in_pair_cells in J; auto.
      destruct I as (I1 & I2 & _), J as (J1 & J2 & _). pose proof (in_layer_unique g a a' _ I1 J1). pose proof (in_layer_unique g b b' _ I2 J2). subst. rewrite (key_same l l' a' b' IK IK'). reflexivity.
  Qed.

  (** What is connected. *)
  Theorem in_all_conns : forall c, In c all_conns <->
    (exists l i j, in_layer g l i /\ in_layer g l j /\ i < j /\ In c (in_layer_pair (type_at g l) (Z.of_nat l) i j (rect_at ps i) (rect_at ps j))) \/
    (exists l a b i j, In (l, (a, b)) keys /\ on_top g a b /\ in_layer g a i /\ in_layer g b j /\ In c (between_pair (Z.of_nat l) i j (rect_at ps i) (rect_at ps j))).
  Proof.
    intros c. unfold all_conns. rewrite in_flat_map. split.
    - intros ((l & a & b) & IK & I). destruct (key_valid l a b IK) as (V1 & V2 & V). apply in_key_conns in I. destruct I as (I & J). unfold nodes in I. apply in_pair_cells in I; auto. destruct I as (I1 & I2 & I3). unfold pair_conns in J.
      destruct (Nat.eqb_spec a b) as [->|NE].
      + left. exists b, (k_node1 c), (k_node2 c). auto.
      + right. exists l, a, b, (k_node1 c), (k_node2 c). destruct V as [V|V]; [contradiction|]. auto.
    - intros [(l & i & j & I1 & I2 & LT & I)|(l & a & b & i & j & IK & OT & I1 & I2 & I)].
      + exists (l, (l, l)). assert (LG : (l < length g)%nat) by (destruct I1; assumption). split; [apply in_or_app; left; apply in_map_iff; exists l; split; [reflexivity|apply in_seq; lia]|].
        unfold key_conns. apply in_flat_map. exists (i, j). split; [apply in_pair_cells; auto|]. cbn [fst snd pair_conns]. rewrite Nat.eqb_refl. exact I.
      + exists (l, (a, b)). split; [exact IK|]. destruct (key_valid l a b IK) as (V1 & V2 & _). assert (a <> b) by (destruct OT as (_ & [(-> & _)|(-> & _)]); lia).
        unfold key_conns. apply in_flat_map. exists (i, j). split; [apply in_pair_cells; auto; repeat split; try assumption; try apply I1; try apply I2; intros; contradiction|]. cbn [fst snd pair_conns]. destruct (Nat.eqb_spec a b); [contradiction|]. exact I.
  Qed.

  Lemma conn_range : forall c, In c all_conns -> 0 <= k_node1 c < k_node2 c /\ k_node2 c < Z.of_nat (length (grid_cells g)).
  Proof.
    intros c I. apply in_flat_map in I. destruct I as ((l & a & b) & IK & I). destruct (key_valid l a b IK) as (V1 & V2 & V). apply in_key_conns in I. destruct I as (I & _). unfold nodes in I. apply in_pair_cells in I; auto. destruct I as (I1 & I2 & I3).
    pose proof (in_layer_range g a _ I1). pose proof (in_layer_range g b _ I2). split; [|lia]. split; [lia|]. destruct V as [V|V]; [auto|].
    assert (S a <= b)%nat by (destruct V as (_ & [(-> & _)|(-> & _)]); lia). pose proof (first_cell_mono g (S a) b ltac:(lia)). destruct I1 as (_ & I1). destruct I2 as (_ & I2). lia.
  Qed.
End Pairs.

(** The sequential search. *)
Lemma in_layer_region_conns : forall ps l t a b, flat_map (rg_body (in_layer_region ps l t a b)) (rg_iterations (in_layer_region ps l t a b)) =
   flat_map (fun p => in_layer_pair t l (fst p) (snd p) (rect_at ps (fst p)) (rect_at ps (snd p))) (flat_map (fun i => map (fun j => (i, j)) (zrange (i + 1) (b - 1))) (zrange a (b - 1))).
Proof. intros. rewrite flat_map_flat. unfold rg_iterations. cbn [rg_body rg_from rg_to in_layer_region]. apply flat_map_ext. intros i. rewrite flat_map_map. reflexivity. Qed.
Lemma between_region_conns : forall ps l a b a' b', flat_map (rg_body (between_region ps l a b a' b')) (rg_iterations (between_region ps l a b a' b')) =
   flat_map (fun p => between_pair l (fst p) (snd p) (rect_at ps (fst p)) (rect_at ps (snd p))) (flat_map (fun i => map (fun j => (i, j)) (zrange a' (b' - 1))) (zrange a (b - 1))).
Proof. intros. rewrite flat_map_flat. unfold rg_iterations. cbn [rg_body rg_from rg_to between_region]. apply flat_map_ext. intros i. rewrite flat_map_map. reflexivity. Qed.

Theorem sequential_spec : forall d top es hs st, nu_stack_ok d top es -> st_at hs (Z.to_nat (d_nlayers d + 1)) (grid d top es) st -> type_at (grid d top es) 0 = 0 ->
    exists rs, all_regions d st = Ok rs /\ sequential rs = all_conns d top es (map c_rect (ns_cells st)).
Proof.
  intros d top es hs st OK AT B. eexists. split; [exact (regions_spec d top es hs st OK AT B)|]. set (ps := map c_rect (ns_cells st)).
  unfold sequential, all_conns, keys. rewrite !flat_map_concat_map, !map_app, !concat_app, <- !flat_map_concat_map. f_equal.
  - rewrite !flat_map_map. apply flat_map_ext. intros l. unfold layer_region. rewrite in_layer_region_conns. unfold key_conns, pair_cells, pair_conns. rewrite Nat.eqb_refl. reflexivity.
  - rewrite !flat_map_flat. rewrite !flat_map_concat_map. f_equal. apply map_ext_in. intros l I. apply in_seq in I. unfold layer_links, key_links. destruct (side_by_side (grid d top es) (l - 1)) eqn:S.
    + destruct (side_grid d top es (l - 1) S) as (A & _). cbn [flat_map]. rewrite !app_nil_r. unfold pair_region. rewrite !between_region_conns. unfold key_conns, pair_cells, pair_conns.
      destruct (Nat.eqb_spec (l - 2) l); [lia|]. destruct (Nat.eqb_spec (l - 1) (Datatypes.S l)); [lia|]. reflexivity.
    + cbn [flat_map]. rewrite !app_nil_r. unfold pair_region. rewrite !between_region_conns. unfold key_conns, pair_cells, pair_conns.
      destruct (Nat.eqb_spec (l - 1) l); [lia|]. reflexivity.
Qed.
