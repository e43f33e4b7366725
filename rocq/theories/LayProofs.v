(** Proofs about layout files. *)
From Coq Require Import ZArith List Bool QArith Qabs String Ascii Lia Lqa.
From Verif Require Import Base Flex Vtk FlpText FlpTextSpec FlpTextProofs Dims Floorplan FloorplanSpec FloorplanProofs TempProofs Stack StackAcceptProofs
  StkScan StkText StkTextSpec ScanProofs StkGramProofs StkInstProofs LayText LayTextSpec.
Import ListNotations.
Local Open Scope string_scope.
Local Open Scope list_scope.

(** ** Grammar *)
Lemma rect_sound : sound p_rect rect_syntax any.
Proof. intros ts a r H. unfold p_rect in H. pinv. split; [reflexivity|exact I]. Qed.
Lemma shape_sound : sound p_shape shape_syntax any.
Proof.
  intros ts a r H. unfold p_shape, p_position in H. pinv.
  - split; [reflexivity|exact I].
  - match goal with H : some p_rect _ = Some (?x, _) |- _ => apply (some_inv _ _ _ _ rect_sound) in H; destruct H as [-> _]; destruct x end.
    split; [reflexivity|exact I].
Qed.
Lemma layout_sound : sound p_layout layout_syntax any.
Proof. intros ts a r H. unfold p_layout in H. pinv.
  match goal with H : p_shape _ = _ |- _ => apply shape_sound in H; destruct H as [-> _] end. split; [reflexivity|exact I]. Qed.
Lemma layfile_sound : forall ts f, parse_layout_tokens ts = Some f -> ts = layfile_syntax f.
Proof.
  intros ts f H. unfold parse_layout_tokens in H. destruct (p_layfile ts) as [[g [|t r]]|] eqn:E; try discriminate. injection H as ->.
  unfold p_layfile in E. pinv. unfold layfile_syntax. cbn [a_materials a_layouts].
  match goal with H : many p_material _ = _ |- _ => apply (many_inv _ _ _ _ material_sound) in H; destruct H as [-> _] end.
  match goal with H : some p_layout _ = _ |- _ => apply (some_inv _ _ _ _ layout_sound) in H; destruct H as [-> _] end.
  rewrite app_nil_r. reflexivity.
Qed.
Lemma rect_complete : complete p_rect rect_syntax any any.
Proof. intros [[[x y] l] w] r _ _. reflexivity. Qed.
Definition no_rect (r : list stok) : Prop := p_rect r = None.
Lemma layout_complete : complete p_layout layout_syntax any no_rect.
Proof.
  intros [i [[[[x y] l] w]|q l]] r _ F; [reflexivity|]. unfold p_layout, layout_syntax. cbn [o_material o_shape shape_syntax]. rewrite <- app_assoc.
  do 2 (erewrite pbind_ok by reflexivity).
  assert (E : p_shape (several rect_syntax (q, l) ++ r) = Some (Rectangles q l, r)).
  { unfold p_shape, alt.
    assert (N : (let* r0 := p_position in ret (Position r0)) (several rect_syntax (q, l) ++ r) = None) by (destruct q as [[[? ?] ?] ?]; reflexivity).
    rewrite N. rewrite (pbind_ok _ _ _ _ _ (q, l) r); [reflexivity|].
    apply (some_ok _ _ _ any any rect_complete); try (intros; exact I); try assumption; [intros [[[? ?] ?] ?]; discriminate|].
    apply Forall_forall. intros; exact I. }
  rewrite (pbind_ok _ _ _ _ _ (Rectangles q l) r E). reflexivity.
Qed.
Lemma layfile_complete : forall f, parse_layout_tokens (layfile_syntax f) = Some f.
Proof.
  intros [m l]. unfold parse_layout_tokens. cut (p_layfile (layfile_syntax (mkLayfile m l)) = Some (mkLayfile m l, [])); [intros ->; reflexivity|].
  unfold p_layfile, layfile_syntax. cbn [a_materials a_layouts]. rewrite <- (app_nil_r (several layout_syntax l)).
  assert (AA : forall A (l : list A), Forall any l) by (intros; apply Forall_forall; intros; exact I).
  rewrite (pbind_ok _ _ _ _ _ m (several layout_syntax l ++ [])).
  2: { apply (many_ok _ _ _ any any material_complete); try (intros; exact I); try discriminate; [apply AA|]. destruct l as [o l]. reflexivity. }
  rewrite (pbind_ok _ _ _ _ _ l []); [reflexivity|].
  apply (some_ok _ _ _ any no_rect layout_complete); try reflexivity; [discriminate|apply AA].
Qed.

(** ** Lexemes *)
Section Drawn.
  Context {N I P : Type}.
  Notation lay := (@drawn N I P lay_reserved lay_marks).
  Definition lay_drawnb (x : sym N I P) : bool :=
    match x with SK k => existsb (String.eqb k) lay_reserved | SM c => existsb (Ascii.eqb c) lay_marks | SP _ => false | _ => true end.
  Definition lay_lexeme (x : sym N I P) : Prop := lay x /\ match x with SP _ => False | _ => True end.
  Lemma lay_drawnb_ok : forall l, forallb lay_drawnb l = true -> Forall lay_lexeme l.
  Proof.
    intros l H. apply Forall_forall. intros x J. rewrite forallb_forall in H. apply H in J.
    destruct x as [k|c| | |p]; (split; [|try exact Logic.I; try discriminate J]); try exact Logic.I; cbn [lay_drawnb drawn] in *;
      apply existsb_exists in J; destruct J as (y & J & E); [apply String.eqb_eq in E|apply Ascii.eqb_eq in E]; subst; assumption.
  Qed.
  Lemma lay_flat : forall A (f : A -> list (sym N I P)) l, (forall a, Forall lay_lexeme (f a)) -> Forall lay_lexeme (flat_map f l).
  Proof. intros A f l H. induction l; [constructor|]. cbn [flat_map]. apply Forall_app. auto. Qed.
  Lemma layfile_drawn : forall f : layfile N I, Forall lay_lexeme (layfile_syntax f).
  Proof.
    intros [m l]. unfold layfile_syntax. cbn [a_materials a_layouts].
    assert (R : forall r : rectd N, Forall lay_lexeme (rect_syntax r)) by (intros [[[x y] z] w]; apply lay_drawnb_ok; reflexivity).
    assert (L : forall o : layoutd N I, Forall lay_lexeme (layout_syntax o)).
    { intros [i [[[[x y] z] w]|r l']]; [apply lay_drawnb_ok; reflexivity|]. unfold layout_syntax. cbn [o_material o_shape shape_syntax]. apply Forall_app.
      split; [apply lay_drawnb_ok; reflexivity|]. unfold several. apply Forall_app. split; [apply R|apply lay_flat, R]. }
    apply Forall_app. split.
    - apply lay_flat. intros [i [k|x y z] v]; apply lay_drawnb_ok; reflexivity.
    - unfold several. apply Forall_app. split; [apply L|apply lay_flat, L].
  Qed.
End Drawn.
Section Natural.
  Context {N I P N' I' P' : Type}.
  Variables (f : N -> N') (g : I -> I') (h : P -> P').
  Notation ms := (map_sym f g h).
  Lemma nat_rect : forall r, map ms (rect_syntax r) = rect_syntax (map_rect f r).
  Proof. intros [[[x y] l] w]. reflexivity. Qed.
  Lemma nat_layout : forall o, map ms (layout_syntax o) = layout_syntax (map_layout f g o).
  Proof.
    intros [i [[[[x y] l] w]|r l]]; [reflexivity|]. unfold layout_syntax, map_layout. cbn [o_material o_shape shape_syntax map_shape].
    rewrite map_app. f_equal. apply (nat_several f g h _ _ rect_syntax rect_syntax (map_rect f) (r, l) nat_rect).
  Qed.
  Lemma nat_layfile : forall s : layfile N I, map ms (layfile_syntax s) = layfile_syntax (map_layfile f g s).
  Proof.
    intros [m l]. unfold layfile_syntax, map_layfile. cbn [a_materials a_layouts]. rewrite map_app.
    rewrite (nat_list f g h _ _ _ _ _ _ (nat_material f g h)), (nat_several f g h _ _ _ _ _ _ nat_layout). reflexivity.
  Qed.
End Natural.
Lemma lay_reserved_keywords : forall k, In k lay_reserved <-> In k lay_keywords.
Proof. intros k. split; apply subset_ok; vm_compute; reflexivity. Qed.
Lemma lay_lexable_all : forall f : layfile numeral chars, Forall (lexm_ok lay_reserved) (layfile_syntax f) ->
  Forall (lexable lay_marks lay_keywords false) (layfile_syntax f).
Proof.
  intros f H. apply Forall_forall. intros x J. rewrite Forall_forall in H. specialize (H x J).
  assert (D := layfile_drawn (P := chars) f). rewrite Forall_forall in D. specialize (D x J). destruct D as [D D2]. split.
  - destruct x as [k|c|n|w|p]; try exact Logic.I; [apply lay_reserved_keywords; exact D|exact D|contradiction].
  - apply (lexm_ok_same lay_reserved); [apply lay_reserved_keywords|assumption].
Qed.

(** ** Actions *)
Lemma lookup_in : forall A (l : list (list Z * A)) i a, lookup i l = Some a -> In (i, a) l.
Proof.
  induction l as [|[j b] l IH]; intros i a H; [discriminate|]. cbn [lookup] in H. destruct (same_string j i) eqn:E.
  - apply same_string_eq in E. injection H as ->. subst. left. reflexivity.
  - right. apply IH. assumption.
Qed.
Lemma lookup_none : forall A (l : list (list Z * A)) i, lookup i l = None <-> ~ In i (map fst l).
Proof.
  induction l as [|[j b] l IH]; intros i; cbn [lookup map fst]; [split; auto|]. destruct (same_string j i) eqn:E.
  - apply same_string_eq in E. subst. split; [discriminate|]. intros N. exfalso. apply N. left. reflexivity.
  - rewrite IH. split; intros N; [|intros X; apply N; right; exact X]. intros [X|X]; [|auto]. apply same_string_eq in X. congruence.
Qed.
Lemma lookup_some : forall A (l : list (list Z * A)) i a, NoDup (map fst l) -> In (i, a) l -> lookup i l = Some a.
Proof.
  induction l as [|[j b] l IH]; intros i a N H; [destruct H|]. cbn [map fst] in N. inversion N; subst. cbn [lookup]. destruct H as [H|H].
  - injection H as -> ->. assert (E : same_string i i = true) by (apply same_string_eq; reflexivity). rewrite E. reflexivity.
  - destruct (same_string j i) eqn:E; [|auto]. apply same_string_eq in E. subst. exfalso. apply H2. apply (in_map fst) in H. exact H.
Qed.
Lemma declare_ok : forall A size say (ms acc : list (list Z * A)), NoDup (map fst (acc ++ ms)) -> declare size say ms acc = Ok (Some (acc ++ ms)).
Proof.
  intros A size say. induction ms as [|[i a] ms IH]; intros acc N; cbn [declare]; [rewrite app_nil_r; reflexivity|].
  assert (L : lookup i acc = None).
  { apply lookup_none. intros X. rewrite map_app in N. cbn [map fst] in N. apply NoDup_remove_2 in N. apply N. apply in_or_app. left. exact X. }
  rewrite L, IH; rewrite <- app_assoc; [reflexivity|exact N].
Qed.
Lemma declare_inv : forall A size say (ms acc r : list (list Z * A)), declare size say ms acc = Ok (Some r) -> NoDup (map fst acc) ->
  r = acc ++ ms /\ NoDup (map fst r).
Proof.
  intros A size say. induction ms as [|[i a] ms IH]; intros acc r H N; cbn [declare] in H.
  - injection H as ->. rewrite app_nil_r. auto.
  - destruct (lookup i acc) eqn:L; [unfold message in H; destruct (_ <? _)%Z; discriminate|].
    apply IH in H; [rewrite <- app_assoc in H; exact H|]. rewrite map_app. cbn [map fst]. apply NoDup_app_snoc.
    + assumption.
    + apply lookup_none. assumption.
Qed.

(** Intersections *)
Definition xprod (a b : icel) : Q := ((ic_x a - ic_x b - ic_len b) * (ic_x a + ic_len a - ic_x b))%Q.
Definition yprod (a b : icel) : Q := ((ic_y a - ic_y b - ic_wid b) * (ic_y a + ic_wid a - ic_y b))%Q.
Lemma below : forall p, (EPSILON < Qabs p /\ p < 0 <-> p < - EPSILON)%Q.
Proof.
  intros p. split.
  - intros [A B]. rewrite Qabs_neg in A by lra. lra.
  - intros H. assert (p < 0)%Q by (unfold EPSILON in *; lra). split; [|assumption]. rewrite Qabs_neg by lra. lra.
Qed.
Lemma check_intersection_iff : forall a b, check_intersection a b = true <-> (xprod a b < - EPSILON /\ yprod a b < - EPSILON)%Q.
Proof.
  intros a b. unfold check_intersection. cbv zeta. fold (xprod a b). fold (yprod a b). rewrite !andb_true_iff, !Qlt_bool_iff.
  rewrite <- (below (xprod a b)), <- (below (yprod a b)). tauto.
Qed.
Lemma check_intersection_sym : forall a b, check_intersection a b = check_intersection b a.
Proof.
  assert (H : forall a b, check_intersection a b = true -> check_intersection b a = true).
  { intros a b H. apply check_intersection_iff in H. apply check_intersection_iff.
    assert (X : (xprod b a == xprod a b)%Q) by (unfold xprod; ring). assert (Y : (yprod b a == yprod a b)%Q) by (unfold yprod; ring).
    rewrite X, Y. exact H. }
  intros a b. destruct (check_intersection a b) eqn:E.
  - symmetry. apply H. assumption.
  - destruct (check_intersection b a) eqn:F; [|reflexivity]. apply H in F. congruence.
Qed.
Lemma product_neg : forall u v : Q, (0 <= u)%Q -> (0 <= v)%Q -> ~ (u * v < - EPSILON)%Q.
Proof. intros u v A B C. assert (0 <= u * v)%Q by (apply Qmult_le_0_compat; assumption). unfold EPSILON in C. lra. Qed.
Lemma side_by_side_clear : forall a b, (0 < ic_len a)%Q -> (0 < ic_len b)%Q -> (0 < ic_wid a)%Q -> (0 < ic_wid b)%Q ->
  side_by_side (rect_of a) (rect_of b) -> check_intersection a b = false.
Proof.
  intros a b P1 P2 P3 P4 S. destruct (check_intersection a b) eqn:E; [|reflexivity]. exfalso. apply check_intersection_iff in E. destruct E as [X Y].
  unfold side_by_side, rect_of in S. unfold xprod in X. unfold yprod in Y.
  assert (N : forall u v : Q, (u <= 0)%Q -> (v <= 0)%Q -> ~ (u * v < - EPSILON)%Q).
  { intros u v A B C. apply (product_neg (- u) (- v)); [lra|lra|]. assert (- u * - v == u * v)%Q by ring. lra. }
  destruct S as [S|[S|[S|S]]].
  - apply (N _ _) in X; [contradiction|lra|lra].
  - apply product_neg in X; [contradiction|lra|lra].
  - apply (N _ _) in Y; [contradiction|lra|lra].
  - apply product_neg in Y; [contradiction|lra|lra].
Qed.
Lemma overlap_clash : forall a b, overlapping (rect_of a) (rect_of b) -> check_intersection a b = true.
Proof.
  intros a b (px & py & e & L & (A1 & A2 & A3 & A4) & (B1 & B2 & B3 & B4)). apply check_intersection_iff. unfold xprod, yprod.
  assert (M : forall u v : Q, (1 # 1000 < - u)%Q -> (1 # 1000 < v)%Q -> (u * v < - EPSILON)%Q).
  { intros u v U V. assert ((1 # 1000) * (1 # 1000) < (- u) * v)%Q.
    { apply Qlt_trans with ((1 # 1000) * v)%Q.
      - apply Qmult_lt_l; [reflexivity|exact V].
      - apply Qmult_lt_r; [|exact U]. apply Qlt_trans with (1 # 1000); [reflexivity|exact V]. }
    assert ((1 # 1000) * (1 # 1000) == EPSILON)%Q by reflexivity. assert (- u * v == - (u * v))%Q by ring. lra. }
  split; apply M; lra.
Qed.

Lemma clashes_false : forall i a l, clashes i a l = Ok false <-> Forall (fun jb => check_intersection a (snd jb) = false) l.
Proof.
  intros i a. induction l as [|[j b] l IH]; cbn [clashes]; [split; auto|]. destruct (check_intersection a b) eqn:E.
  - split.
    + unfold message. destruct (_ <? _)%Z; [|discriminate]. destruct (clashes i a l); cbn [bind]; discriminate.
    + intros F. inversion F; subst. cbn [snd] in *. congruence.
  - rewrite IH. split; [intros F; constructor; [exact E|exact F]|]. intros F. inversion F. assumption.
Qed.
Definition clear (a b : icel) : Prop := check_intersection a b = false.
Definition pairwise {A} (R : A -> A -> Prop) (l : list A) : Prop := ForallOrdPairs R l.
Lemma pairwise_app : forall A (R : A -> A -> Prop) l m, pairwise R (l ++ m) <-> pairwise R l /\ pairwise R m /\ Forall (fun a => Forall (R a) m) l.
Proof.
  intros A R. induction l as [|a l IH]; intros m; cbn [app].
  - split; [intros H; repeat split; try assumption; constructor|tauto].
  - split.
    + intros H. inversion H; subst. apply IH in H3. destruct H3 as (H3 & H4 & H5). apply Forall_app in H2. destruct H2 as [H2 H6].
      split; [constructor; assumption|]. split; [assumption|]. constructor; assumption.
    + intros (H1 & H2 & H3). inversion H1; subst. inversion H3; subst. constructor; [apply Forall_app; auto|]. apply IH. auto.
Qed.
Lemma clashes_pairs : forall i after before previous, all_clashes i before after previous = Ok false <->
  Forall (fun a => Forall (clear a) before) after /\ pairwise clear after /\ Forall (fun a => Forall (clear a) (map snd previous)) after.
Proof.
  intros i. induction after as [|a after IH]; intros before previous; cbn [all_clashes].
  - split; [|reflexivity]. intros _. repeat split; constructor.
  - assert (F : forall l : list (list Z * icel), Forall (fun jb => check_intersection a (snd jb) = false) l <-> Forall (clear a) (map snd l)) by (intros l; rewrite Forall_map; reflexivity).
    split.
    + intros H. destruct (clashes i a (map (pair i) (before ++ after) ++ previous)) as [x| |] eqn:C; try discriminate. cbn [bind] in H.
      destruct (all_clashes i (before ++ [a]) after previous) as [y| |] eqn:D; try discriminate. cbn [bind] in H.
      destruct x; [discriminate|]. destruct y; [discriminate|]. apply clashes_false in C. apply F in C. rewrite map_app, map_map in C. cbn [snd] in C.
      rewrite map_id in C. apply Forall_app in C. destruct C as [C1 C2]. apply Forall_app in C1. destruct C1 as [C1 C3].
      apply IH in D. destruct D as (D1 & D2 & D3). split; [|split].
      * constructor; [assumption|]. eapply Forall_impl; [|exact D1]. intros b Hb. apply Forall_app in Hb. apply Hb.
      * constructor; assumption.
      * constructor; assumption.
    + intros (H1 & H2 & H3). inversion H1; subst. inversion H2; subst. inversion H3; subst.
      assert (C : clashes i a (map (pair i) (before ++ after) ++ previous) = Ok false).
      { apply clashes_false, F. rewrite map_app, map_map. cbn [snd]. rewrite map_id. apply Forall_app. split; [apply Forall_app; auto|assumption]. }
      assert (D : all_clashes i (before ++ [a]) after previous = Ok false).
      { apply IH. split; [|split; assumption]. apply Forall_forall. intros b B. apply Forall_app. split.
        - rewrite Forall_forall in H5. apply H5. assumption.
        - constructor; [|constructor]. unfold clear in *. rewrite check_intersection_sym. rewrite Forall_forall in H6. apply H6. assumption. }
      rewrite C, D. reflexivity.
Qed.

(** Rectangles *)
Lemma align_rect : forall fuel d x y l w a, align_to_grid fuel (mkIcel x y l w 0 0 0 0) d = Ok a -> rect_of a = (x, y, l, w).
Proof.
  intros fuel d x y l w a B. unfold align_to_grid in B.
  repeat match type of B with bind ?m _ = _ => destruct m; try discriminate; cbn [bind] in B end.
  cbn [ic_x ic_y ic_len ic_wid] in B. inversion B. reflexivity.
Qed.
Lemma place_inv : forall fuel d rs ics, place fuel d rs = Ok (ics, false) -> map rect_of ics = rs /\ Forall (fun q => ~ off_chip d q) rs.
Proof.
  intros fuel d. induction rs as [|[[[x y] l] w] rs IH]; intros ics H; cbn [place] in H; [injection H as <-; split; [reflexivity|constructor]|].
  destruct (align_to_grid fuel (mkIcel x y l w 0 0 0 0) d) as [a| |] eqn:A; try discriminate. cbn [bind] in H.
  destruct (place fuel d rs) as [[t b]| |] eqn:P; try discriminate. cbn [bind fst snd] in H. injection H as <- O.
  apply orb_false_iff in O. destruct O as [O ->]. destruct (IH t eq_refl) as [E F]. apply align_rect in A. split; [cbn [map]; rewrite A, E; reflexivity|].
  constructor; [|assumption]. intros X. assert (C : check_location a d = true); [|congruence]. apply check_location_iff.
  unfold rect_of in A. injection A as -> -> -> ->. exact X.
Qed.
Lemma place_ok : forall d fuel, good_grid d -> (d_nrows d + d_ncols d <= Z.of_nat fuel)%Z -> forall rs, Forall (on_chip d) rs ->
  exists ics, place fuel d rs = Ok (ics, false) /\ map rect_of ics = rs /\ Forall (placed d) ics.
Proof.
  intros d fuel G F. induction rs as [|[[[x y] l] w] rs IH]; intros H.
  - exists []. split; [reflexivity|]. split; [reflexivity|constructor].
  - pose proof (Forall_inv H) as H1. pose proof (Forall_inv_tail H) as H2. unfold on_chip in H1. destruct H1 as ((A & B & C & D) & P).
    destruct (IH H2) as (ics & E & R & K). destruct (align_spec d _ fuel G P F) as (b & AE & X1 & X2 & X3 & X4 & _). cbn [ic_x ic_y ic_len ic_wid] in *.
    assert (CL : check_location b d = false).
    { destruct (check_location b d) eqn:Q; [|reflexivity]. apply check_location_iff in Q. rewrite X1, X2, X3, X4 in Q.
      unfold EPSILON in Q. exfalso. destruct Q as [Q|[Q|[Q|Q]]]; lra. }
    exists (b :: ics). cbn [place]. rewrite AE. cbn [bind]. rewrite E. cbn [bind fst snd]. rewrite CL. split; [reflexivity|].
    split; [cbn [map]; rewrite R; unfold rect_of; rewrite X1, X2, X3, X4; reflexivity|].
    constructor; [|assumption]. unfold placed in *. cbn [ic_x ic_y ic_len ic_wid] in P. rewrite X1, X2, X3, X4. exact P.
Qed.
Lemma done_rects_snd : forall l, map snd (done_rects l) = flat_map (fun x => fst (snd x)) l.
Proof.
  induction l as [|[i [ics m]] l IH]; [reflexivity|]. unfold done_rects in *. cbn [flat_map fst snd]. rewrite map_app, IH, map_map. cbn [snd].
  rewrite map_id. reflexivity.
Qed.

(** Resolution *)
Definition resolve (local globals : materials) (id : list Z) : option material :=
  match lookup id local with Some m => Some m | None => lookup id globals end.
Lemma resolve_in : forall local globals id m, resolve local globals id = Some m -> resolves local globals id m.
Proof.
  intros local globals id m H. unfold resolve in H. destruct (lookup id local) as [x|] eqn:L.
  - injection H as ->. left. apply lookup_in. assumption.
  - right. split; [apply lookup_none; assumption|apply lookup_in; assumption].
Qed.
Lemma resolve_ok : forall local globals id m, NoDup (map fst local) -> NoDup (map fst globals) -> resolves local globals id m -> resolve local globals id = Some m.
Proof.
  intros local globals id m N1 N2 [H|[H1 H2]]; unfold resolve.
  - rewrite (lookup_some _ local id m N1 H). reflexivity.
  - apply lookup_none in H1. rewrite H1. apply lookup_some; assumption.
Qed.

(** ** The layouts that are accepted *)
Definition made_layout (local globals : materials) (o : qlayoutd) (x : list Z * (list icel * material)) : Prop :=
  fst x = o_material o /\ laid local globals o (snd x).
Lemma add_layouts_inv : forall fuel d globals l s s', add_layouts fuel d globals s l = Ok (Some s') -> t_abort s' = false ->
  NoDup (map fst (t_done s)) -> pairwise clear (map snd (done_rects (t_done s))) ->
  t_abort s = false /\ exists new, t_done s' = t_done s ++ new /\ Forall2 (made_layout (t_local s) globals) l new /\
    Forall (fun q => ~ off_chip d q) (flat_map (fun o => rects_of (o_shape o)) l) /\
    NoDup (map fst (t_done s')) /\ pairwise clear (map snd (done_rects (t_done s'))).
Proof.
  intros fuel d globals. induction l as [|o l IH]; intros s s' H A N C; cbn [add_layouts] in H.
  - injection H as ->. split; [assumption|]. exists []. rewrite app_nil_r. repeat split; try assumption; constructor.
  - destruct (add_layout fuel d globals s o) as [[s1|]| |] eqn:E; cbn [bind] in H; try discriminate.
    unfold add_layout in E. destruct (place fuel d (rects_of (o_shape o))) as [[ics off]| |] eqn:P; try discriminate. cbn [bind fst snd] in E. cbv zeta in E.
    destruct (match lookup (o_material o) (if off then [] else t_local s) with Some m => Some m | None => lookup (o_material o) globals end) as [m|] eqn:M;
      [|unfold message in E; destruct (_ <? _)%Z; discriminate].
    destruct (all_clashes (o_material o) [] ics (done_rects (t_done s))) as [c| |] eqn:AC; try discriminate. cbn [bind] in E.
    destruct (lookup (o_material o) (t_done s)) eqn:L; [unfold message in E; destruct (_ <? _)%Z; discriminate|].
    injection E as <-. apply lookup_none in L.
    assert (AB : t_abort s || off || c = false).
    { destruct (t_abort s || off || c) eqn:Q; [|reflexivity]. exfalso. revert H A. clear. intros H A.
      match type of H with add_layouts _ _ _ ?s0 _ = _ => assert (T : t_abort s0 = true) by reflexivity; revert T H; generalize s0 end.
      induction l as [|o' l IH]; intros s0 T H; cbn [add_layouts] in H; [injection H as <-; congruence|].
      destruct (add_layout fuel d globals s0 o') as [[s1|]| |] eqn:E; cbn [bind] in H; try discriminate. apply (IH s1); [|exact H].
      unfold add_layout in E. destruct (place fuel d (rects_of (o_shape o'))) as [[ics' off']| |]; try discriminate. cbn [bind fst snd] in E. cbv zeta in E.
      destruct (match lookup (o_material o') (if off' then [] else t_local s0) with Some m => Some m | None => lookup (o_material o') globals end);
        [|unfold message in E; destruct (_ <? _)%Z; discriminate].
      destruct (all_clashes (o_material o') [] ics' (done_rects (t_done s0))) as [c'| |]; try discriminate. cbn [bind] in E.
      destruct (lookup (o_material o') (t_done s0)); [unfold message in E; destruct (_ <? _)%Z; discriminate|]. injection E as <-. cbn [t_abort]. rewrite T. reflexivity. }
    apply orb_false_iff in AB. destruct AB as [AB ->]. apply orb_false_iff in AB. destruct AB as [AB ->].
    apply place_inv in P. destruct P as [P O]. apply clashes_pairs in AC. destruct AC as (_ & AC2 & AC3).
    assert (N1 : NoDup (map fst (t_done s ++ [(o_material o, (ics, m))]))).
    { rewrite map_app. cbn [map fst]. apply NoDup_app_snoc; assumption. }
    assert (C1 : pairwise clear (map snd (done_rects (t_done s ++ [(o_material o, (ics, m))])))).
    { rewrite done_rects_snd in *. rewrite flat_map_app. cbn [flat_map fst snd]. rewrite app_nil_r. apply pairwise_app. split; [assumption|]. split; [assumption|].
      apply Forall_forall. intros a Ia. apply Forall_forall. intros b Ib. unfold clear. rewrite check_intersection_sym.
      rewrite Forall_forall in AC3. specialize (AC3 b Ib). rewrite Forall_forall in AC3. apply AC3. assumption. }
    apply IH in H; try assumption. cbn [t_abort t_done t_local] in H. destruct H as (H0 & new & H1 & H2 & H3 & H4).
    split; [assumption|]. exists ((o_material o, (ics, m)) :: new). rewrite <- app_assoc in H1. split; [exact H1|]. split.
    + constructor; [|assumption]. split; [reflexivity|]. split; [exact P|]. apply resolve_in. exact M.
    + split; [|assumption]. cbn [flat_map]. apply Forall_app. split; assumption.
Qed.
Lemma add_layouts_ok : forall fuel d globals l s, good_grid d -> (d_nrows d + d_ncols d <= Z.of_nat fuel)%Z ->
  NoDup (map fst (t_local s)) -> NoDup (map fst globals) -> t_abort s = false ->
  (forall o, In o l -> exists m, resolves (t_local s) globals (o_material o) m) ->
  NoDup (map fst (t_done s) ++ map o_material l) ->
  Forall (on_chip d) (flat_map (fun o => rects_of (o_shape o)) l) ->
  Forall (placed d) (map snd (done_rects (t_done s))) ->
  pairwise side_by_side (map rect_of (map snd (done_rects (t_done s))) ++ flat_map (fun o => rects_of (o_shape o)) l) ->
  exists new, add_layouts fuel d globals s l = Ok (Some (mkLaystate (t_local s) (t_done s ++ new) false)) /\
    Forall2 (made_layout (t_local s) globals) l new /\ Forall (fun x => Forall (placed d) (fst (snd x))) new.
Proof.
  intros fuel d globals. induction l as [|o l IH]; intros s G F N1 N2 A R N O P S; cbn [add_layouts].
  - exists []. rewrite app_nil_r. destruct s as [a b c]. cbn in *. subst. split; [reflexivity|]. split; constructor.
  - cbn [flat_map] in O, S. apply Forall_app in O. destruct O as [O1 O2].
    destruct (place_ok d fuel G F _ O1) as (ics & PE & PR & PP).
    destruct (R o (or_introl eq_refl)) as (m & RM).
    assert (ST : add_layout fuel d globals s o = Ok (Some (mkLaystate (t_local s) (t_done s ++ [(o_material o, (ics, m))]) false))).
    { unfold add_layout. rewrite PE. cbn [bind fst snd]. cbv zeta. fold (resolve (t_local s) globals (o_material o)). rewrite (resolve_ok _ _ _ _ N1 N2 RM).
      assert (CL : all_clashes (o_material o) [] ics (done_rects (t_done s)) = Ok false).
      { apply clashes_pairs. split; [apply Forall_forall; intros; constructor|].
        rewrite <- PR in S. rewrite app_assoc, <- map_app in S. apply pairwise_app in S. destruct S as [S _].
        assert (AP : Forall (placed d) (map snd (done_rects (t_done s)) ++ ics)) by (apply Forall_app; auto).
        assert (PC : pairwise clear (map snd (done_rects (t_done s)) ++ ics)).
        { revert S AP. generalize (map snd (done_rects (t_done s)) ++ ics). clear. induction l as [|a l IH]; intros S AP; [constructor|].
          cbn [map] in S. inversion S; subst. inversion AP; subst. constructor; [|apply IH; assumption]. rewrite Forall_map in H1.
          apply Forall_forall. intros b B. rewrite Forall_forall in H1, H4. specialize (H1 b B). specialize (H4 b B).
          unfold placed in *. apply side_by_side_clear; try tauto. }
        apply pairwise_app in PC. destruct PC as (_ & PC2 & PC3). split; [assumption|].
        apply Forall_forall. intros a Ia. apply Forall_forall. intros b Ib. unfold clear. rewrite check_intersection_sym.
        rewrite Forall_forall in PC3. specialize (PC3 b Ib). rewrite Forall_forall in PC3. apply PC3. assumption. }
      rewrite CL. cbn [bind].
      assert (L : lookup (o_material o) (t_done s) = None).
      { apply lookup_none. cbn [map] in N. apply NoDup_remove_2 in N. intros X. apply N. apply in_or_app. auto. }
      rewrite L, A. reflexivity. }
    rewrite ST. cbn [bind].
    destruct (IH (mkLaystate (t_local s) (t_done s ++ [(o_material o, (ics, m))]) false)) as (new & E1 & E2 & E3); cbn [t_local t_done t_abort]; try assumption; try reflexivity.
    + intros o' I'. apply R. right. assumption.
    + rewrite map_app. cbn [map fst]. rewrite <- app_assoc. exact N.
    + rewrite done_rects_snd in *. rewrite flat_map_app. cbn [flat_map fst snd]. rewrite app_nil_r. apply Forall_app. auto.
    + rewrite done_rects_snd in *. rewrite flat_map_app. cbn [flat_map fst snd]. rewrite app_nil_r, map_app, PR, <- app_assoc. exact S.
    + exists ((o_material o, (ics, m)) :: new). rewrite E1. cbn [t_local t_done]. rewrite <- app_assoc. split; [reflexivity|].
      split; [constructor; [|assumption]; split; [reflexivity|split; [exact PR|exact RM]]|constructor; assumption].
Qed.
