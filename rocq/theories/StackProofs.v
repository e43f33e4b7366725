From Coq Require Import ZArith List Bool QArith Lia.
From Verif Require Import Base Dims Floorplan Stack StackSpec.
Import ListNotations.
Local Open Scope Z_scope.

Lemma list_set_mid : forall {A} (pre : list A) x post y,
    list_set (pre ++ x :: post) (length pre) y = pre ++ y :: post.
Proof. intros A pre; induction pre; intros; cbn; [reflexivity|]. rewrite IHpre. reflexivity. Qed.

Lemma arr_set_mid : forall {A} (pre : list A) x post y i,
    i = Z.of_nat (length pre) ->
    arr_set (pre ++ x :: post) i y = Ok (pre ++ y :: post).
Proof.
  intros. subst. rewrite arr_set_ok by (rewrite app_length; cbn [length]; lia).
  rewrite Nat2Z.id, list_set_mid. reflexivity.
Qed.

Lemma arr_get_mid : forall {A} (pre : list A) x post i,
    i = Z.of_nat (length pre) -> arr_get (pre ++ x :: post) i = Ok x.
Proof.
  intros. subst. rewrite (arr_get_ok _ _ x) by (rewrite app_length; cbn [length]; lia).
  rewrite Nat2Z.id, app_nth2, Nat.sub_diag by lia. reflexivity.
Qed.

Lemma arr_set_all_mid : forall {A} (xs : list A) pre mid post i,
    length mid = length xs -> i = Z.of_nat (length pre) ->
    arr_set_all (pre ++ mid ++ post) i xs = Ok (pre ++ xs ++ post).
Proof.
  intros A xs; induction xs as [|x xs IH]; intros pre mid post i H Hi.
  - destruct mid; [|discriminate]. reflexivity.
  - destruct mid as [|m mid]; [discriminate|]. cbn [arr_set_all app].
    rewrite (arr_set_mid pre m (mid ++ post) x i Hi). cbn [bind].
    replace (pre ++ x :: mid ++ post) with ((pre ++ [x]) ++ mid ++ post)
      by (rewrite <- app_assoc; reflexivity).
    rewrite (IH (pre ++ [x]) mid post).
    + rewrite <- app_assoc. reflexivity.
    + cbn in H. lia.
    + rewrite app_length. cbn [length]. lia.
Qed.

(** ** Elements and declarations *)
(** Bottom to top. *)
Definition decl_types (ch : option channel) (dc : stack_decl) : list layer_type :=
  match dc with
  | DeclDie _ above source below _ =>
    repeat LT_SOLID (length below) ++ LT_SOURCE :: repeat LT_SOLID (length above)
  | DeclLayer _ l => [LT_SOLID]
  | DeclChannel _ => match ch with Some c => channel_types (ch_model c) | None => [] end
  end.
Definition decl_flps (ch : option channel) (dc : stack_decl) : list (option floorplan) :=
  match dc with
  | DeclDie _ above source below f =>
    repeat None (length below) ++ Some f :: repeat None (length above)
  | DeclLayer _ l => [None]
  | DeclChannel _ => repeat None (chan_layers ch)
  end.

Definition chan_ok (ch : option channel) : Prop :=
  match ch with Some c => ch_model c <> CM_NONE /\ ch_nlayers c = Z.of_nat (chan_layers ch) | None => True end.

Lemma declared_ok : forall ch, declared ch -> chan_ok ch.
Proof.
  intros [c|] H; [|exact I]. destruct H as (cd & len & n & H). destruct cd; cbn in H.
  - injection H as <-. cbn. split; [discriminate|reflexivity].
  - destruct (to_u32 _) as [k| |] eqn:E; cbn in H; try discriminate.
    injection H as <-. cbn. split; [discriminate|reflexivity].
  - injection H as <-. cbn. destruct staggered; split; (discriminate || reflexivity).
Qed.

Lemma decl_heights_layers : forall ch dc, decl_heights ch dc = map ly_height (decl_layers ch dc).
Proof.
  intros ch [id a s b f|id l|id]; cbn [decl_heights decl_layers].
  - rewrite map_app. reflexivity.
  - reflexivity.
  - destruct ch as [c|]; [|reflexivity]. cbn [chan_height].
    induction (chan_layers (Some c)); cbn; [reflexivity|]. f_equal. assumption.
Qed.

Lemma decl_types_length : forall ch dc, chan_ok ch -> length (decl_types ch dc) = length (decl_heights ch dc).
Proof.
  intros ch [id a s b f|id l|id] H; cbn [decl_types decl_heights].
  - rewrite !app_length. cbn [length]. rewrite !repeat_length, !map_length. lia.
  - reflexivity.
  - rewrite repeat_length. destruct ch as [c|]; [|reflexivity]. cbn [chan_layers]. destruct H as [H _].
    destruct (ch_model c); try reflexivity. congruence.
Qed.
Lemma decl_flps_length : forall ch dc, length (decl_flps ch dc) = length (decl_heights ch dc).
Proof.
  intros ch [id a s b f|id l|id]; cbn [decl_flps decl_heights].
  - rewrite !app_length. cbn [length]. rewrite !repeat_length, !map_length. lia.
  - reflexivity.
  - rewrite !repeat_length. reflexivity.
Qed.
Lemma decl_layers_length : forall ch dc, length (decl_layers ch dc) = length (decl_heights ch dc).
Proof. intros. rewrite decl_heights_layers, map_length. reflexivity. Qed.

(** [e] is the element made from [dc], up to its offset. *)
Definition made (ch : option channel) (dc : stack_decl) (e : stkel) : Prop :=
  exists o, make_element_decl ch dc = Some (mkStkel (se_id e) (se_kind e) (se_nlayers e) o).


Lemma made_make : forall ch dc e, make_element_decl ch dc = Some e -> made ch dc e.
Proof. intros ch dc e H. exists (se_offset e). rewrite H. destruct e; reflexivity. Qed.

Lemma made_chan : forall ch dc e, made ch dc e -> is_channel e = is_chan_decl dc.
Proof.
  intros ch dc e [o H]. destruct dc; cbn in H.
  - assert (K : SKDie (make_die above source below f) = se_kind e) by congruence. unfold is_channel. rewrite <- K. reflexivity.
  - assert (K : SKLayer l = se_kind e) by congruence. unfold is_channel. rewrite <- K. reflexivity.
  - destruct ch; [|discriminate]. assert (K : SKChannel c = se_kind e) by congruence. unfold is_channel. rewrite <- K. reflexivity.
Qed.

Lemma made_nlayers : forall ch dc e, chan_ok ch -> made ch dc e ->
    Z.of_nat (length (decl_heights ch dc)) < two32 ->
    se_nlayers e = Z.of_nat (length (decl_heights ch dc)).
Proof.
  intros ch dc e Hc [o H] L. rewrite <- decl_layers_length in *.
  destruct dc; cbn [make_element_decl decl_layers] in *.
  - assert (K : u32 (Z.of_nat (length (die_layers (make_die above source below f)))) = se_nlayers e) by congruence.
    rewrite <- K. unfold make_die. cbn [die_layers]. apply u32_id. lia.
  - assert (1 = se_nlayers e) by congruence. rewrite <- H0. reflexivity.
  - destruct ch as [c|]; [|discriminate]. assert (ch_nlayers c = se_nlayers e) as <- by congruence.
    destruct Hc as [_ ->]. rewrite repeat_length. reflexivity.
Qed.

Lemma add_elements_spec : forall ch ds acc es,
    add_elements ch acc ds = Some es ->
    exists es', es = acc ++ es' /\ Forall2 (made ch) ds es'.
Proof.
  intros ch ds; induction ds as [|dc ds IH]; intros acc es H; cbn [add_elements] in H.
  - exists []. rewrite app_nil_r. split; [congruence|constructor].
  - destruct (make_element_decl ch dc) as [e|] eqn:E; [|discriminate].
    pose proof (made_make _ _ _ E) as M.
    destruct acc as [|first acc'].
    + apply IH in H. destruct H as (es' & -> & F). exists (e :: es'). split; [reflexivity|constructor; assumption].
    + destruct (existsb _ _); [discriminate|]. destruct (is_channel first && is_channel e); [discriminate|].
      apply IH in H. destruct H as (es' & -> & F). exists (e :: es'). split.
      * rewrite <- app_assoc. reflexivity.
      * constructor; assumption.
Qed.

Lemma Forall2_rev' : forall {A B} (R : A -> B -> Prop) l m, Forall2 R l m -> Forall2 R (rev l) (rev m).
Proof.
  intros A B R l m H; induction H; cbn; [constructor|]. apply Forall2_app; [assumption|]. constructor; [assumption|constructor].
Qed.

(** Bottom-up declarations, elements with offsets. *)
Inductive laid (ch : option channel) : Z -> list stack_decl -> list stkel -> Prop :=
| laid_nil : forall o, laid ch o [] []
| laid_cons : forall o dc ds e es,
    made ch dc e -> se_offset e = o -> se_nlayers e = Z.of_nat (length (decl_heights ch dc)) ->
    laid ch (o + Z.of_nat (length (decl_heights ch dc))) ds es -> laid ch o (dc :: ds) (e :: es).

Lemma set_offsets_laid : forall ch ds es o,
    chan_ok ch -> Forall2 (made ch) ds es -> 0 <= o ->
    o + Z.of_nat (length (stack_heights ch ds)) < two32 ->
    laid ch o ds (fst (set_offsets es o)) /\ snd (set_offsets es o) = o + Z.of_nat (length (stack_heights ch ds)).
Proof.
  intros ch ds es o Hc F. revert o. induction F as [|dc e ds es M F IH]; intros o Ho L.
  - cbn. split; [constructor|lia].
  - unfold stack_heights in *. cbn [flat_map] in L |- *. rewrite app_length in L |- *.
    pose proof (made_nlayers _ _ _ Hc M ltac:(lia)) as Hn.
    cbn [set_offsets]. rewrite Hn. rewrite u32_id by lia.
    specialize (IH (o + Z.of_nat (length (decl_heights ch dc))) ltac:(lia) ltac:(lia)).
    destruct (set_offsets es _) as [r n]. cbn [fst snd] in *. destruct IH as [IH1 IH2]. split; [|lia].
    constructor; try assumption; try reflexivity. destruct M as [o1 M]. exists o1. cbn [se_id se_kind se_nlayers]. rewrite <- Hn. exact M.
Qed.

Lemma made_heights : forall ch dc e, chan_ok ch -> made ch dc e -> element_heights e = rev (decl_heights ch dc).
Proof.
  intros ch dc e Hc [o H]. unfold element_heights. destruct dc; cbn [make_element_decl] in H.
  - assert (SKDie (make_die above source below f) = se_kind e) as <- by congruence. cbn [make_die die_layers decl_heights].
    rewrite map_app. reflexivity.
  - assert (SKLayer l = se_kind e) as <- by congruence. reflexivity.
  - destruct ch as [c|]; [|discriminate]. assert (SKChannel c = se_kind e) as <- by congruence.
    destruct Hc as [_ ->]. rewrite Nat2Z.id. cbn [decl_heights chan_height].
    induction (chan_layers (Some c)); cbn; [reflexivity|]. rewrite <- IHn, <- repeat_cons. reflexivity.
Qed.

Lemma laid_heights : forall ch o ds es, chan_ok ch -> laid ch o ds es ->
    flat_map element_heights es = rev (stack_heights ch (rev ds)).
Proof.
  intros ch o ds es Hc H. induction H; [reflexivity|].
  cbn [flat_map rev]. rewrite (made_heights ch dc e Hc H), IHlaid.
  unfold stack_heights. rewrite flat_map_app, rev_app_distr. cbn [flat_map]. rewrite app_nil_r. reflexivity.
Qed.

Lemma stack_heights_rev_length : forall ch ds, length (stack_heights ch (rev ds)) = length (stack_heights ch ds).
Proof.
  intros. unfold stack_heights. induction ds; [reflexivity|]. cbn [rev flat_map].
  rewrite flat_map_app, !app_length. cbn [flat_map]. rewrite app_nil_r. lia.
Qed.

Lemma set_offsets_kinds : forall l z, map se_kind (fst (set_offsets l z)) = map se_kind l.
Proof.
  induction l as [|a l IH]; intro z; cbn [set_offsets]; [reflexivity|].
  destruct (set_offsets l _) as [r' n'] eqn:E. cbn [fst map]. f_equal. 
  rewrite <- (IH (u32 (z + se_nlayers a))), E. reflexivity.
Qed.

(** Everything about an accepted stack. *)
Lemma parse_stack_spec : forall ch ds es hs,
    chan_ok ch -> Z.of_nat (length (stack_heights ch ds)) < two32 ->
    parse_stack ch ds = Ok (Some (es, hs)) ->
    laid ch 0 (rev ds) (rev es) /\ hs = rev (stack_heights ch ds) /\ es <> [] /\
    (exists e, hd_error es = Some e /\ is_channel e = false) /\
    (exists e, hd_error (rev es) = Some e /\ is_channel e = false) /\ existsb is_die es = true.
Proof.
  intros ch ds es hs Hc L H. unfold parse_stack in H.
  destruct (add_elements ch [] ds) as [es0|] eqn:E; [|discriminate].
  apply add_elements_spec in E. destruct E as (es' & K & F). cbn in K. subst es0.
  destruct es' as [|t r]; cbv beta iota in H; [discriminate|].
  destruct (negb (existsb is_die (t :: r))) eqn:D; [discriminate|].
  destruct (is_channel (last (t :: r) t)) eqn:Bt; [discriminate|].
  destruct (is_channel t) eqn:Tp; [discriminate|].
  pose proof (set_offsets_laid ch (rev ds) (rev (t :: r)) 0 Hc (Forall2_rev' _ _ _ F) ltac:(lia)) as S.
  rewrite stack_heights_rev_length in S. specialize (S ltac:(lia)).
  destruct (set_offsets (rev (t :: r)) 0) as [bu n] eqn:EB. cbn [fst snd] in S. destruct S as [S1 S2].
  pose proof (laid_heights _ _ _ _ Hc S1) as HH. rewrite rev_involutive in HH.
  rewrite HH in H. rewrite rev_length in H. rewrite (proj2 (Z.eqb_eq _ n)) in H by lia.
  assert (es = rev bu) by congruence. assert (hs = rev (stack_heights ch ds)) by congruence. clear H. subst.
  rewrite rev_involutive.
  assert (KK : map se_kind bu = map se_kind (rev (t :: r))).
  { replace bu with (fst (set_offsets (rev (t :: r)) 0)) by (rewrite EB; reflexivity). apply set_offsets_kinds. }
  assert (CH : forall a b, se_kind a = se_kind b -> is_channel a = is_channel b) by (unfold is_channel; intros a b ->; reflexivity).
  assert (DH : forall a b, se_kind a = se_kind b -> is_die a = is_die b) by (unfold is_die; intros a b ->; reflexivity).
  assert (KR : map se_kind (rev bu) = map se_kind (t :: r)).
  { rewrite map_rev, KK, map_rev, rev_involutive. reflexivity. }
  repeat split.
  - exact S1.
  - intro N. rewrite N in KR. discriminate.
  - destruct (rev bu) as [|a l]; [discriminate|]. exists a. split; [reflexivity|].
    rewrite <- Tp. apply CH. cbn in KR. congruence.
  - destruct bu as [|a l]; [exfalso; cbn in KR; discriminate|].
    exists a. split; [reflexivity|]. rewrite <- Bt. apply CH.
    assert (X : exists m, t :: r = m ++ [last (t :: r) t]).
    { exists (removelast (t :: r)). apply app_removelast_last. discriminate. }
    destruct X as [m X]. rewrite X in KK. rewrite rev_app_distr in KK. cbn [rev app map] in KK. congruence.
  - apply negb_false_iff in D. apply existsb_exists in D. destruct D as (x & I & Dx).
    apply existsb_exists. apply (in_map se_kind) in I. rewrite <- KR in I. apply in_map_iff in I.
    destruct I as (y & Ky & Iy). exists y. split; [assumption|]. rewrite <- Dx. apply DH. assumption.
Qed.

(** ** Filling of the grids *)
Definition types_of (ch : option channel) (bs : list stack_decl) := flat_map (decl_types ch) bs.
Definition layers_of (ch : option channel) (bs : list stack_decl) := flat_map (fun dc => rev (decl_layers ch dc)) bs.
Definition flps_of (ch : option channel) (bs : list stack_decl) := flat_map (decl_flps ch) bs.

Lemma repeat_split : forall {A} (x : A) n m, (m <= n)%nat -> repeat x n = repeat x m ++ repeat x (n - m).
Proof. intros. rewrite <- repeat_app. f_equal. lia. Qed.

Lemma rev_repeat : forall {A} (x : A) n, rev (repeat x n) = repeat x n.
Proof. induction n; cbn; [reflexivity|]. rewrite IHn, <- repeat_cons. reflexivity. Qed.

Definition has_4rm (ch : option channel) (bs : list stack_decl) : bool :=
  existsb is_chan_decl bs && match ch with Some c => match ch_model c with CM_MC_4RM => true | _ => false end | None => false end.

Lemma die_types : forall (x y : layer_type) (a b : nat) pre post i o,
    i = Z.of_nat (length pre) -> o = Z.of_nat b ->
    arr_set (pre ++ repeat x (a + S b) ++ post) (i + o) y = Ok (pre ++ (repeat x b ++ y :: repeat x a) ++ post).
Proof.
  intros. subst. replace (a + S b)%nat with (b + (1 + a))%nat by lia. rewrite !repeat_app. cbn [repeat].
  rewrite <- !app_assoc. cbn [app].
  replace (pre ++ repeat x b ++ x :: repeat x a ++ post) with ((pre ++ repeat x b) ++ x :: repeat x a ++ post)
    by (rewrite <- app_assoc; reflexivity).
  rewrite arr_set_mid by (rewrite app_length, repeat_length; lia).
  rewrite <- app_assoc. reflexivity.
Qed.
Lemma die_flps : forall (f : option floorplan) (a b : nat) pre post i o,
    i = Z.of_nat (length pre) -> o = Z.of_nat b ->
    arr_set (pre ++ repeat None (a + S b) ++ post) (i + o) f = Ok (pre ++ (repeat None b ++ f :: repeat None a) ++ post).
Proof.
  intros. subst. replace (a + S b)%nat with (b + (1 + a))%nat by lia. rewrite !repeat_app. cbn [repeat].
  rewrite <- !app_assoc. cbn [app].
  replace (pre ++ repeat None b ++ None :: repeat None a ++ post) with ((pre ++ repeat None b) ++ None :: repeat None a ++ post)
    by (rewrite <- app_assoc; reflexivity).
  rewrite arr_set_mid by (rewrite app_length, repeat_length; lia).
  rewrite <- app_assoc. reflexivity.
Qed.

Lemma thermal_fill_loop : forall ch bs es, chan_ok ch ->
    forall o pt pl r4 n c tp bt,
      laid ch o bs es -> length pt = length pl -> o = Z.of_nat (length pt) ->
      (length (stack_heights ch bs) <= n)%nat ->
      exists c',
      fold_out thermal_fill_element
        (mkTgrid (pt ++ repeat LT_NONE n) (pl ++ repeat layer0 n) c tp bt, r4) es
      = Ok (mkTgrid (pt ++ types_of ch bs ++ repeat LT_NONE (n - length (stack_heights ch bs)))
                    (pl ++ layers_of ch bs ++ repeat layer0 (n - length (stack_heights ch bs))) c' tp bt,
            r4 || has_4rm ch bs)
      /\ (existsb is_chan_decl bs = true -> c' = ch) /\ (existsb is_chan_decl bs = false -> c' = c).
Proof.
  intros ch bs es Hc. revert es. induction bs as [|dc bs IH]; intros es o pt pl r4 n c tp bt LD PL Ho Hn.
  - inversion LD; subst. cbn. exists c. unfold has_4rm. cbn. rewrite orb_false_r, Nat.sub_0_r.
    split; [reflexivity|split; intros; [discriminate|reflexivity]].
  - inversion LD as [|? ? ? e es' M He Hnl LD']; subst. cbn [fold_out].
    unfold stack_heights in Hn. cbn [flat_map] in Hn. fold (stack_heights ch bs) in Hn. rewrite app_length in Hn.
    set (k := length (decl_heights ch dc)) in *.
    assert (STEP : exists c1, thermal_fill_element (mkTgrid (pt ++ repeat LT_NONE n) (pl ++ repeat layer0 n) c tp bt, r4) e
            = Ok (mkTgrid ((pt ++ decl_types ch dc) ++ repeat LT_NONE (n - k))
                          ((pl ++ rev (decl_layers ch dc)) ++ repeat layer0 (n - k)) c1 tp bt,
                  r4 || has_4rm ch [dc]) /\ (is_chan_decl dc = true -> c1 = ch) /\ (is_chan_decl dc = false -> c1 = c)).
    { destruct M as [o' M]. unfold thermal_fill_element. rewrite He.
      rewrite (repeat_split LT_NONE n k) by lia. rewrite (repeat_split layer0 n k) by lia.
      assert (KL : k = length (decl_layers ch dc)) by (symmetry; apply decl_layers_length).
      assert (KT : length (decl_types ch dc) = k) by (apply decl_types_length; assumption).
      destruct dc; cbn [make_element_decl] in M.
      - assert (SKDie (make_die above source below f) = se_kind e) as <- by congruence.
        cbn [make_die die_layers die_source_offset tg_types tg_layers tg_channel tg_top tg_bottom].
        cbn [decl_layers] in KL. rewrite app_length in KL. cbn [length] in KL.
        rewrite (arr_set_all_mid (repeat LT_SOLID (length (above ++ source :: below))) pt (repeat LT_NONE k))
          by (rewrite ?repeat_length, ?app_length; cbn [length]; lia).
        cbn [bind].
        rewrite (arr_set_all_mid (rev (above ++ source :: below)) pl (repeat layer0 k))
          by (rewrite ?rev_length, ?repeat_length, ?app_length; cbn [length]; lia).
        cbn [bind]. rewrite app_length. cbn [length].
        rewrite (die_types LT_SOLID LT_SOURCE (length above) (length below)) by reflexivity.
        cbn [bind]. exists c. cbn [decl_types decl_layers is_chan_decl]. unfold has_4rm. cbn. rewrite orb_false_r.
        rewrite <- !app_assoc. cbn [app]. split; [reflexivity|split; intros; [discriminate|reflexivity]].
      - assert (SKLayer l = se_kind e) as <- by congruence.
        cbn [tg_types tg_layers tg_channel tg_top tg_bottom].
        change k with 1%nat. cbn [repeat app].
        rewrite arr_set_mid by reflexivity. cbn [bind]. rewrite arr_set_mid by lia. cbn [bind].
        exists c. unfold has_4rm. cbn. rewrite orb_false_r. rewrite <- !app_assoc. cbn [app].
        split; [reflexivity|split; intros; [discriminate|reflexivity]].
      - destruct ch as [ch|]; [|discriminate].
        assert (SKChannel ch = se_kind e) as <- by congruence.
        cbn [tg_types tg_layers tg_channel tg_top tg_bottom].
        cbn [decl_layers] in KL. rewrite repeat_length in KL. destruct Hc as [HcM HcN].
        rewrite HcN, Nat2Z.id.
        rewrite (arr_set_all_mid (repeat _ (chan_layers (Some ch))) pl (repeat layer0 k))
          by (rewrite ?repeat_length; lia).
        cbn [bind].
        rewrite (arr_set_all_mid (channel_types (ch_model ch)) pt (repeat LT_NONE k)).
        2:{ rewrite repeat_length. cbn [decl_types] in KT. lia. }
        2:{ reflexivity. }
        cbn [bind]. exists (Some ch). cbn [decl_types decl_layers is_chan_decl].
        rewrite <- !app_assoc. rewrite rev_repeat.
        split; [|split; intros; [reflexivity|discriminate]].
        unfold has_4rm. cbn [existsb is_chan_decl andb orb]. f_equal. f_equal.
        destruct (ch_model ch); rewrite ?orb_false_r, ?orb_true_r; reflexivity. }
    destruct STEP as (c1 & STEP & C1 & C2). rewrite STEP. cbn [bind].
    assert (KT : length (decl_types ch dc) = k) by (apply decl_types_length; assumption).
    assert (KL : length (decl_layers ch dc) = k) by (apply decl_layers_length).
    destruct (IH es' (Z.of_nat (length pt) + Z.of_nat k) (pt ++ decl_types ch dc) (pl ++ rev (decl_layers ch dc)) (r4 || has_4rm ch [dc]) (n - k)%nat c1 tp bt)
      as (c2 & E & D1 & D2).
    + exact LD'.
    + rewrite !app_length, rev_length. lia.
    + rewrite app_length. lia.
    + lia.
    + exists c2. rewrite E. split.
      * unfold types_of, layers_of, stack_heights. cbn [flat_map]. rewrite !app_length.
        fold (stack_heights ch bs). fold k.
        replace (n - k - length (stack_heights ch bs))%nat with (n - (k + length (stack_heights ch bs)))%nat by lia.
        rewrite <- !app_assoc. f_equal. f_equal. unfold has_4rm. cbn [existsb].
        rewrite orb_false_r. destruct (is_chan_decl dc); cbn; [|rewrite orb_false_r; reflexivity].
        destruct (existsb is_chan_decl bs); cbn; rewrite ?orb_false_r; [|reflexivity].
        rewrite <- orb_assoc, orb_diag. reflexivity.
      * cbn [existsb]. split; intro X.
        -- apply orb_true_iff in X. destruct (existsb is_chan_decl bs) eqn:Y; [apply D1; reflexivity|].
           rewrite D2 by reflexivity. apply C1. destruct X; [assumption|discriminate].
        -- apply orb_false_iff in X. destruct X as [X1 X2]. rewrite D2 by assumption. apply C2. assumption.
Qed.

Lemma power_fill_loop : forall ch bs es, chan_ok ch ->
    forall o pt pf n,
      laid ch o bs es -> length pt = length pf -> o = Z.of_nat (length pt) ->
      (length (stack_heights ch bs) <= n)%nat ->
      fold_out power_fill_element (pt ++ repeat LT_NONE n, pf ++ repeat None n) es
      = Ok (pt ++ types_of ch bs ++ repeat LT_NONE (n - length (stack_heights ch bs)),
            pf ++ flps_of ch bs ++ repeat None (n - length (stack_heights ch bs))).
Proof.
  intros ch bs es Hc. revert es. induction bs as [|dc bs IH]; intros es o pt pf n LD PL Ho Hn.
  - inversion LD; subst. cbn. rewrite Nat.sub_0_r. reflexivity.
  - inversion LD as [|? ? ? e es' M He Hnl LD']; subst. cbn [fold_out].
    unfold stack_heights in Hn. cbn [flat_map] in Hn. fold (stack_heights ch bs) in Hn. rewrite app_length in Hn.
    set (k := length (decl_heights ch dc)) in *.
    assert (KT : length (decl_types ch dc) = k) by (apply decl_types_length; assumption).
    assert (KF : length (decl_flps ch dc) = k) by (apply decl_flps_length).
    assert (STEP : power_fill_element (pt ++ repeat LT_NONE n, pf ++ repeat None n) e
            = Ok ((pt ++ decl_types ch dc) ++ repeat LT_NONE (n - k), (pf ++ decl_flps ch dc) ++ repeat None (n - k))).
    { destruct M as [o' M]. unfold power_fill_element. rewrite He.
      rewrite (repeat_split LT_NONE n k) by lia. rewrite (repeat_split None n k) by lia.
      destruct dc; cbn [make_element_decl] in M.
      - assert (SKDie (make_die above source below f) = se_kind e) as <- by congruence.
        cbn [make_die die_layers die_source_offset die_floorplan].
        cbn [decl_flps] in KF. rewrite app_length in KF. cbn [length] in KF. rewrite !repeat_length in KF.
        rewrite (arr_set_all_mid (repeat LT_SOLID (length (above ++ source :: below))) pt (repeat LT_NONE k))
          by (rewrite ?repeat_length, ?app_length; cbn [length]; lia).
        cbn [bind].
        rewrite (arr_set_all_mid (repeat None (length (above ++ source :: below))) pf (repeat None k))
          by (rewrite ?repeat_length, ?app_length; cbn [length]; lia).
        cbn [bind]. rewrite app_length. cbn [length].
        rewrite (die_types LT_SOLID LT_SOURCE (length above) (length below)) by reflexivity.
        cbn [bind].
        rewrite (die_flps (Some f) (length above) (length below)) by (reflexivity || lia).
        cbn [bind decl_types decl_flps]. rewrite <- !app_assoc. reflexivity.
      - assert (SKLayer l = se_kind e) as <- by congruence.
        change k with 1%nat. cbn [repeat app].
        rewrite arr_set_mid by reflexivity. cbn [bind]. rewrite arr_set_mid by lia. cbn [bind].
        rewrite <- !app_assoc. reflexivity.
      - destruct ch as [ch|]; [|discriminate].
        assert (SKChannel ch = se_kind e) as <- by congruence.
        rewrite (arr_set_all_mid (channel_types (ch_model ch)) pt (repeat LT_NONE k)).
        2:{ rewrite repeat_length. cbn [decl_types] in KT. lia. }
        2:{ reflexivity. }
        cbn [bind]. cbn [decl_types decl_flps] in *. rewrite repeat_length in KF. rewrite KF.
        rewrite <- !app_assoc. reflexivity. }
    rewrite STEP. cbn [bind].
    rewrite (IH es' (Z.of_nat (length pt) + Z.of_nat k)).
    + unfold types_of, flps_of, stack_heights. cbn [flat_map]. rewrite !app_length.
      fold (stack_heights ch bs). fold k.
      replace (n - k - length (stack_heights ch bs))%nat with (n - (k + length (stack_heights ch bs)))%nat by lia.
      rewrite <- !app_assoc. reflexivity.
    + exact LD'.
    + rewrite !app_length. lia.
    + rewrite app_length. lia.
    + lia.
Qed.

(** ** Where a layer comes from *)
Lemma nth_error_flat_map : forall {A B} (g : A -> list B) bs l x,
    nth_error (flat_map g bs) l = Some x <->
    exists i dc k, nth_error bs i = Some dc /\ l = (length (flat_map g (firstn i bs)) + k)%nat /\ nth_error (g dc) k = Some x.
Proof.
  intros A B g bs; induction bs as [|b bs IH]; intros l x.
  - cbn. split; [destruct l; discriminate|]. intros (i & dc & k & H & _). destruct i; discriminate.
  - cbn [flat_map]. split.
    + intro H. destruct (Nat.lt_ge_cases l (length (g b))) as [Hl|Hl].
      * rewrite nth_error_app1 in H by assumption. exists O, b, l. repeat split; assumption.
      * rewrite nth_error_app2 in H by assumption. apply IH in H. destruct H as (i & dc & k & H1 & H2 & H3).
        exists (S i), dc, k. repeat split; try assumption. cbn [firstn flat_map]. rewrite app_length. lia.
    + intros (i & dc & k & H1 & H2 & H3). destruct i as [|i].
      * cbn in H1. injection H1 as <-. cbn in H2. subst l. rewrite nth_error_app1; [assumption|].
        apply nth_error_Some. rewrite H3. discriminate.
      * cbn [firstn flat_map] in H2. rewrite app_length in H2. rewrite nth_error_app2 by lia.
        apply IH. exists i, dc, k. repeat split; try assumption. lia.
Qed.

Lemma nth_error_rev : forall {A} (l : list A) i, (i < length l)%nat ->
    nth_error (rev l) i = nth_error l (length l - 1 - i).
Proof.
  intros A l i H. destruct l as [|a0 l0]; [cbn in H; lia|]. set (l := a0 :: l0) in *.
  rewrite (nth_error_nth' (rev l) a0) by (rewrite rev_length; assumption).
  rewrite (nth_error_nth' l a0) by lia. rewrite rev_nth by assumption. f_equal. f_equal. lia.
Qed.

Lemma flat_map_lengths : forall {A B C} (g : A -> list B) (h : A -> list C) l,
    (forall a, length (g a) = length (h a)) -> length (flat_map g l) = length (flat_map h l).
Proof. intros A B C g h l H. induction l; cbn; [reflexivity|]. rewrite !app_length, H, IHl. reflexivity. Qed.

Lemma located : forall {B} ch (g : stack_decl -> list B) ds l x,
    (forall dc, length (g dc) = length (decl_heights ch dc)) ->
    (nth_error (flat_map g (rev ds)) l = Some x <->
     exists i dc k, nth_error ds i = Some dc /\ Z.of_nat l = layers_below ch ds i + Z.of_nat k /\ nth_error (g dc) k = Some x).
Proof.
  intros B ch g ds l x G. rewrite nth_error_flat_map.
  assert (LB : forall i, (i < length ds)%nat ->
             Z.of_nat (length (flat_map g (firstn i (rev ds)))) = layers_below ch ds (length ds - 1 - i)).
  { intros i Hi. unfold layers_below, stack_heights.
    rewrite (flat_map_lengths g (decl_heights ch)) by assumption.
    rewrite firstn_rev. replace (S (length ds - 1 - i)) with (length ds - i)%nat by lia.
    f_equal. apply (stack_heights_rev_length ch). }
  split; intros (i & dc & k & H1 & H2 & H3).
  - assert (Hi : (i < length ds)%nat).
    { rewrite <- (rev_length ds). apply nth_error_Some. rewrite H1. discriminate. }
    exists (length ds - 1 - i)%nat, dc, k. rewrite <- nth_error_rev by assumption. rewrite <- LB by assumption.
    repeat split; try assumption. lia.
  - assert (Hi : (i < length ds)%nat) by (apply nth_error_Some; rewrite H1; discriminate).
    exists (length ds - 1 - i)%nat, dc, k.
    rewrite nth_error_rev by lia. replace (length ds - 1 - (length ds - 1 - i))%nat with i by lia.
    repeat split; try assumption.
    specialize (LB (length ds - 1 - i)%nat ltac:(lia)).
    replace (length ds - 1 - (length ds - 1 - i))%nat with i in LB by lia. lia.
Qed.

Lemma layers_below_step : forall ch ds i dc, nth_error ds i = Some dc ->
    Z.of_nat (length (stack_heights ch (skipn i ds))) = layers_below ch ds i + Z.of_nat (length (decl_heights ch dc)).
Proof.
  intros ch ds i dc H. unfold layers_below.
  assert (E : skipn i ds = dc :: skipn (S i) ds).
  { revert i H. induction ds as [|a ds IH]; intros [|i] H; try discriminate; cbn in H.
    - injection H as <-. reflexivity.
    - apply IH in H. cbn [skipn]. exact H. }
  rewrite E. unfold stack_heights at 1. cbn [flat_map]. rewrite app_length. fold (stack_heights ch (skipn (S i) ds)). lia.
Qed.

Lemma skipn_skipn' : forall {A} i j (l : list A), skipn i (skipn j l) = skipn (i + j) l.
Proof.
  intros A i j. revert i. induction j as [|j IH]; intros i l.
  - rewrite Nat.add_0_r. reflexivity.
  - rewrite Nat.add_succ_r. destruct l; [rewrite !skipn_nil; reflexivity|]. cbn [skipn]. apply IH.
Qed.

Lemma stack_heights_skipn_le : forall ch ds i j, (i <= j)%nat ->
    (length (stack_heights ch (skipn j ds)) <= length (stack_heights ch (skipn i ds)))%nat.
Proof.
  intros ch ds i j H. replace (skipn j ds) with (skipn (j - i) (skipn i ds)).
  - generalize (skipn i ds) as l. intro l. generalize (j - i)%nat as m. intro m.
    revert m. induction l as [|a l IH]; intros [|m]; cbn [skipn]; try lia.
    specialize (IH m). unfold stack_heights at 2. cbn [flat_map]. rewrite app_length. fold (stack_heights ch l). lia.
  - rewrite skipn_skipn'. f_equal. lia.
Qed.

Lemma layers_below_lt : forall ch ds i j dc dj, (i < j)%nat ->
    nth_error ds i = Some dc -> nth_error ds j = Some dj ->
    layers_below ch ds j + Z.of_nat (length (decl_heights ch dj)) <= layers_below ch ds i.
Proof.
  intros ch ds i j dc dj H Hi Hj. rewrite <- (layers_below_step ch ds j dj Hj).
  pose proof (stack_heights_skipn_le ch ds (S i) j ltac:(lia)). unfold layers_below. lia.
Qed.

Lemma location_unique : forall ch ds i j dc dj l,
    nth_error ds i = Some dc -> nth_error ds j = Some dj ->
    layers_below ch ds i <= l < layers_below ch ds i + Z.of_nat (length (decl_heights ch dc)) ->
    layers_below ch ds j <= l < layers_below ch ds j + Z.of_nat (length (decl_heights ch dj)) -> i = j.
Proof.
  intros ch ds i j dc dj l Hi Hj Li Lj. destruct (Nat.lt_trichotomy i j) as [H|[H|H]]; [|assumption|].
  - pose proof (layers_below_lt ch ds i j dc dj H Hi Hj). lia.
  - pose proof (layers_below_lt ch ds j i dj dc H Hj Hi). lia.
Qed.

Lemma laid_nth : forall ch o bs es, laid ch o bs es -> forall i e,
    nth_error es i = Some e -> exists dc, nth_error bs i = Some dc /\ made ch dc e /\
      se_offset e = o + Z.of_nat (length (stack_heights ch (firstn i bs))) /\
      se_nlayers e = Z.of_nat (length (decl_heights ch dc)).
Proof.
  intros ch o bs es H. induction H as [|o dc bs e0 es M Ho Hn L IH]; intros i e E.
  - destruct i; discriminate.
  - destruct i as [|i].
    + cbn in E. injection E as <-. exists dc. cbn. repeat split; try assumption; lia.
    + cbn in E. apply IH in E. destruct E as (d' & E1 & E2 & E3 & E4). exists d'. cbn [nth_error firstn].
      repeat split; try assumption. unfold stack_heights. cbn [flat_map]. rewrite app_length.
      fold (stack_heights ch (firstn i bs)). lia.
Qed.

Lemma laid_length : forall ch o bs es, laid ch o bs es -> length es = length bs.
Proof. intros ch o bs es H. induction H; cbn; lia. Qed.

Lemma stack_layout : forall ch ds es hs,
    declared ch -> Z.of_nat (length (stack_heights ch ds)) < two32 ->
    parse_stack ch ds = Ok (Some (es, hs)) ->
    hs = rev (stack_heights ch ds) /\
    length es = length ds /\
    (forall i e, nth_error es i = Some e -> exists dc, nth_error ds i = Some dc /\
        se_offset e = layers_below ch ds i /\ se_nlayers e = Z.of_nat (length (decl_heights ch dc)) /\
        0 <= se_offset e /\ se_offset e + se_nlayers e <= Z.of_nat (length hs)) /\
    (forall l, 0 <= l < Z.of_nat (length hs) -> exists i e, nth_error es i = Some e /\
        se_offset e <= l < se_offset e + se_nlayers e /\
        forall j e', nth_error es j = Some e' -> se_offset e' <= l < se_offset e' + se_nlayers e' -> j = i) /\
    (forall i e d, nth_error es i = Some e -> se_kind e = SKDie d ->
        exists id above source below f, nth_error ds i = Some (DeclDie id above source below f) /\
          0 <= die_source_offset d < se_nlayers e /\
          nth_error hs (Z.to_nat (se_offset e + die_source_offset d)) = Some (ly_height source)).
Proof.
  intros ch ds es hs D L P. pose proof (declared_ok ch D) as Hc.
  destruct (parse_stack_spec ch ds es hs Hc L P) as (LD & HS & NE & _).
  pose proof (laid_length _ _ _ _ LD) as LL. rewrite !rev_length in LL.
  assert (HL : length hs = length (stack_heights ch ds)) by (rewrite HS, rev_length; reflexivity).
  assert (EL : forall i e, nth_error es i = Some e -> exists dc, nth_error ds i = Some dc /\ made ch dc e /\
        se_offset e = layers_below ch ds i /\ se_nlayers e = Z.of_nat (length (decl_heights ch dc))).
  { intros i e E. assert (Hi : (i < length es)%nat) by (apply nth_error_Some; rewrite E; discriminate).
    assert (E' : nth_error (rev es) (length es - 1 - i) = Some e).
    { rewrite nth_error_rev by lia. replace (length es - 1 - (length es - 1 - i))%nat with i by lia. exact E. }
    destruct (laid_nth _ _ _ _ LD _ _ E') as (dc & N & M & O & K). exists dc.
    rewrite nth_error_rev in N by lia. replace (length ds - 1 - (length es - 1 - i))%nat with i in N by lia.
    repeat split; try assumption. rewrite O. unfold layers_below.
    rewrite firstn_rev, stack_heights_rev_length. replace (length ds - (length es - 1 - i))%nat with (S i) by lia. lia. }
  assert (B : forall i dc, nth_error ds i = Some dc ->
      0 <= layers_below ch ds i /\ layers_below ch ds i + Z.of_nat (length (decl_heights ch dc)) <= Z.of_nat (length hs)).
  { intros i dc N. split; [unfold layers_below; lia|]. rewrite <- (layers_below_step ch ds i dc N).
    pose proof (stack_heights_skipn_le ch ds 0 i ltac:(lia)) as Q. cbn [skipn] in Q. lia. }
  split; [exact HS|]. split; [exact LL|]. split; [|split].
  - intros i e E. destruct (EL i e E) as (dc & N & M & O & K). exists dc. destruct (B i dc N).
    repeat split; try assumption; lia.
  - intros l Hl. rewrite HS in Hl. rewrite rev_length in Hl.
    assert (X : exists x, nth_error (flat_map (decl_heights ch) (rev ds)) (Z.to_nat l) = Some x).
    { destruct (nth_error (flat_map (decl_heights ch) (rev ds)) (Z.to_nat l)) eqn:Q; [eauto|].
      apply nth_error_None in Q. pose proof (stack_heights_rev_length ch ds). unfold stack_heights in *. lia. }
    destruct X as [x X]. apply (located ch) in X; [|reflexivity]. destruct X as (i & dc & k & N & Q & X).
    assert (Hk : (k < length (decl_heights ch dc))%nat) by (apply nth_error_Some; rewrite X; discriminate).
    destruct (nth_error es i) as [e|] eqn:E.
    2:{ apply nth_error_None in E. assert (i < length ds)%nat by (apply nth_error_Some; rewrite N; discriminate). lia. }
    destruct (EL i e E) as (dc' & N' & M & O & K). assert (dc' = dc) by congruence. subst dc'.
    exists i, e. split; [exact E|]. split; [lia|].
    intros j e' E' R. destruct (EL j e' E') as (dj & Nj & _ & Oj & Kj).
    apply (location_unique ch ds j i dj dc l); try assumption; lia.
  - intros i e d E Kd. destruct (EL i e E) as (dc & N & [o' M] & O & K).
    destruct dc as [id above source below f|id ly|id]; cbn [make_element_decl] in M.
    + exists id, above, source, below, f. split; [exact N|].
      assert (d = make_die above source below f) as -> by congruence. cbn [make_die die_source_offset].
      cbn [decl_heights] in K. rewrite app_length in K. cbn [length] in K. rewrite !map_length in K.
      split; [lia|].
      rewrite HS. replace (rev (stack_heights ch ds)) with (flat_map (fun dc => rev (decl_heights ch dc)) (rev ds)).
      * apply (located ch); [intro; rewrite rev_length; reflexivity|].
        exists i, (DeclDie id above source below f), (length below). split; [exact N|]. split.
        -- destruct (B i _ N). rewrite Z2Nat.id; lia.
        -- cbn [decl_heights]. rewrite rev_app_distr. cbn [rev]. rewrite <- app_assoc. cbn [app].
           rewrite nth_error_app2 by (rewrite rev_length, map_length; lia).
           rewrite rev_length, map_length, Nat.sub_diag. reflexivity.
      * unfold stack_heights. clear. induction ds as [|a ds IH]; [reflexivity|]. cbn [rev flat_map].
        rewrite flat_map_app, rev_app_distr, IH. cbn [flat_map]. rewrite app_nil_r. reflexivity.
    + congruence.
    + destruct ch; [|discriminate]. congruence.
Qed.
