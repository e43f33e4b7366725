From Coq Require Import ZArith List Bool QArith Lia.
From Verif Require Import Base Dims Floorplan Stack StackSpec StackProofs.
Import ListNotations.
Local Open Scope Z_scope.

Lemma types_of_length : forall ch bs, chan_ok ch -> length (types_of ch bs) = length (stack_heights ch bs).
Proof. intros. apply flat_map_lengths. intro. apply decl_types_length. assumption. Qed.
Lemma flps_of_length : forall ch bs, length (flps_of ch bs) = length (stack_heights ch bs).
Proof. intros. apply flat_map_lengths. intro. apply decl_flps_length. Qed.
Lemma layers_of_length : forall ch bs, length (layers_of ch bs) = length (stack_heights ch bs).
Proof. intros. apply flat_map_lengths. intro. rewrite rev_length. apply decl_layers_length. Qed.

(** [list_set] and [nth]. *)
Lemma list_set_nth : forall {A} (l : list A) n m x d,
    (n < length l)%nat -> nth m (list_set l n x) d = if Nat.eqb m n then x else nth m l d.
Proof.
  intros. destruct (Nat.eqb_spec m n); [subst; apply list_set_nth_same; assumption|].
  apply list_set_nth_other. congruence.
Qed.

Definition final_types (T : list layer_type) (top : option top_sink) (bot : option bottom_sink) : list layer_type :=
  let n := length T in
  let T1 := match top with None => T | Some _ => list_set T (n - 1) (retype_top top (nth (n - 1) T LT_NONE)) end in
  match bot with None => T1 | Some _ => list_set T1 0 (fst (retype_bottom bot (nth 0 T1 LT_NONE))) end.

Lemma final_types_length : forall T top bot, length (final_types T top bot) = length T.
Proof.
  intros. unfold final_types. destruct top, bot; cbn zeta; rewrite ?list_set_length; reflexivity.
Qed.

Section Grids.
  Variables (ch : option channel) (ds : list stack_decl) (es : list stkel) (hs : list Q).
  Hypothesis D : declared ch.
  Hypothesis L : Z.of_nat (length (stack_heights ch ds)) < two32.
  Hypothesis P : parse_stack ch ds = Ok (Some (es, hs)).

  Let T := types_of ch (rev ds).
  Let n := length hs.

  Lemma hs_length : length (stack_heights ch (rev ds)) = n.
  Proof.
    unfold n. destruct (parse_stack_spec ch ds es hs (declared_ok ch D) L P) as (_ & HS & _).
    rewrite stack_heights_rev_length, HS, rev_length. reflexivity.
  Qed.
  Lemma T_length : length T = n.
  Proof. unfold T. rewrite types_of_length by (apply declared_ok; assumption). apply hs_length. Qed.

  Lemma decl_types_solid : forall dc, is_chan_decl dc = false ->
      exists t r, decl_types ch dc = t :: r /\ (t = LT_SOLID \/ t = LT_SOURCE).
  Proof.
    intros [id a s b f|id l|id] H; cbn [decl_types]; try discriminate.
    - destruct b; cbn; eauto.
    - eauto.
  Qed.
  Lemma decl_types_solid_last : forall dc, is_chan_decl dc = false ->
      exists t r, decl_types ch dc = r ++ [t] /\ (t = LT_SOLID \/ t = LT_SOURCE).
  Proof.
    intros [id a s b f|id l|id] H; cbn [decl_types]; try discriminate.
    - destruct a as [|x a].
      + exists LT_SOURCE, (repeat LT_SOLID (length b)). split; [reflexivity|auto].
      + exists LT_SOLID, (repeat LT_SOLID (length b) ++ LT_SOURCE :: repeat LT_SOLID (length a)).
        split; [|auto]. rewrite <- app_assoc. cbn [length app]. f_equal. f_equal. change (repeat LT_SOLID (S (length a))) with (LT_SOLID :: repeat LT_SOLID (length a)). rewrite repeat_cons. reflexivity.
    - exists LT_SOLID, []. auto.
  Qed.

  Lemma bottom_solid : exists t r, T = t :: r /\ (t = LT_SOLID \/ t = LT_SOURCE).
  Proof.
    destruct (parse_stack_spec ch ds es hs (declared_ok ch D) L P) as (LD & _ & _ & _ & (e & He & Ce) & _).
    unfold T. destruct (rev es) as [|e0 rs]; [discriminate|]. cbn in He. injection He as ->.
    inversion LD; subst. match goal with M : made _ _ e |- _ => pose proof (made_chan _ _ _ M) as MC end. rewrite Ce in MC. symmetry in MC.
    destruct (decl_types_solid dc MC) as (t & r & E & Q).
    exists t. unfold types_of. cbn [flat_map]. rewrite E. cbn [app]. eauto.
  Qed.

  Lemma top_solid : exists t r, T = r ++ [t] /\ (t = LT_SOLID \/ t = LT_SOURCE).
  Proof.
    destruct (parse_stack_spec ch ds es hs (declared_ok ch D) L P) as (LD & _ & _ & (e & He & Ce) & _).
    destruct es as [|e0 es0]; [discriminate|]. cbn in He. assert (e0 = e) by congruence. subst e0.
    pose proof (laid_length _ _ _ _ LD) as LL. rewrite !rev_length in LL. cbn [length] in LL.
    destruct (laid_nth _ _ _ _ LD (length es0) e) as (dc & N & M & _).
    { cbn [rev]. rewrite nth_error_app2 by (rewrite rev_length; lia). rewrite rev_length, Nat.sub_diag. reflexivity. }
    rewrite nth_error_rev in N by lia. rewrite <- LL in N. replace (S (length es0) - 1 - length es0)%nat with 0%nat in N by lia.
    destruct ds as [|d0 ds0]; [discriminate|]. cbn in N. assert (d0 = dc) by congruence. subst d0.
    pose proof (made_chan _ _ _ M) as MC. rewrite Ce in MC. symmetry in MC.
    destruct (decl_types_solid_last dc MC) as (t & r & E & Q).
    exists t, (types_of ch (rev ds0) ++ r). unfold T, types_of. cbn [rev]. rewrite flat_map_app. cbn [flat_map].
    rewrite app_nil_r, E, app_assoc. split; [reflexivity|assumption].
  Qed.

  Lemma n_pos : (0 < n)%nat.
  Proof. rewrite <- T_length. destruct bottom_solid as (t & r & -> & _). cbn. lia. Qed.

  Lemma power_types : forall top bot,
      power_grid_types (Z.of_nat n) es top bot = Ok (final_types T top bot, flps_of ch (rev ds)).
  Proof.
    intros top bot. unfold power_grid_types.
    destruct (parse_stack_spec ch ds es hs (declared_ok ch D) L P) as (LD & _).
    pose proof (power_fill_loop ch (rev ds) (rev es) (declared_ok ch D) 0 [] [] n LD eq_refl eq_refl ltac:(rewrite hs_length; lia)) as F.
    cbn [app] in F. rewrite hs_length, Nat.sub_diag in F. cbn [repeat] in F. rewrite !app_nil_r in F.
    rewrite Nat2Z.id. rewrite F. cbn [bind]. fold T. pose proof T_length as TL. pose proof n_pos as NP.
    unfold final_types. rewrite TL. cbn zeta.
    set (T1 := match top with None => T | Some _ => list_set T (n - 1) (retype_top top (nth (n - 1) T LT_NONE)) end).
    assert (E1 : match top with
           | None => Ok T
           | Some _ => do t <- arr_get T (Z.of_nat n - 1) ; arr_set T (Z.of_nat n - 1) (retype_top top t)
           end = Ok T1).
    { unfold T1. destruct top; [|reflexivity]. rewrite (arr_get_ok T _ LT_NONE) by lia. cbn [bind].
      rewrite arr_set_ok by lia. replace (Z.to_nat (Z.of_nat n - 1)) with (n - 1)%nat by lia. reflexivity. }
    rewrite E1. cbn [bind].
    assert (TL1 : length T1 = n) by (unfold T1; destruct top; rewrite ?list_set_length; exact TL).
    destruct bot; [|reflexivity].
    rewrite (arr_get_ok T1 _ LT_NONE) by lia. cbn [bind]. rewrite arr_set_ok by lia. reflexivity.
  Qed.

  Definition same_layer (top : option top_sink) (bot : option bottom_sink) : bool :=
    match top, bot with Some _, Some _ => Nat.eqb n 1 | _, _ => false end.
  Definition pluggable (top : option top_sink) : bool :=
    match top with Some (SinkPluggable _ _ _) => true | _ => false end.

  Lemma thermal_types : forall top bot, exists g,
      thermal_grid_fill (thermal_grid_build (Z.of_nat n)) es top bot =
        Ok (if pluggable top && has_4rm ch (rev ds) || same_layer top bot then TDICE_FAILURE else TDICE_SUCCESS, g) /\
      (pluggable top && has_4rm ch (rev ds) = false -> tg_types g = final_types T top bot /\ tg_bottom g = bot) /\
      tg_layers g = layers_of ch (rev ds) /\ tg_top g = top /\
      (existsb is_chan_decl (rev ds) = true -> tg_channel g = ch).
  Proof.
    intros top bot. unfold thermal_grid_fill, thermal_grid_build. rewrite Nat2Z.id.
    destruct (parse_stack_spec ch ds es hs (declared_ok ch D) L P) as (LD & _).
    destruct (thermal_fill_loop ch (rev ds) (rev es) (declared_ok ch D) 0 [] [] false n None None None LD eq_refl eq_refl ltac:(rewrite hs_length; lia))
      as (c & F & C1 & C2).
    cbn [app] in F. rewrite hs_length, Nat.sub_diag in F. cbn [repeat] in F. rewrite !app_nil_r in F.
    rewrite F. clear F. cbn [bind tg_types tg_layers tg_channel tg_top tg_bottom orb]. fold T.
    pose proof T_length as TL. pose proof n_pos as NP. rewrite TL.
    destruct top_solid as (tt & tr & ET & QT). destruct bottom_solid as (bt & br & EB & QB).
    destruct top as [sk|].
    - assert (SKE : (match sk with SinkPluggable _ _ _ => has_4rm ch (rev ds) | SinkTop _ _ => false end) = pluggable (Some sk) && has_4rm ch (rev ds))
        by (destruct sk; reflexivity).
      rewrite SKE. destruct (pluggable (Some sk) && has_4rm ch (rev ds)) eqn:PL.
      + cbn [bind orb]. eexists. split; [reflexivity|]. cbn [tg_types tg_layers tg_channel tg_top tg_bottom].
        split; [discriminate|]. split; [reflexivity|]. split; [reflexivity|assumption].
      + rewrite (arr_get_ok T _ LT_NONE) by lia. cbn [bind]. rewrite arr_set_ok by lia. cbn [bind orb].
        replace (Z.to_nat (Z.of_nat n - 1)) with (n - 1)%nat by lia.
        destruct bot as [b|].
        * cbn [bind tg_types tg_layers tg_channel tg_top tg_bottom].
          rewrite (arr_get_ok _ _ LT_NONE) by (rewrite list_set_length; lia). cbn [bind].
          rewrite arr_set_ok by (rewrite list_set_length; lia). cbn [bind].
          eexists. split; [refine (f_equal2 (fun a b => Ok (a, b)) _ eq_refl)|].
          2:{ cbn [tg_types tg_layers tg_channel tg_top tg_bottom]. split.
              - intros _. split; [|reflexivity]. unfold final_types. rewrite TL. reflexivity.
              - split; [reflexivity|]. split; [reflexivity|assumption]. }
          unfold same_layer. rewrite list_set_nth by lia.
          change (Z.to_nat 0) with 0%nat.
          destruct (Nat.eqb_spec 0 (n - 1)) as [E|E].
          -- replace (Nat.eqb n 1) with true by (symmetry; apply Nat.eqb_eq; lia).
             replace (n - 1)%nat with 0%nat by lia. rewrite EB. cbn [nth].
             destruct QB as [-> | ->], sk; reflexivity.
          -- replace (Nat.eqb n 1) with false by (symmetry; apply Nat.eqb_neq; lia).
             rewrite EB. cbn [nth]. destruct QB as [-> | ->]; reflexivity.
        * eexists. split; [reflexivity|]. cbn [tg_types tg_layers tg_channel tg_top tg_bottom]. split.
          -- intros _. split; [|reflexivity]. unfold final_types. rewrite TL. reflexivity.
          -- split; [reflexivity|]. split; [reflexivity|assumption].
    - cbn [bind pluggable andb orb same_layer].
      destruct bot as [b|].
      * cbn [bind tg_types tg_layers tg_channel tg_top tg_bottom].
        rewrite (arr_get_ok _ _ LT_NONE) by lia. cbn [bind]. rewrite arr_set_ok by lia. cbn [bind].
        eexists. split; [refine (f_equal2 (fun a b => Ok (a, b)) _ eq_refl)|].
        2:{ cbn [tg_types tg_layers tg_channel tg_top tg_bottom]. split.
              - intros _. split; reflexivity.
              - split; [reflexivity|]. split; [reflexivity|assumption]. }
        change (Z.to_nat 0) with 0%nat. rewrite EB. cbn [nth]. destruct QB as [-> | ->]; reflexivity.
      * eexists. split; [reflexivity|]. cbn [tg_types tg_layers tg_channel tg_top tg_bottom]. split.
        -- intros _. split; reflexivity.
        -- split; [reflexivity|]. split; [reflexivity|assumption].
  Qed.

  (** *** Facts about the types before the heat sinks *)
  Lemma nth_flat : forall {A} (l : list A) k d x, (k < length l)%nat -> (nth k l d = x <-> nth_error l k = Some x).
  Proof.
    intros. rewrite (nth_error_nth' l d) by assumption. split; congruence.
  Qed.

  Lemma T_source : forall k, (k < n)%nat -> (nth k T LT_NONE = LT_SOURCE <-> exists f, source_at ch ds (Z.of_nat k) f).
  Proof.
    intros k Hk. rewrite nth_flat by (rewrite T_length; assumption). unfold T, types_of.
    rewrite (located ch) by (intro; apply decl_types_length, declared_ok; assumption).
    split.
    - intros (i & dc & j & N & E & X). destruct dc as [id a s b f|id l|id]; cbn [decl_types] in X.
      + exists f, i, id, a, s, b. split; [exact N|]. rewrite E. f_equal. f_equal.
        destruct (Nat.lt_ge_cases j (length b)) as [H|H].
        * rewrite nth_error_app1 in X by (rewrite repeat_length; assumption).
          apply nth_error_In in X. apply repeat_spec in X. discriminate.
        * rewrite nth_error_app2 in X by (rewrite repeat_length; assumption). rewrite repeat_length in X.
          destruct (j - length b)%nat as [|q] eqn:Q; [lia|]. cbn in X. apply nth_error_In in X. apply repeat_spec in X. discriminate.
      + destruct j as [|[|]]; discriminate.
      + destruct ch as [c|]; [|destruct j; discriminate]. destruct (ch_model c); cbn in X;
          do 5 (destruct j as [|j]; cbn in X; [discriminate|]); destruct j; discriminate.
    - intros (f & i & id & a & s & b & N & E). exists i, (DeclDie id a s b f), (length b). split; [exact N|]. split; [exact E|].
      cbn [decl_types]. rewrite nth_error_app2 by (rewrite repeat_length; lia). rewrite repeat_length, Nat.sub_diag. reflexivity.
  Qed.

  Lemma flps_source : forall k f, nth k (flps_of ch (rev ds)) None = Some f <-> source_at ch ds (Z.of_nat k) f.
  Proof.
    intros k f. assert (X : nth k (flps_of ch (rev ds)) None = Some f <-> nth_error (flps_of ch (rev ds)) k = Some (Some f)).
    { destruct (Nat.lt_ge_cases k (length (flps_of ch (rev ds)))) as [H|H].
      - apply nth_flat. assumption.
      - rewrite nth_overflow by assumption. rewrite (proj2 (nth_error_None _ _)) by assumption. split; discriminate. }
    rewrite X. clear X. unfold flps_of. rewrite (located ch) by (intro; apply decl_flps_length).
    split.
    - intros (i & dc & j & N & E & X). destruct dc as [id a s b f'|id l|id]; cbn [decl_flps] in X.
      + destruct (Nat.lt_ge_cases j (length b)) as [H|H].
        * rewrite nth_error_app1 in X by (rewrite repeat_length; assumption).
          apply nth_error_In in X. apply repeat_spec in X. discriminate.
        * rewrite nth_error_app2 in X by (rewrite repeat_length; assumption). rewrite repeat_length in X.
          destruct (j - length b)%nat as [|q] eqn:Q.
          -- cbn in X. assert (f' = f) by congruence. subst f'. exists i, id, a, s, b. split; [exact N|]. lia.
          -- cbn in X. apply nth_error_In in X. apply repeat_spec in X. discriminate.
      + destruct j as [|[|]]; discriminate.
      + apply nth_error_In in X. apply repeat_spec in X. discriminate.
    - intros (i & id & a & s & b & N & E). exists i, (DeclDie id a s b f), (length b). split; [exact N|]. split; [exact E|].
      cbn [decl_flps]. rewrite nth_error_app2 by (rewrite repeat_length; lia). rewrite repeat_length, Nat.sub_diag. reflexivity.
  Qed.

  Lemma T_channel : forall k, (k < n)%nat ->
      (nth k T LT_NONE = LT_SOLID \/ nth k T LT_NONE = LT_SOURCE) /\ ~ channel_at ch ds (Z.of_nat k) \/
      (exists c i id j, ch = Some c /\ nth_error ds i = Some (DeclChannel id) /\ (j < chan_layers ch)%nat /\
          Z.of_nat k = layers_below ch ds i + Z.of_nat j /\
          nth_error (expected_channel_types (ch_model c)) j = Some (nth k T LT_NONE)) /\ channel_at ch ds (Z.of_nat k).
  Proof.
    intros k Hk. assert (X : nth_error T k = Some (nth k T LT_NONE)) by (apply nth_error_nth'; rewrite T_length; assumption).
    set (xx := nth k T LT_NONE) in *. unfold T, types_of in X.
    rewrite (located ch) in X by (intro; apply decl_types_length, declared_ok; assumption).
    destruct X as (i & dc & j & N & E & X).
    assert (Hj : (j < length (decl_heights ch dc))%nat).
    { rewrite <- decl_types_length by (apply declared_ok; assumption). apply nth_error_Some. rewrite X. discriminate. }
    assert (NC : is_chan_decl dc = false -> ~ channel_at ch ds (Z.of_nat k)).
    { intros Hd (i' & id' & N' & R').
      assert (i = i').
      { apply (location_unique ch ds i i' dc (DeclChannel id') (Z.of_nat k)); try assumption; [lia|].
        cbn [decl_heights]. rewrite repeat_length. exact R'. }
      subst i'. assert (dc = DeclChannel id') by congruence. subst dc. discriminate. }
    destruct dc as [id a s b f|id l|id].
    - left. split; [|apply NC; reflexivity]. cbn [decl_types] in X. apply nth_error_In in X.
      apply in_app_or in X. destruct X as [X|[X|X]]; try (apply repeat_spec in X); auto.
    - left. split; [|apply NC; reflexivity]. cbn [decl_types] in X. apply nth_error_In in X. destruct X as [X|[]]. auto.
    - right. cbn [decl_types] in X. cbn [decl_heights] in Hj. rewrite repeat_length in Hj.
      assert (CA : channel_at ch ds (Z.of_nat k)) by (exists i, id; split; [exact N|lia]).
      split; [|exact CA].
      destruct ch as [c|]; [|destruct j; discriminate]. exists c, i, id, j.
      repeat split; try assumption; destruct (ch_model c); exact X.
  Qed.

  Lemma expected_not : forall m j t, nth_error (expected_channel_types m) j = Some t ->
      is_source t = false /\ is_passive_solid t = false /\ t <> LT_NONE /\ to_ambient t = false /\ to_spreader t = false /\ to_pcb t = false
      /\ (forall top, retype_top top t = t) /\ (forall bot, fst (retype_bottom bot t) = t).
  Proof.
    intros m j t H. destruct m; cbn in H;
      do 4 (destruct j as [|j]; cbn in H;
        [try discriminate; assert (E : t = t) by reflexivity; injection H as <-; repeat split; try reflexivity; try discriminate; intros xx; destruct xx as [xx|]; try destruct xx; reflexivity|]);
      destruct j; discriminate.
  Qed.

  (** Type of layer [k] after the sinks. *)
  Lemma final_nth : forall top bot k, (k < n)%nat -> same_layer top bot = false ->
      nth k (final_types T top bot) LT_NONE =
        (let t := nth k T LT_NONE in
         let t1 := if Nat.eqb k (n - 1) then retype_top top t else t in
         if Nat.eqb k 0 then fst (retype_bottom bot t1) else t1).
  Proof.
    intros top bot k Hk SL. unfold final_types. rewrite T_length. cbn zeta. pose proof T_length as TL.
    assert (E1 : forall m, (m < n)%nat -> nth m match top with None => T | Some _ => list_set T (n - 1) (retype_top top (nth (n - 1) T LT_NONE)) end LT_NONE
                 = if Nat.eqb m (n - 1) then retype_top top (nth m T LT_NONE) else nth m T LT_NONE).
    { intros m Hm. destruct top; [|destruct (Nat.eqb m (n - 1)); reflexivity].
      rewrite list_set_nth by lia. destruct (Nat.eqb_spec m (n - 1)); [subst m|]; reflexivity. }
    set (T1 := match top with None => T | Some _ => _ end) in *.
    assert (TL1 : length T1 = n) by (unfold T1; destruct top; rewrite ?list_set_length; exact TL).
    destruct bot as [b|].
    - rewrite list_set_nth by lia. destruct (Nat.eqb_spec k 0) as [->|E]; [rewrite E1 by lia; reflexivity|]. apply E1. assumption.
    - rewrite E1 by assumption. destruct (Nat.eqb k 0); reflexivity.
  Qed.

  Lemma layer_facts : forall top bot k, (k < n)%nat -> same_layer top bot = false ->
      let t := nth k (final_types T top bot) LT_NONE in
      t <> LT_NONE /\
      (is_source t = true <-> exists f, source_at ch ds (Z.of_nat k) f) /\
      (is_source t || is_passive_solid t = true <-> ~ channel_at ch ds (Z.of_nat k)) /\
      (to_ambient t = true <-> k = (n - 1)%nat /\ has_ambient top) /\
      (to_spreader t = true <-> k = (n - 1)%nat /\ has_spreader top) /\
      (to_pcb t = true <-> k = 0%nat /\ bot <> None).
  Proof.
    intros top bot k Hk SL t. unfold t. rewrite final_nth by assumption. cbn zeta.
    pose proof (T_source k Hk) as TS. pose proof n_pos as NP.
    destruct (T_channel k Hk) as [[B NC]|[(c & i & id & j & EC & N & Hj & E & X) CA]].
    - (* solid or source *)
      assert (NB : top <> None -> bot <> None -> ~ (k = (n - 1)%nat /\ k = 0%nat)).
      { intros A1 A2 [Q1 Q2]. unfold same_layer in SL. destruct top, bot; try congruence. apply Nat.eqb_neq in SL. lia. }
      assert (AM : forall tt : layer_type, (tt = LT_SOLID \/ tt = LT_SOURCE) ->
         let t1 := if Nat.eqb k (n - 1) then retype_top top tt else tt in
         let t2 := if Nat.eqb k 0 then fst (retype_bottom bot t1) else t1 in
         t2 <> LT_NONE /\ (is_source t2 = true <-> tt = LT_SOURCE) /\ is_source t2 || is_passive_solid t2 = true /\
         (to_ambient t2 = true <-> k = (n - 1)%nat /\ has_ambient top) /\
         (to_spreader t2 = true <-> k = (n - 1)%nat /\ has_spreader top) /\
         (to_pcb t2 = true <-> k = 0%nat /\ bot <> None)).
      { intros tt Htt. cbn zeta. unfold has_ambient, has_spreader.
        destruct (Nat.eqb_spec k (n - 1)) as [E1|E1], (Nat.eqb_spec k 0) as [E0|E0];
          destruct top as [[h a|s h m]|], bot as [b|];
          try (exfalso; apply NB; (discriminate || (split; assumption)); fail);
          destruct Htt as [-> | ->]; cbn;
          repeat match goal with |- _ /\ _ => split end; try discriminate; try reflexivity;
          try (split; [discriminate|]); try (split; [|intros; reflexivity]); intros;
          repeat match goal with H : _ /\ _ |- _ => destruct H | H : exists _, _ |- _ => destruct H end;
          try congruence; try (split; [assumption|]); try congruence; eauto 6. }
      specialize (AM _ B). cbn zeta in AM. destruct AM as (A1 & A2 & A3 & A4 & A5 & A6).
      split; [exact A1|]. split; [rewrite A2; exact TS|]. split; [|auto].
      split; [intros _; exact NC|intros _; exact A3].
    - (* channel *)
      destruct (expected_not _ _ _ X) as (X1 & X2 & X3 & X4 & X5 & X6 & X7 & X8).
      set (t0 := nth k T LT_NONE) in *.
      assert (R : (if Nat.eqb k 0 then fst (retype_bottom bot (if Nat.eqb k (n - 1) then retype_top top t0 else t0)) else (if Nat.eqb k (n - 1) then retype_top top t0 else t0)) = t0).
      { rewrite X7. destruct (Nat.eqb k (n - 1)), (Nat.eqb k 0); rewrite ?X8; reflexivity. }
      rewrite R, X1, X2, X4, X5, X6. cbn [orb].
      assert (NS : ~ exists f, source_at ch ds (Z.of_nat k) f).
      { intro Q. apply TS in Q. rewrite Q in X1. discriminate. }
      assert (TK : k <> (n - 1)%nat).
      { intro Q. destruct top_solid as (tt & tr & ET & QT). unfold t0 in *. rewrite ET in X1, X2.
        assert (length tr = k) by (pose proof T_length as TL; rewrite ET, app_length in TL; cbn [length] in TL; lia).
        rewrite app_nth2, H, Nat.sub_diag in X1, X2 by lia. cbn in X1, X2. destruct QT as [-> | ->]; discriminate. }
      assert (BK : k <> 0%nat).
      { intro Q. destruct bottom_solid as (tt & tr & ET & QT). unfold t0 in *. rewrite ET, Q in X1, X2. cbn in X1, X2.
        destruct QT as [-> | ->]; discriminate. }
      split; [exact X3|]. split; [split; [discriminate|intro Q; exfalso; apply NS; exact Q]|].
      split; [split; [discriminate|intro Q; exfalso; apply Q; exact CA]|].
      repeat split; try discriminate; intros [Q _]; congruence.
  Qed.

  Lemma uses_4rm_iff : has_4rm ch (rev ds) = true <-> uses_4rm ch ds.
  Proof.
    unfold has_4rm, uses_4rm. rewrite andb_true_iff, existsb_exists. split.
    - intros [(x & I & Hx) C]. split.
      + apply in_rev in I. apply In_nth_error in I. destruct I as [i I]. destruct x; try discriminate. eauto.
      + destruct ch as [c|]; [|discriminate]. exists c. split; [reflexivity|]. destruct (ch_model c); congruence.
    - intros [(i & id & N) (c & -> & M)]. split.
      + exists (DeclChannel id). split; [|reflexivity]. apply in_rev. rewrite rev_involutive. eapply nth_error_In; eassumption.
      + rewrite M. reflexivity.
  Qed.

  Lemma pluggable_iff : forall top, pluggable top = true <-> has_spreader top.
  Proof.
    intros [[h a|s h m]|]; cbn; unfold has_spreader; split; try discriminate; try (intros (? & ? & ? & Q); discriminate); eauto.
  Qed.

  Lemma layers_of_rev : layers_of ch (rev ds) = rev (flat_map (decl_layers ch) ds).
  Proof.
    unfold layers_of. clear. induction ds as [|a l IH]; [reflexivity|]. cbn [rev flat_map].
    rewrite flat_map_app, rev_app_distr, IH. cbn [flat_map]. rewrite app_nil_r. reflexivity.
  Qed.

  Lemma grids_agree : forall top bot, exists err g ts fs,
      thermal_grid_fill (thermal_grid_build (Z.of_nat n)) es top bot = Ok (err, g) /\
      power_grid_types (Z.of_nat n) es top bot = Ok (ts, fs) /\
      (err = TDICE_FAILURE <-> (has_spreader top /\ uses_4rm ch ds) \/ (n = 1%nat /\ top <> None /\ bot <> None)) /\
      (err = TDICE_SUCCESS ->
        tg_types g = ts /\ tg_layers g = rev (flat_map (decl_layers ch) ds) /\
        tg_top g = top /\ tg_bottom g = bot /\
        ((exists i id, nth_error ds i = Some (DeclChannel id)) -> tg_channel g = ch) /\
        length ts = n /\ length fs = n /\
        forall k, (k < n)%nat ->
          let t := nth k ts LT_NONE in
          t <> LT_NONE /\
          (is_source t = true <-> exists f, source_at ch ds (Z.of_nat k) f) /\
          (forall f, nth k fs None = Some f <-> source_at ch ds (Z.of_nat k) f) /\
          (is_source t || is_passive_solid t = true <-> ~ channel_at ch ds (Z.of_nat k)) /\
          (to_ambient t = true <-> k = (n - 1)%nat /\ has_ambient top) /\
          (to_spreader t = true <-> k = (n - 1)%nat /\ has_spreader top) /\
          (to_pcb t = true <-> k = 0%nat /\ bot <> None) /\
          (forall i id j c, nth_error ds i = Some (DeclChannel id) -> ch = Some c -> (j < chan_layers ch)%nat ->
             Z.of_nat k = layers_below ch ds i + Z.of_nat j -> nth_error (expected_channel_types (ch_model c)) j = Some t)).
  Proof.
    intros top bot. destruct (thermal_types top bot) as (g & E & G1 & G2 & G3 & G4).
    exists (if pluggable top && has_4rm ch (rev ds) || same_layer top bot then TDICE_FAILURE else TDICE_SUCCESS), g,
      (final_types T top bot), (flps_of ch (rev ds)).
    split; [exact E|]. split; [apply power_types|].
    assert (SLI : same_layer top bot = true <-> n = 1%nat /\ top <> None /\ bot <> None).
    { unfold same_layer. destruct top, bot; split; intro H; try discriminate; try (destruct H as (? & ? & ?); congruence).
      - apply Nat.eqb_eq in H. repeat split; try assumption; discriminate.
      - apply Nat.eqb_eq. tauto. }
    assert (PLI : pluggable top && has_4rm ch (rev ds) = true <-> has_spreader top /\ uses_4rm ch ds).
    { rewrite andb_true_iff, pluggable_iff, uses_4rm_iff. reflexivity. }
    split.
    { rewrite <- SLI, <- PLI. rewrite <- orb_true_iff. destruct (_ || _); split; congruence. }
    intro SU. assert (Q : pluggable top && has_4rm ch (rev ds) = false /\ same_layer top bot = false).
    { apply orb_false_iff. destruct (_ || _); [discriminate|reflexivity]. }
    destruct Q as [Q1 Q2]. destruct (G1 Q1) as [G5 G6].
    split; [exact G5|]. split; [rewrite G2; apply layers_of_rev|]. split; [exact G3|]. split; [exact G6|].
    split.
    { intros (i & id & N). apply G4. apply existsb_exists. exists (DeclChannel id). split; [|reflexivity].
      apply in_rev. rewrite rev_involutive. eapply nth_error_In; eassumption. }
    split; [rewrite final_types_length; apply T_length|]. split; [rewrite flps_of_length; apply hs_length|].
    intros k Hk t. destruct (layer_facts top bot k Hk Q2) as (F1 & F2 & F3 & F4 & F5 & F6).
    split; [exact F1|]. split; [exact F2|]. split; [apply flps_source|]. split; [exact F3|]. split; [exact F4|].
    split; [exact F5|]. split; [exact F6|].
    intros i id j c N EC Hj EK. unfold t. rewrite final_nth by assumption.
    destruct (T_channel k Hk) as [[_ NC]|[(c' & i' & id' & j' & EC' & N' & Hj' & E' & X) _]].
    - exfalso. apply NC. exists i, id. split; [exact N|]. lia.
    - assert (i = i').
      { apply (location_unique ch ds i i' (DeclChannel id) (DeclChannel id') (Z.of_nat k)); try assumption;
          cbn [decl_heights]; rewrite repeat_length; lia. }
      subst i'. assert (j = j') by lia. subst j'. assert (c' = c) by congruence. subst c'.
      destruct (expected_not _ _ _ X) as (_ & _ & _ & _ & _ & _ & X7 & X8).
      cbn zeta. rewrite X7. destruct (Nat.eqb k (n - 1)), (Nat.eqb k 0); rewrite ?X8; exact X.
  Qed.
End Grids.
