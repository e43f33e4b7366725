(** * Proofs about the semantic actions of stack description files (StkLoad.v) *)
From Coq Require Import ZArith List Bool QArith String Ascii Lia.
From Verif Require Import Base Flex FlpText Dims Floorplan Stack StackSpec PowerGrid Inspect Emulate Emulator SlotLength Build StackProofs StackAcceptProofs BuildProofs
  StkScan StkText LayText LayProofs StkLoad StkLoadSpec.
Import ListNotations.

Lemma try_iff : forall A B (m : outcome (option A)) (k : A -> outcome (option B)) r,
  bind m (fun o => match o with Some x => k x | None => Ok None end) = Ok (Some r) <-> exists x, m = Ok (Some x) /\ k x = Ok (Some r).
Proof.
  intros A B m k r. split.
  - intros H. destruct m as [[x|]| |]; cbn [bind] in H; try discriminate. eauto.
  - intros (x & -> & H). exact H.
Qed.
Lemma do_iff : forall A B (m : outcome A) (k : A -> outcome B) r, bind m k = Ok r <-> exists x, m = Ok x /\ k x = Ok r.
Proof.
  intros A B m k r. split.
  - intros H. destruct m as [x| |]; cbn [bind] in H; try discriminate. eauto.
  - intros (x & -> & H). exact H.
Qed.
Lemma some_iff : forall A (x r : A), Ok (Some x) = Ok (Some r) <-> r = x.
Proof. intros. split; congruence. Qed.
Lemma message_some : forall A size text (r : A), message size text (Ok None) = Ok (Some r) <-> False.
Proof. intros. unfold message. destruct (_ <? _)%Z; split; try discriminate; contradiction. Qed.
Lemma known_lookup : forall A say (l : list (list Z * A)) i a, known say l i = Ok (Some a) <-> lookup i l = Some a.
Proof. intros. unfold known. destruct (lookup i l); [split; congruence|]. rewrite message_some. split; [contradiction|discriminate]. Qed.
Lemma known_iff : forall A say (l : list (list Z * A)) i a, NoDup (map fst l) -> (known say l i = Ok (Some a) <-> In (i, a) l).
Proof. intros. rewrite known_lookup. split; [apply lookup_in|apply lookup_some; assumption]. Qed.
Lemma once_iff : forall A say (l : list (list Z * A)) i u, once say l i = Ok (Some u) <-> ~ In i (map fst l).
Proof.
  intros. unfold once. destruct (lookup i l) eqn:L.
  - rewrite message_some. split; [contradiction|]. intros N. apply N. apply lookup_in in L. apply (in_map fst) in L. exact L.
  - apply lookup_none in L. destruct u. split; [intros _; exact L|reflexivity].
Qed.
Lemma declare_iff : forall A size say (ms r : list (list Z * A)), declare size say ms [] = Ok (Some r) <-> r = ms /\ NoDup (map fst ms).
Proof.
  intros. split.
  - intros H. apply declare_inv in H; [|constructor]. destruct H as [-> H]. auto.
  - intros [-> N]. apply (declare_ok _ size say ms []). exact N.
Qed.

Section Load.
  Set Default Proof Using "Type".
  Variable porosity : Q -> Q -> Q.
  Variable pin_htc : bool -> Q -> Q.
  Variable to_double : Q -> double.
  Variable plugin_starts : list Z -> list Z -> bool.
  Variable fuel : nat.
  Variable fs : disk.

  Lemma optionally_iff : forall A B (f : A -> outcome (option B)) (R : A -> B -> Prop) a b, (forall x y, f x = Ok (Some y) <-> R x y) ->
    (optionally f a = Ok (Some b) <-> both R a b).
  Proof.
    intros A B f R a b H. unfold optionally, both. destruct a as [a|].
    - rewrite try_iff. destruct b as [b|]; split.
      + intros (x & E & F). injection F as ->. apply H. exact E.
      + intros X. exists b. split; [apply H; exact X|reflexivity].
      + intros (x & _ & F). discriminate.
      + intros [].
    - destruct b; split; try discriminate; auto. intros [].
  Qed.
  Lemma top_iff : forall ms t x, NoDup (map fst ms) -> (top_of ms t = Ok (Some x) <-> top_means ms t x).
  Proof.
    intros ms t x N. unfold top_of, top_means. destruct t as [h a|l w h m p args].
    - rewrite some_iff. destruct x as [h' a'|]; split; try discriminate; try contradiction; [intros E; injection E as -> ->; auto|intros [-> ->]; reflexivity].
    - rewrite try_iff. destruct x as [h' a'|l' w' h' m']; split.
      + intros (y & _ & F). discriminate.
      + intros [].
      + intros (y & K & F). apply known_iff in K; [|exact N]. injection F as <- <- <- <-. auto.
      + intros (-> & -> & -> & K). exists m'. split; [apply known_iff; assumption|reflexivity].
  Qed.
  Lemma wall_iff : forall w wall x, x = wall_of w wall <-> wall_means w wall x.
  Proof.
    intros [y|] wall x; unfold wall_of, wall_means; [|reflexivity]. destruct (Qeq_bool y 0) eqn:E.
    - apply Qeq_bool_iff in E. split; [intros ->; right; auto|]. intros [[N _]|[_ ->]]; [contradiction|reflexivity].
    - assert (N : ~ (y == 0)%Q) by (intros X; apply Qeq_bool_iff in X; congruence). split; [intros ->; left; auto|]. intros [[_ ->]|[X _]]; [reflexivity|contradiction].
  Qed.
  Lemma channel_iff : forall ms c x, NoDup (map fst ms) -> (channel_of porosity pin_htc ms c = Ok (Some x) <-> channel_means porosity pin_htc ms c (fst x) (snd x)).
  Proof.
    intros ms c [x walls] N. cbn [fst snd]. destruct c as [h channel wall first last m flow co vhc tin|h channel wall m flow co vhc tin|h dia pitch st m darcy vhc tin];
      cbn [channel_of]; rewrite try_iff.
    - split.
      + intros (m' & K & F). apply known_iff in K; [|exact N]. destruct (coef4_of co) as [[s t] b] eqn:C. injection F as <- <-. cbn [channel_means].
        do 3 (split; [auto|]). split; [destruct co; cbn in *; injection C as <- <- <-; auto|]. do 2 (split; [auto|]).
        exists (wall_of first wall), (wall_of last wall). split; [reflexivity|]. split; apply wall_iff; reflexivity.
      + destruct x as [h' m' flow' s t b vhc' tin'| |]; try contradiction. cbn [channel_means].
        intros (-> & K & -> & C & -> & -> & f & l & -> & F & L). exists m'. split; [apply known_iff; assumption|].
        assert (CE : coef4_of co = (s, t, b)) by (destruct co; cbn in *; destruct C as (-> & -> & ->); reflexivity). rewrite CE.
        apply wall_iff in F. apply wall_iff in L. subst. reflexivity.
    - split.
      + intros (m' & K & F). apply known_iff in K; [|exact N]. destruct (coef2_of co) as [t b] eqn:C. injection F as <- <-. cbn [channel_means].
        do 6 (split; [auto|]). split; [destruct co; cbn in *; injection C as <- <-; auto|]. auto.
      + destruct x as [|h' len wl m' flow' s t b vhc' tin'|]; try contradiction. cbn [channel_means].
        intros (-> & -> & -> & K & -> & -> & C & -> & -> & ->). exists m'. split; [apply known_iff; assumption|].
        assert (CE : coef2_of co = (t, b)) by (destruct co; cbn in *; destruct C as (-> & ->); reflexivity). rewrite CE. reflexivity.
    - split.
      + intros (m' & K & F). apply known_iff in K; [|exact N]. injection F as <- <-. cbn [channel_means]. repeat (split; [auto; fail|]). reflexivity.
      + destruct x as [| |st' h' por m' darcy' vhc' tin' htc]; try contradiction. cbn [channel_means].
        intros (-> & -> & -> & K & -> & -> & -> & -> & ->). exists m'. split; [apply known_iff; assumption|]. reflexivity.
  Qed.
  Lemma layer_iff : forall d ms y l, NoDup (map fst ms) -> (layer_of fuel fs d ms y = Ok (Some l) <-> layer_means fuel fs d ms y (y_id y, l)).
  Proof.
    intros d ms y l N. unfold layer_of, layer_means. cbn [fst snd]. rewrite try_iff. split.
    - intros (m & K & H). apply try_iff in H. destruct H as (lay & L & H). injection H as <-. apply known_iff in K; [|exact N]. cbn [ly_height ly_mat ly_layout].
      do 3 (split; [auto|]). destruct (y_layout y) as [p|]; [|injection L as <-; reflexivity].
      destruct (fs p) as [text|] eqn:F; [|discriminate]. exists text. auto.
    - intros (_ & H & K & L). exists (ly_mat l). split; [apply known_iff; assumption|]. apply try_iff. exists (ly_layout l). split.
      + destruct (y_layout y) as [p|]; [|rewrite L; reflexivity]. destruct L as (text & F & L). rewrite F. exact L.
      + rewrite <- H. destruct l; reflexivity.
  Qed.
  Lemma layers_iff : forall d ms, NoDup (map fst ms) -> forall ys acc r, NoDup (map fst acc) ->
    (layers_of fuel fs d ms acc ys = Ok (Some r) <-> exists new, r = acc ++ new /\ Forall2 (layer_means fuel fs d ms) ys new /\ NoDup (map fst r)).
  Proof.
    intros d ms N. induction ys as [|y ys IH]; intros acc r A; cbn [layers_of].
    - rewrite some_iff. split.
      + intros ->. exists []. rewrite app_nil_r. repeat split; [constructor|exact A].
      + intros (new & -> & F & _). inversion F. apply app_nil_r.
    - rewrite try_iff. split.
      + intros (l & L & H). apply try_iff in H. destruct H as (u & O & H). apply once_iff in O. apply layer_iff in L; [|exact N].
        apply IH in H; [|rewrite map_app; apply NoDup_app_snoc; assumption]. destruct H as (new & -> & F & ND). exists ((y_id y, l) :: new).
        rewrite <- app_assoc in *. split; [reflexivity|]. split; [constructor; assumption|exact ND].
      + intros (new & -> & F & ND). inversion F as [|? x ? new' L F']; subst. destruct x as [i l]. assert (i = y_id y) by apply L. subst i.
        exists l. split; [apply layer_iff; assumption|]. apply try_iff. exists tt. split.
        * apply once_iff. rewrite map_app in ND. cbn [map fst] in ND. apply NoDup_remove_2 in ND. intros X. apply ND. apply in_or_app. auto.
        * apply IH.
          { rewrite map_app in ND. cbn [map fst] in ND. apply NoDup_app_cons in ND. rewrite map_app. destruct ND as [X Y]. apply NoDup_app_snoc; assumption. }
          exists new'. rewrite <- app_assoc. split; [reflexivity|]. split; assumption.
  Qed.
  Lemma content_iff : forall ms ls c l, NoDup (map fst ms) -> NoDup (map fst ls) -> (content_of ms ls c = Ok (Some l) <-> content_means ms ls c l).
  Proof.
    intros ms ls c l N M. destruct c as [h m|i]; cbn [content_of content_means]; [|apply known_iff; exact M]. rewrite try_iff. split.
    - intros (x & K & H). injection H as <-. apply known_iff in K; [|exact N]. cbn. auto.
    - intros (H & K & L). exists (ly_mat l). split; [apply known_iff; assumption|]. destruct l. cbn in *. subst. reflexivity.
  Qed.
  Lemma contents_iff : forall ms ls, NoDup (map fst ms) -> NoDup (map fst ls) -> forall cs l, contents_of ms ls cs = Ok (Some l) <-> Forall2 (content_means ms ls) cs l.
  Proof.
    intros ms ls N M. induction cs as [|c cs IH]; intros l; cbn [contents_of].
    - rewrite some_iff. split; [intros ->; constructor|]. intros F. inversion F. reflexivity.
    - rewrite try_iff. split.
      + intros (x & C & H). apply try_iff in H. destruct H as (r & R & H). injection H as <-. constructor; [apply content_iff; assumption|apply IH; exact R].
      + intros F. inversion F as [|? x ? r C F']; subst. exists x. split; [apply content_iff; assumption|]. apply try_iff. exists r. split; [apply IH; exact F'|reflexivity].
  Qed.
  Lemma die_iff : forall ms ls x b, NoDup (map fst ms) -> NoDup (map fst ls) -> (die_of ms ls x = Ok (Some b) <-> die_means ms ls x (i_id x, b)).
  Proof.
    intros ms ls x [[a s] b] N M. unfold die_of, die_means. cbn [fst snd]. rewrite try_iff. split.
    - intros (a' & A & H). apply try_iff in H. destruct H as (s' & S & H). apply try_iff in H. destruct H as (b' & B & H). injection H as <- <- <-.
      apply contents_iff in A; [|exact N|exact M]. apply contents_iff in B; [|exact N|exact M]. apply content_iff in S; [|exact N|exact M]. auto.
    - intros (_ & A & S & B). exists a. split; [apply contents_iff; assumption|]. apply try_iff. exists s. split; [apply content_iff; assumption|].
      apply try_iff. exists b. split; [apply contents_iff; assumption|reflexivity].
  Qed.
  Lemma dies_iff : forall ms ls, NoDup (map fst ms) -> NoDup (map fst ls) -> forall xs acc r, NoDup (map fst acc) ->
    (dies_of ms ls acc xs = Ok (Some r) <-> exists new, r = acc ++ new /\ Forall2 (die_means ms ls) xs new /\ NoDup (map fst r)).
  Proof.
    intros ms ls N M. induction xs as [|y ys IH]; intros acc r A; cbn [dies_of].
    - rewrite some_iff. split.
      + intros ->. exists []. rewrite app_nil_r. repeat split; [constructor|exact A].
      + intros (new & -> & F & _). inversion F. apply app_nil_r.
    - rewrite try_iff. split.
      + intros (l & L & H). apply try_iff in H. destruct H as (u & O & H). apply once_iff in O. apply die_iff in L; [|exact N|exact M].
        apply IH in H; [|rewrite map_app; apply NoDup_app_snoc; assumption]. destruct H as (new & -> & F & ND). exists ((i_id y, l) :: new).
        rewrite <- app_assoc in *. split; [reflexivity|]. split; [constructor; assumption|exact ND].
      + intros (new & -> & F & ND). inversion F as [|? x ? new' L F']; subst. destruct x as [i l]. assert (i = i_id y) by apply L. subst i.
        exists l. split; [apply die_iff; assumption|]. apply try_iff. exists tt. split.
        * apply once_iff. rewrite map_app in ND. cbn [map fst] in ND. apply NoDup_remove_2 in ND. intros X. apply ND. apply in_or_app. auto.
        * apply IH.
          { rewrite map_app in ND. cbn [map fst] in ND. apply NoDup_app_cons in ND. rewrite map_app. destruct ND as [X Y]. apply NoDup_app_snoc; assumption. }
          exists new'. rewrite <- app_assoc. split; [reflexivity|]. split; assumption.
  Qed.
  Lemma discr_iff : forall default z x, discr_of default z = Ok x <-> discr_means default z x.
  Proof.
    intros default [[a b]|] [x y]; unfold discr_of, discr_means; cbn [fst snd]; [|split; congruence]. rewrite do_iff. split.
    - intros (u & A & H). apply do_iff in H. destruct H as (v & B & H). injection H as <- <-. auto.
    - intros [A B]. exists x. split; [exact A|]. apply do_iff. exists y. auto.
  Qed.
  Lemma element_iff : forall d def ls ds ch e x, NoDup (map fst ls) -> NoDup (map fst ds) ->
    (element_of fuel fs d def ls ds ch e = Ok (Some x) <-> fst x = id_of e /\ element_means fuel fs d def ls ds ch e (snd x)).
  Proof.
    intros d def ls ds ch e [i [dc z]] N M. cbn [fst snd]. destruct e as [id l zz|id|id n p zz]; cbn [element_of element_means id_of].
    - rewrite try_iff. split.
      + intros (y & K & H). apply do_iff in H. destruct H as (u & Z & H). injection H as <- <- <-. apply known_iff in K; [|exact N]. apply discr_iff in Z. auto.
      + intros [-> H]. destruct dc as [|id' l'|]; try contradiction. destruct z as [z|]; [|contradiction]. destruct H as (-> & K & Z).
        exists l'. split; [apply known_iff; assumption|]. apply do_iff. exists z. split; [apply discr_iff; exact Z|reflexivity].
    - destruct ch; split.
      + intros H. injection H as <- <- <-. auto.
      + intros [-> H]. destruct dc; try contradiction. destruct z; [contradiction|]. destruct H as [-> _]. reflexivity.
      + discriminate.
      + intros [_ H]. destruct dc; try contradiction. destruct z; [contradiction|]. destruct H; discriminate.
    - rewrite try_iff. split.
      + intros ([[a s] b] & K & H). destruct (fs p) as [text|] eqn:F; [|discriminate]. apply try_iff in H. destruct H as (f & FF & H).
        apply do_iff in H. destruct H as (u & Z & H). injection H as <- <- <-. apply known_iff in K; [|exact M]. apply discr_iff in Z.
        split; [reflexivity|]. split; [reflexivity|]. split; [exact K|]. split; [exact Z|]. exists text. auto.
      + intros [-> H]. destruct dc as [id' a s b f| |]; try contradiction. destruct z as [z|]; [|contradiction]. destruct H as (-> & K & Z & text & F & FF).
        exists (a, s, b). split; [apply known_iff; assumption|]. rewrite F. apply try_iff. exists f. split; [exact FF|]. apply do_iff. exists z.
        split; [apply discr_iff; exact Z|reflexivity].
  Qed.
  Definition elements_means d def ls ds ch (es : list (eld Q (list Z) (list Z))) (new : list (list Z * (stack_decl * option (Z * Z)))) : Prop :=
    Forall2 (fun e x => fst x = id_of e /\ element_means fuel fs d def ls ds ch e (snd x)) es new.
  Definition two_channels (l : list (list Z * (stack_decl * option (Z * Z)))) : bool :=
    match l with first :: r => channel_decl_ first && existsb channel_decl_ r | [] => false end.
  Lemma elements_iff : forall d def ls ds ch, NoDup (map fst ls) -> NoDup (map fst ds) -> forall es acc r, NoDup (map fst acc) -> two_channels acc = false ->
    (elements_of fuel fs d def ls ds ch acc es = Ok (Some r) <->
     exists new, r = acc ++ new /\ elements_means d def ls ds ch es new /\ NoDup (map fst r) /\ two_channels r = false).
  Proof.
    intros d def ls ds ch N M. induction es as [|e es IH]; intros acc r A T; cbn [elements_of].
    - rewrite some_iff. split.
      + intros ->. exists []. rewrite app_nil_r. repeat split; [constructor|exact A|exact T].
      + intros (new & -> & F & _). inversion F. apply app_nil_r.
    - assert (TA : forall x new', two_channels (acc ++ x :: new') = false -> match acc with first :: _ => channel_decl_ first && channel_decl_ x | [] => false end = false).
      { intros x new' H. destruct acc as [|first acc']; [reflexivity|]. cbn [app two_channels] in H. rewrite existsb_app in H. cbn [existsb] in H.
        destruct (channel_decl_ first); [|reflexivity]. cbn [andb] in *. destruct (existsb channel_decl_ acc'); [discriminate|]. destruct (channel_decl_ x); [discriminate|reflexivity]. }
      assert (TS : forall x, match acc with first :: _ => channel_decl_ first && channel_decl_ x | [] => false end = false -> two_channels (acc ++ [x]) = false).
      { intros x H. destruct acc as [|first acc']; [cbn; apply andb_false_r|]. cbn [app two_channels] in *. rewrite existsb_app. cbn [existsb]. rewrite orb_false_r.
        destruct (channel_decl_ first); [|reflexivity]. cbn [andb] in *. rewrite T, H. reflexivity. }
      rewrite try_iff. split.
      + intros (x & L & H). apply try_iff in H. destruct H as (u & O & H). apply once_iff in O. apply element_iff in L; [|exact N|exact M].
        destruct (match acc with first :: _ => channel_decl_ first && channel_decl_ x | [] => false end) eqn:C; [discriminate|].
        apply IH in H; [|rewrite map_app; apply NoDup_app_snoc; assumption|apply TS; exact C]. destruct H as (new & -> & F & ND & TT). exists (x :: new).
        rewrite <- app_assoc in *. split; [reflexivity|]. split; [constructor; assumption|]. split; [exact ND|exact TT].
      + intros (new & -> & F & ND & TT). inversion F as [|? x ? new' L F']; subst.
        exists x. split; [apply element_iff; assumption|]. apply try_iff. exists tt. split.
        * apply once_iff. rewrite map_app in ND. cbn [map fst] in ND. apply NoDup_remove_2 in ND. intros X. apply ND. apply in_or_app. auto.
        * rewrite (TA x new' TT). apply IH.
          { rewrite map_app in ND. cbn [map fst] in ND. apply NoDup_app_cons in ND. rewrite map_app. destruct ND as [X Y]. apply NoDup_app_snoc; assumption. }
          { apply TS. apply (TA x new' TT). }
          exists new'. rewrite <- app_assoc. split; [reflexivity|]. split; [assumption|]. split; assumption.
  Qed.

  (** The solver *)
  Lemma solver_iff : forall top v a c, solver_of to_double plugin_starts fuel top v = Ok (Some (a, c)) <->
    solver_means to_double plugin_starts fuel top v a /\ cores_mean (v_cores v) c.
  Proof.
    intros top [va vi vc] a c. unfold solver_of, solver_means. cbn [v_analysis v_initial v_cores].
    assert (CO : forall r, cores_of vc = r -> (r = Some c <-> cores_mean vc c)).
    { intros r <-. unfold cores_of, cores_mean. destruct vc as [x|]; [|split; congruence]. destruct (Qle_bool x 0) eqn:E.
      - apply Qle_bool_iff in E. split; [discriminate|]. intros [L _]. exfalso. apply (Qlt_not_le _ _ L E).
      - assert (L : (0 < x)%Q) by (apply Qnot_le_lt; intros X; apply Qle_bool_iff in X; congruence). split; [intros H; injection H as ->; auto|]. intros [_ ->]. reflexivity. }
    specialize (CO _ eq_refl). destruct (cores_of vc) as [c'|].
    2:{ split; [discriminate|]. intros [_ X]. apply CO in X. discriminate. }
    destruct va as [|step slot].
    - rewrite some_iff. split.
      + intros E. injection E as -> ->. cbn. split; [auto 6|apply CO; reflexivity].
      + intros [(H1 & H2 & H3 & H4 & H5) X]. apply CO in X. injection X as ->. destruct a. cbn in *. congruence.
    - rewrite try_iff. split.
      + intros (n & P & H).
        destruct (match top with Some (Pluggable _ _ _ _ p args) => plugin_starts p (match args with Some x => x | None => [] end) | _ => true end) eqn:B; [|discriminate].
        injection H as <- <-. cbn. split; [|apply CO; reflexivity]. do 5 (split; [auto|]). intros l w h m p args ->. exact B.
      + intros [(H1 & H2 & H3 & H4 & H5 & H6) X]. apply CO in X. injection X as ->. exists (an_slot_length a). split; [exact H5|].
        assert (B : match top with Some (Pluggable _ _ _ _ p args) => plugin_starts p (match args with Some x => x | None => [] end) | _ => true end = true).
        { destruct top as [[|l w h m p args]|]; try reflexivity. exact (H6 _ _ _ _ _ _ eq_refl). }
        rewrite B. destruct a. cbn in *. subst. reflexivity.
  Qed.

  (** The outputs *)
  Lemma element_named : forall es id e, NoDup (map se_id es) -> (known unknown_element (named_elements es) id = Ok (Some e) <-> names_element es id e).
  Proof.
    intros es id e N. rewrite known_iff.
    - unfold named_elements, names_element. rewrite in_map_iff. split; [intros (x & E & I); injection E as <- <-; auto|intros [I <-]; eauto].
    - unfold named_elements. rewrite map_map. exact N.
  Qed.
  Lemma flpel_named : forall f n el, known unknown_flpel (named_flpels f) n = Ok (Some el) <->
    exists before after, f_elements f = before ++ el :: after /\ fe_id el = n /\ ~ In n (map fe_id before).
  Proof.
    intros f n el. rewrite known_lookup. unfold named_flpels. induction (f_elements f) as [|x l IH]; cbn [map lookup].
    - split; [discriminate|]. intros (b & a & E & _). destruct b; discriminate.
    - destruct (same_string (fe_id x) n) eqn:S.
      + apply same_string_eq in S. split.
        * intros H. injection H as <-. exists [], l. split; [reflexivity|]. split; [exact S|intros []].
        * intros (b & a & E & I & NI). destruct b as [|y b]; [cbn in E; congruence|]. exfalso. cbn [app] in E. injection E as <- _. apply NI. left. exact S.
      + assert (NE : fe_id x <> n) by (intros X; apply same_string_eq in X; congruence). rewrite IH. split.
        * intros (b & a & E & I & NI). exists (x :: b), a. split; [cbn; congruence|]. split; [exact I|]. cbn [map]. intros [X|X]; auto.
        * intros (b & a & E & I & NI). destruct b as [|y b]; cbn [app] in E; injection E as <- E; [contradiction|]. exists b, a. split; [exact E|]. split; [exact I|].
          intros X. apply NI. right. exact X.
  Qed.
  Lemma point_iff : forall d es p i, NoDup (map se_id es) -> (point_of d es p = Ok (Some i) <-> point_means d es p i).
  Proof.
    intros d es p i N. destruct p as [id x y f w|id f q w|id n f q w|id f w|f w|id f w|id f q w]; cbn [point_of point_means].
    - rewrite try_iff. split.
      + intros (e & E & H). apply element_named in E; [|exact N]. destruct (align_tcell d x y) as [r c]. injection H as <-. exists e. auto.
      + intros (e & E & ->). exists e. split; [apply element_named; assumption|]. destruct (align_tcell d x y) as [r c]. reflexivity.
    - rewrite try_iff. split.
      + intros (e & E & H). apply element_named in E; [|exact N]. destruct (se_kind e) as [x| |] eqn:K; try (apply message_some in H; contradiction). injection H as <-. exists e, x. auto.
      + intros (e & x & E & K & ->). exists e. split; [apply element_named; assumption|]. rewrite K. reflexivity.
    - rewrite try_iff. split.
      + intros (e & E & H). apply element_named in E; [|exact N]. destruct (se_kind e) as [x| |] eqn:K; try (apply message_some in H; contradiction).
        apply try_iff in H. destruct H as (el & F & H). injection H as <-. apply flpel_named in F. destruct F as (b & a & F1 & F2 & F3). exists e, x, b, el, a. auto 7.
      + intros (e & x & b & el & a & E & K & F1 & F2 & F3 & ->). exists e. split; [apply element_named; assumption|]. rewrite K. apply try_iff. exists el.
        split; [apply flpel_named; eauto|reflexivity].
    - rewrite try_iff. split.
      + intros (e & E & H). apply element_named in E; [|exact N]. injection H as <-. exists e. auto.
      + intros (e & E & ->). exists e. split; [apply element_named; assumption|reflexivity].
    - rewrite some_iff. reflexivity.
    - rewrite try_iff. split.
      + intros (e & E & H). apply element_named in E; [|exact N]. injection H as <-. exists e. auto.
      + intros (e & E & ->). exists e. split; [apply element_named; assumption|reflexivity].
    - rewrite try_iff. split.
      + intros (e & E & H). apply element_named in E; [|exact N]. destruct (se_kind e) as [| |x] eqn:K; try (apply message_some in H; contradiction). injection H as <-. exists e, x. auto.
      + intros (e & x & E & K & ->). exists e. split; [apply element_named; assumption|]. rewrite K. reflexivity.
  Qed.
  Lemma points_filed : forall new acc, fold_left add_inspection_point new acc =
    mkOutput (o_final acc ++ at_instant OI_FINAL new) (o_slot acc ++ at_instant OI_SLOT new) (o_step acc ++ at_instant OI_STEP new).
  Proof.
    induction new as [|p new IH]; intros acc; cbn [fold_left].
    - cbn. rewrite !app_nil_r. destruct acc. reflexivity.
    - rewrite IH. unfold add_inspection_point, at_instant. cbn [filter]. destruct (ip_instant p); cbn [o_final o_slot o_step]; rewrite <- ?app_assoc; reflexivity.
  Qed.
  Lemma points_iff : forall d es, NoDup (map se_id es) -> forall ps acc r, points_of d es acc ps = Ok (Some r) <->
    exists new, Forall2 (point_means d es) ps new /\ r = fold_left add_inspection_point new acc.
  Proof.
    intros d es N. induction ps as [|p ps IH]; intros acc r; cbn [points_of].
    - rewrite some_iff. split; [intros ->; exists []; split; [constructor|reflexivity]|]. intros (new & F & ->). inversion F. reflexivity.
    - rewrite try_iff. split.
      + intros (i & P & H). apply point_iff in P; [|exact N]. apply IH in H. destruct H as (new & F & ->). exists (i :: new). split; [constructor; assumption|reflexivity].
      + intros (new & F & ->). inversion F as [|? i ? new' P F']; subst. exists i. split; [apply point_iff; assumption|]. apply IH. exists new'. split; [assumption|reflexivity].
  Qed.

  (** The elements of the loaded stack have the names of the file; the first is
      not a channel. *)
  Lemma set_offsets_ids : forall l z, map se_id (fst (set_offsets l z)) = map se_id l.
  Proof.
    induction l as [|a l IH]; intro z; cbn [set_offsets]; [reflexivity|].
    destruct (set_offsets l _) as [r' n'] eqn:E. cbn [fst map se_id]. f_equal. rewrite <- (IH (u32 (z + se_nlayers a))), E. reflexivity.
  Qed.
  Lemma loaded_ids : forall x lo, load x = Ok (Some lo) -> map se_id (lo_elements lo) = map decl_id (x_stack x) /\ exists dc ds, x_stack x = dc :: ds /\ is_chan_decl dc = false.
  Proof.
    intros x lo H. destruct (load_inv x lo H) as (hs & d0 & ncols & F). pose proof (lf_stack _ _ _ _ _ F) as P. clear F. unfold parse_stack in P.
    destruct (add_elements (lo_channel lo) [] (x_stack x)) as [es|] eqn:A; [|discriminate]. apply add_elements_spec in A. destruct A as (es' & E & A). cbn [app] in E. subst es'.
    destruct es as [|t r]; [discriminate|]. destruct (negb _); [discriminate|]. destruct (is_channel (last _ _)); [discriminate|]. destruct (is_channel t) eqn:C; [discriminate|].
    destruct (set_offsets (rev (t :: r)) 0) as [bu n] eqn:S. destruct (_ =? _)%Z; [|discriminate]. injection P as P _. split.
    - rewrite <- P, map_rev. assert (B : map se_id bu = map se_id (rev (t :: r))) by (rewrite <- (set_offsets_ids (rev (t :: r)) 0%Z), S; reflexivity).
      rewrite B, map_rev, rev_involutive. clear - A. induction A; [reflexivity|]. cbn [map]. rewrite IHA. f_equal. eapply made_id. eassumption.
    - inversion A as [|dc ? ds ? M F]; subst. exists dc, ds. split; [reflexivity|]. rewrite <- (made_chan _ _ _ M). exact C.
  Qed.
End Load.
