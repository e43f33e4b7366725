From Coq Require Import ZArith List Bool QArith String Ascii Lia.
From Verif Require Import Base Flex FlexProofs Vtk FlpText FlpTextSpec FlpTextProofs FlpLexProofs.
Import ListNotations.
Local Open Scope string_scope.
Local Open Scope list_scope.

(** ** A spelled declaration is read *)
Definition follow (r : list tok) : Prop := match r with [] => True | IDENTIFIER _ :: _ => True | _ => False end.

Definition rect_toks (q : Q * Q * Q * Q) : list tok :=
  let '(x, y, l, w) := q in
  [RECTANGLE; LPAR; DVALUE x; COMMA; DVALUE y; COMMA; DVALUE l; COMMA; DVALUE w; RPAR; SEMI].
Definition pair_toks (x y : Q) : list tok := [DVALUE x; COMMA; DVALUE y; SEMI].
Definition value_toks (l : list Q) : list tok := flat_map (fun v => [COMMA; DVALUE v]) l.
Definition power_toks (o : option (list Q)) : list tok :=
  match o with Some (v :: vs) => POWER :: VALUES :: DVALUE v :: value_toks vs ++ [SEMI] | _ => [] end.
Definition material_toks (o : option (list Z)) : list tok := match o with Some m => [MATERIAL; IDENTIFIER m; SEMI] | None => [] end.
Definition discr_toks (o : option (Q * Q)) : list tok := match o with Some (x, y) => DISCRETIZATION :: pair_toks x y | None => [] end.

Lemma rectangle_toks : forall r, map lexeme_tok (rectangle_lexemes r) = rect_toks (rectangle_value r).
Proof. reflexivity. Qed.
Lemma p_rects_ok : forall l r, (forall t, r <> RECTANGLE :: t) -> p_rects (flat_map rect_toks l ++ r) = (l, r).
Proof.
  induction l as [|[[[x y] a] b] l IH]; intros r H.
  - cbn [flat_map app]. destruct r as [|t r]; [reflexivity|]. destruct t; try reflexivity. exfalso. apply (H r). reflexivity.
  - cbn [flat_map rect_toks app p_rects]. rewrite IH by assumption. reflexivity.
Qed.
Lemma p_values_ok : forall l r, (forall t, r <> COMMA :: t) -> p_values (value_toks l ++ r) = (l, r).
Proof.
  induction l as [|v l IH]; intros r H.
  - cbn [value_toks flat_map app]. destruct r as [|t r]; [reflexivity|]. destruct t; try reflexivity. exfalso. apply (H r). reflexivity.
  - cbn [value_toks flat_map app p_values]. change (flat_map (fun v => [COMMA; DVALUE v]) l) with (value_toks l). rewrite IH by assumption. reflexivity.
Qed.
Lemma p_powers_ok : forall o r, o <> Some [] -> follow r -> p_powers (power_toks o ++ r) = Some (o, r).
Proof.
  intros [[|v vs]|] r N F.
  - congruence.
  - cbn [power_toks app p_powers]. rewrite <- app_assoc. rewrite p_values_ok by (intros t; discriminate). reflexivity.
  - cbn [power_toks app]. destruct r as [|[] r]; try contradiction; reflexivity.
Qed.
Lemma p_material_ok : forall o r, (forall t, r <> MATERIAL :: t) -> p_material (material_toks o ++ r) = (o, r).
Proof.
  intros [m|] r H; [reflexivity|]. cbn [material_toks app]. destruct r as [|[] r]; try reflexivity. exfalso. apply (H r). reflexivity.
Qed.
Lemma p_discr_ok : forall o r, (forall t, r <> DISCRETIZATION :: t) -> p_discr (discr_toks o ++ r) = (o, r).
Proof.
  intros [[x y]|] r H; [reflexivity|]. cbn [discr_toks app]. destruct r as [|[] r]; try reflexivity. exfalso. apply (H r). reflexivity.
Qed.

Definition powers_value (o : option (numeral * list numeral)) : option (list Q) :=
  match o with Some (v, vs) => Some (map numeral_value (v :: vs)) | None => None end.
Lemma powers_toks : forall o,
  map lexeme_tok (match o with
     | Some (v, vs) => word "power" :: word "values" :: LNum v :: flat_map (fun v => [mark ","; LNum v]) vs ++ [mark ";"]
     | None => [] end) = power_toks (powers_value o).
Proof.
  intros [[v vs]|]; [|reflexivity]. cbn [powers_value map power_toks]. repeat (apply f_equal2; [reflexivity|]).
  rewrite map_app. f_equal. induction vs as [|a vs IH]; [reflexivity|]. cbn [flat_map map app value_toks]. unfold value_toks in IH. rewrite IH. reflexivity.
Qed.
Lemma p_element_ok : forall e r, element_ok e -> follow r ->
  p_element (map lexeme_tok (element_lexemes e) ++ r) = Some (element_value e, r).
Proof.
  intros [name sh pw] r (H1 & H2 & H3) F. unfold element_lexemes. cbn [el_name el_shape el_powers] in *.
  rewrite !map_app, powers_toks. cbn [map app]. change (lexeme_tok (LWord name)) with (word_tok name). rewrite word_tok_name by apply H1.
  change (lexeme_tok (mark ":")) with COLON. cbn [p_element]. rewrite <- app_assoc.
  set (R := power_toks (powers_value pw) ++ r).
  assert (HR : forall t T, R = T :: t -> T = POWER \/ exists i, T = IDENTIFIER i).
  { intros t T E. unfold R in E. destruct pw as [[v vs]|].
    - injection E as <- _. auto.
    - cbn [powers_value power_toks app] in E. subst r. destruct T; try contradiction. eauto. }
  assert (NR : forall T, T <> POWER -> (forall i, T <> IDENTIFIER i) -> forall t, R <> T :: t).
  { intros T A B t E. destruct (HR _ _ E) as [|[i ?]]; [contradiction|]. exact (B i H). }
  assert (B : p_body (map lexeme_tok (shape_lexemes sh) ++ R) =
    Some (match sh with Single r _ _ => [rectangle_value r] | Several r rs => map rectangle_value (r :: rs) end,
          match sh with Single _ (Some m) _ => Some (name_codes m) | _ => None end,
          match sh with Single _ _ (Some (x, y)) => Some (numeral_value x, numeral_value y) | _ => None end, R)).
  { destruct sh as [rc m xy|rc rcs].
    - assert (M : map lexeme_tok (match m with Some m => [word "material"; LWord m; mark ";"] | None => [] end) = material_toks (option_map name_codes m)).
      { destruct m as [m|]; [|reflexivity]. destruct H2 as (_ & Hm & _). cbn [map lexeme_tok option_map material_toks].
        rewrite (word_tok_name m) by apply Hm. reflexivity. }
      assert (X : map lexeme_tok (match xy with Some (x, y) => word "discretization" :: pair_lexemes x y | None => [] end)
                  = discr_toks (option_map (fun p => (numeral_value (fst p), numeral_value (snd p))) xy)) by (destruct xy as [[x y]|]; reflexivity).
      cbn [shape_lexemes map app].
      replace (map lexeme_tok (pair_lexemes (re_x rc) (re_y rc) ++ word "dimension" :: pair_lexemes (re_length rc) (re_width rc)
         ++ match m with Some m => [word "material"; LWord m; mark ";"] | None => [] end
         ++ match xy with Some (x, y) => word "discretization" :: pair_lexemes x y | None => [] end))
        with (pair_toks (numeral_value (re_x rc)) (numeral_value (re_y rc)) ++ DIMENSION :: pair_toks (numeral_value (re_length rc)) (numeral_value (re_width rc))
         ++ material_toks (option_map name_codes m) ++ discr_toks (option_map (fun p => (numeral_value (fst p), numeral_value (snd p))) xy))
        by (rewrite <- M, <- X, !map_app; cbn [map]; rewrite !map_app; reflexivity).
      change (lexeme_tok (word "position")) with POSITION.
      unfold pair_toks. cbn [app p_body]. rewrite <- !app_assoc.
      rewrite p_material_ok.
      + rewrite p_discr_ok by (apply NR; discriminate). destruct m, xy as [[? ?]|]; reflexivity.
      + intros t E. destruct xy as [[x y]|]; [discriminate E|]. cbn [option_map discr_toks app] in E. revert E. apply NR; discriminate.
    - cbn [shape_lexemes].
      assert (M : map lexeme_tok (flat_map rectangle_lexemes (rc :: rcs)) = flat_map rect_toks (map rectangle_value (rc :: rcs))).
      { generalize (rc :: rcs). induction l as [|a l IH]; [reflexivity|]. cbn [flat_map map]. rewrite map_app, IH. reflexivity. }
      rewrite M. unfold p_body. rewrite p_rects_ok by (apply NR; discriminate). reflexivity. }
  change (str ":") with [":"%char]. rewrite B.
  unfold R. rewrite p_powers_ok; [|destruct pw as [[? ?]|]; discriminate|assumption].
  reflexivity.
Qed.

Lemma element_first : forall e, exists w r, element_lexemes e = LWord w :: r /\ w = el_name e.
Proof. intros e. unfold element_lexemes. cbn [app]. eauto. Qed.
Lemma p_elements_ok : forall es fuel, es <> [] -> Forall element_ok es ->
  (List.length (map lexeme_tok (flat_map element_lexemes es)) < fuel)%nat ->
  p_elements fuel (map lexeme_tok (flat_map element_lexemes es)) = Some (map element_value es).
Proof.
  induction es as [|e es IH]; intros fuel N K L; [congruence|]. inversion K as [|? ? K1 K2]; subst.
  destruct fuel as [|fuel]; [lia|]. cbn [flat_map p_elements]. rewrite map_app.
  rewrite p_element_ok; [|assumption|].
  - destruct es as [|e' es].
    + reflexivity.
    + destruct (element_first e') as (w & r & E & W).
      assert (P : p_elements fuel (map lexeme_tok (flat_map element_lexemes (e' :: es))) = Some (map element_value (e' :: es))).
      { apply IH; [discriminate|assumption|].
        change (flat_map element_lexemes (e :: e' :: es)) with (element_lexemes e ++ flat_map element_lexemes (e' :: es)) in L.
        rewrite map_app, app_length in L.
        destruct (element_first e) as (w2 & r2 & E2 & _). rewrite E2 in L. cbn [map List.length] in L. lia. }
      clear IH L. destruct (map lexeme_tok (flat_map element_lexemes (e' :: es))) as [|t ts] eqn:T.
      { cbn [flat_map] in T. rewrite E in T. discriminate. }
      rewrite P. reflexivity.
  - destruct es as [|e' es]; [exact I|]. destruct (element_first e') as (w & r & E & W). inversion K2 as [|? ? K3 _]; subst.
    cbn [flat_map]. rewrite E. cbn [app map lexeme_tok]. rewrite word_tok_name by (apply K3). exact I.
Qed.

(** ** What is read is spelled *)
Ltac step H := match type of H with context [match ?l with _ => _ end] => is_var l; destruct l end.
Lemma p_rects_inv : forall n ts rs r, (List.length ts <= n)%nat -> p_rects ts = (rs, r) -> ts = flat_map rect_toks rs ++ r.
Proof.
  induction n as [|n IH]; intros ts rs r L H.
  - destruct ts; [|cbn in L; lia]. cbn in H. injection H as <- <-. reflexivity.
  - assert (D : (exists x y l w t, ts = rect_toks (x, y, l, w) ++ t) \/ p_rects ts = ([], ts)).
    { clear. do 11 (destruct ts as [|[] ts]; try (right; reflexivity)). left. repeat eexists. }
    destruct D as [(x & y & l & w & t & ->)|D].
    + cbn [rect_toks app p_rects] in H. destruct (p_rects t) as [rs' r'] eqn:E. injection H as <- <-.
      rewrite (IH t rs' r') by (try assumption; cbn in L; lia). cbn [flat_map]. rewrite <- app_assoc. reflexivity.
    + rewrite D in H. injection H as <- <-. reflexivity.
Qed.
Lemma p_values_inv : forall n ts qs r, (List.length ts <= n)%nat -> p_values ts = (qs, r) -> ts = value_toks qs ++ r.
Proof.
  induction n as [|n IH]; intros ts rs r L H.
  - destruct ts; [|cbn in L; lia]. cbn in H. injection H as <- <-. reflexivity.
  - assert (D : (exists q t, ts = [COMMA; DVALUE q] ++ t) \/ p_values ts = ([], ts)).
    { clear. do 2 (destruct ts as [|[] ts]; try (right; reflexivity)). left. repeat eexists. }
    destruct D as [(q & t & ->)|D].
    + cbn [app p_values] in H. destruct (p_values t) as [rs' r'] eqn:E. injection H as <- <-.
      rewrite (IH t rs' r') by (try assumption; cbn in L; lia). reflexivity.
    + rewrite D in H. injection H as <- <-. reflexivity.
Qed.
Lemma p_material_inv : forall ts o r, p_material ts = (o, r) -> ts = material_toks o ++ r.
Proof.
  intros ts o r H.
  assert (D : (exists m t, ts = [MATERIAL; IDENTIFIER m; SEMI] ++ t) \/ p_material ts = (None, ts)).
  { clear. do 3 (destruct ts as [|[] ts]; try (right; reflexivity)). left. repeat eexists. }
  destruct D as [(q & t & ->)|D]; [cbn [app p_material] in H | rewrite D in H]; injection H as <- <-; reflexivity.
Qed.
Lemma p_discr_inv : forall ts o r, p_discr ts = (o, r) -> ts = discr_toks o ++ r.
Proof.
  intros ts o r H.
  assert (D : (exists x y t, ts = [DISCRETIZATION; DVALUE x; COMMA; DVALUE y; SEMI] ++ t) \/ p_discr ts = (None, ts)).
  { clear. do 5 (destruct ts as [|[] ts]; try (right; reflexivity)). left. repeat eexists. }
  destruct D as [(x & y & t & ->)|D]; [cbn [app p_discr] in H | rewrite D in H]; injection H as <- <-; reflexivity.
Qed.
Lemma p_powers_inv : forall ts o r, p_powers ts = Some (o, r) -> ts = power_toks o ++ r /\ o <> Some [].
Proof.
  intros ts o r H.
  assert (D : (exists q t, ts = [POWER; VALUES; DVALUE q] ++ t) \/ p_powers ts = None \/ p_powers ts = Some (None, ts)).
  { clear. do 3 (destruct ts as [|[] ts]; try (right; right; reflexivity); try (right; left; reflexivity)). left. repeat eexists. }
  destruct D as [(q & t & ->)|[D|D]]; [|congruence|].
  - cbn [app p_powers] in H. destruct (p_values t) as [qs t'] eqn:E. apply (p_values_inv (List.length t)) in E; [|lia].
    destruct t' as [|[] t']; try discriminate H. injection H as <- <-. subst t. cbn [power_toks app]. rewrite <- app_assoc.
    split; [reflexivity|discriminate].
  - rewrite D in H. injection H as <- <-. split; [reflexivity|discriminate].
Qed.
Definition body_toks (rs : list (Q * Q * Q * Q)) (m : option (list Z)) (xy : option (Q * Q)) (b : list tok) : Prop :=
  (rs <> [] /\ m = None /\ xy = None /\ b = flat_map rect_toks rs) \/
  (exists x y l w, rs = [(x, y, l, w)] /\ b = POSITION :: pair_toks x y ++ DIMENSION :: pair_toks l w ++ material_toks m ++ discr_toks xy).
Lemma p_body_inv : forall ts rs m xy r, p_body ts = Some (rs, m, xy, r) -> exists b, ts = b ++ r /\ body_toks rs m xy b.
Proof.
  intros ts rs m xy r H.
  assert (D : (exists x y l w t, ts = POSITION :: pair_toks x y ++ DIMENSION :: pair_toks l w ++ t) \/
              p_body ts = match p_rects ts with ([], _) => None | (rs, r) => Some (rs, None, None, r) end).
  { clear. do 10 (destruct ts as [|[] ts]; try (right; reflexivity)). left. repeat eexists. }
  destruct D as [(x & y & l & w & t & ->)|D].
  - cbn [pair_toks app p_body] in H. destruct (p_material t) as [m' t1] eqn:E1. destruct (p_discr t1) as [xy' t2] eqn:E2.
    injection H as <- <- <- <-. apply p_material_inv in E1. apply p_discr_inv in E2. subst t t1.
    eexists. split; [|right; do 4 eexists; split; reflexivity]. cbn [pair_toks app]. rewrite <- !app_assoc. reflexivity.
  - rewrite D in H. destruct (p_rects ts) as [rs' r'] eqn:E. destruct rs' as [|q rs']; [discriminate|]. injection H as <- <- <- <-.
    apply (p_rects_inv (List.length ts)) in E; [|lia]. eexists. split; [exact E|]. left. split; [discriminate|auto].
Qed.
Lemma p_element_inv : forall ts d r, p_element ts = Some (d, r) -> exists b,
  ts = IDENTIFIER (fd_id d) :: COLON :: b ++ power_toks (fd_powers d) ++ r /\ body_toks (fd_rects d) (fd_material d) (fd_discr d) b /\ fd_powers d <> Some [].
Proof.
  intros ts d r H. unfold p_element in H. destruct ts as [|[] ts]; try discriminate H. destruct ts as [|[] ts]; try discriminate H.
  destruct (p_body ts) as [[[[rs m] xy] r1]|] eqn:E; [|discriminate]. destruct (p_powers r1) as [[ps r2]|] eqn:P; [|discriminate].
  injection H as <- <-. cbn [fd_id fd_powers fd_rects fd_material fd_discr].
  apply p_body_inv in E. destruct E as (b & -> & B). apply p_powers_inv in P. destruct P as [-> N]. exists b. auto.
Qed.

(** The lexemes of tokens. *)
Lemma tok_cases : forall x, lexeme_ok x ->
  match lexeme_tok x with
  | LPAR => x = mark "(" | RPAR => x = mark ")" | COLON => x = mark ":" | COMMA => x = mark "," | SEMI => x = mark ";"
  | DIMENSION => x = word "dimension" | POSITION => x = word "position" | POWER => x = word "power"
  | RECTANGLE => x = word "rectangle" | VALUES => x = word "values" | DISCRETIZATION => x = word "discretization"
  | MATERIAL => x = word "material"
  | IDENTIFIER id => exists w, x = LWord w /\ name_ok w /\ id = name_codes w
  | DVALUE q => exists n, x = LNum n /\ numeral_ok n /\ q = numeral_value n
  end.
Proof.
  intros [w|n|c] H; cbn [lexeme_ok lexeme_tok] in *.
  - destruct H as [H|H].
    + unfold keywords in H. cbn [map In] in H. repeat destruct H as [<-|H]; try contradiction; reflexivity.
    + rewrite word_tok_name by apply H. eauto.
  - eauto.
  - cbn in H. repeat destruct H as [<-|H]; try contradiction; reflexivity.
Qed.

Ltac eat H K :=
  match type of H with
  | map lexeme_tok ?xs = _ :: _ =>
    let x := fresh "x" in let xs' := fresh "xs" in let H1 := fresh "H" in let K1 := fresh "K" in let C := fresh "C" in
    destruct xs as [|x xs']; [discriminate H|]; cbn [map] in H;
    assert (K1 : lexeme_ok x) by (inversion K; assumption);
    assert (H1 : Forall lexeme_ok xs') by (inversion K; assumption); clear K; rename H1 into K;
    pose proof (tok_cases x K1) as C; clear K1;
    injection H as H1 H; rewrite H1 in C; clear H1
  end.
Ltac num C n := let O := fresh "O" in destruct C as (n & -> & O & ->).

Lemma rects_lexemes : forall rs xs r, map lexeme_tok xs = flat_map rect_toks rs ++ r -> Forall lexeme_ok xs ->
  exists l xs', xs = flat_map rectangle_lexemes l ++ xs' /\ Forall rectangle_ok l /\ map rectangle_value l = rs /\ map lexeme_tok xs' = r /\ Forall lexeme_ok xs'.
Proof.
  induction rs as [|[[[x y] l] w] rs IH]; intros xs r H K.
  - exists [], xs. auto.
  - cbn [flat_map rect_toks app] in H. do 11 eat H K.
    destruct C1 as (n1 & -> & O1 & ->), C3 as (n2 & -> & O2 & ->), C5 as (n3 & -> & O3 & ->), C7 as (n4 & -> & O4 & ->). subst.
    destruct (IH _ _ H K) as (l' & xs' & -> & A & B & C & D).
    exists (mkRectangle n1 n2 n3 n4 :: l'), xs'. split; [reflexivity|]. split; [constructor; [repeat split; apply O1 || apply O2 || apply O3 || apply O4|assumption]|].
    split; [cbn [map]; rewrite B; reflexivity|]. auto.
Qed.
Lemma values_lexemes : forall vs xs r, map lexeme_tok xs = value_toks vs ++ r -> Forall lexeme_ok xs ->
  exists l xs', xs = flat_map (fun v => [mark ","; LNum v]) l ++ xs' /\ Forall numeral_ok l /\ map numeral_value l = vs /\ map lexeme_tok xs' = r /\ Forall lexeme_ok xs'.
Proof.
  induction vs as [|v vs IH]; intros xs r H K.
  - exists [], xs. auto.
  - cbn [value_toks flat_map app] in H. do 2 eat H K. destruct C0 as (n1 & -> & O1 & ->). subst.
    destruct (IH _ _ H K) as (l' & xs' & -> & A & B & C & D).
    exists (n1 :: l'), xs'. split; [reflexivity|]. split; [constructor; assumption|]. split; [cbn [map]; rewrite B; reflexivity|]. auto.
Qed.
Lemma material_lexemes : forall o xs r, map lexeme_tok xs = material_toks o ++ r -> Forall lexeme_ok xs ->
  exists m xs', xs = match m with Some m => [word "material"; LWord m; mark ";"] | None => [] end ++ xs' /\
    match m with Some m => name_ok m | None => True end /\ match m with Some m => Some (name_codes m) | None => None end = o /\
    map lexeme_tok xs' = r /\ Forall lexeme_ok xs'.
Proof.
  intros [m|] xs r H K.
  - cbn [material_toks app] in H. do 3 eat H K. destruct C0 as (w & -> & O & ->). subst. eexists (Some w), _. split; [reflexivity|]. auto.
  - exists None, xs. auto.
Qed.
Lemma discr_lexemes : forall o xs r, map lexeme_tok xs = discr_toks o ++ r -> Forall lexeme_ok xs ->
  exists m xs', xs = match m with Some (x, y) => word "discretization" :: pair_lexemes x y | None => [] end ++ xs' /\
    match m with Some (x, y) => numeral_ok x /\ numeral_ok y | None => True end /\
    match m with Some (x, y) => Some (numeral_value x, numeral_value y) | None => None end = o /\
    map lexeme_tok xs' = r /\ Forall lexeme_ok xs'.
Proof.
  intros [[x y]|] xs r H K.
  - cbn [discr_toks pair_toks app] in H. do 5 eat H K. destruct C0 as (n1 & -> & O1 & ->), C2 as (n2 & -> & O2 & ->). subst.
    eexists (Some (n1, n2)), _. split; [reflexivity|]. auto.
  - exists None, xs. auto.
Qed.
Lemma body_lexemes : forall rs m xy b xs r, body_toks rs m xy b -> map lexeme_tok xs = b ++ r -> Forall lexeme_ok xs ->
  exists sh xs', xs = shape_lexemes sh ++ xs' /\ shape_ok sh /\
    match sh with Single r _ _ => [rectangle_value r] | Several r rs => map rectangle_value (r :: rs) end = rs /\
    match sh with Single _ (Some m) _ => Some (name_codes m) | _ => None end = m /\
    match sh with Single _ _ (Some (x, y)) => Some (numeral_value x, numeral_value y) | _ => None end = xy /\
    map lexeme_tok xs' = r /\ Forall lexeme_ok xs'.
Proof.
  intros rs m xy b xs r [(N & -> & -> & ->)|(x & y & l & w & -> & ->)] H K.
  - destruct (rects_lexemes _ _ _ H K) as (l & xs' & -> & A & B & C & D).
    destruct l as [|r1 l]; [cbn in B; congruence|]. exists (Several r1 l), xs'. split; [reflexivity|]. split; [assumption|].
    split; [assumption|]. split; [reflexivity|]. split; [reflexivity|]. auto.
  - cbn [pair_toks app] in H. rewrite <- !app_assoc in H. do 10 eat H K.
    destruct C0 as (n1 & -> & O1 & ->), C2 as (n2 & -> & O2 & ->), C5 as (n3 & -> & O3 & ->), C7 as (n4 & -> & O4 & ->). subst.
    destruct (material_lexemes _ _ _ H K) as (mm & xs' & -> & M1 & M2 & M3 & M4).
    destruct (discr_lexemes _ _ _ M3 M4) as (dd & xs'' & -> & D1 & D2 & D3 & D4).
    exists (Single (mkRectangle n1 n2 n3 n4) mm dd), xs''.
    cbn [shape_lexemes re_x re_y re_length re_width pair_lexemes app]. rewrite <- !app_assoc.
    split; [reflexivity|]. split; [split; [split; [assumption|]; split; [assumption|]; split; assumption|]; split; assumption|].
    split; [reflexivity|]. split; [destruct mm; assumption|]. split; [destruct dd as [[? ?]|]; assumption|]. auto.
Qed.
Lemma powers_lexemes : forall o xs r, o <> Some [] -> map lexeme_tok xs = power_toks o ++ r -> Forall lexeme_ok xs ->
  exists p xs', xs = match p with
       | Some (v, vs) => word "power" :: word "values" :: LNum v :: flat_map (fun v => [mark ","; LNum v]) vs ++ [mark ";"]
       | None => [] end ++ xs' /\ match p with Some (v, vs) => Forall numeral_ok (v :: vs) | None => True end /\
    match p with Some (v, vs) => Some (map numeral_value (v :: vs)) | None => None end = o /\
    map lexeme_tok xs' = r /\ Forall lexeme_ok xs'.
Proof.
  intros [[|v vs]|] xs r N H K.
  - congruence.
  - cbn [power_toks app] in H. rewrite <- app_assoc in H. do 3 eat H K. destruct C1 as (n1 & -> & O1 & ->). subst.
    destruct (values_lexemes _ _ _ H K) as (l & xs' & -> & A & B & C & D).
    cbn [app] in C. eat C D. subst. eexists (Some (n1, l)), _. cbn [app]. rewrite <- app_assoc. split; [reflexivity|].
    split; [constructor; assumption|]. split; [reflexivity|]. auto.
  - exists None, xs. auto.
Qed.
Lemma p_element_lexemes : forall xs d r, Forall lexeme_ok xs -> p_element (map lexeme_tok xs) = Some (d, r) ->
  exists e xs', xs = element_lexemes e ++ xs' /\ element_ok e /\ element_value e = d /\ map lexeme_tok xs' = r /\ Forall lexeme_ok xs'.
Proof.
  intros xs d r K H. apply p_element_inv in H. destruct H as (b & H & B & N).
  do 2 eat H K. destruct C as (w & -> & W & WE). subst x0.
  destruct (body_lexemes _ _ _ _ _ _ B H K) as (sh & xs' & -> & S1 & S2 & S3 & S4 & S5 & S6).
  destruct (powers_lexemes _ _ _ N S5 S6) as (p & xs'' & -> & P1 & P2 & P3 & P4).
  exists (mkElement w sh p), xs''. unfold element_lexemes. cbn [el_name el_shape el_powers app]. rewrite <- !app_assoc.
  split; [reflexivity|]. split; [split; [assumption|split; assumption]|]. split; [|auto].
  unfold element_value. cbn [el_name el_shape el_powers]. rewrite S2, S3, S4, P2, <- WE. destruct d; reflexivity.
Qed.
Lemma p_elements_lexemes : forall fuel xs ds, Forall lexeme_ok xs -> p_elements fuel (map lexeme_tok xs) = Some ds ->
  exists es, es <> [] /\ xs = flat_map element_lexemes es /\ Forall element_ok es /\ map element_value es = ds.
Proof.
  induction fuel as [|fuel IH]; intros xs ds K H; [discriminate|]. cbn [p_elements] in H.
  destruct (p_element (map lexeme_tok xs)) as [[d r]|] eqn:E; [|discriminate].
  destruct (p_element_lexemes _ _ _ K E) as (e & xs' & -> & E1 & E2 & E3 & E4).
  destruct r as [|t r].
  - destruct xs'; [|discriminate]. exists [e]. split; [discriminate|]. cbn [flat_map]. split; [reflexivity|].
    split; [constructor; [assumption|constructor]|]. cbn [map]. congruence.
  - rewrite <- E3 in H. destruct (p_elements fuel (map lexeme_tok xs')) as [es|] eqn:P; [|discriminate].
    destruct (IH _ _ E4 P) as (l & _ & -> & L1 & L2). exists (e :: l). split; [discriminate|]. split; [reflexivity|].
    split; [constructor; assumption|]. cbn [map]. congruence.
Qed.
