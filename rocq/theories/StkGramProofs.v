(** Proofs about the grammar of stack description files. *)
From Coq Require Import ZArith List Bool QArith String Ascii Lia.
From Verif Require Import Base Flex FlpText FlpTextSpec Inspect StkScan StkText StkTextSpec.
Import ListNotations.
Local Open Scope string_scope.
Local Open Scope list_scope.

(** ** Inversions *)
Lemma pbind_inv : forall A B (p : parser A) (f : A -> parser B) ts b r, pbind p f ts = Some (b, r) ->
  exists a r1, p ts = Some (a, r1) /\ f a r1 = Some (b, r).
Proof. intros A B p f ts b r H. unfold pbind in H. destruct (p ts) as [[a r1]|]; [eauto|discriminate]. Qed.
Lemma ret_inv : forall A (a b : A) ts r, ret a ts = Some (b, r) -> a = b /\ ts = r.
Proof. intros A a b ts r H. unfold ret in H. injection H as -> ->. auto. Qed.
Lemma alt_inv : forall A (p q : parser A) ts x, alt p q ts = Some x -> p ts = Some x \/ q ts = Some x.
Proof. intros A p q ts x H. unfold alt in H. destruct (p ts); auto. Qed.
Lemma maybe_inv : forall A (p : parser A) ts o r, maybe p ts = Some (o, r) ->
  (exists a, o = Some a /\ p ts = Some (a, r)) \/ (o = None /\ ts = r).
Proof.
  intros A p ts o r H. apply alt_inv in H. destruct H as [H|H].
  - apply pbind_inv in H. destruct H as (a & r1 & H1 & H2). apply ret_inv in H2. destruct H2 as [<- <-]. eauto.
  - apply ret_inv in H. destruct H as [<- <-]. auto.
Qed.
Lemma kw_inv : forall k ts u r, kw k ts = Some (u, r) -> ts = SK k :: r.
Proof.
  intros k [|[k'|c|n|w|p] ts] u r H; try discriminate H. cbn in H. destruct (String.eqb k k') eqn:E; [|discriminate].
  apply String.eqb_eq in E. subst k'. injection H as _ H. subst. reflexivity.
Qed.
Lemma mk_inv : forall c ts u r, mk c ts = Some (u, r) -> ts = SM c :: r.
Proof.
  intros c [|[k'|c'|n|w|p] ts] u r H; try discriminate H. cbn in H. destruct (Ascii.eqb c c') eqn:E; [|discriminate].
  apply Ascii.eqb_eq in E. subst c'. injection H as _ H. subst. reflexivity.
Qed.
Lemma num_inv : forall ts q r, num ts = Some (q, r) -> ts = SN q :: r.
Proof. intros [|[k'|c'|n|w|p] ts] q r H; try discriminate H. cbn in H. injection H as -> ->. reflexivity. Qed.
Lemma name_inv : forall ts q r, name ts = Some (q, r) -> ts = SI q :: r.
Proof. intros [|[k'|c'|n|w|p] ts] q r H; try discriminate H. cbn in H. injection H as -> ->. reflexivity. Qed.
Lemma path_inv : forall ts q r, path ts = Some (q, r) -> ts = SP q :: r.
Proof. intros [|[k'|c'|n|w|p] ts] q r H; try discriminate H. cbn in H. injection H as -> ->. reflexivity. Qed.
Lemma kws_inv : forall l ts u r, kws l ts = Some (u, r) -> ts = words l ++ r.
Proof.
  induction l as [|k l IH]; intros ts u r H; cbn [kws] in H.
  - apply ret_inv in H. destruct H as [_ <-]. reflexivity.
  - apply pbind_inv in H. destruct H as (a & r1 & H1 & H2). apply kw_inv in H1. subst ts. apply IH in H2. subst r1. reflexivity.
Qed.
Lemma num_of_inv : forall l ts q r, num_of l ts = Some (q, r) -> ts = value l q ++ r.
Proof.
  intros l ts q r H. unfold num_of in H. apply pbind_inv in H. destruct H as (a & r1 & H1 & H). apply kws_inv in H1. subst ts.
  apply pbind_inv in H. destruct H as (b & r2 & H1 & H). apply num_inv in H1. subst r1.
  apply pbind_inv in H. destruct H as (c & r3 & H1 & H). apply mk_inv in H1. subst r2. apply ret_inv in H. destruct H as [<- <-].
  unfold value. rewrite <- app_assoc. reflexivity.
Qed.
Lemma name_of_inv : forall l ts q r, name_of l ts = Some (q, r) -> ts = named l q ++ r.
Proof.
  intros l ts q r H. unfold name_of in H. apply pbind_inv in H. destruct H as (a & r1 & H1 & H). apply kws_inv in H1. subst ts.
  apply pbind_inv in H. destruct H as (b & r2 & H1 & H). apply name_inv in H1. subst r1.
  apply pbind_inv in H. destruct H as (c & r3 & H1 & H). apply mk_inv in H1. subst r2. apply ret_inv in H. destruct H as [<- <-].
  unfold named. rewrite <- app_assoc. reflexivity.
Qed.
Definition sound {A} (p : parser A) (s : A -> list stok) (ok : A -> Prop) : Prop :=
  forall ts a r, p ts = Some (a, r) -> ts = s a ++ r /\ ok a.
Lemma many__inv : forall A (p : parser A) s ok, sound p s ok -> forall n ts l r, many_ n p ts = Some (l, r) -> ts = flat_map s l ++ r /\ Forall ok l.
Proof.
  intros A p s ok S. induction n as [|n IH]; intros ts l r H; cbn [many_] in H; destruct (p ts) as [[a r1]|] eqn:E; try discriminate H.
  - injection H as <- <-. auto.
  - destruct (many_ n p r1) as [[l' r']|] eqn:M; [|discriminate]. injection H as <- <-. apply IH in M. destruct M as [-> M].
    apply S in E. destruct E as [-> E]. cbn [flat_map]. rewrite <- app_assoc. auto.
  - injection H as <- <-. auto.
Qed.
Lemma many_inv : forall A (p : parser A) s ok, sound p s ok -> sound (many p) (listed s) (Forall ok).
Proof. intros A p s ok S ts l r H. eapply many__inv; eassumption. Qed.
Lemma some_inv : forall A (p : parser A) s ok, sound p s ok -> sound (some p) (several s) (fun l => Forall ok (fst l :: snd l)).
Proof.
  intros A p s ok S ts [a l] r H. unfold some in H. apply pbind_inv in H. destruct H as (b & r1 & H1 & H).
  apply pbind_inv in H. destruct H as (m & r2 & H2 & H). apply ret_inv in H. destruct H as [E <-]. injection E as -> ->.
  apply S in H1. destruct H1 as [-> H1]. apply (many_inv A p s ok S) in H2. destruct H2 as [-> H2]. unfold several, listed in *. cbn [fst snd].
  rewrite <- app_assoc. auto.
Qed.

Ltac pinv :=
  repeat match goal with
  | H : pbind _ _ _ = Some (_, _) |- _ => apply pbind_inv in H; let a := fresh "a" in let r := fresh "r" in let H' := fresh "H" in destruct H as (a & r & H' & H)
  | H : ret _ _ = Some (_, _) |- _ => apply ret_inv in H; destruct H as [? ?]; subst
  | H : kw _ _ = Some (_, _) |- _ => apply kw_inv in H; subst
  | H : kws _ _ = Some (_, _) |- _ => apply kws_inv in H; subst
  | H : mk _ _ = Some (_, _) |- _ => apply mk_inv in H; subst
  | H : num _ = Some (_, _) |- _ => apply num_inv in H; subst
  | H : name _ = Some (_, _) |- _ => apply name_inv in H; subst
  | H : path _ = Some (_, _) |- _ => apply path_inv in H; subst
  | H : num_of _ _ = Some (_, _) |- _ => apply num_of_inv in H; subst
  | H : name_of _ _ = Some (_, _) |- _ => apply name_of_inv in H; subst
  | H : alt _ _ _ = Some _ |- _ => apply alt_inv in H; destruct H as [H|H]
  | H : maybe _ _ = Some (_, _) |- _ => apply maybe_inv in H; let a := fresh "a" in destruct H as [(a & ? & H)|[? ?]]; subst
  end.
Ltac papp := cbn [app map words value named mark optional]; unfold value, named, mark, words; cbn [map app]; repeat (rewrite <- ?app_assoc; cbn [app]; try reflexivity; progress rewrite <- ?app_assoc); try reflexivity.

Definition any {A} (a : A) : Prop := True.
Lemma material_sound : sound p_material material_syntax any.
Proof. intros ts a r H. unfold p_material in H. pinv; (split; [|exact I]); unfold material_syntax; cbn [m_id m_k m_vhc]; papp. Qed.
Lemma top_sound : sound p_top top_syntax any.
Proof. intros ts a r H. unfold p_top in H. pinv; (split; [|exact I]); cbn [top_syntax]; papp. Qed.
Lemma bottom_sound : sound p_bottom bottom_syntax any.
Proof. intros ts a r H. unfold p_bottom in H. pinv; (split; [|exact I]); unfold bottom_syntax; cbn [b_htc b_temperature]; papp. Qed.
Lemma channel_sound : sound p_channel channel_syntax any.
Proof.
  intros ts a r H. unfold p_channel, p_chan4, p_chan2, p_pins, p_coef4, p_coef2 in H.
  pinv; (split; [|exact I]); cbn [channel_syntax]; unfold coolant_syntax, coefficient; papp.
Qed.
Lemma dims_sound : sound p_dims dims_syntax any.
Proof.
  intros ts a r H. unfold p_dims in H.
  pinv; (split; [|exact I]); unfold dims_syntax; cbn [dd_length dd_width dd_cell_length dd_cell_width dd_nonuniform]; papp.
Qed.
Lemma layer_sound : sound p_layer layer_syntax any.
Proof.
  intros ts a r H. unfold p_layer in H.
  pinv; (split; [|exact I]); unfold layer_syntax; cbn [y_id y_height y_material y_layout]; papp.
Qed.
Lemma content_sound : sound p_content content_syntax any.
Proof. intros ts a r H. unfold p_content in H. pinv; (split; [|exact I]); cbn [content_syntax]; papp. Qed.
Lemma die_layer_sound : sound (kw "layer" ;; p_content) (fun c => words ["layer"] ++ content_syntax c) any.
Proof. intros ts a r H. pinv. apply content_sound in H. destruct H as [-> _]. split; [reflexivity|exact I]. Qed.
Lemma die_sound : sound p_die die_syntax any.
Proof.
  intros ts a r H. unfold p_die in H. pinv.
  repeat match goal with H : many _ _ = Some (_, _) |- _ => apply (many_inv _ _ _ _ die_layer_sound) in H; destruct H as [-> _]
                       | H : p_content _ = Some (_, _) |- _ => apply content_sound in H; destruct H as [-> _] | _ => progress pinv end.
  split; [|exact I]. unfold die_syntax; cbn [i_id i_above i_source i_below]. papp.
Qed.
Lemma discr_sound : sound p_discr (optional discr_syntax) any.
Proof. intros ts a r H. unfold p_discr in H. pinv; (split; [|exact I]); reflexivity. Qed.
Lemma element_sound : sound p_stkel element_syntax any.
Proof.
  intros ts a r H. unfold p_stkel in H. pinv;
  repeat match goal with H : p_discr _ = Some (_, _) |- _ => apply discr_sound in H; destruct H as [-> _] | _ => progress pinv end;
  (split; [|exact I]); cbn [element_syntax]; papp.
Qed.
Lemma solver_sound : sound p_solver solver_syntax any.
Proof. intros ts a r H. unfold p_solver in H. pinv; (split; [|exact I]); unfold solver_syntax; cbn [v_analysis v_initial v_cores]; papp. Qed.
Lemma when_sound : sound p_when (optional (fun i => [SM ","; SK (instant_name i)])) instant_ok.
Proof. intros ts a r H. unfold p_when in H. pinv; (split; [reflexivity|discriminate]). Qed.
Lemma quantity_sound : sound p_quantity (fun q => [SK (quantity_name q)]) (fun q => q <> OQ_NONE).
Proof. intros ts a r H. unfold p_quantity in H. pinv; (split; [reflexivity|discriminate]). Qed.
Lemma point_sound : sound p_point point_syntax point_ok.
Proof.
  intros ts a r H. unfold p_point, p_of, p_end in H. pinv;
  repeat match goal with H : p_when _ = Some (_, _) |- _ => apply when_sound in H; destruct H as [-> H]
                       | H : p_quantity _ = Some (_, _) |- _ => apply quantity_sound in H; destruct H as [-> H] | _ => progress pinv end;
  (split; [cbn [point_syntax]; unfold point_end; papp | cbn [point_ok]; tauto]).
Qed.
Lemma file_sound : sound p_file file_syntax file_ok.
Proof.
  intros ts a r H. unfold p_file, p_output in H. pinv;
  repeat match goal with
  | H : some p_material _ = Some (_, _) |- _ => apply (some_inv _ _ _ _ material_sound) in H; destruct H as [-> _]
  | H : some p_die _ = Some (_, _) |- _ => apply (some_inv _ _ _ _ die_sound) in H; destruct H as [-> _]
  | H : some p_stkel _ = Some (_, _) |- _ => apply (some_inv _ _ _ _ element_sound) in H; destruct H as [-> _]
  | H : some p_point _ = Some (_, _) |- _ => apply (some_inv _ _ _ _ point_sound) in H; destruct H as [-> H]
  | H : many p_layer _ = Some (_, _) |- _ => apply (many_inv _ _ _ _ layer_sound) in H; destruct H as [-> _]
  | H : p_top _ = Some (_, _) |- _ => apply top_sound in H; destruct H as [-> _]
  | H : p_bottom _ = Some (_, _) |- _ => apply bottom_sound in H; destruct H as [-> _]
  | H : p_channel _ = Some (_, _) |- _ => apply channel_sound in H; destruct H as [-> _]
  | H : p_dims _ = Some (_, _) |- _ => apply dims_sound in H; destruct H as [-> _]
  | H : p_solver _ = Some (_, _) |- _ => apply solver_sound in H; destruct H as [-> _]
  | _ => progress pinv end;
  (split; [unfold file_syntax; cbn [s_materials s_top s_bottom s_channel s_dims s_layers s_dies s_stack s_solver s_output]; papp
          | unfold file_ok; cbn [s_output]; try exact I]).
  all: repeat match goal with p : _ * _ |- _ => destruct p end; try assumption.
Qed.
Lemma parse_sound : forall ts f, parse_tokens ts = Some f -> ts = file_syntax f /\ file_ok f.
Proof.
  intros ts f H. unfold parse_tokens in H. destruct (p_file ts) as [[g [|t r]]|] eqn:E; try discriminate. injection H as ->.
  apply file_sound in E. rewrite app_nil_r in E. assumption.
Qed.

(** ** Completeness *)
Lemma pbind_ok : forall A B (p : parser A) (f : A -> parser B) ts a r, p ts = Some (a, r) -> pbind p f ts = f a r.
Proof. intros A B p f ts a r H. unfold pbind. rewrite H. reflexivity. Qed.
Definition complete {A} (p : parser A) (s : A -> list stok) (ok : A -> Prop) (follow : list stok -> Prop) : Prop :=
  forall a r, ok a -> follow r -> p (s a ++ r) = Some (a, r).
Lemma many_ok : forall A (p : parser A) s ok follow, complete p s ok follow -> (forall a r, follow (s a ++ r)) -> (forall a, s a <> []) ->
  forall l r, Forall ok l -> follow r -> p r = None -> many p (listed s l ++ r) = Some (l, r).
Proof.
  intros A p s ok follow C F NE l r O R N. unfold many.
  assert (M : forall n l, (List.length l <= n)%nat -> Forall ok l -> many_ n p (listed s l ++ r) = Some (l, r)).
  { clear l O. induction n as [|n IH]; intros l L O.
    - destruct l; [|cbn in L; lia]. cbn [listed flat_map app many_]. rewrite N. reflexivity.
    - destruct l as [|a l]; [cbn [listed flat_map app many_]; rewrite N; reflexivity|].
      inversion O; subst. cbn in L. cbn [listed flat_map many_]. rewrite <- app_assoc. rewrite C; [|assumption|].
      + change (flat_map s l) with (listed s l). rewrite IH by (assumption || lia). reflexivity.
      + destruct l as [|b l]; [assumption|]. cbn [flat_map]. rewrite <- app_assoc. apply F. }
  apply M; [|assumption]. rewrite app_length. assert (List.length l <= List.length (listed s l))%nat; [|lia].
  clear - NE. induction l as [|a l IH]; [auto|]. cbn [listed flat_map List.length]. rewrite app_length. unfold listed in IH.
  specialize (NE a). destruct (s a); [congruence|]. cbn [List.length]. lia.
Qed.
Lemma some_ok : forall A (p : parser A) s ok follow, complete p s ok follow -> (forall a r, follow (s a ++ r)) -> (forall a, s a <> []) ->
  forall l r, Forall ok (fst l :: snd l) -> follow r -> p r = None -> some p (several s l ++ r) = Some (l, r).
Proof.
  intros A p s ok follow C F NE [a l] r O R N. unfold some, several. cbn [fst snd] in *. inversion O; subst. rewrite <- app_assoc.
  rewrite (pbind_ok _ _ _ _ _ a (flat_map s l ++ r)).
  - rewrite (pbind_ok _ _ _ _ _ l r); [reflexivity|]. apply (many_ok A p s ok follow); assumption.
  - apply C; [assumption|]. destruct l as [|b l]; [assumption|]. cbn [flat_map]. rewrite <- app_assoc. apply F.
Qed.
Lemma maybe_ok : forall A (p : parser A) s ok (o : option A) r, complete p s ok (fun r' => r' = r) -> match o with Some a => ok a | None => p r = None end ->
  maybe p (optional s o ++ r) = Some (o, r).
Proof.
  intros A p s ok [a|] r C O; unfold maybe, alt, optional.
  - rewrite (pbind_ok _ _ _ _ _ a r) by (apply C; auto). reflexivity.
  - cbn [app]. unfold pbind. rewrite O. reflexivity.
Qed.

Lemma material_complete : complete p_material material_syntax any any.
Proof. intros [id [k|x y z] v] r _ _; reflexivity. Qed.
Lemma top_complete : complete p_top top_syntax any any.
Proof. intros [h t|l w h m p [a|]] r _ _; reflexivity. Qed.
Lemma bottom_complete : complete p_bottom bottom_syntax any any.
Proof. intros [h t] r _ _; reflexivity. Qed.
Lemma channel_complete : complete p_channel channel_syntax any any.
Proof. intros [h c w [f|] [l|] m r [k|a b e] v t|h c w m r [k|a b] v t|h d p [] m u v t] rr _ _; reflexivity. Qed.
Lemma dims_complete : complete p_dims dims_syntax any (fun r => kw "non-uniform" r = None).
Proof.
  intros [a b c d [[]|]] r _ F; try reflexivity. unfold p_dims, dims_syntax. cbn [dd_length dd_width dd_cell_length dd_cell_width dd_nonuniform optional].
  do 14 (erewrite pbind_ok by reflexivity). cbn [app]. unfold maybe, alt, pbind. rewrite F. reflexivity.
Qed.
Lemma layer_complete : complete p_layer layer_syntax any (fun r => kw "layout" r = None).
Proof.
  intros [id h m [p|]] r _ F; try reflexivity. unfold p_layer, layer_syntax. cbn [y_id y_height y_material y_layout optional].
  do 5 (erewrite pbind_ok by reflexivity). cbn [app]. unfold maybe, alt, pbind. rewrite F. reflexivity.
Qed.
Lemma content_complete : complete p_content content_syntax any any.
Proof. intros [h m|l] r _ _; reflexivity. Qed.
Lemma die_layer_complete : complete (kw "layer" ;; p_content) (fun c => words ["layer"] ++ content_syntax c) any any.
Proof. intros [h m|l] r _ _; reflexivity. Qed.
Lemma die_complete : complete p_die die_syntax any (fun r => kw "layer" r = None).
Proof.
  intros [id a s b] r _ F. unfold p_die, die_syntax. cbn [i_id i_above i_source i_below].
  rewrite <- !app_assoc.
  do 3 (erewrite pbind_ok by reflexivity).
  rewrite (pbind_ok _ _ _ _ _ a (words ["source"] ++ content_syntax s ++ listed (fun c => words ["layer"] ++ content_syntax c) b ++ r)).
  2: { apply (many_ok _ _ _ any any die_layer_complete); try exact I; try reflexivity; try discriminate. apply Forall_forall. intros; exact I. }
  erewrite pbind_ok by reflexivity.
  rewrite (pbind_ok _ _ _ _ _ s (listed (fun c => words ["layer"] ++ content_syntax c) b ++ r)) by (apply content_complete; exact I).
  rewrite (pbind_ok _ _ _ _ _ b r); [reflexivity|].
  apply (many_ok _ _ _ any any die_layer_complete); try exact I; try reflexivity; try discriminate.
  - apply Forall_forall. intros; exact I.
  - unfold pbind. rewrite F. reflexivity.
Qed.
Lemma element_complete : complete p_stkel element_syntax any any.
Proof. intros [id l [[x y]|]|id|id l p [[x y]|]] r _ _; reflexivity. Qed.
Lemma solver_complete : complete p_solver solver_syntax any (fun r => kw "numofcores" r = None).
Proof.
  intros [[|a b] t [c|]] r _ F; try reflexivity; unfold p_solver, solver_syntax; cbn [v_analysis v_initial v_cores optional].
  all: do 2 (erewrite pbind_ok by reflexivity); do 2 (erewrite pbind_ok by reflexivity); cbn [app]; unfold maybe, alt, num_of, pbind; cbn [kws]; unfold pbind; rewrite F; reflexivity.
Qed.
Lemma point_complete : complete p_point point_syntax point_ok any.
Proof.
  intros [id x y f w|id f q w|id e f q w|id f w|f w|id f w|id f q w] r O _; cbn [point_ok] in O.
  1, 4, 5, 6: destruct w as [[]|]; try (exfalso; apply O; reflexivity); reflexivity.
  all: destruct O as [O1 O2]; destruct q; try congruence; destruct w as [[]|]; try (exfalso; apply O1; reflexivity); reflexivity.
Qed.

Ltac dim_none := reflexivity.
Lemma file_complete : forall f, file_ok f -> parse_tokens (file_syntax f) = Some f.
Proof.
  intros f O. unfold parse_tokens. cut (p_file (file_syntax f) = Some (f, [])); [intros ->; reflexivity|].
  destruct f as [m t b c d l i e s o]. unfold p_file, file_syntax. unfold file_ok in O.
  cbn [s_materials s_top s_bottom s_channel s_dims s_layers s_dies s_stack s_solver s_output] in *.
  assert (AA : forall A (l : list A), Forall any l) by (intros; apply Forall_forall; intros; exact I).
  set (R9 := optional (fun l => words ["output"] ++ mark ":" ++ several point_syntax l) o).
  set (R8 := solver_syntax s ++ R9).
  set (R7 := words ["stack"] ++ mark ":" ++ several element_syntax e ++ R8).
  set (R6 := several die_syntax i ++ R7).
  set (R5 := listed layer_syntax l ++ R6).
  set (R4 := dims_syntax d ++ R5).
  set (R3 := optional channel_syntax c ++ R4).
  set (R2 := optional bottom_syntax b ++ R3).
  set (R1 := optional top_syntax t ++ R2).
  rewrite (pbind_ok _ _ _ _ _ m R1).
  2: { apply (some_ok _ _ _ any any material_complete); try (intros; exact I); try discriminate; [apply AA|].
       unfold R1, R2, R3. destruct t as [[]|], b as [|], c as [[]|]; reflexivity. }
  rewrite (pbind_ok _ _ _ _ _ t R2).
  2: { apply (maybe_ok _ _ _ any); [intros a r X _; apply top_complete; exact I|]. destruct t; [exact I|].
       unfold R2, R3. destruct b as [|], c as [[]|]; reflexivity. }
  rewrite (pbind_ok _ _ _ _ _ b R3).
  2: { apply (maybe_ok _ _ _ any); [intros a r X _; apply bottom_complete; exact I|]. destruct b; [exact I|].
       unfold R3. destruct c as [[]|]; reflexivity. }
  rewrite (pbind_ok _ _ _ _ _ c R4).
  2: { apply (maybe_ok _ _ _ any); [intros a r X _; apply channel_complete; exact I|]. destruct c; [exact I|]. reflexivity. }
  rewrite (pbind_ok _ _ _ _ _ d R5).
  2: { apply dims_complete; [exact I|]. unfold R5, R6. destruct l as [|y l]; [destruct i as [x i]|]; reflexivity. }
  rewrite (pbind_ok _ _ _ _ _ l R6).
  2: { apply (many_ok _ _ _ any (fun r => kw "layout" r = None) layer_complete); try discriminate; try reflexivity. apply AA. }
  rewrite (pbind_ok _ _ _ _ _ i R7).
  2: { apply (some_ok _ _ _ any (fun r => kw "layer" r = None) die_complete); try discriminate; try reflexivity. apply AA. }
  do 2 (erewrite pbind_ok by reflexivity).
  rewrite (pbind_ok _ _ _ _ _ e R8).
  2: { apply (some_ok _ _ _ any any element_complete); try (intros; exact I); try reflexivity; [intros [] |apply AA]; discriminate. }
  rewrite (pbind_ok _ _ _ _ _ s R9).
  2: { apply solver_complete; [exact I|]. unfold R9. destruct o; reflexivity. }
  rewrite (pbind_ok _ _ _ _ _ o []); [reflexivity|]. unfold p_output. rewrite <- (app_nil_r R9). unfold R9.
  apply (maybe_ok _ _ _ (fun l => Forall point_ok (fst l :: snd l))).
  - intros a r X ->. do 2 (erewrite pbind_ok by reflexivity).
    apply (some_ok _ _ _ point_ok any point_complete); try (intros; exact I); try reflexivity; [intros [] ; discriminate|assumption].
  - destruct o as [[p q]|]; [assumption|reflexivity].
Qed.
