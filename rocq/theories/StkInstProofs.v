(** The two scanners are scanners; the syntax of a value is the value of the syntax. *)
From Coq Require Import ZArith List Bool QArith String Ascii Lia.
From Verif Require Import Base Flex FlpText FlpTextSpec FlpTextProofs Inspect StkScan StkText StkTextSpec ScanProofs.
Import ListNotations.
Local Open Scope string_scope.
Local Open Scope list_scope.

Definition kw_okb (k : chars) : bool :=
  match k with c :: r => forallb kwch r && (is_alpha c || (is_digit c && negb (forallb numch k))) | [] => false end.
Lemma kw_okb_ok : forall k, kw_okb k = true -> kw_ok k.
Proof.
  intros [|c r] H; [discriminate|]. unfold kw_okb in H. apply andb_prop in H. destruct H as [H1 H2]. exists c, r. split; [reflexivity|]. split; [assumption|].
  apply orb_prop in H2. destruct H2 as [H2|H2]; [auto|]. apply andb_prop in H2. destruct H2 as [H2 H3]. apply negb_true_iff in H3. auto.
Qed.
Lemma keywords_ok : forall l, forallb (fun k => kw_okb (str k)) l = true -> forall k, In k l -> kw_ok (str k).
Proof. intros l H k I. rewrite forallb_forall in H. apply kw_okb_ok, H, I. Qed.
Lemma stk_scanner : scanner stk_init stk_marks stk_keywords true.
Proof.
  split.
  - exists ([(RStar (cls is_space), Skip)] ++ map mark_rule stk_marks
      ++ [(lit (str "//"), Begin ONE_LINE_COMMENT); (lit (str "/*"), Begin MULTIPLE_LINE_COMMENT)]), [double_rule; identifier_rule; path_rule].
    split; [unfold stk_init; rewrite <- !app_assoc; reflexivity|].
    split.
    { intros x I. apply in_app_or in I. destruct I as [[<-|[]]|I]; [left; reflexivity|]. apply in_app_or in I. destruct I as [I|I].
      - apply in_map_iff in I. destruct I as (c & <- & I). right. right. right. eauto.
      - destruct I as [<-|[<-|[]]]; [right; left|right; right; left]; reflexivity. }
    split. { intros x [<-|[<-|[<-|[]]]]; [left|right; right; left|right; right; right]; reflexivity. }
    split. { intros c I. apply in_or_app. right. apply in_or_app. left. apply in_map. assumption. }
    split. { left. reflexivity. }
    split. { apply in_or_app. right. apply in_or_app. right. left. reflexivity. }
    split. { apply in_or_app. right. apply in_or_app. right. right. left. reflexivity. }
    split; [left; reflexivity|]. split; [right; left; reflexivity|]. split; [reflexivity|]. intros _. right. right. left. reflexivity.
  - intros c H. cbn in H |- *. intuition.
  - apply keywords_ok. vm_compute. reflexivity.
Qed.
Lemma lay_scanner : scanner lay_init lay_marks lay_keywords false.
Proof.
  split.
  - exists ([(RStar (cls is_space), Skip); (lit (str "//"), Begin ONE_LINE_COMMENT); (lit (str "/*"), Begin MULTIPLE_LINE_COMMENT)]
      ++ map mark_rule lay_marks), [identifier_rule; integer_rule; double_rule].
    split; [unfold lay_init; rewrite <- !app_assoc; reflexivity|].
    split.
    { intros x I. apply in_app_or in I. destruct I as [[<-|[<-|[<-|[]]]]|I]; [left|right; left|right; right; left|]; try reflexivity.
      apply in_map_iff in I. destruct I as (c & <- & I). right. right. right. eauto. }
    split. { intros x [<-|[<-|[<-|[]]]]; [right; right; left|right; left|left]; reflexivity. }
    split. { intros c I. apply in_or_app. right. apply in_map. assumption. }
    split. { left. reflexivity. }
    split. { right. left. reflexivity. }
    split. { right. right. left. reflexivity. }
    split; [right; right; left; reflexivity|]. split; [left; reflexivity|].
    split; [|discriminate]. intros [H|[H|[H|[]]]]; apply (f_equal fst) in H; cbn [fst identifier_rule integer_rule double_rule path_rule] in H;
      unfold identifier, s_integer, double, path_re in H; discriminate H.
  - intros c H. cbn in H |- *. intuition.
  - apply keywords_ok. vm_compute. reflexivity.
Qed.

Definition subset (a b : list string) : bool := forallb (fun k => existsb (String.eqb k) b) a.
Lemma subset_ok : forall a b, subset a b = true -> forall k, In k a -> In k b.
Proof.
  intros a b H k I. unfold subset in H. rewrite forallb_forall in H. apply H in I. apply existsb_exists in I.
  destruct I as (x & I & E). apply String.eqb_eq in E. subst. assumption.
Qed.
Lemma reserved_keywords : forall k, In k reserved <-> In k stk_keywords.
Proof. intros k. split; apply subset_ok; vm_compute; reflexivity. Qed.
Lemma lexm_ok_same : forall a b x, (forall k, In k a <-> In k b) -> lexm_ok a x -> lexm_ok b x.
Proof.
  intros a b [k|c|n|w|p] E H; try assumption. destruct H as [H1 H2]. split; [assumption|]. intros I. apply H2. apply in_map_iff in I.
  destruct I as (k & <- & I). apply in_map. apply E. assumption.
Qed.

(** Keywords and marks of a list of lexemes *)
Section Drawn.
  Context {N I P : Type}.
  Definition drawn (kws : list string) (ms : list ascii) (x : sym N I P) : Prop :=
    match x with SK k => In k kws | SM c => In c ms | _ => True end.
  Notation stk := (drawn reserved stk_marks).
  Lemma drawn_opt : forall A (f : A -> list (sym N I P)) o, (forall a, Forall stk (f a)) -> Forall stk (optional f o).
  Proof. intros A f [a|] H; [apply H|constructor]. Qed.
  Lemma drawn_list : forall A (f : A -> list (sym N I P)) l, (forall a, Forall stk (f a)) -> Forall stk (listed f l).
  Proof. intros A f l H. induction l; [constructor|]. cbn [listed flat_map]. apply Forall_app. auto. Qed.
  Lemma drawn_several : forall A (f : A -> list (sym N I P)) l, (forall a, Forall stk (f a)) -> Forall stk (several f l).
  Proof. intros A f [a l] H. unfold several. apply Forall_app. split; [apply H|]. apply (drawn_list A f l H). Qed.
  Definition drawnb (x : sym N I P) : bool :=
    match x with SK k => existsb (String.eqb k) reserved | SM c => existsb (Ascii.eqb c) stk_marks | _ => true end.
  Lemma drawnb_ok : forall l, forallb drawnb l = true -> Forall stk l.
  Proof.
    intros l H. apply Forall_forall. intros x J. rewrite forallb_forall in H. apply H in J. destruct x as [k|c| | |]; try exact Logic.I; cbn [drawnb drawn] in *;
      apply existsb_exists in J; destruct J as (y & J & E); [apply String.eqb_eq in E|apply Ascii.eqb_eq in E]; subst; assumption.
  Qed.
  Lemma material_drawn : forall m : mat N I, Forall stk (material_syntax m).
  Proof. intros [i [k|x y z] v]; apply drawnb_ok; reflexivity. Qed.
  Lemma top_drawn : forall m : topsink N I P, Forall stk (top_syntax m).
  Proof. intros [h t|l w h m p [a|]]; apply drawnb_ok; reflexivity. Qed.
  Lemma bottom_drawn : forall m : botsink N, Forall stk (bottom_syntax m).
  Proof. intros [h t]; apply drawnb_ok; reflexivity. Qed.
  Lemma channel_drawn : forall m : chan N I, Forall stk (channel_syntax m).
  Proof. intros [h c w [f|] [l|] m r [k|a b e] v t|h c w m r [k|a b] v t|h d p [] m u v t]; apply drawnb_ok; reflexivity. Qed.
  Lemma dims_drawn : forall m : dimd N, Forall stk (dims_syntax m).
  Proof. intros [a b c d [[]|]]; apply drawnb_ok; reflexivity. Qed.
  Lemma layer_drawn : forall m : layd N I P, Forall stk (layer_syntax m).
  Proof. intros [a b c [p|]]; apply drawnb_ok; reflexivity. Qed.
  Lemma content_drawn : forall m : content N I, Forall stk (content_syntax m).
  Proof. intros [a b|a]; apply drawnb_ok; reflexivity. Qed.
  Lemma die_drawn : forall m : died N I, Forall stk (die_syntax m).
  Proof.
    intros [a b c d]. unfold die_syntax. cbn [i_id i_above i_source i_below].
    assert (C : forall c : content N I, Forall stk (words ["layer"] ++ content_syntax c))
      by (intros; apply Forall_app; split; [apply drawnb_ok; reflexivity|apply content_drawn]).
    repeat match goal with |- Forall _ (_ ++ _) => apply Forall_app; split end; try (apply drawnb_ok; reflexivity); try apply drawn_list; try assumption. apply content_drawn.
  Qed.
  Lemma element_drawn : forall m : eld N I P, Forall stk (element_syntax m).
  Proof. intros [id l [[x y]|]|id|id l p [[x y]|]]; apply drawnb_ok; reflexivity. Qed.
  Lemma solver_drawn : forall m : solverd N, Forall stk (solver_syntax m).
  Proof. intros [[|a b] t [c|]]; apply drawnb_ok; reflexivity. Qed.
  Lemma point_drawn : forall m : pointd N I P, Forall stk (point_syntax m).
  Proof.
    intros [id x y f w|id f q w|id e f q w|id f w|f w|id f w|id f q w]; destruct w as [[]|]; try (apply drawnb_ok; reflexivity);
      destruct q; apply drawnb_ok; reflexivity.
  Qed.
  Lemma file_drawn : forall f : stkfile N I P, Forall stk (file_syntax f).
  Proof.
    intros f. unfold file_syntax. repeat match goal with |- Forall _ (_ ++ _) => apply Forall_app; split end; try (apply drawnb_ok; reflexivity).
    - apply drawn_several, material_drawn.
    - apply drawn_opt, top_drawn.
    - apply drawn_opt, bottom_drawn.
    - apply drawn_opt, channel_drawn.
    - apply dims_drawn.
    - apply drawn_list, layer_drawn.
    - apply drawn_several, die_drawn.
    - apply drawn_several, element_drawn.
    - apply solver_drawn.
    - apply drawn_opt. intros l. repeat match goal with |- Forall _ (_ ++ _) => apply Forall_app; split end; try (apply drawnb_ok; reflexivity). apply drawn_several, point_drawn.
  Qed.
End Drawn.

(** Naturality *)
Section Natural.
  Context {N I P N' I' P' : Type}.
  Variables (f : N -> N') (g : I -> I') (h : P -> P').
  Notation ms := (map_sym f g h).
  Lemma nat_opt : forall A B (s : A -> list (sym N I P)) (s' : B -> list (sym N' I' P')) m o, (forall a, map ms (s a) = s' (m a)) ->
    map ms (optional s o) = optional s' (option_map m o).
  Proof. intros A B s s' m [a|] H; [apply H|reflexivity]. Qed.
  Lemma nat_list : forall A B (s : A -> list (sym N I P)) (s' : B -> list (sym N' I' P')) m l, (forall a, map ms (s a) = s' (m a)) ->
    map ms (listed s l) = listed s' (map m l).
  Proof. intros A B s s' m l H. induction l as [|a l IH]; [reflexivity|]. unfold listed in *. cbn [flat_map map]. rewrite map_app, H, IH. reflexivity. Qed.
  Lemma nat_several : forall A B (s : A -> list (sym N I P)) (s' : B -> list (sym N' I' P')) m l, (forall a, map ms (s a) = s' (m a)) ->
    map ms (several s l) = several s' (map_pair m (map m) l).
  Proof. intros A B s s' m [a l] H. unfold several, map_pair. cbn [fst snd]. rewrite map_app, H. f_equal. apply (nat_list A B s s' m l H). Qed.
  Lemma nat_material : forall m, map ms (material_syntax m) = material_syntax (map_mat f g m).
  Proof. intros [i [k|x y z] v]; reflexivity. Qed.
  Lemma nat_top : forall m : topsink N I P, map ms (top_syntax m) = top_syntax (map_top f g h m).
  Proof. intros [x t|l w x m p [a|]]; reflexivity. Qed.
  Lemma nat_bottom : forall m : botsink N, map ms (bottom_syntax m) = bottom_syntax (map_bot f m).
  Proof. intros [x t]; reflexivity. Qed.
  Lemma nat_channel : forall m : chan N I, map ms (channel_syntax m) = channel_syntax (map_chan f g m).
  Proof. intros [x c w [y|] [l|] m r [k|a b e] v t|x c w m r [k|a b] v t|x d p [] m u v t]; reflexivity. Qed.
  Lemma nat_dims : forall m : dimd N, map ms (dims_syntax m) = dims_syntax (map_dim f m).
  Proof. intros [a b c d [[]|]]; reflexivity. Qed.
  Lemma nat_layer : forall m : layd N I P, map ms (layer_syntax m) = layer_syntax (map_lay f g h m).
  Proof. intros [a b c [p|]]; reflexivity. Qed.
  Lemma nat_content : forall m : content N I, map ms (words ["layer"] ++ content_syntax m) = words ["layer"] ++ content_syntax (map_content f g m).
  Proof. intros [a b|a]; reflexivity. Qed.
  Lemma nat_die : forall m : died N I, map ms (die_syntax m) = die_syntax (map_die f g m).
  Proof.
    intros [a b c d]. unfold die_syntax, map_die. cbn [i_id i_above i_source i_below]. rewrite !map_app.
    rewrite !(fun l => nat_list _ _ _ (fun c => words ["layer"] ++ content_syntax c) (map_content f g) l nat_content). do 2 f_equal. destruct c; reflexivity.
  Qed.
  Lemma nat_element : forall m : eld N I P, map ms (element_syntax m) = element_syntax (map_element f g h m).
  Proof. intros [id l [[x y]|]|id|id l p [[x y]|]]; reflexivity. Qed.
  Lemma nat_solver : forall m : solverd N, map ms (solver_syntax m) = solver_syntax (map_solver f m).
  Proof. intros [[|a b] t [c|]]; reflexivity. Qed.
  Lemma nat_point : forall m : pointd N I P, map ms (point_syntax m) = point_syntax (map_point f g h m).
  Proof. intros [id x y p w|id p q w|id e p q w|id p w|p w|id p w|id p q w]; destruct w; reflexivity. Qed.
  Lemma nat_file : forall s : stkfile N I P, map ms (file_syntax s) = file_syntax (map_file f g h s).
  Proof.
    intros [m t b c d l i e s o]. unfold file_syntax, map_file. cbn [s_materials s_top s_bottom s_channel s_dims s_layers s_dies s_stack s_solver s_output].
    rewrite !map_app.
    rewrite (nat_several _ _ _ _ _ _ nat_material), (nat_opt _ _ _ _ _ _ nat_top), (nat_opt _ _ _ _ _ _ nat_bottom), (nat_opt _ _ _ _ _ _ nat_channel),
      nat_dims, (nat_list _ _ _ _ _ _ nat_layer), (nat_several _ _ _ _ _ _ nat_die), (nat_several _ _ _ _ _ _ nat_element), nat_solver.
    do 11 f_equal. apply (nat_opt _ _ _ _ (map_pair (map_point f g h) (map (map_point f g h)))). intros a. rewrite !map_app.
    rewrite (nat_several _ _ _ _ _ _ nat_point). reflexivity.
  Qed.
  Lemma nat_ok : forall s : stkfile N I P, file_ok s -> file_ok (map_file f g h s).
  Proof.
    intros s O. unfold file_ok, map_file in *. cbn [s_output]. destruct (s_output s) as [[p l]|]; [|exact Logic.I]. cbn [option_map map_pair fst snd].
    change (map_point f g h p :: map (map_point f g h) l) with (map (map_point f g h) (p :: l)).
    revert O. generalize (p :: l). clear p l. intros l O. induction O as [|p l O1 O2 IH]; constructor; [|assumption]. destruct p; exact O1.
  Qed.
End Natural.
