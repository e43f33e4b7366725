(** * C72. Layout files: from their characters to the material of the cells.

    [describes_layout f text]: the text spells the materials and layouts [f]
    (LayTextSpec.v). [parse_layout_file fuel d globals text]: what is made of a
    file for a layer of the stack; [globals] are the materials of the stack
    description, [None] is an error that the program reports. *)
From Coq Require Import ZArith List Bool QArith String Ascii Lia Lqa.
From Verif Require Import Base Flex FlexProofs Vtk FlpText FlpTextSpec FlpTextProofs FlpLexProofs Dims Floorplan FloorplanSpec FloorplanProofs Matrix MatrixSpec Stack
  StackSpec CoeffSpec CoeffProofs Conduct StkScan StkText StkTextSpec ScanProofs StkGramProofs StkInstProofs PropFlpText PropStkText LayText LayTextSpec LayProofs.
Import ListNotations.
Local Open Scope string_scope.
Local Open Scope list_scope.

(** ** Grammar and scanner *)
Theorem C72_grammar : forall ts f, parse_layout_tokens ts = Some f <-> ts = layfile_syntax f.
Proof. intros ts f. split; [apply layfile_sound|]. intros ->. apply layfile_complete. Qed.
Print Assumptions C72_grammar.
Theorem C72_reads : forall f text, describes_layout f text -> read_layout text = Some (layfile_value f).
Proof.
  intros f text [K T]. unfold read_layout.
  assert (E : lay_tokens text = map lexm_value (layfile_syntax f)).
  { unfold lay_tokens. apply (scan_written _ _ _ _ lay_scanner); [apply lay_lexable_all; assumption|assumption]. }
  rewrite E.
  assert (V : map lexm_value (layfile_syntax f) = layfile_syntax (layfile_value f)) by apply (nat_layfile numeral_value name_codes name_codes f).
  rewrite V. apply layfile_complete.
Qed.
Print Assumptions C72_reads.
Theorem C72_accepted_text : forall text q, read_layout text = Some q ->
  exists l j, text = junked l ++ j /\ map lexm_value (map snd l) = layfile_syntax q /\ Forall (lexm_ok lay_reserved) (map snd l).
Proof.
  intros text q H. unfold read_layout in H. apply C72_grammar in H.
  destruct (scan_inv _ _ _ _ lay_scanner text 0%nat INITIAL) as (l & j & L & S & K). exists l, j.
  split; [exact S|]. split; [unfold lay_tokens in H; congruence|].
  eapply Forall_impl; [|exact K]. intros x. apply lexm_ok_same. intros k. symmetry. apply lay_reserved_keywords.
Qed.
Print Assumptions C72_accepted_text.

(** ** A correct file is accepted *)
Lemma Forall2_snd : forall A B C (R : A -> B -> Prop) (l : list A) (m : list (C * B)), Forall2 (fun a x => R a (snd x)) l m -> Forall2 R l (map snd m).
Proof. intros A B C R l m H. induction H; constructor; assumption. Qed.
Lemma made_laid : forall local globals l new, Forall2 (made_layout local globals) l new -> Forall2 (laid local globals) l (map snd new).
Proof. intros local globals l new M. apply Forall2_snd. induction M; constructor; [apply H|assumption]. Qed.
Theorem C72_accepts : forall fuel d globals f text, describes_layout f text ->
  good_grid d -> (d_nrows d + d_ncols d <= Z.of_nat fuel)%Z ->
  let q := layfile_value f in
  NoDup (map fst (local_materials q)) -> NoDup (map fst globals) -> NoDup (map o_material (layouts q)) ->
  (forall o, In o (layouts q) -> exists m, resolves (local_materials q) globals (o_material o) m) ->
  Forall (on_chip d) (all_rects q) -> ForallOrdPairs side_by_side (all_rects q) ->
  exists L, parse_layout_file fuel d globals text = Ok (Some L) /\ Forall2 (laid (local_materials q) globals) (layouts q) L.
Proof.
  intros fuel d globals f text D G F q N1 N2 N3 R O S. unfold parse_layout_file. rewrite (C72_reads f text D). fold q.
  unfold layout_actions. rewrite declare_ok by exact N1. cbn [bind app].
  destruct (add_layouts_ok fuel d globals (layouts q) (mkLaystate (local_materials q) [] false)) as (new & E & M & P); cbn [t_local t_done t_abort]; try assumption; try reflexivity.
  - constructor.
  - unfold layouts, local_materials in E. rewrite E. cbn [bind t_abort t_done t_local app]. exists (map snd new). split; [reflexivity|].
    apply made_laid. exact M.
Qed.
Print Assumptions C72_accepts.

(** ** Every file that is accepted is one, and makes what it says *)
Theorem C72_refuses : forall fuel d globals text L, parse_layout_file fuel d globals text = Ok (Some L) ->
  exists q, read_layout text = Some q /\
    NoDup (map fst (local_materials q)) /\ NoDup (map o_material (layouts q)) /\
    Forall2 (laid (local_materials q) globals) (layouts q) L /\
    Forall (fun r => ~ off_chip d r) (all_rects q) /\ ForallOrdPairs (fun r s => ~ overlapping r s) (all_rects q).
Proof.
  intros fuel d globals text L H. unfold parse_layout_file in H. destruct (read_layout text) as [q|] eqn:RD; [|discriminate]. exists q. split; [reflexivity|].
  unfold layout_actions in H. destruct (declare layout_size material_twice (map material_of (a_materials q)) []) as [[ms|]| |] eqn:DE; cbn [bind] in H; try discriminate.
  apply declare_inv in DE; [|constructor]. destruct DE as [-> N]. cbn [app] in *. fold (local_materials q) in *. split; [assumption|].
  fold (layouts q) in H. destruct (add_layouts fuel d globals (mkLaystate (local_materials q) [] false) (layouts q)) as [[s|]| |] eqn:AE; cbn [bind] in H; try discriminate.
  destruct (t_abort s) eqn:AB; [discriminate|]. injection H as <-.
  apply add_layouts_inv in AE; [|assumption|constructor|constructor]. cbn [t_local t_done t_abort app] in AE.
  destruct AE as (_ & new & E & M & O & ND & C). rewrite E in *.
  assert (NAMES : map fst new = map o_material (layouts q)).
  { clear - M. revert M. generalize (layouts q). intros l M. induction M; cbn [map]; [reflexivity|]. destruct H as [-> _]. congruence. }
  assert (RE : map rect_of (map snd (done_rects new)) = all_rects q).
  { rewrite done_rects_snd. unfold all_rects. clear - M. revert M. generalize (layouts q). intros l M. induction M; cbn [flat_map map]; [reflexivity|]. destruct H as [_ [H _]].
    rewrite map_app, H, IHM. reflexivity. }
  split; [rewrite <- NAMES; assumption|]. split; [apply made_laid; exact M|].
  split; [exact O|]. rewrite <- RE. clear - C. revert C. generalize (map snd (done_rects new)). intros l C.
  induction C; cbn [map]; constructor; [|assumption]. apply Forall_map. eapply Forall_impl; [|exact H]. intros b B V. apply overlap_clash in V.
  unfold clear in B. congruence.
Qed.
Print Assumptions C72_refuses.

(** ** The material of a cell: that of the layout whose rectangle holds its
       middle, and the one of the layer elsewhere *)
Definition middle_in (d : dims) (r c : Z) (p : Q * Q * Q * Q) : Prop :=
  let '(x, y, l, w) := p in let cx := ((west d c + east d c) / 2)%Q in let cy := ((south d r + north d r) / 2)%Q in
  (x <= cx /\ cx < x + l /\ y <= cy /\ cy < y + w)%Q.
Lemma holds_rect : forall d r c a, holds_middle d r c a <-> middle_in d r c (rect_of a).
Proof. intros. unfold holds_middle, middle_in, rect_of. reflexivity. Qed.
Lemma side_by_side_middle : forall d r c p q, side_by_side p q -> middle_in d r c p -> middle_in d r c q -> False.
Proof.
  intros d r c [[[x y] l] w] [[[x' y'] l'] w']. unfold side_by_side, middle_in. cbv zeta.
  generalize ((west d c + east d c) / 2)%Q, ((south d r + north d r) / 2)%Q. intros u v S (A1 & A2 & A3 & A4) (B1 & B2 & B3 & B4).
  destruct S as [S|[S|[S|S]]]; lra.
Qed.
Lemma held : forall d r c local globals o x, laid local globals o x -> (element_holds d r c x <-> exists p, In p (rects_of (o_shape o)) /\ middle_in d r c p).
Proof.
  intros d r c local globals o x [R _]. unfold element_holds. rewrite <- R. split.
  - intros (a & I & H). exists (rect_of a). split; [apply in_map; assumption|apply holds_rect; assumption].
  - intros (p & I & H). apply in_map_iff in I. destruct I as (a & <- & I). exists a. split; [assumption|apply holds_rect; assumption].
Qed.
Theorem C72_material : forall fuel d globals text q L ly r c,
  read_layout text = Some q -> parse_layout_file fuel d globals text = Ok (Some L) -> ForallOrdPairs side_by_side (all_rects q) ->
  good_grid d -> d_ncols d <> 2%Z -> (0 <= r < d_nrows d)%Z -> (0 <= c < d_ncols d)%Z -> ly_layout ly = L ->
  (forall o p, In o (layouts q) -> In p (rects_of (o_shape o)) -> middle_in d r c p ->
     resolves (local_materials q) globals (o_material o) (material_at d ly r c)) /\
  (Forall (fun p => ~ middle_in d r c p) (all_rects q) -> material_at d ly r c = ly_mat ly).
Proof.
  intros fuel d globals text q L ly r c RD H S G NC R C EL. apply C72_refuses in H. destruct H as (q' & RD' & _ & _ & LA & _). rewrite RD in RD'. injection RD' as <-.
  assert (MA := made_of_exists d ly r c G (or_introl NC) R C). rewrite <- EL in LA. clear RD EL L.
  unfold made_of in MA. split.
  - intros o p IO IP MP. destruct MA as [(pre & e & post & E & NP & HE & ->)|(NP & _)].
    + rewrite E in LA. clear E. unfold all_rects in S. revert LA S IO. generalize (layouts q). intros l LA. apply Forall2_app_inv_r in LA.
      destruct LA as (l1 & l2 & L1 & L2 & ->). inversion L2 as [|o' e0 l2' post0 H1 H2]; subst. intros S IO.
      rewrite flat_map_app in S. cbn [flat_map] in S.
      assert (HO' := HE). apply (held _ _ _ _ _ _ _ H1) in HO'. destruct HO' as (p' & IP' & MP').
      apply in_app_or in IO. destruct IO as [IO|[IO|IO]].
      * exfalso. assert (EX : exists e', In e' pre /\ laid (local_materials q) globals o e').
        { clear - L1 IO. induction L1; [destruct IO|]. destruct IO as [->|IO]; [exists y; split; [left; reflexivity|assumption]|].
          destruct (IHL1 IO) as (e' & I & L). exists e'. split; [right; assumption|assumption]. }
        destruct EX as (e' & IE & LE). rewrite Forall_forall in NP. apply (NP e' IE). apply (held _ _ _ _ _ _ _ LE). eauto.
      * subst o'. apply H1.
      * exfalso. apply pairwise_app in S. destruct S as (_ & S & _). apply pairwise_app in S. destruct S as (_ & _ & S).
        rewrite Forall_forall in S. specialize (S p' IP'). rewrite Forall_forall in S.
        apply (side_by_side_middle d r c p' p); [|assumption|assumption]. apply S. apply in_flat_map. eauto.
    + exfalso. assert (EX : exists e', In e' (ly_layout ly) /\ laid (local_materials q) globals o e').
      { clear - LA IO. revert LA IO. generalize (layouts q), (ly_layout ly). intros l L LA IO. induction LA; [destruct IO|]. destruct IO as [->|IO]; [exists y; split; [left; reflexivity|assumption]|].
        destruct (IHLA IO) as (e' & I & L). exists e'. split; [right; assumption|assumption]. }
      destruct EX as (e' & IE & LE). rewrite Forall_forall in NP. apply (NP e' IE). apply (held _ _ _ _ _ _ _ LE). eauto.
  - intros NM. destruct MA as [(pre & e & post & E & NP & HE & M)|(_ & M)]; [|assumption]. exfalso.
    rewrite E in LA. revert LA NM. unfold all_rects. generalize (layouts q). intros l LA NM. apply Forall2_app_inv_r in LA. destruct LA as (l1 & l2 & L1 & L2 & ->).
    inversion L2 as [|x e0 l2' post0 H1 H2]; subst. apply (held _ _ _ _ _ _ _ H1) in HE. destruct HE as (p & IP & MP). rewrite Forall_forall in NM. apply (NM p); [|assumption].
    apply in_flat_map. exists x. split; [apply in_or_app; right; left; reflexivity|assumption].
Qed.
Print Assumptions C72_material.

(** ** Defect: the message on an unknown material is printed in an array of 250
       characters *)
Theorem C72_long_name : forall fuel d globals f text, describes_layout f text ->
  good_grid d -> (d_nrows d + d_ncols d <= Z.of_nat fuel)%Z ->
  let q := layfile_value f in let o := fst (a_layouts q) in
  NoDup (map fst (local_materials q)) -> Forall (on_chip d) (rects_of (o_shape o)) ->
  ~ In (o_material o) (map fst (local_materials q)) -> ~ In (o_material o) (map fst globals) ->
  if (232 <? List.length (o_material o))%nat then parse_layout_file fuel d globals text = UB else parse_layout_file fuel d globals text = Ok None.
Proof.
  intros fuel d globals f text D G F q o N O U1 U2. unfold parse_layout_file. rewrite (C72_reads f text D). fold q.
  unfold layout_actions. rewrite declare_ok by exact N. cbn [bind app]. fold (local_materials q). cbn [add_layouts]. fold o. unfold add_layout.
  destruct (place_ok d fuel G F _ O) as (ics & PE & _). rewrite PE. cbn [bind fst snd]. cbv zeta. cbn [t_local].
  apply lookup_none in U1. apply lookup_none in U2. rewrite U1, U2. unfold message, unknown_material, layout_size, chars_of. rewrite app_length, map_length.
  change (List.length (str "Unknown material ")) with 17%nat.
  destruct (Nat.ltb_spec 232 (List.length (o_material o))) as [LT|LE]; destruct (Z.ltb_spec (Z.of_nat (17 + List.length (o_material o))) 250); try lia; reflexivity.
Qed.
Print Assumptions C72_long_name.

(** ** The hypotheses are met *)
Definition a_layfile : layfile numeral chars := {|
  a_materials := [mkMat (str "COPPER") (Directional (sci 4 [0] [4]) (sci 4 [0] [4]) (sci 3 [5] [4])) (sci 3 [4] [1; 2])];
  a_layouts := (mkLayoutd (str "COPPER") (Rectangles (int_ [0], int_ [0], int_ [5], int_ [1; 0]) [(int_ [1; 0], int_ [0], int_ [5], int_ [5])]),
                [mkLayoutd (str "SILICON") (Position (int_ [5], int_ [0], int_ [5], int_ [5]))]) |}%nat.
Definition lay_text : chars := spelling (gapped (layfile_syntax a_layfile)) ++ ending_text ([GBlank "010"%char], None).
Definition lexm_okb' (res : list string) (x : lexm) : bool :=
  match x with
  | SI w => match w with c :: r => existsb (Ascii.eqb c) (str "abcdefghijklmnopqrstuvwxyzABCDEFGHIJKLMNOPQRSTUVWXYZ")
                                   && forallb (fun c => existsb (Ascii.eqb c) (str "abcdefghijklmnopqrstuvwxyzABCDEFGHIJKLMNOPQRSTUVWXYZ0123456789_")) r
                       | [] => false end
            && negb (existsb (fun k => if list_eq_dec Ascii.ascii_dec w (str k) then true else false) res)
  | _ => lexm_okb x
  end.
Lemma lexm_okb_ok' : forall res x, lexm_okb' res x = true -> lexm_ok res x.
Proof.
  intros res x H. destruct x as [k|c|n|w|p]; cbn [lexm_okb'] in H; try (apply lexm_okb_ok in H; exact H). cbn [lexm_ok].
  apply andb_prop in H. destruct H as [H1 H2]. split.
  - destruct w as [|c r]; [discriminate|]. apply andb_prop in H1. destruct H1 as [H1 H3]. exists c, r. split; [reflexivity|].
    split; [apply letter_in; assumption|]. apply Forall_forall. intros x J. rewrite forallb_forall in H3. apply letter_digit_in, H3, J.
  - intros J. apply negb_true_iff in H2. apply in_map_iff in J. destruct J as (k & <- & J).
    assert (E : existsb (fun k0 => if list_eq_dec ascii_dec (str k) (str k0) then true else false) res = true); [|congruence].
    apply existsb_exists. exists k. split; [assumption|]. destruct (list_eq_dec ascii_dec (str k) (str k)); congruence.
Qed.
Lemma described : forall f, forallb (lexm_okb' lay_reserved) (layfile_syntax f) = true ->
  describes_layout f (spelling (gapped (layfile_syntax f)) ++ ending_text ([GBlank "010"%char], None)).
Proof.
  intros f H. split.
  - apply Forall_forall. intros x J. apply lexm_okb_ok'. rewrite forallb_forall in H. apply H, J.
  - destruct (gapped_fits (layfile_syntax f)) as (A & B & C). exists (gapped (layfile_syntax f)), ([GBlank "010"%char], None).
    split; [reflexivity|]. split; [exact A|]. split; [exact B|]. split; [exact C|]. split; [constructor; [cbn; tauto|constructor]|exact Logic.I].
Qed.
Lemma on_grid20 : forall x y l w, Qle_bool 0 x && Qle_bool (x + l) 20 && Qle_bool 0 y && Qle_bool (y + w) 10 && Qlt_bool 0 l && Qlt_bool 0 w = true -> on_chip grid20 (x, y, l, w).
Proof.
  intros x y l w H. rewrite !andb_true_iff in H. destruct H as (((((A & B) & C) & D) & E) & F).
  apply Qle_bool_iff in A, B, C, D. apply Qlt_bool_iff in E, F. unfold on_chip, placed. cbn [ic_x ic_y ic_len ic_wid d_chip_length d_chip_width grid20 d_wall].
  split; [split; [exact A|split; [exact B|split; [exact C|exact D]]]|].
  change (west grid20 (d_ncols grid20 - 1)) with 15%Q. change (get_cell_length grid20 (d_ncols grid20 - 1)) with 5%Q. change (north grid20 (d_nrows grid20 - 1)) with 10%Q.
  split; [exact A|]. split; [exact E|]. split; [lra|]. split; [lra|]. split; [exact C|]. split; [exact F|exact D].
Qed.
Definition silicon : material := mkMaterial 1628 130 130 130.
Definition the_globals : materials := [(name_codes (str "SILICON"), silicon)].
(** COPPER is of the file, SILICON of the stack; the second cell of the first row is SILICON. *)
Example C72_witness : exists L, describes_layout a_layfile lay_text /\ parse_layout_file 10 grid20 the_globals lay_text = Ok (Some L) /\
  Forall2 (laid (local_materials (layfile_value a_layfile)) the_globals) (layouts (layfile_value a_layfile)) L /\
  forall h, material_at grid20 (mkLayer h (mkMaterial 1 1 1 1) L) 0 1 = silicon.
Proof.
  assert (D : describes_layout a_layfile lay_text) by (apply described; vm_compute; reflexivity).
  assert (S : ForallOrdPairs side_by_side (all_rects (layfile_value a_layfile))).
  { assert (X : forall x y l w x' y' l' w', Qle_bool (x + l) x' || Qle_bool (x' + l') x = true -> side_by_side (x, y, l, w) (x', y', l', w')).
    { intros x y l w x' y' l' w' H. apply orb_prop in H. unfold side_by_side. rewrite !Qle_bool_iff in H. tauto. }
    constructor; [constructor; [apply X; vm_compute; reflexivity|constructor; [apply X; vm_compute; reflexivity|constructor]]|].
    constructor; [constructor; [apply X; vm_compute; reflexivity|constructor]|]. constructor; constructor. }
  destruct (C72_accepts 10 grid20 the_globals a_layfile lay_text D grid20_good ltac:(vm_compute; discriminate)) as (L & P & M).
  - constructor; [intros []|constructor].
  - constructor; [intros []|constructor].
  - constructor; [intros [X|[]]; discriminate X|]. constructor; [intros []|constructor].
  - intros o [<-|[<-|[]]].
    + eexists. left. left. reflexivity.
    + exists silicon. right. split; [intros [X|[]]; discriminate X|left; reflexivity].
  - constructor; [apply on_grid20; vm_compute; reflexivity|]. constructor; [apply on_grid20; vm_compute; reflexivity|].
    constructor; [apply on_grid20; vm_compute; reflexivity|constructor].
  - exact S.
  - exists L. split; [exact D|]. split; [exact P|]. split; [exact M|]. intros h.
    destruct (C72_material 10 grid20 the_globals lay_text _ L (mkLayer h (mkMaterial 1 1 1 1) L) 0 1 (C72_reads _ _ D) P S grid20_good) as [A _];
      [vm_compute; discriminate|vm_compute; split; [discriminate|reflexivity]|vm_compute; split; [discriminate|reflexivity]|reflexivity|].
    specialize (A _ _ (or_intror (or_introl eq_refl)) (or_introl eq_refl)).
    destruct A as [A|[_ A]].
    + unfold middle_in. vm_compute. repeat split; try discriminate; reflexivity.
    + exfalso. destruct A as [A|[]]. discriminate A.
    + destruct A as [A|[]]. apply (f_equal snd) in A. symmetry. exact A.
Qed.
(** A name of 240 letters. *)
Theorem C72_long_name_refuted : exists f text, describes_layout f text /\ parse_layout_file 10 grid20 the_globals text = UB.
Proof.
  set (f := mkLayfile [] (mkLayoutd (repeat "A"%char 240%nat) (Position (int_ [0], int_ [0], int_ [5], int_ [5])%nat), []) : layfile numeral chars).
  exists f, (spelling (gapped (layfile_syntax f)) ++ ending_text ([GBlank "010"%char], None)).
  assert (D : describes_layout f (spelling (gapped (layfile_syntax f)) ++ ending_text ([GBlank "010"%char], None))) by (apply described; vm_compute; reflexivity).
  split; [exact D|]. apply (C72_long_name 10 grid20 the_globals f _ D grid20_good ltac:(vm_compute; discriminate)).
  - constructor.
  - constructor; [apply on_grid20; vm_compute; reflexivity|constructor].
  - intros [].
  - intros [X|[]]. discriminate X.
Qed.
Print Assumptions C72_long_name_refuted.
