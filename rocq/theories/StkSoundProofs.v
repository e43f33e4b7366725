(** * A file whose values make sense makes a sound description (for C73). *)
From Coq Require Import ZArith List Bool QArith Qround Lia Lqa.
From Verif Require Import Base Flex FlpText FlpTextSpec FlpTextProofs Dims DimsSpec DimsProofs Floorplan FloorplanSpec FloorplanProofs Stack StackSpec Queue QueueProofs PowerGrid Inspect Emulate Emulator SlotLength
  Matrix MatrixSpec Build BuildSpec StackProofs StackAcceptProofs BuildProofs PropBuild StkScan StkText PropFloorplan PropFlpText LayText LayTextSpec LayProofs PropLayText StkLoad StkLoadSpec StkLoadProofs.
Import ListNotations.
Local Open Scope Z_scope.

(** ** The grid, before the stack is known to be sound *)
Section Loaded.
  Variables (x : description) (lo : loaded) (hs : list Q) (d0 : dims) (ncols : Z).
  Hypothesis F : load_facts x lo hs d0 ncols.
  Hypothesis SC : sound_cells x.
  Hypothesis SL : Z.of_nat (length (stack_heights (lo_channel lo) (x_stack x))) < two32.
  Notation d := (lo_dims lo).
  Notation ch := (lo_channel lo).
  Lemma grid_layers : (1 <= length hs)%nat /\ d_nlayers d = Z.of_nat (length hs).
  Proof.
    pose proof (lf_declared _ _ _ _ _ F) as D. pose proof (lf_stack _ _ _ _ _ F) as P.
    split; [apply (some_layer _ _ _ _ D SL P)|].
    destruct (dims_inv x lo hs d0 ncols F) as (A & _ & _ & _ & H & _). rewrite (ac_nlayers _ A), H. reflexivity.
  Qed.
  Lemma grid_good : good_grid d.
  Proof.
    destruct (dims_inv x lo hs d0 ncols F) as (A & Wd & _ & _ & HH & NR & NC & PC). destruct SC as ((C1 & C2 & C3 & C4 & C5) & CW).
    destruct grid_layers as (N1 & NL).
    pose proof (floor_ge_one _ _ C4 C5) as R1. rewrite <- NR in R1.
    pose proof (ac_nrows _ A) as RR. pose proof (ac_ncols _ A) as RC. pose proof (ac_cells _ A) as CE. pose proof (ac_max _ A) as MX.
    destruct (parse_columns_inv _ _ _ _ _ _ _ _ PC) as (_ & SH).
    unfold x_grid in *. unfold good_grid. rewrite Wd.
    assert (1 <= d_ncols d /\ (0 < d_first d /\ 0 < d_last d /\ 0 < d_wall d /\ 0 < d_chan d)%Q /\
       ((d_first d == d_last d)%Q /\ (d_first d == d_wall d)%Q /\ (d_first d == d_chan d)%Q \/ exists k, 0 <= k /\ d_ncols d = 2 * k + 3)) as (H1 & H2 & H3).
    { destruct SH as [(U & E1 & E2 & E3 & E4 & E5)|(U & k & K0 & K1 & _)].
      - rewrite E1, E2, E3, E4. split; [|split; [auto|left; repeat split; reflexivity]]. rewrite E5.
        destruct (x_channel x) as [[]|]; try (apply floor_ge_one; assumption). destruct (x_walls x) as [[[? ?] ?] ?]. discriminate.
      - split; [lia|]. split; [|right; eauto]. destruct (x_channel x) as [[]|]; try discriminate.
        destruct (x_walls x) as [[[a b] c] e]. injection U as -> -> -> ->. exact CW. }
    split; [lia|]. split; [lia|]. split.
    { assert (d_nrows d * d_ncols d <= d_nlayers d * d_nrows d * d_ncols d).
      { rewrite <- Z.mul_assoc. rewrite <- (Z.mul_1_l (d_nrows d * d_ncols d)) at 1. apply Z.mul_le_mono_nonneg_r; [apply Z.mul_nonneg_nonneg; lia|lia]. }
      unfold two32. lia. }
    split; [tauto|exact H3].
  Qed.
End Loaded.

(** ** Floorplans do not depend on the layers *)
Definition same_plane (d d' : dims) : Prop :=
  exists h n k, d' = mkDims (d_first d) (d_last d) (d_wall d) (d_chan d) (d_width d) h n (d_nrows d) (d_ncols d) k (d_chip_length d) (d_chip_width d).
Lemma parse_same_plane : forall L W cl cw s h1 n1 h2 n2 d1 d2, parse_dims L W cl cw s h1 n1 = Ok (Some d1) -> parse_dims L W cl cw s h2 n2 = Ok (Some d2) -> same_plane d1 d2.
Proof.
  intros L W cl cw s h1 n1 h2 n2 d1 d2 H1 H2. unfold parse_dims in *.
  destruct (to_u32 (W / cw)) as [rows| |]; cbn [bind] in *; try discriminate.
  destruct (parse_columns L cl s) as [[[[[[f la] w] ch] n]|]| |]; cbn [bind] in *; try discriminate.
  cbv zeta in *. destruct (_ <? _) in H1; [discriminate|]. destruct (_ <? _) in H2; [discriminate|].
  injection H1 as <-. injection H2 as <-. do 3 eexists. reflexivity.
Qed.
Section Plane.
  Variables (f la w c wd : Q) (h h' : list Q) (n n' r cc k k' : Z) (cl cw : Q).
  Notation d := (mkDims f la w c wd h n r cc k cl cw).
  Notation d' := (mkDims f la w c wd h' n' r cc k' cl cw).
  Lemma plane_rects : forall fuel rs, parse_rectangles fuel d rs = parse_rectangles fuel d' rs.
  Proof.
    intros fuel rs. induction rs as [|[[[x y] l] wi] rs IH]; [reflexivity|]. cbn [parse_rectangles]. rewrite IH. reflexivity.
  Qed.
  Lemma plane_decls : forall fuel l, FlpText.decl_elements fuel d l = FlpText.decl_elements fuel d' l.
  Proof.
    intros fuel l. induction l as [|x l IH]; [reflexivity|]. cbn [FlpText.decl_elements]. unfold decl_element, parse_element. rewrite IH.
    destruct (decl_queue (fd_powers x)); cbn [bind]; [|reflexivity..]. rewrite (plane_rects fuel (fd_rects x)). reflexivity.
  Qed.
  Lemma plane_columns : forall a area width row cols x, fill_columns d a area width row cols x = fill_columns d' a area width row cols x.
  Proof. intros a area width row cols. induction cols as [|co cols IH]; intros x; [reflexivity|]. cbn [fill_columns]. cbv zeta. rewrite IH. reflexivity. Qed.
  Lemma plane_rows : forall a area rows y, fill_rows d a area rows y = fill_rows d' a area rows y.
  Proof. intros a area rows. induction rows as [|ro rows IH]; intros y; [reflexivity|]. cbn [fill_rows]. cbv zeta. rewrite IH, plane_columns. reflexivity. Qed.
  Lemma plane_element : forall e, fill_element d e = fill_element d' e.
  Proof. intros e. unfold fill_element. apply flat_map_ext. intros a. unfold fill_icel. apply plane_rows. Qed.
  Lemma plane_fill_ : forall els, fill_floorplan els d = fill_floorplan els d'.
  Proof. intros els. unfold fill_floorplan, flpmatrix_fill. rewrite (map_ext _ _ plane_element). reflexivity. Qed.
End Plane.
Lemma plane_parse : forall d d' fuel text, same_plane d d' -> parse_floorplan_file fuel d text = parse_floorplan_file fuel d' text.
Proof.
  intros [f la w c wd h n r cc k cl cw] d' fuel text (h' & n' & k' & ->). unfold parse_floorplan_file. destruct (read_decls text); [|reflexivity].
  cbn [d_first d_last d_wall d_chan d_width d_nrows d_ncols d_chip_length d_chip_width]. rewrite (plane_decls f la w c wd h h' n n' r cc k k' cl cw). reflexivity.
Qed.
Lemma plane_fill : forall d d' fuel text, same_plane d d' -> fill_floorplan_file fuel d text = fill_floorplan_file fuel d' text.
Proof.
  intros d d' fuel text S. unfold fill_floorplan_file. rewrite (plane_parse d d' fuel text S). destruct (parse_floorplan_file fuel d' text) as [[els|]| |]; try reflexivity. cbn [bind].
  destruct d as [f la w c wd h n r cc k cl cw], S as (h' & n' & k' & ->).
  cbn [d_first d_last d_wall d_chan d_width d_nrows d_ncols d_chip_length d_chip_width]. rewrite (plane_fill_ f la w c wd h h' n n' r cc k k' cl cw). reflexivity.
Qed.
Lemma sane_floorplan_made : forall fuel fs d d' p text f, good_grid d' -> d_nrows d' + d_ncols d' <= Z.of_nat fuel -> same_plane d d' -> sane_floorplan fuel fs d' p ->
  fs p = Some text -> fill_floorplan_file fuel d text = Ok (Some f) ->
  sound_floorplan d' f /\ Forall2 (fun e l => qrep (fe_powers e) l) (f_elements f) (map powers_of (file_decls fs p)).
Proof.
  intros fuel fs d d' p text f G F S SF T E. rewrite (plane_fill _ _ _ _ S) in E. unfold fill_floorplan_file in E.
  destruct (parse_floorplan_file fuel d' text) as [[els|]| |] eqn:P; cbn [bind] in E; try discriminate.
  destruct (fill_floorplan els d') as [f'| |] eqn:FF; cbn [bind] in E; try discriminate. assert (f' = f) by congruence. subst f'. clear E.
  assert (P' := P). unfold parse_floorplan_file in P'. destruct (read_decls text) as [ds|] eqn:R; [|discriminate].
  destruct (SF text ds T R) as [SD SE].
  assert (NE : Forall (fun x => fd_rects x <> []) ds).
  { destruct (C70_accepted text ds R) as (es & _ & _ & _ & _ & <- & _). apply Forall_map. apply Forall_forall. intros x _. unfold element_value. cbn [fd_rects]. destruct (el_shape x); discriminate. }
  destruct (decls_made d' fuel G F ds) as (els' & DE & M).
  { rewrite Forall_forall in *. intros x I. specialize (NE x I). destruct (SD x I) as [A B]. auto. }
  rewrite DE in P'. cbn [bind] in P'. assert (els' = els) by congruence. subst els'. split.
  - exists els. split; [clear - M; induction M; constructor; [eapply md_good; eauto|assumption]|]. split; [exact (SE els P)|]. split; [exact FF|].
    clear - M. induction M; constructor; [eexists; eapply md_powers; eauto|assumption].
  - assert (FE : f_elements f = els).
    { unfold fill_floorplan in FF. cbv zeta in FF. destruct (flpmatrix_fill _ _ _); cbn [bind] in FF; try discriminate. injection FF as <-. reflexivity. }
    rewrite FE. unfold file_decls. rewrite T, R. clear - M. induction M; constructor; [eapply md_powers; eauto|assumption].
Qed.

(** ** The description *)
Section Sound.
  Variable porosity : Q -> Q -> Q.
  Variable pin_htc : bool -> Q -> Q.
  Variable to_double : Q -> double.
  Variable plugin_starts : list Z -> list Z -> bool.
  Variable fuel : nat.
  Variable fs : disk.

  Lemma sane_materials : forall l id m, Forall sane_material l -> In (id, m) (map material_of l) -> physical_material m.
  Proof.
    intros l id m F I. apply in_map_iff in I. destruct I as (x & E & I). rewrite Forall_forall in F. destruct (F x I) as [V K].
    unfold material_of in E. unfold physical_material. destruct (m_k x); inversion E; subst; cbn [mt_vhc mt_kx mt_ky mt_kz]; tauto.
  Qed.
  Lemma sane_layer_sound : forall d l y x, Forall sane_material l -> sane_layer fs y -> layer_means fuel fs d (map material_of l) y x -> sound_layer (snd x).
  Proof.
    intros d l y [i ly] FM [H L] (_ & HH & M & LY). cbn [snd] in *. split; [rewrite HH; exact H|]. split; [eapply sane_materials; eauto|].
    destruct (y_layout y) as [p|]; [|rewrite LY; constructor]. destruct LY as (text & FT & P). destruct (C72_refuses _ _ _ _ _ P) as (f & R & _ & _ & LA & _).
    specialize (L p text f eq_refl FT R). apply Forall_forall. intros e I.
    assert (exists o, laid (local_materials f) (map material_of l) o e) as (o & _ & [RS|[_ RS]]).
    { clear - LA I. revert LA. generalize (layouts f). intros lo LA. induction LA; [destruct I|]. destruct I as [->|I]; [eauto|auto]. }
    - eapply sane_materials; [exact L|exact RS].
    - eapply sane_materials; [exact FM|exact RS].
  Qed.
  Lemma sane_content_sound : forall l ls c x, Forall sane_material l -> Forall (fun x => sound_layer (snd x)) ls -> sane_content c -> content_means (map material_of l) ls c x -> sound_layer x.
  Proof.
    intros l ls [h m|i] x FM FL SC M; cbn [content_means sane_content] in *.
    - destruct M as (H & I & L). split; [rewrite H; exact SC|]. split; [eapply sane_materials; eauto|rewrite L; constructor].
    - rewrite Forall_forall in FL. exact (FL (i, x) M).
  Qed.
  Lemma Forall2_sound : forall A B (P : A -> Prop) (S : B -> Prop) (R : A -> B -> Prop) l m, (forall a b, P a -> R a b -> S b) -> Forall P l -> Forall2 R l m -> Forall S m.
  Proof.
    intros A B P S R l m H F G. induction G; constructor.
    - eapply H; [apply (Forall_inv F)|eassumption].
    - apply IHG. apply (Forall_inv_tail F).
  Qed.
  Lemma sane_channel_sound : forall l c x, Forall sane_material l -> sane_channel porosity pin_htc c -> channel_means porosity pin_htc (map material_of l) c (fst x) (snd x) ->
    sound_channel (fst x) /\ match fst x with Decl4RM _ _ _ _ _ _ _ _ => let '(f, la, w, ch) := snd x in (0 < f /\ 0 < la /\ 0 < w /\ 0 < ch)%Q | _ => True end.
  Proof.
    intros l c [cd w] FM S M. cbn [fst snd] in *.
    assert (WP : forall o a b, not_negative o -> (0 < a)%Q -> wall_means o a b -> (0 < b)%Q).
    { intros [y|] a b N A W; cbn [not_negative wall_means] in *; [|subst; exact A]. destruct W as [[W ->]|[_ ->]]; [|exact A].
      apply Qle_lteq in N. destruct N as [N|N]; [exact N|]. exfalso. apply W. symmetry. exact N. }
    destruct c as [h cl wl fi la m fl co vhc tin|h cl wl m fl co vhc tin|h di pi st m da vhc tin], cd; cbn [channel_means sane_channel sound_channel] in *; try contradiction.
    - destruct M as (-> & I & -> & CO & -> & -> & f & la' & -> & W1 & W2). destruct S as (S1 & S2 & S3 & S4 & S5 & S6 & S7 & S8).
      split; [|split; [exact (WP fi wl f S4 S3 W1)|split; [exact (WP la wl la' S5 S3 W2)|split; [exact S3|exact S2]]]].
      split; [|eapply sane_materials; eauto]. destruct co; cbn [coef4_means] in CO; destruct CO as (-> & -> & ->); tauto.
    - destruct M as (-> & -> & -> & I & -> & -> & CO & -> & -> & _). destruct S as (S1 & S2 & S3 & S4 & S5 & S6). split; [|exact Logic.I].
      split; [|eapply sane_materials; eauto]. destruct co; cbn [coef2_means] in CO; destruct CO as (-> & ->); tauto.
    - destruct M as (-> & -> & -> & I & -> & -> & -> & -> & _). split; [|exact Logic.I]. split; [tauto|eapply sane_materials; eauto].
  Qed.
  Theorem sane_usable : forall q j, means porosity pin_htc to_double plugin_starts fuel fs q j -> sane porosity pin_htc fuel fs q j -> usable (j_description j) (j_loaded j) /\ Forall2 (fun e l => qrep (fe_powers e) l) (described_elements (j_description j)) (written_powers fs q).
  Proof.
    intros q j [(ms & ls & ds & d & elements & points & ch & MS & NM & TOP & BO & CH & XC & XW & X1 & X2 & X3 & X4 & D & LS & NL & DS & ND & (zx & zy & ZX & ZY & ES) & NE & XS & JD & PT & JO) NU LO SO CO] SA.
    destruct (sa_chip _ _ _ _ _ _ SA) as (P1 & P2 & P3 & P4). destruct (sa_cells _ _ _ _ _ _ SA) as (P5 & P6). pose proof (sa_materials _ _ _ _ _ _ SA) as FM.
    subst ms.
    assert (SCH : forall cd, x_channel (j_description j) = Some cd -> sound_channel cd /\
              match cd with Decl4RM _ _ _ _ _ _ _ _ => let '(f, la, w, ch) := x_walls (j_description j) in (0 < f /\ 0 < la /\ 0 < w /\ 0 < ch)%Q | _ => True end).
    { intros cd E. unfold both in CH. rewrite XC in E. rewrite XW. destruct ch as [[cd' w]|]; [|discriminate]. cbn [option_map fst] in E. injection E as ->.
      destruct (s_channel q) as [c|] eqn:SQ; [|contradiction]. exact (sane_channel_sound _ _ (cd, w) FM (sa_channel _ _ _ _ _ _ SA c SQ) CH). }
    assert (CELLS : sound_cells (j_description j)).
    { unfold sound_cells. rewrite X1, X2, X3, X4. split; [tauto|]. destruct (x_channel (j_description j)) as [cd|] eqn:E.
      - destruct (SCH cd eq_refl) as [_ W]. destruct cd; [exact W|..]; (apply P6; intros (h & l & w & f & la & m & fl & co & v & t & F4); unfold both in CH; rewrite F4 in CH;
          destruct ch as [[cd' w']|]; [|contradiction]; cbn [option_map fst] in XC; injection XC as <-; exact CH).
      - apply P6. intros (h & l & w & f & la & m & fl & co & v & t & F4). unfold both in CH. rewrite F4 in CH. destruct ch as [[cd' w']|]; [discriminate XC|contradiction]. }
    destruct (load_inv _ _ LO) as (hs & d0 & ncols & F).
    pose proof (grid_good _ _ _ _ _ F CELLS (sa_few_layers _ _ _ _ _ _ SA)) as GG.
    assert (SP : same_plane d (lo_dims (j_loaded j))) by (eapply parse_same_plane; [exact D|exact (lf_dims _ _ _ _ _ F)]).
    assert (LL : Forall (fun x => sound_layer (snd x)) ls).
    { eapply Forall2_sound; [|exact (sa_layers _ _ _ _ _ _ SA)|exact LS]. intros a b SL M. eapply sane_layer_sound; eauto. }
    assert (DD : Forall (fun x => let '(a, s, b) := snd x in Forall sound_layer (a ++ s :: b)) ds).
    { eapply Forall2_sound; [|exact (sa_dies _ _ _ _ _ _ SA)|exact DS]. intros i [n [[a s] b]] SI (_ & M1 & M2 & M3). cbn [snd fst] in *.
      apply Forall_app in SI. destruct SI as [S1 S2]. pose proof (Forall_inv S2) as S3. apply Forall_inv_tail in S2.
      apply Forall_app. split; [|constructor].
      - eapply Forall2_sound; [|exact S1|exact M1]. intros. eapply sane_content_sound; eauto.
      - eapply sane_content_sound; eauto.
      - eapply Forall2_sound; [|exact S2|exact M3]. intros. eapply sane_content_sound; eauto. }
    assert (ST : Forall (sound_decl (lo_dims (j_loaded j))) (map fst elements) /\
                 Forall2 (fun e l => qrep (fe_powers e) l) (flat_map decl_elements (rev (map fst elements))) (written_powers fs q)).
    { pose proof (sa_floorplans _ _ _ _ _ _ SA) as SF. clear - ES SF LL DD SP GG SA.
      assert (SFL : d_nrows (lo_dims (j_loaded j)) + d_ncols (lo_dims (j_loaded j)) <= Z.of_nat fuel) by exact (sa_fuel _ _ _ _ _ _ SA). clear SA.
      unfold written_powers. revert ES SF. generalize (fst (s_stack q) :: snd (s_stack q)). intros l ES SF. induction ES as [|e [dc z] l elements M ES IH]; cbn [map rev flat_map]; [split; constructor|].
      destruct IH as [I1 I2]; [intros; eapply SF; right; eassumption|]. rewrite !flat_map_app. cbn [flat_map fst]. rewrite !app_nil_r.
      destruct e, dc; cbn [element_means] in M; try contradiction; destruct z; try contradiction; cbn [sound_decl decl_elements].
      - destruct M as (_ & I & _). rewrite Forall_forall in LL. rewrite !app_nil_r. split; [constructor; [exact (LL _ I)|exact I1]|exact I2].
      - rewrite !app_nil_r. split; [constructor; [exact Logic.I|exact I1]|exact I2].
      - destruct M as (_ & I & _ & text & FT & FF). rewrite Forall_forall in DD.
        destruct (sane_floorplan_made fuel fs d _ _ text _ GG SFL SP (SF _ _ _ _ (or_introl eq_refl)) FT FF) as [S1 S2].
        split; [constructor; [split; [exact (DD _ I)|exact S1]|exact I1]|]. apply Forall2_app; [exact I2|exact S2]. }
    split; [|unfold described_elements; rewrite XS; exact (proj2 ST)].
    split; [exact LO|]. split; [|exact (sa_few_cells _ _ _ _ _ _ SA)]. constructor.
    - exact CELLS.
    - intros cd E. apply (SCH cd E).
    - rewrite XS. exact (proj1 ST).
    - exact (sa_few_layers _ _ _ _ _ _ SA).
    - unfold both, top_means in TOP. unfold sound_top. destruct (x_top (j_description j)) as [t|]; [|exact Logic.I]. destruct (s_top q) as [t'|] eqn:TQ; [|contradiction].
      pose proof (sa_top _ _ _ _ _ _ SA t' TQ) as ST2. destruct t', t; cbn [sane_top] in ST2; try contradiction.
      + destruct TOP as [-> _]. exact ST2.
      + destruct TOP as (_ & _ & -> & I). split; [exact ST2|eapply sane_materials; eauto].
    - intros b E. rewrite BO in E. destruct (s_bottom q) as [b'|] eqn:B; [|discriminate]. cbn [option_map] in E. injection E as <-. exact (sa_bottom _ _ _ _ _ _ SA b' B).
    - exact (sa_spreader _ _ _ _ _ _ SA).
  Qed.
End Sound.
