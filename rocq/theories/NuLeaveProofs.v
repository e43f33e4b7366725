(** * The terms of the non-uniform heat network *)
From Coq Require Import ZArith List Bool QArith Qfield Lia Lqa ZifyBool.
From Verif Require Import Base QSum Dims DimsProofs Floorplan FloorplanSpec FloorplanProofs Stack StackSpec StackProofs PowerGrid Emulate Conduct Matrix MatrixSpec CellProofs NonUniform SourceProofs NuMatrix NuMatrixSpec NuMatrixProofs NuTableProofs NuCoeffProofs.
Import ListNotations.
Local Open Scope Z_scope.

Lemma Qpos_neq : forall x, (0 < x)%Q -> ~ (x == 0)%Q.
Proof. intros x H E. rewrite E in H. apply (Qlt_irrefl 0 H). Qed.
Lemma series_eq : forall v da ka db kb, (0 < v)%Q -> (0 < da)%Q -> (0 < ka)%Q -> (0 < db)%Q -> (0 < kb)%Q ->
    (parallel_of (ka * v / da) (kb * v / db) == in_series v da ka db kb)%Q.
Proof.
  intros v da ka db kb V DA KA DB KB. unfold parallel_of, in_series. pose proof (Qpos_neq _ V). pose proof (Qpos_neq _ DA). pose proof (Qpos_neq _ KA). pose proof (Qpos_neq _ DB). pose proof (Qpos_neq _ KB).
  assert (N1 : (0 < ka * db + kb * da)%Q) by nra. assert (N2 : (0 < ka * v * db + kb * v * da)%Q) by nra.
  apply Qpos_neq in N1, N2. field. repeat split; auto; intros E; first [apply N1; rewrite <- E; ring|apply N2; rewrite <- E; ring].
Qed.

Section Terms.
  Variables (g : tgrid) (d : dims).
  Hypotheses (G : good_tgrid d g) (PH : physical g d).

  Lemma mat_one : forall c, one_material g c -> material_at d (layer_of g (c_layer c)) 0 0 = ly_mat (cell_layer g c).
  Proof. intros c O. unfold material_at, layer_of. unfold one_material, cell_layer in *. rewrite O. reflexivity. Qed.
  Lemma height_pos : forall c, 0 <= c_layer c < d_nlayers d -> (0 < cell_height d c)%Q.
  Proof.
    intros c L. unfold cell_height. pose proof (ph_heights g d PH) as H. rewrite Forall_forall in H. apply H. apply nth_In. destruct (gt_accepted d g G) as [_ _ A _ _]. lia.
  Qed.
  Lemma layer_pos : forall c, 0 <= c_layer c < d_nlayers d -> physical_material (ly_mat (cell_layer g c)).
  Proof.
    intros c L. unfold cell_layer. pose proof (ph_layers g d PH) as H. rewrite Forall_forall in H. apply H. apply nth_In. pose proof (gt_layers d g G). lia.
  Qed.
  Lemma material_pos : forall c, 0 <= c_layer c < d_nlayers d -> positive_cell g c -> physical_material (cell_material g c).
  Proof. intros c L (_ & _ & P). unfold cell_material. destruct (is_source (type_of g (c_layer c))); [apply P; reflexivity|apply layer_pos, L]. Qed.

  Lemma capacity_spec : forall c x, in_stack g d c -> one_material g c -> nu_capacity g d c = Ok x -> (x == heat_capacity g d c)%Q.
  Proof.
    intros c x I O. unfold nu_capacity, heat_capacity. rewrite (gt_types d g G). destruct (Z.leb_spec (d_nlayers d) (c_layer c)) as [L|L].
    - unfold with_spreader. destruct (tg_top g) as [[|]|]; try discriminate. unfold spreader_capacity. intros [= <-]. ring.
    - assert (L0 : 0 <= c_layer c < d_nlayers d) by (destruct I; lia). rewrite (nu_layer_in g d G) by exact L0. rewrite (mat_one c O). unfold cell_volume, cell_material. fold (cell_height d c). change (height d (c_layer c)) with (cell_height d c).
      destruct (type_of g (c_layer c)) eqn:T; cbn [is_source]; unfold with_channel; destruct (tg_channel g) as [ch|] eqn:C; try discriminate; try destruct (c_channel c); try discriminate; intros [= <-]; try ring.
  Qed.

  Lemma convective_spec : forall ch c len x, 0 <= c_layer c < d_nlayers d -> nu_convective ch d (c_layer c) len = Ok x -> (x == half_rate ch (cell_height d c) len)%Q.
  Proof.
    intros ch c len x L. unfold nu_convective, half_rate. destruct (ch_model ch); try (rewrite (get_height g d G) by exact L; cbn [bind]; fold (cell_height d c)); intros [= <-]; try reflexivity.
    all: unfold Qdiv; try rewrite !Qinv_mult_distr; ring.
  Qed.
  (** The convective term of a coolant cell. *)
  Lemma flow_spec : forall c len s x, coolant_cell g d c -> nu_y g d len c s = Ok x ->
      exists ch, tg_channel g = Some ch /\ (x == s * half_rate ch (cell_height d c) len)%Q.
  Proof.
    intros c len s x (L & CH & T). unfold nu_y. destruct (Z.leb_spec (d_nlayers d) (c_layer c)); [lia|]. rewrite (nu_layer_in g d G) by exact L.
    assert (NS : is_solid (type_of g (c_layer c)) = false) by (destruct (type_of g (c_layer c)); try discriminate; reflexivity).
    destruct (channel_some g d G (c_layer c) L NS) as (ch & C). unfold with_channel. rewrite C, CH. intros E. exists ch. split; [reflexivity|].
    destruct (type_of g (c_layer c)) eqn:TT; try discriminate.
    - destruct (place_4rm g d G (c_layer c) L TT) as (ch' & C' & M4 & _). assert (ch' = ch) by congruence. subst ch'. unfold get_convective_term in E. rewrite M4 in E. cbn [bind] in E. injection E as <-. unfold half_rate. rewrite M4. unfold Qdiv. rewrite !Qinv_mult_distr. ring.
    - destruct (nu_convective ch d (c_layer c) len) as [y| |] eqn:N; try discriminate. cbn [bind] in E. injection E as <-. rewrite (convective_spec ch c len y L N). reflexivity.
    - destruct (nu_convective ch d (c_layer c) len) as [y| |] eqn:N; try discriminate. cbn [bind] in E. injection E as <-. rewrite (convective_spec ch c len y L N). reflexivity.
    - destruct (nu_convective ch d (c_layer c) len) as [y| |] eqn:N; try discriminate. cbn [bind] in E. injection E as <-. rewrite (convective_spec ch c len y L N). reflexivity.
  Qed.

  Lemma diagonal_spec : forall an c x, in_stack g d c -> one_material g c -> positive_cell g c -> nu_diagonal g d an c = Ok x -> (x == leaves g d an c)%Q.
  Proof.
    intros an c x I O PC. unfold nu_diagonal, leaves.
    assert (B : exists base, match an_type an with AT_TRANSIENT => do x <- nu_capacity g d c ; Ok (x / an_step an)%Q | _ => Ok 0%Q end = Ok base /\ (base == stored_rate g d an c)%Q).
    { unfold stored_rate. destruct (an_type an); try (eexists; split; reflexivity). destruct (nu_capacity_defined g d G c I) as (y & Y). rewrite Y. eexists. split; [reflexivity|]. rewrite (capacity_spec c y I O Y). reflexivity. }
    destruct B as (base & -> & BE). cbn [bind]. unfold to_air, carried_out. destruct (Z.ltb_spec (c_layer c) (d_nlayers d)) as [L|L].
    2:{ destruct (Z.leb_spec (d_nlayers d) (c_layer c)); [|lia]. intros [= <-]. rewrite BE. ring. }
    destruct (Z.leb_spec (d_nlayers d) (c_layer c)); [lia|]. assert (L0 : 0 <= c_layer c < d_nlayers d) by (destruct I; lia). pose proof (gt_types d g G).
    rewrite (arr_get_ok _ (c_layer c) LT_NONE) by lia. cbn [bind]. fold (type_of g (c_layer c)).
    assert (OUT : Qeq_bool (r_y0 (c_rect c) + c_width c) (d_chip_width d) = Qeq_bool (r_y1 (c_rect c)) (d_chip_width d)).
    { assert (EQ : (r_y0 (c_rect c) + c_width c == r_y1 (c_rect c))%Q) by (unfold c_width; ring). apply eq_true_iff_eq. rewrite !Qeq_bool_iff, EQ. reflexivity. }
    pose proof (material_pos c L0 PC) as MP. pose proof (height_pos c L0) as HP. rewrite OUT. set (outlet := Qeq_bool (r_y1 (c_rect c)) (d_chip_width d)).
    assert (FLOW : forall len, coolant_type (type_of g (c_layer c)) = true -> (len == c_length c \/ type_of g (c_layer c) = LT_CHANNEL_4RM)%Q ->
      (if c_channel c && outlet then do y <- nu_y g d len c 1 ; Ok (base + 2 * y)%Q else Ok base) = Ok x ->
      (x == stored_rate g d an c + 0 + (if c_channel c && outlet then match tg_channel g with Some ch => 2 * half_rate ch (cell_height d c) (c_length c) | None => 0 end else 0))%Q).
    { intros len T LE. destruct (c_channel c) eqn:CH; [|intros [= <-]; rewrite BE; cbn [andb]; ring]. destruct outlet; [|intros [= <-]; rewrite BE; cbn [andb]; ring]. cbn [andb].
      destruct (nu_y g d len c 1) as [y| |] eqn:Y; try discriminate. intros [= <-]. destruct (flow_spec c len 1%Q y) as (ch & C & E); [repeat split; auto; lia|exact Y|]. rewrite C.
      assert (HR : (half_rate ch (cell_height d c) len == half_rate ch (cell_height d c) (c_length c))%Q).
      { destruct LE as [LE|LE]; [unfold half_rate; destruct (ch_model ch); try reflexivity; rewrite LE; reflexivity|].
        destruct (place_4rm g d G (c_layer c) L0 LE) as (ch' & C' & M4 & _). assert (ch' = ch) by congruence. subst ch'. unfold half_rate. rewrite M4. reflexivity. }
      rewrite E, HR, BE. ring. }
    destruct (type_of g (c_layer c)) eqn:T; cbn [to_ambient coolant_type andb];
      try (intros [= <-]; rewrite BE; ring);
      try (intros E; apply (FLOW (c_length c)); [reflexivity|left; reflexivity|exact E]);
      try (intros E; apply (FLOW 0%Q); [reflexivity|right; reflexivity|exact E]).
    all: rewrite (nu_layer_in g d G) by exact L0; rewrite ?(mat_one c O); unfold with_top;
      destruct (solid_facts g d G (c_layer c) L0) as (F & _); [rewrite T; reflexivity|]; rewrite T in F; destruct (F eq_refl) as (_ & htc & tt & TOP);
      rewrite TOP; intros [= <-]; change (height d (c_layer c)) with (cell_height d c); unfold cell_material in *; rewrite T in *; cbn [is_source] in *; rewrite BE;
      pose proof (ph_top g d PH htc tt TOP) as HT; destruct MP as (_ & _ & _ & KZ).
    all: match goal with |- context [mt_kz ?m] => set (k := mt_kz m) in *; set (h := cell_height d c) in *; assert (N : (0 < h * htc + 2 * k)%Q) by nra; pose proof (Qpos_neq _ N); pose proof (Qpos_neq _ HT); pose proof (Qpos_neq _ KZ); field; repeat split; auto end.
    all: intros E; match goal with N : ~ (_ == 0)%Q |- _ => apply N; rewrite <- E; ring end.
  Qed.

  (** ** Connections of solids *)
  Lemma nu_x_solid : forall v c, solid_cell g d c -> one_material g c ->
      exists x, nu_x g d v c = Ok x /\ (x == mt_kx (cell_material g c) * (v * cell_height d c) / (c_length c / 2))%Q.
  Proof.
    intros v c (L & CH & T) O. unfold nu_x. destruct (Z.leb_spec (d_nlayers d) (c_layer c)); [lia|]. rewrite (nu_layer_in g d G) by exact L. rewrite (mat_one c O), CH. change (height d (c_layer c)) with (cell_height d c). unfold cell_material.
    destruct T as [T|T]; [destruct (type_of g (c_layer c)); try discriminate|rewrite T]; cbn [is_source]; eexists; (split; [reflexivity|unfold Qdiv; ring]).
  Qed.
  Lemma nu_y_solid : forall v c s, solid_cell g d c -> one_material g c ->
      exists x, nu_y g d v c s = Ok x /\ (x == mt_ky (cell_material g c) * (v * cell_height d c) / (c_width c / 2))%Q.
  Proof.
    intros v c s (L & CH & T) O. unfold nu_y. destruct (Z.leb_spec (d_nlayers d) (c_layer c)); [lia|]. rewrite (nu_layer_in g d G) by exact L. rewrite (mat_one c O), CH. change (height d (c_layer c)) with (cell_height d c). unfold cell_material.
    destruct T as [T|T]; [destruct (type_of g (c_layer c)); try discriminate|rewrite T]; cbn [is_source]; eexists; (split; [reflexivity|unfold Qdiv; ring]).
  Qed.
  Lemma nu_z_solid : forall v c up, solid_cell g d c -> one_material g c ->
      exists x, nu_z g d v c up = Ok x /\ (x == mt_kz (cell_material g c) * v / reach g d c)%Q.
  Proof.
    intros v c up (L & CH & T) O. unfold nu_z. destruct (Z.leb_spec (d_nlayers d) (c_layer c)); [lia|]. rewrite (nu_layer_in g d G) by exact L. rewrite (mat_one c O), CH. change (height d (c_layer c)) with (cell_height d c). unfold cell_material, reach.
    change (u32 (d_nlayers d - 1)) with (last_layer d). rewrite (last_layer_eq g d G). fold (at_end d c).
    destruct T as [T|T]; [|rewrite T; eexists; split; reflexivity]. pose proof (solid_facts g d G (c_layer c) L T) as (_ & F & _).
    destruct (type_of g (c_layer c)); try discriminate; cbn [is_source]; try (rewrite (F eq_refl), Z.eqb_refl; cbn [negb]); eexists; (split; [reflexivity|reflexivity]).
  Qed.
  Lemma reach_pos : forall c, 0 <= c_layer c < d_nlayers d -> (0 < reach g d c)%Q.
  Proof.
    intros c L. pose proof (height_pos c L) as H. assert (H2 : (0 < cell_height d c / 2)%Q) by (unfold Qdiv; change (/ 2)%Q with (1#2); lra). unfold reach. destruct (type_of g (c_layer c)), (at_end d c), (c_layer c =? 0); assumption.
  Qed.
  Lemma half_pos : forall x, (0 < x)%Q -> (0 < x / 2)%Q.
  Proof. intros x H. unfold Qdiv. change (/ 2)%Q with (1#2). lra. Qed.
  Lemma parallel_comp : forall x x' y y', (x == x')%Q -> (y == y')%Q -> (parallel_of x y == parallel_of x' y')%Q.
  Proof. intros x x' y y' A B. unfold parallel_of. rewrite A, B. reflexivity. Qed.
  Lemma series_sym : forall f da ka db kb, (in_series f da ka db kb == in_series f db kb da ka)%Q.
  Proof. intros. unfold in_series. rewrite (Qplus_comm (da / ka)). reflexivity. Qed.

  Lemma conduct_x : forall k a b x s, solid_cell g d a -> solid_cell g d b -> one_material g a -> one_material g b -> positive_cell g a -> positive_cell g b -> c_layer a = c_layer b ->
      k_dir k = 1 -> (0 < k_value k)%Q -> nu_conductance g d k b a = Ok (x, s) ->
      (s == 1)%Q /\ (x == - in_series (k_value k * cell_height d a) (c_length a / 2) (mt_kx (cell_material g a)) (c_length b / 2) (mt_kx (cell_material g b)))%Q.
  Proof.
    intros k a b x s SA SB OA OB PA PB LE D V. unfold nu_conductance. rewrite D. cbn [Z.eqb Pos.eqb]. destruct (nu_x_solid (k_value k) b SB OB) as (xb & -> & EB). destruct (nu_x_solid (k_value k) a SA OA) as (xa & -> & EA). cbn [bind]. intros [= <- <-]. split; [reflexivity|].
    rewrite (parallel_comp _ _ _ _ EB EA). assert (HE : cell_height d b = cell_height d a) by (unfold cell_height; rewrite LE; reflexivity). rewrite HE. destruct SA as (LA & _), SB as (LB & _). pose proof (height_pos a LA) as HP. pose proof (material_pos a LA PA) as (_ & KA & _). pose proof (material_pos b LB PB) as (_ & KB & _).
    rewrite series_eq; [rewrite series_sym; reflexivity| | | | |]; auto; [nra|apply half_pos, PB|apply half_pos, PA].
  Qed.
  Lemma conduct_y : forall k a b x s, solid_cell g d a -> solid_cell g d b -> one_material g a -> one_material g b -> positive_cell g a -> positive_cell g b -> c_layer a = c_layer b ->
      k_dir k = 2 -> (0 < k_value k)%Q -> nu_conductance g d k b a = Ok (x, s) ->
      (s == 1)%Q /\ (x == - in_series (k_value k * cell_height d a) (c_width a / 2) (mt_ky (cell_material g a)) (c_width b / 2) (mt_ky (cell_material g b)))%Q.
  Proof.
    intros k a b x s SA SB OA OB PA PB LE D V. unfold nu_conductance. rewrite D. cbn [Z.eqb Pos.eqb]. assert (CH : c_channel a = false) by (destruct SA as (_ & H & _); exact H). rewrite CH. set (sg := if Qlt_bool _ _ then _ else _). destruct (nu_y_solid (k_value k) b sg SB OB) as (xb & -> & EB). destruct (nu_y_solid (k_value k) a (- sg)%Q SA OA) as (xa & -> & EA). cbn [bind]. intros [= <- <-]. split; [reflexivity|].
    rewrite (parallel_comp _ _ _ _ EB EA). assert (HE : cell_height d b = cell_height d a) by (unfold cell_height; rewrite LE; reflexivity). rewrite HE. destruct SA as (LA & _), SB as (LB & _). pose proof (height_pos a LA) as HP. pose proof (material_pos a LA PA) as (_ & _ & KA & _). pose proof (material_pos b LB PB) as (_ & _ & KB & _).
    rewrite series_eq; [rewrite series_sym; reflexivity| | | | |]; auto; [nra|apply half_pos, PB|apply half_pos, PA].
  Qed.
  Lemma conduct_z : forall k a b x s, solid_cell g d a -> solid_cell g d b -> one_material g a -> one_material g b -> positive_cell g a -> positive_cell g b ->
      k_dir k = 0 -> (0 < k_value k)%Q -> nu_conductance g d k b a = Ok (x, s) ->
      (s == 1)%Q /\ (x == - in_series (k_value k) (reach g d a) (mt_kz (cell_material g a)) (reach g d b) (mt_kz (cell_material g b)))%Q.
  Proof.
    intros k a b x s SA SB OA OB PA PB D V. unfold nu_conductance. rewrite D. cbn [Z.eqb]. destruct (nu_z_solid (k_value k) b (c_layer b <? c_layer a) SB OB) as (xb & -> & EB). destruct (nu_z_solid (k_value k) a (negb (c_layer b <? c_layer a)) SA OA) as (xa & -> & EA). cbn [bind].
    destruct SA as (LA & _), SB as (LB & _). pose proof (reach_pos a LA) as RA. pose proof (reach_pos b LB) as RB. pose proof (material_pos a LA PA) as (_ & _ & _ & KA). pose proof (material_pos b LB PB) as (_ & _ & _ & KB).
    assert (PB' : (0 < xb)%Q) by (rewrite EB; unfold Qdiv; apply Qmult_lt_0_compat; [nra|apply Qinv_lt_0_compat, RB]).
    assert (PA' : (0 < xa)%Q) by (rewrite EA; unfold Qdiv; apply Qmult_lt_0_compat; [nra|apply Qinv_lt_0_compat, RA]).
    destruct (Qeq_bool xb 0) eqn:B0; [apply Qeq_bool_iff in B0; exfalso; apply (Qpos_neq _ PB' B0)|]. destruct (Qeq_bool xa 0) eqn:A0; [apply Qeq_bool_iff in A0; exfalso; apply (Qpos_neq _ PA' A0)|].
    intros [= <- <-]. split; [reflexivity|]. rewrite (parallel_comp _ _ _ _ EB EA), series_eq by auto. rewrite series_sym. reflexivity.
  Qed.

  (** ** Connections along the coolant *)
  Lemma conduct_flow : forall k a b x s, coolant_cell g d a -> coolant_cell g d b -> k_dir k = 2 -> nu_conductance g d k b a = Ok (x, s) ->
      exists ch, tg_channel g = Some ch /\ (s == -1)%Q /\
        (x == (if Qlt_bool (r_y0 (c_rect b)) (r_y0 (c_rect a)) then 1 else -1) * half_rate ch (cell_height d a) (k_value k))%Q.
  Proof.
    intros k a b x s CA CB D. unfold nu_conductance. rewrite D. cbn [Z.eqb Pos.eqb]. assert (CH : c_channel a = true) by (destruct CA as (_ & H & _); exact H). rewrite CH. set (sg := if Qlt_bool _ _ then _ else _).
    destruct (nu_y g d (k_value k) a sg) as [y| |] eqn:Y; try discriminate. cbn [bind]. intros [= <- <-]. destruct (flow_spec a (k_value k) sg y CA Y) as (ch & C & E). exists ch. repeat split; auto.
  Qed.
End Terms.
