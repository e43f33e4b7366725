(** * The columns of the matrix as lists of links between cells *)
From Coq Require Import ZArith List Bool QArith Lia Lqa.
From Verif Require Import Base QSum Dims DimsSpec DimsProofs Floorplan FloorplanSpec FloorplanProofs Stack StackSpec PowerGrid Emulate EmulateSpec Conduct Matrix MatrixSpec CellProofs.
Import ListNotations.
Local Open Scope Z_scope.

Inductive node := Cell (l r c : Z) | Spr (r c : Z).
Inductive flow := Cond (x : Q) | Conv (x : Q).
Record links := mkLinks { k_before : list (node * flow); k_base : Q; k_extra : Q; k_after : list (node * flow) }.
Definition all_links (k : links) : list (node * flow) := k_before k ++ k_after k.
Definition pw {A} (b : bool) (x : A) : list A := if b then [x] else [].
Definition guarded (x y : Q) : Q := if Qeq_bool y 0 then x else parallel x y.

Lemma map_out_map : forall {A B} (f : A -> outcome B) (h : A -> B) l,
    (forall x, In x l -> f x = Ok (h x)) -> map_out f l = Ok (map h l).
Proof.
  intros A B f h l. induction l as [|a l IH]; intros H; [reflexivity|]. cbn [map_out map].
  rewrite (H a (or_introl eq_refl)). cbn [bind]. rewrite IH by (intros; apply H; right; assumption). reflexivity.
Qed.

Section Nodes.
  Variables (g : tgrid) (d : dims) (an : analysis).
  Hypothesis G : good_tgrid d g.

  Notation NL := (d_nlayers d).
  Notation NR := (d_nrows d).
  Notation NC := (d_ncols d).

  Definition spr : spreader := match tg_top g with Some (SinkPluggable s _ _) => s | _ => mkSpreader 0 0 0 0 0 0 end.
  Definition sp_h : Q := match tg_top g with Some (SinkPluggable _ h _) => h | _ => 0%Q end.
  Definition sp_m : material := match tg_top g with Some (SinkPluggable _ _ m) => m | _ => mkMaterial 0 0 0 0 end.
  Notation SR := (s_nrows spr).
  Notation SC := (s_ncols spr).

  Definition valid (n : node) : Prop :=
    match n with
    | Cell l r c => in_grid d l r c
    | Spr r c => has_spreader (tg_top g) /\ 0 <= r < SR /\ 0 <= c < SC
    end.
  Definition idx (n : node) : Z :=
    match n with
    | Cell l r c => (l * NR + r) * NC + c
    | Spr r c => NL * NR * NC + r * SC + c
    end.

  Definition real (p : node * flow) : item :=
    match snd p with Cond x => conduct (idx (fst p)) x | Conv x => convect (idx (fst p)) x end.
  Definition realise (n : node) (k : links) : column :=
    mkColumn (map real (k_before k)) (idx n) (k_base k) (k_extra k) (map real (k_after k)).

  Definition cT l r c := val (get_conductance_top g d l r c).
  Definition cB l r c := val (get_conductance_bottom g d l r c).
  Definition cN l r c := val (get_conductance_north g d l r c).
  Definition cS l r c := val (get_conductance_south g d l r c).
  Definition cE l r c := val (get_conductance_east g d l r c).
  Definition cW l r c := val (get_conductance_west g d l r c).
  Definition capn (x : Q) : Q := match an_type an with AT_TRANSIENT => (x / an_step an)%Q | _ => 0%Q end.
  Definition cell_cap l r c := val (get_capacity g d l r c).
  Definition sink_of l r c : Q :=
    if to_ambient (type_of g l) then cT l r c else if to_pcb (type_of g l) then cB l r c else 0%Q.
  Definition tb : Q := spreader_top_bottom spr sp_h sp_m.
  Definition lns : Q := parallel (spreader_north_south spr sp_h sp_m) (spreader_north_south spr sp_h sp_m).
  Definition lew : Q := parallel (spreader_east_west spr sp_h sp_m) (spreader_east_west spr sp_h sp_m).

  Definition solid_links (l r c : Z) : links :=
    mkLinks
      (pw (negb (l =? 0)) (Cell (l - 1) r c, Cond (guarded (cB l r c) (cT (l - 1) r c))) ++
       pw (negb (r =? 0)) (Cell l (r - 1) c, Cond (parallel (cS l r c) (cN l (r - 1) c))) ++
       pw (negb (c =? 0)) (Cell l r (c - 1), Cond (parallel (cW l r c) (cE l r (c - 1)))))
      (capn (cell_cap l r c) + sink_of l r c) 0
      (pw (negb (c =? NC - 1)) (Cell l r (c + 1), Cond (parallel (cE l r c) (cW l r (c + 1)))) ++
       pw (negb (r =? NR - 1)) (Cell l (r + 1) c, Cond (parallel (cN l r c) (cS l (r + 1) c))) ++
       pw (negb (l =? NL - 1)) (Cell (l + 1) r c, Cond (guarded (cT l r c) (cB (l + 1) r c))) ++
       pw (to_spreader (type_of g l)) (Spr (r + s_border_rows spr) (c + s_border_cols spr), Cond (parallel tb (cT l r c)))).

  Definition inout (l r c : Z) : Q := if (r =? 0) || (r =? NR - 1) then cN l r c else 0%Q.
  Definition liquid4_links (l r c : Z) : links :=
    mkLinks
      (pw (negb (l =? 0)) (Cell (l - 1) r c, Cond (parallel (cB l r c) (cT (l - 1) r c))) ++
       pw (negb (r =? 0)) (Cell l (r - 1) c, Conv (cN l r c)) ++
       pw (negb (c =? 0)) (Cell l r (c - 1), Cond (parallel (cW l r c) (cE l r (c - 1)))))
      (capn (cell_cap l r c)) (inout l r c)
      (pw (negb (c =? NC - 1)) (Cell l r (c + 1), Cond (parallel (cE l r c) (cW l r (c + 1)))) ++
       pw (negb (r =? NR - 1)) (Cell l (r + 1) c, Conv (cS l r c)) ++
       pw (negb (l =? NL - 1)) (Cell (l + 1) r c, Cond (parallel (cT l r c) (cB (l + 1) r c)))).
  Definition liquid2_links (l r c : Z) : links :=
    mkLinks
      ((Cell (l - 2) r c, Cond (cB l r c)) :: pw (negb (r =? 0)) (Cell l (r - 1) c, Conv (cN l r c)))
      (capn (cell_cap l r c)) (inout l r c)
      (pw (negb (r =? NR - 1)) (Cell l (r + 1) c, Conv (cS l r c)) ++ [(Cell (l + 1) r c, Cond (cT l r c))]).
  Definition bottom_links (l r c : Z) : links :=
    mkLinks [(Cell (l - 1) r c, Cond (cT (l - 1) r c))] (capn (cell_cap l r c)) 0
            [(Cell (l + 1) r c, Cond (cT (l + 1) r c)); (Cell (l + 2) r c, Cond (cB (l + 2) r c))].
  Definition top_links (l r c : Z) : links :=
    mkLinks [(Cell (l - 2) r c, Cond (cT (l - 2) r c)); (Cell (l - 1) r c, Cond (cT (l - 1) r c))]
            (capn (cell_cap l r c)) 0 [(Cell (l + 1) r c, Cond (cB (l + 1) r c))].
  Definition chan_2rm : bool := match tg_channel g with Some ch => is_2rm (ch_model ch) | None => false end.
  Definition vwall_links (l r c : Z) : links :=
    mkLinks ((Cell (l - 1) r c, Cond (cB l r c)) ::
             pw (chan_2rm && negb (r =? 0)) (Cell l (r - 1) c, Cond (parallel (cS l r c) (cN l r c))))
            (capn (cell_cap l r c)) 0
            (pw (chan_2rm && negb (r =? NR - 1)) (Cell l (r + 1) c, Cond (parallel (cN l r c) (cS l r c))) ++
             [(Cell (l + 2) r c, Cond (cT l r c))]).
  Definition under (r c : Z) : bool := has_layer_underneath d spr r c.
  Definition spreader_links (r c : Z) : links :=
    mkLinks
      (pw (under r c) (Cell (NL - 1) (r - s_border_rows spr) (c - s_border_cols spr),
                       Cond (parallel tb (cT (NL - 1) (r - s_border_rows spr) (c - s_border_cols spr)))) ++
       pw (negb (r =? 0)) (Spr (r - 1) c, Cond lns) ++ pw (negb (c =? 0)) (Spr r (c - 1), Cond lew))
      (capn (spreader_capacity spr sp_h sp_m)) 0
      (pw (negb (c =? SC - 1)) (Spr r (c + 1), Cond lew) ++ pw (negb (r =? SR - 1)) (Spr (r + 1) c, Cond lns)).

  Definition links_of (n : node) : links :=
    match n with
    | Cell l r c =>
      match type_of g l with
      | LT_CHANNEL_4RM => if Z.odd c then liquid4_links l r c else solid_links l r c
      | LT_CHANNEL_2RM | LT_PINFINS_INLINE | LT_PINFINS_STAGGERED => liquid2_links l r c
      | LT_VWALL_CHANNEL | LT_VWALL_PINFINS => vwall_links l r c
      | LT_TOP_WALL => top_links l r c
      | LT_BOTTOM_WALL => bottom_links l r c
      | _ => solid_links l r c
      end
    | Spr r c => spreader_links r c
    end.

  (** ** The model computes these links *)
  Lemma off_idx : forall l r c, in_grid d l r c -> offset_in_stack d l r c = idx (Cell l r c).
  Proof. intros l r c I. destruct (offset_pure d l r c (gt_accepted d g G) I) as (_ & E & _). exact E. Qed.

  Lemma when_ok : forall b m x, (b = true -> m = Ok (real x)) -> when b m = Ok (map real (pw b x)).
  Proof. intros b m x H. unfold when, pw. destruct b; [|reflexivity]. rewrite H by reflexivity. reflexivity. Qed.
  Lemma conduct_ok : forall i m n x, i = idx n -> m = Ok x -> conduct_at i m = Ok (real (n, Cond x)).
  Proof. intros i m n x -> ->. reflexivity. Qed.
  Lemma convect_ok : forall i m n x, i = idx n -> m = Ok x -> convect_at i m = Ok (real (n, Conv x)).
  Proof. intros i m n x -> ->. reflexivity. Qed.
  Lemma series_ok : forall a b x y, a = Ok x -> b = Ok y -> series a b = Ok (parallel x y).
  Proof. intros a b x y -> ->. reflexivity. Qed.
  Lemma guarded_ok : forall a b x y, a = Ok x -> b = Ok y -> series_guarded a b = Ok (guarded x y).
  Proof. intros a b x y -> ->. reflexivity. Qed.
  Lemma capacitive_ok : forall m x, m = Ok x -> capacitive an m = Ok (capn x).
  Proof. intros m x ->. unfold capacitive, capn. destruct (an_type an); reflexivity. Qed.

  Lemma type_get : forall l, 0 <= l < NL -> arr_get (tg_types g) l = Ok (type_of g l).
  Proof. intros l L. apply arr_get_ok. rewrite (gt_types d g G). assumption. Qed.

  Ltac rng := unfold in_grid in *; lia.
  Ltac ok_value :=
    first [ apply (top_ok g d G); rng | apply (bottom_ok g d G); rng | apply (ns_ok g d G); rng
          | apply (ew_ok g d G); rng | apply (capacity_ok g d G); rng ].
  Ltac ok_offset := first [apply off_idx; rng | rewrite u32_id by rng; apply off_idx; rng].
  Ltac neq := repeat match goal with
    | H : negb _ = true |- _ => apply negb_true_iff in H
    | H : (_ && _)%bool = true |- _ => apply andb_true_iff in H; destruct H
    | H : (_ =? _) = false |- _ => apply Z.eqb_neq in H end.

  Lemma sink_ok : forall l r c, in_grid d l r c -> sink_term g d (type_of g l) l r c = Ok (sink_of l r c).
  Proof.
    intros l r c I. unfold sink_term, sink_of. destruct (type_of g l); cbn [to_ambient to_pcb]; try reflexivity; ok_value.
  Qed.

  Lemma spr_link_ok : forall l r c, in_grid d l r c ->
      spreader_link g d (type_of g l) l r c =
      Ok (map real (pw (to_spreader (type_of g l)) (Spr (r + s_border_rows spr) (c + s_border_cols spr), Cond (parallel tb (cT l r c))))).
  Proof.
    intros l r c I.
    assert (H : to_spreader (type_of g l) = true -> exists s h m, tg_top g = Some (SinkPluggable s h m)).
    { intros T. destruct (solid_facts g d G l ltac:(rng)) as (_ & B & _).
      - destruct (type_of g l); try discriminate T; reflexivity.
      - rewrite (B T) in T. apply (gt_linked d g G) in T. destruct T as (s & h & m & E). eauto. }
    unfold spreader_link. destruct (type_of g l) eqn:T; cbn [to_spreader] in H; try reflexivity.
    - destruct (H eq_refl) as (s & h & m & E). rewrite E. cbn [to_spreader pw map].
      pose proof (gt_spreader d g G s h m E) as GS.
      destruct (spreader_roundtrip d s l r c (gt_accepted d g G) GS I) as (E1 & _). cbv zeta in E1. rewrite E1.
      destruct (spreader_offset_pure d s (r + s_border_rows s) (c + s_border_cols s) (gt_accepted d g G) GS) as (E2 & _);
        [destruct GS; rng|destruct GS; rng|].
      rewrite E2. rewrite (top_ok g d G) by rng. cbn [series bind conduct_at]. unfold tb, spr, sp_h, sp_m, real, idx, cT, spr. rewrite E. reflexivity.
    - destruct (H eq_refl) as (s & h & m & E). rewrite E. cbn [to_spreader pw map].
      pose proof (gt_spreader d g G s h m E) as GS.
      destruct (spreader_roundtrip d s l r c (gt_accepted d g G) GS I) as (E1 & _). cbv zeta in E1. rewrite E1.
      destruct (spreader_offset_pure d s (r + s_border_rows s) (c + s_border_cols s) (gt_accepted d g G) GS) as (E2 & _);
        [destruct GS; rng|destruct GS; rng|].
      rewrite E2. rewrite (top_ok g d G) by rng. cbn [series bind conduct_at]. unfold tb, spr, sp_h, sp_m, real, idx, cT, spr. rewrite E. reflexivity.
  Qed.

  Ltac ok_item := intros; neq;
    first [ apply conduct_ok; [ok_offset|first [apply series_ok; ok_value | apply guarded_ok; ok_value | ok_value]]
          | apply convect_ok; [ok_offset|ok_value] ].

  Lemma solid_ok : forall l r c, in_grid d l r c -> add_solid_column g d an l r c = Ok (realise (Cell l r c) (solid_links l r c)).
  Proof.
    intros l r c I. unfold add_solid_column. rewrite (last_layer_eq g d G), (last_row_eq g d G), (last_column_eq g d G).
    rewrite type_get by rng. cbn [bind].
    erewrite when_ok by ok_item. cbn [bind]. erewrite when_ok by ok_item. cbn [bind]. erewrite when_ok by ok_item. cbn [bind].
    erewrite capacitive_ok by ok_value. cbn [bind]. rewrite sink_ok by assumption. cbn [bind].
    erewrite when_ok by ok_item. cbn [bind]. erewrite when_ok by ok_item. cbn [bind]. erewrite when_ok by ok_item. cbn [bind].
    rewrite spr_link_ok by assumption. cbn [bind]. unfold realise, solid_links. cbn [k_before k_base k_extra k_after].
    rewrite !map_app, off_idx by assumption. reflexivity.
  Qed.

  Lemma inout_ok : forall l r c, in_grid d l r c -> inlet_outlet g d l r c = Ok (inout l r c).
  Proof.
    intros l r c I. unfold inlet_outlet, inout. rewrite (last_row_eq g d G). destruct ((r =? 0) || (r =? NR - 1)); [ok_value|reflexivity].
  Qed.
  Lemma liquid4_ok : forall l r c, in_grid d l r c -> add_liquid_column_4rm g d an l r c = Ok (realise (Cell l r c) (liquid4_links l r c)).
  Proof.
    intros l r c I. unfold add_liquid_column_4rm. rewrite (last_layer_eq g d G), (last_row_eq g d G), (last_column_eq g d G).
    erewrite when_ok by ok_item. cbn [bind]. erewrite when_ok by ok_item. cbn [bind]. erewrite when_ok by ok_item. cbn [bind].
    erewrite capacitive_ok by ok_value. cbn [bind].
    erewrite when_ok by ok_item. cbn [bind]. erewrite when_ok by ok_item. cbn [bind]. erewrite when_ok by ok_item. cbn [bind].
    rewrite inout_ok by assumption. cbn [bind]. unfold realise, liquid4_links. cbn [k_before k_base k_extra k_after].
    rewrite !map_app, off_idx by assumption. reflexivity.
  Qed.
  Lemma neq_eqb : forall a b, a <> b -> negb (a =? b) = true.
  Proof. intros a b H. apply negb_true_iff. apply Z.eqb_neq. assumption. Qed.
  Lemma liquid2_ok : forall l r c, in_grid d l r c -> 2 <= l < NL - 1 ->
      add_liquid_column_2rm g d an l r c = Ok (realise (Cell l r c) (liquid2_links l r c)).
  Proof.
    intros l r c I LL. pose proof (layers_bound g d G) as LB.
    unfold add_liquid_column_2rm. rewrite (last_layer_eq g d G), (last_row_eq g d G). rewrite (neq_eqb l 0), (neq_eqb l (NL - 1)) by lia.
    erewrite when_ok by ok_item. cbn [bind]. erewrite when_ok by ok_item. cbn [bind].
    erewrite capacitive_ok by ok_value. cbn [bind].
    erewrite when_ok by ok_item. cbn [bind]. erewrite when_ok by ok_item. cbn [bind].
    rewrite inout_ok by assumption. cbn [bind]. unfold realise, liquid2_links. cbn [k_before k_base k_extra k_after].
    rewrite !map_app, off_idx by assumption. reflexivity.
  Qed.
  Lemma bottom_wall_ok : forall l r c, in_grid d l r c -> 0 < l -> l + 2 < NL ->
      add_bottom_wall_column_2rm g d an l r c = Ok (realise (Cell l r c) (bottom_links l r c)).
  Proof.
    intros l r c I L1 L2. pose proof (layers_bound g d G) as LB.
    unfold add_bottom_wall_column_2rm. rewrite (last_layer_eq g d G). rewrite (neq_eqb l 0), (neq_eqb l (NL - 1)) by lia. rewrite (u32_id (l + 2)) by lia.
    erewrite when_ok by ok_item. cbn [bind].
    erewrite capacitive_ok by ok_value. cbn [bind].
    erewrite when_ok by ok_item. cbn [bind]. erewrite when_ok by ok_item. cbn [bind].
    unfold realise, bottom_links. cbn [k_before k_base k_extra k_after]. rewrite off_idx by assumption. reflexivity.
  Qed.
  Lemma top_wall_ok : forall l r c, in_grid d l r c -> 2 <= l -> l + 1 < NL ->
      add_top_wall_column_2rm g d an l r c = Ok (realise (Cell l r c) (top_links l r c)).
  Proof.
    intros l r c I L1 L2. pose proof (layers_bound g d G) as LB.
    unfold add_top_wall_column_2rm. rewrite (last_layer_eq g d G). rewrite (neq_eqb l 0), (neq_eqb l (NL - 1)) by lia. rewrite (u32_id (l - 2)) by lia.
    erewrite when_ok by ok_item. cbn [bind]. erewrite when_ok by ok_item. cbn [bind].
    erewrite capacitive_ok by ok_value. cbn [bind].
    erewrite when_ok by ok_item. cbn [bind].
    unfold realise, top_links. cbn [k_before k_base k_extra k_after]. rewrite off_idx by assumption. reflexivity.
  Qed.
  Lemma vwall_ok : forall ch l r c, tg_channel g = Some ch -> in_grid d l r c -> 0 < l -> l + 2 < NL ->
      add_virtual_wall_column_2rm g d an (ch_model ch) l r c = Ok (realise (Cell l r c) (vwall_links l r c)).
  Proof.
    intros ch l r c E I L1 L2. pose proof (layers_bound g d G) as LB.
    assert (E2 : is_2rm (ch_model ch) = chan_2rm) by (unfold chan_2rm; rewrite E; reflexivity).
    unfold add_virtual_wall_column_2rm. rewrite E2. rewrite (last_layer_eq g d G), (last_row_eq g d G). rewrite (neq_eqb l 0), (neq_eqb l (NL - 1)) by lia. rewrite (u32_id (l + 2)) by lia.
    erewrite when_ok by ok_item. cbn [bind]. erewrite when_ok by ok_item. cbn [bind].
    erewrite capacitive_ok by ok_value. cbn [bind].
    erewrite when_ok by ok_item. cbn [bind]. erewrite when_ok by ok_item. cbn [bind].
    unfold realise, vwall_links. cbn [k_before k_base k_extra k_after]. rewrite !map_app, off_idx by assumption. reflexivity.
  Qed.

  Lemma column_ok : forall l r c, in_grid d l r c ->
      add_column g d an (type_of g l) l r c = Ok (realise (Cell l r c) (links_of (Cell l r c))).
  Proof.
    intros l r c I. assert (L : 0 <= l < NL) by rng. unfold add_column, links_of. destruct (type_of g l) eqn:T; try (apply solid_ok; assumption).
    - destruct (place_4rm g d G l L T) as (ch & E & M & B). rewrite E, M. cbn [is_channel_column].
      destruct (Z.odd c); [apply liquid4_ok|apply solid_ok]; assumption.
    - destruct (place_cool g d G l L) as (ch & F & _); [rewrite T; reflexivity|rewrite T; discriminate|].
      destruct F as (_ & _ & _ & F1 & F2 & _). apply liquid2_ok; [assumption|lia].
    - destruct (place_cool g d G l L) as (ch & F & _); [rewrite T; reflexivity|rewrite T; discriminate|].
      destruct F as (_ & _ & _ & F1 & F2 & _). apply liquid2_ok; [assumption|lia].
    - destruct (place_cool g d G l L) as (ch & F & _); [rewrite T; reflexivity|rewrite T; discriminate|].
      destruct F as (_ & _ & _ & F1 & F2 & _). apply liquid2_ok; [assumption|lia].
    - destruct (place_vwall g d G l L) as (ch & F & _); [auto|]. destruct F as (E & _ & _ & F1 & F2 & _). rewrite E. apply vwall_ok; [assumption|assumption|lia|lia].
    - destruct (place_vwall g d G l L) as (ch & F & _); [auto|]. destruct F as (E & _ & _ & F1 & F2 & _). rewrite E. apply vwall_ok; [assumption|assumption|lia|lia].
    - destruct (place_top g d G l L T) as (ch & F). destruct F as (E & _ & _ & F1 & F2 & _). apply top_wall_ok; [assumption|lia|lia].
    - destruct (place_bottom g d G l L T) as (ch & F). destruct F as (E & _ & _ & F1 & F2 & _). apply bottom_wall_ok; [assumption|lia|lia].
  Qed.

  Lemma spr_good : has_spreader (tg_top g) -> good_spreader d spr /\ tg_top g = Some (SinkPluggable spr sp_h sp_m).
  Proof.
    intros (s & h & m & E). pose proof (gt_spreader d g G s h m E). unfold spr, sp_h, sp_m. rewrite E. auto.
  Qed.
  Lemma under_coords : has_spreader (tg_top g) -> forall r c, 0 <= r < SR -> 0 <= c < SC -> under r c = true ->
      0 <= r - s_border_rows spr < NR /\ 0 <= c - s_border_cols spr < NC.
  Proof.
    intros H r c R C U. destruct (spr_good H) as (GS & _).
    apply (underneath_iff d spr r c (gt_accepted d g G) GS R C) in U. destruct U as (r0 & c0 & ? & ? & -> & ->). lia.
  Qed.

  Lemma spreader_ok : forall r c, valid (Spr r c) ->
      add_spreader_column g d an spr sp_h sp_m r c = Ok (realise (Spr r c) (links_of (Spr r c))).
  Proof.
    intros r c (H & R & C). destruct (spr_good H) as (GS & E). pose proof GS as [G1 G2 G3 G4 G5 G6 G7]. pose proof (gt_one d g G) as N1.
    assert (O : forall r c, 0 <= r < SR -> 0 <= c < SC -> spreader_offset d spr r c = idx (Spr r c)).
    { intros r0 c0 R0 C0. destruct (spreader_offset_pure d spr r0 c0 (gt_accepted d g G) GS R0 C0) as (O & _). exact O. }
    unfold add_spreader_column. cbv zeta. rewrite (u32_id (SC - 1)), (u32_id (SR - 1)) by lia. fold (under r c).
    rewrite (when_ok (under r c) _ (Cell (NL - 1) (r - s_border_rows spr) (c - s_border_cols spr),
                       Cond (parallel tb (cT (NL - 1) (r - s_border_rows spr) (c - s_border_cols spr))))).
    2:{ intros U. destruct (under_coords H r c R C U) as (R1 & C1).
        rewrite !u32_id by lia. rewrite (last_layer_eq g d G).
        unfold layer_offset_from_spreader. unfold under in U. rewrite U. cbn [bind].
        apply conduct_ok; [rewrite !u32_id by lia; apply off_idx; unfold in_grid; lia|].
        apply series_ok; [reflexivity|]. apply (top_ok g d G). lia. }
    cbn [bind].
    erewrite when_ok by (intros; neq; apply conduct_ok; [apply O; lia|reflexivity]). cbn [bind].
    erewrite when_ok by (intros; neq; apply conduct_ok; [apply O; lia|reflexivity]). cbn [bind].
    erewrite capacitive_ok by reflexivity. cbn [bind].
    erewrite when_ok by (intros; neq; apply conduct_ok; [apply O; lia|reflexivity]). cbn [bind].
    erewrite when_ok by (intros; neq; apply conduct_ok; [apply O; lia|reflexivity]). cbn [bind].
    unfold realise, links_of, spreader_links. cbn [k_before k_base k_extra k_after].
    rewrite !map_app, O by assumption. reflexivity.
  Qed.
End Nodes.
