(** * C52: an inspection point reads the layer of the element it names *)
From Coq Require Import ZArith List Bool QArith Lia Lqa.
From Verif Require Import Base QSum Dims DimsSpec DimsProofs Queue Floorplan FloorplanSpec FloorplanProofs FlpMatrixProofs TempProofs PropFloorplan.
From Verif Require Import Stack StackSpec StackProofs EmulateSpec PowerGrid Inspect PropInspect PropStack ReadProofs.
Import ListNotations.
Local Open Scope Z_scope.

(** An inspection point on the element number [i] of an accepted stack reads the
    source layer of a die, the layer itself, or the coolant layer of a channel
    ([named_layer], ReadProofs.v); that layer exists. *)
Theorem C52_layer : forall ch ds es hs i e,
    declared ch -> Z.of_nat (length (stack_heights ch ds)) < two32 ->
    parse_stack ch ds = Ok (Some (es, hs)) -> nth_error es i = Some e ->
    named_layer ch ds i (get_source_layer_offset e) /\ 0 <= get_source_layer_offset e < Z.of_nat (length hs).
Proof. exact source_layer_named. Qed.
Print Assumptions C52_layer.

(** The value asked for an element of a floorplan, from the values [v] of the
    cells of layer [l]. *)
Definition hottest d v l el x : Prop :=
  (exists r c, cell_of d el r c /\ x = value_at d v l r c) /\ forall r c, cell_of d el r c -> (value_at d v l r c <= x)%Q.
Definition coldest d v l el x : Prop :=
  (exists r c, cell_of d el r c /\ x = value_at d v l r c) /\ forall r c, cell_of d el r c -> (x <= value_at d v l r c)%Q.
Definition element_reading (d : dims) (v : list Q) (l : Z) (el : flpel) (q : output_quantity) (x : Q) : Prop :=
  match q with
  | OQ_MAXIMUM => hottest d v l el x
  | OQ_MINIMUM => coldest d v l el x
  | OQ_GRADIENT => exists hi lo, hottest d v l el hi /\ coldest d v l el lo /\ (x == hi - lo)%Q
  | OQ_AVERAGE => forall a, fe_ics el = [a] -> exists cells, NoDup cells /\ cells <> [] /\
      (forall r c, In (r, c) cells <-> cell_of d el r c) /\
      (x == qsum (map (fun rc => value_at d v l (fst rc) (snd rc)) cells) / qz (Z.of_nat (length cells)))%Q
  | OQ_NONE => False
  end.

Lemma element_average_exists : forall d e t, good_grid d -> good_element d e ->
    d_nrows d * d_ncols d <= Z.of_nat (length t) -> exists m, flpel_avg d e t = Ok m.
Proof.
  intros d e t G E Ht. pose proof (good_element_el d e G E) as GE. pose proof (ge_ics d e GE) as Hi. unfold flpel_avg.
  destruct (map_out_ok (fun a => icel_avg d a t) (fun _ _ => True) (fe_ics e)) as (l & -> & _).
  - eapply Forall_impl; [|exact Hi]. intros a I. destruct (icel_avg_ok d a t G I Ht) as (m & -> & _). exists m. split; [reflexivity|trivial].
  - cbn [bind]. eexists. reflexivity.
Qed.

Section Readings.
  Variables (d : dims) (ch : option channel) (ds : list stack_decl) (es : list stkel) (hs : list Q) (i : nat) (p : ipoint) (temps : list Q).
  Hypothesis (D : declared ch) (L : Z.of_nat (length (stack_heights ch ds)) < two32).
  Hypothesis P : parse_stack ch ds = Ok (Some (es, hs)).
  Hypothesis E : nth_error es i = Some (ip_stkel p).
  Hypothesis (A : accepted d) (G : good_grid d) (H : d_nlayers d = Z.of_nat (length hs)).
  Hypothesis T : d_nlayers d * d_nrows d * d_ncols d <= Z.of_nat (length temps).

  Lemma inside : 0 <= get_source_layer_offset (ip_stkel p) < d_nlayers d.
  Proof. rewrite H. apply (source_layer_named ch ds es hs i _ D L P E). Qed.
  Lemma named : named_layer ch ds i (get_source_layer_offset (ip_stkel p)).
  Proof. apply (source_layer_named ch ds es hs i _ D L P E). Qed.

  Lemma tcell_ok : forall sources q, ip_type p = OT_TCELL -> 0 <= ip_row p < d_nrows d -> 0 <= ip_col p < d_ncols d ->
      ip_values d temps sources p q = Ok (Some [value_at d temps (get_source_layer_offset (ip_stkel p)) (ip_row p) (ip_col p)]).
  Proof.
    intros sources q Y R C. unfold ip_values. rewrite Y.
    destruct (offset_pure d (get_source_layer_offset (ip_stkel p)) (ip_row p) (ip_col p) A) as (_ & O & B).
    { split; [exact inside|]. split; assumption. }
    rewrite (arr_get_ok temps _ 0%Q) by lia. cbn [bind]. rewrite O. reflexivity.
  Qed.
  Lemma reading_ok : forall g q el, good_element d el -> flpel_value q = Some g ->
      exists x, g d el (from_layer d (ip_stkel p) temps) = Ok x /\
        element_reading d temps (get_source_layer_offset (ip_stkel p)) el q x.
  Proof.
    intros g q el GE Q. pose proof (from_layer_fits d (ip_stkel p) temps A G inside T) as F.
    destruct (C34_element_extremes d el _ G GE F) as (hi & lo & E1 & E2 & (gr & E3 & E3') & M & (r1 & c1 & K1 & V1) & (r2 & c2 & K2 & V2)).
    assert (X : forall r c, cell_of d el r c -> temp d (from_layer d (ip_stkel p) temps) r c = value_at d temps (get_source_layer_offset (ip_stkel p)) r c).
    { intros r c (B1 & B2 & _). apply from_layer_temp; auto; [exact inside|lia|lia]. }
    assert (HI : hottest d temps (get_source_layer_offset (ip_stkel p)) el hi).
    { split; [exists r1, c1; split; [exact K1|]; rewrite <- X by exact K1; auto|]. intros r c K. rewrite <- X by exact K. apply M. exact K. }
    assert (LO : coldest d temps (get_source_layer_offset (ip_stkel p)) el lo).
    { split; [exists r2, c2; split; [exact K2|]; rewrite <- X by exact K2; auto|]. intros r c K. rewrite <- X by exact K. apply M. exact K. }
    destruct q; cbn in Q; try discriminate.
    - assert (g = flpel_avg) as -> by congruence. destruct (element_average_exists d el _ G GE F) as (m & Em).
      exists m. split; [exact Em|]. cbn [element_reading]. intros a Ha.
      destruct (C35_average_single_partial d el a _ G GE Ha F) as (m' & cells & Em' & ND & NE & IN & V).
      assert (m' = m) by congruence. subst m'. exists cells. split; [exact ND|]. split; [exact NE|]. split; [exact IN|].
      rewrite V. rewrite (map_ext_in _ (fun rc => value_at d temps (get_source_layer_offset (ip_stkel p)) (fst rc) (snd rc))); [reflexivity|].
      intros [r c] I. apply X. apply IN. exact I.
    - assert (g = flpel_max) as -> by congruence. exists hi. split; [exact E1|exact HI].
    - assert (g = flpel_min) as -> by congruence. exists lo. split; [exact E2|exact LO].
    - assert (g = flpel_gradient) as -> by congruence. exists gr. split; [exact E3|]. exists hi, lo. auto.
  Qed.
End Readings.

Theorem C52_tcell : forall d ch ds es hs i p temps sources q,
    declared ch -> Z.of_nat (length (stack_heights ch ds)) < two32 -> parse_stack ch ds = Ok (Some (es, hs)) ->
    nth_error es i = Some (ip_stkel p) -> accepted d -> good_grid d -> d_nlayers d = Z.of_nat (length hs) ->
    d_nlayers d * d_nrows d * d_ncols d <= Z.of_nat (length temps) ->
    ip_type p = OT_TCELL -> 0 <= ip_row p < d_nrows d -> 0 <= ip_col p < d_ncols d ->
    exists l, named_layer ch ds i l /\ 0 <= l < d_nlayers d /\
      ip_values d temps sources p q = Ok (Some [value_at d temps l (ip_row p) (ip_col p)]).
Proof.
  intros d ch ds es hs i p temps sources q D L P E A G H T Y R C. exists (get_source_layer_offset (ip_stkel p)).
  split; [apply (named ch ds es hs i p D L P E)|]. split; [apply (inside d ch ds es hs i p D L P E H)|].
  apply (tcell_ok d ch ds es hs i p temps D L P E A H T sources q Y R C).
Qed.
Print Assumptions C52_tcell.

(** Maps: one value per cell of the layer, row by row. *)
Theorem C52_maps : forall d ch ds es hs i p temps sources q v,
    declared ch -> Z.of_nat (length (stack_heights ch ds)) < two32 -> parse_stack ch ds = Ok (Some (es, hs)) ->
    nth_error es i = Some (ip_stkel p) -> accepted d -> good_grid d -> d_nlayers d = Z.of_nat (length hs) ->
    d_nlayers d * d_nrows d * d_ncols d <= Z.of_nat (length v) ->
    (ip_type p = OT_TMAP /\ v = temps \/ ip_type p = OT_PMAP /\ v = sources) ->
    exists l m, named_layer ch ds i l /\ 0 <= l < d_nlayers d /\ ip_values d temps sources p q = Ok (Some m) /\
      Z.of_nat (length m) = d_nrows d * d_ncols d /\
      forall r c, 0 <= r < d_nrows d -> 0 <= c < d_ncols d -> nth_error m (Z.to_nat (r * d_ncols d + c)) = Some (value_at d v l r c).
Proof.
  intros d ch ds es hs i p temps sources q v D L P E A G H T Y. exists (get_source_layer_offset (ip_stkel p)).
  pose proof (inside d ch ds es hs i p D L P E H) as B.
  destruct (layer_map_ok d (ip_stkel p) v A G B T) as (m & M & LM & V). exists m.
  split; [apply (named ch ds es hs i p D L P E)|]. split; [exact B|]. split; [|split; [exact LM|exact V]].
  unfold ip_values. destruct Y as [(Y & ->)|(Y & ->)]; rewrite Y, M; reflexivity.
Qed.
Print Assumptions C52_maps.

(** One element of a floorplan, and all of them, in the order of the floorplan
    of the die. *)
Theorem C52_element : forall d ch ds es hs i p temps sources q el,
    declared ch -> Z.of_nat (length (stack_heights ch ds)) < two32 -> parse_stack ch ds = Ok (Some (es, hs)) ->
    nth_error es i = Some (ip_stkel p) -> accepted d -> good_grid d -> d_nlayers d = Z.of_nat (length hs) ->
    d_nlayers d * d_nrows d * d_ncols d <= Z.of_nat (length temps) ->
    ip_type p = OT_TFLPEL -> ip_element p = Some el -> good_element d el -> q <> OQ_NONE ->
    exists l x, named_layer ch ds i l /\ 0 <= l < d_nlayers d /\
      ip_values d temps sources p q = Ok (Some [x]) /\ element_reading d temps l el q x.
Proof.
  intros d ch ds es hs i p temps sources q el D L P E A G H T Y EL GE NQ. exists (get_source_layer_offset (ip_stkel p)).
  destruct (flpel_value q) as [g|] eqn:Q; [|destruct q; discriminate || congruence].
  destruct (reading_ok d ch ds es hs i p temps D L P E A G H T g q el GE Q) as (x & X & R). exists x.
  split; [apply (named ch ds es hs i p D L P E)|]. split; [apply (inside d ch ds es hs i p D L P E H)|]. split; [|exact R].
  unfold ip_values. rewrite Y, Q, EL, X. reflexivity.
Qed.
Print Assumptions C52_element.

Theorem C52_floorplan : forall d ch ds es hs i p temps sources q id above source below f,
    declared ch -> Z.of_nat (length (stack_heights ch ds)) < two32 -> parse_stack ch ds = Ok (Some (es, hs)) ->
    nth_error es i = Some (ip_stkel p) -> accepted d -> good_grid d -> d_nlayers d = Z.of_nat (length hs) ->
    d_nlayers d * d_nrows d * d_ncols d <= Z.of_nat (length temps) ->
    ip_type p = OT_TFLP -> nth_error ds i = Some (DeclDie id above source below f) ->
    Forall (good_element d) (f_elements f) -> q <> OQ_NONE ->
    exists l xs, source_at ch ds l f /\ 0 <= l < d_nlayers d /\ ip_values d temps sources p q = Ok (Some xs) /\
      Forall2 (fun el x => element_reading d temps l el q x) (f_elements f) xs.
Proof.
  intros d ch ds es hs i p temps sources q id above source below f D L P E A G H T Y N F NQ. exists (get_source_layer_offset (ip_stkel p)).
  destruct (flpel_value q) as [g|] eqn:Q; [|destruct q; discriminate || congruence].
  pose proof (named ch ds es hs i p D L P E) as NM. unfold named_layer in NM. rewrite N in NM.
  destruct (elements_of ch ds es hs i _ D L P E) as (dc & N' & [o M] & _).
  assert (dc = DeclDie id above source below f) by congruence. subst dc. cbn [make_element_decl] in M.
  assert (K : se_kind (ip_stkel p) = SKDie (make_die above source below f)) by congruence.
  destruct (map_out_ok (fun el => g d el (from_layer d (ip_stkel p) temps))
             (fun el x => element_reading d temps (get_source_layer_offset (ip_stkel p)) el q x) (f_elements f)) as (xs & X & R).
  { eapply Forall_impl; [|exact F]. intros el GE. apply (reading_ok d ch ds es hs i p temps D L P E A G H T g q el GE Q). }
  exists xs. split; [exists i, id, above, source, below; auto|]. split; [apply (inside d ch ds es hs i p D L P E H)|]. split; [|exact R].
  unfold ip_values. rewrite Y, Q, K. unfold flp_all. cbn [make_die die_floorplan]. rewrite X. reflexivity.
Qed.
Print Assumptions C52_floorplan.

(** Outlet temperatures: the maximum and the minimum over the coolant cells of
    the last row of the coolant layer (and, see C36, of its first column). *)
Definition outlet_column (c : channel) (d : dims) (k : Z) : Prop :=
  k = 0 \/ 0 <= k < d_ncols d /\ is_channel_column (ch_model c) k = true.
Theorem C52_outlet : forall d c ds es hs i p temps sources q id,
    declared (Some c) -> Z.of_nat (length (stack_heights (Some c) ds)) < two32 -> parse_stack (Some c) ds = Ok (Some (es, hs)) ->
    nth_error es i = Some (ip_stkel p) -> accepted d -> good_grid d -> d_nlayers d = Z.of_nat (length hs) ->
    d_nlayers d * d_nrows d * d_ncols d <= Z.of_nat (length temps) ->
    ip_type p = OT_TCOOLANT -> nth_error ds i = Some (DeclChannel id) -> q = OQ_MAXIMUM \/ q = OQ_MINIMUM ->
    exists l x, named_layer (Some c) ds i l /\ 0 <= l < d_nlayers d /\ ip_values d temps sources p q = Ok (Some [x]) /\
      let at_outlet k := value_at d temps l (d_nrows d - 1) k in
      (exists k, outlet_column c d k /\ x = at_outlet k) /\
      (q = OQ_MAXIMUM -> forall k, outlet_column c d k -> (at_outlet k <= x)%Q) /\
      (q = OQ_MINIMUM -> forall k, outlet_column c d k -> (x <= at_outlet k)%Q).
Proof.
  intros d c ds es hs i p temps sources q id D L P E A G H T Y N HQ. exists (get_source_layer_offset (ip_stkel p)).
  pose proof (named (Some c) ds es hs i p D L P E) as NM. pose proof (inside d (Some c) ds es hs i p D L P E H) as B.
  destruct (elements_of (Some c) ds es hs i _ D L P E) as (dc & N' & [o M] & _).
  assert (dc = DeclChannel id) by congruence. subst dc. cbn [make_element_decl] in M.
  assert (K : se_kind (ip_stkel p) = SKChannel c) by congruence.
  pose proof (from_layer_fits d (ip_stkel p) temps A G B T) as F. pose proof G as (HR & HC & _).
  destruct (C36_outlet_partial c d _ G F) as (hi & lo & X1 & X2 & _ & (I1 & M1) & (I2 & M2) & _).
  set (l := get_source_layer_offset (ip_stkel p)) in *. set (t := from_layer d (ip_stkel p) temps) in *.
  assert (J : forall x, In x (west_wall d t :: coolant_outlet c d t) <-> exists k, outlet_column c d k /\ x = value_at d temps l (d_nrows d - 1) k).
  { assert (VA : forall k, 0 <= k -> nth (Z.to_nat ((d_nrows d - 1) * d_ncols d + k)) t 0%Q = value_at d temps l (d_nrows d - 1) k).
    { intros k Hk. apply (from_layer_temp d (ip_stkel p) temps A G B (d_nrows d - 1) k); lia. }
    intro x. cbn [In]. unfold coolant_outlet. rewrite in_map_iff. split.
    - intros [<-|(k & <- & Hk)].
      + exists 0. split; [left; reflexivity|]. rewrite <- VA by lia. unfold west_wall. f_equal. f_equal. lia.
      + apply filter_In in Hk. destruct Hk as [Hk CC]. apply in_zrange in Hk. exists k. split; [right; split; [lia|exact CC]|]. apply VA. lia.
    - intros (k & [->|[Hk CC]] & ->).
      + left. rewrite <- VA by lia. unfold west_wall. f_equal. f_equal. lia.
      + right. exists k. split; [apply VA; lia|]. apply filter_In. split; [apply in_zrange; lia|exact CC]. }
  destruct HQ as [-> | ->]; [exists hi|exists lo]; (split; [exact NM|]); (split; [exact B|]); cbn zeta.
  - split; [unfold ip_values; rewrite Y, K; cbn [outlet_value]; fold t; rewrite X1; reflexivity|].
    split; [apply J; exact I1|]. split; [|discriminate]. intros _ k Hk. apply M1. apply J. exists k. auto.
  - split; [unfold ip_values; rewrite Y, K; cbn [outlet_value]; fold t; rewrite X2; reflexivity|].
    split; [apply J; exact I2|]. split; [discriminate|]. intros _ k Hk. apply M2. apply J. exists k. auto.
Qed.
Print Assumptions C52_outlet.

(** A stack of two dies around a 2RM channel: the upper die is read at layer 10,
    the channel at layer 6, the lower die at layer 2. *)
Example C52_witness : exists c es hs d,
    declare_channel w2rm 10000 21 = Ok c /\ declared (Some c) /\
    parse_stack (Some c) [wdie 1; DeclChannel [2]; wdie 3] = Ok (Some (es, hs)) /\
    map get_source_layer_offset es = [10; 6; 2] /\
    parse_dims 20 10 5 5 (Uniform 5) hs 0 = Ok (Some d) /\ accepted d /\ good_grid d /\ d_nlayers d = Z.of_nat (length hs).
Proof.
  eexists. eexists. eexists. eexists. split; [vm_compute; reflexivity|]. split; [exists w2rm, 10000%Q, 21; vm_compute; reflexivity|].
  split; [vm_compute; reflexivity|]. split; [reflexivity|]. split; [vm_compute; reflexivity|].
  split; [constructor; cbn; unfold two32; lia|]. split; [|reflexivity].
  unfold good_grid. cbn. unfold two32. repeat split; try lia; try reflexivity. left. repeat split; reflexivity.
Qed.
