(** * Which layer an inspection point reads: proofs *)
From Coq Require Import ZArith List Bool QArith Lia Lqa.
From Verif Require Import Base QSum Dims DimsSpec DimsProofs Queue Floorplan FloorplanSpec FloorplanProofs FlpMatrixProofs TempProofs.
From Verif Require Import Stack StackSpec StackProofs EmulateSpec PowerGrid Inspect.
Import ListNotations.
Local Open Scope Z_scope.

(** The layer that the declaration number [i] of the file stands for in the
    results: the source layer of a die, the layer itself, the layer of a channel
    where the coolant flows. *)
Definition named_layer (ch : option channel) (ds : list stack_decl) (i : nat) (l : Z) : Prop :=
  match nth_error ds i with
  | Some (DeclDie _ _ _ below _) => l = layers_below ch ds i + Z.of_nat (length below)
  | Some (DeclLayer _ _) => l = layers_below ch ds i
  | Some (DeclChannel _) =>
    exists c j t, ch = Some c /\ nth_error (expected_channel_types (ch_model c)) j = Some t /\
      is_coolant t = true /\ l = layers_below ch ds i + Z.of_nat j
  | None => False
  end.

Lemma elements_of : forall ch ds es hs i e,
    declared ch -> Z.of_nat (length (stack_heights ch ds)) < two32 ->
    parse_stack ch ds = Ok (Some (es, hs)) -> nth_error es i = Some e ->
    exists dc, nth_error ds i = Some dc /\ made ch dc e /\ se_offset e = layers_below ch ds i /\
      0 <= se_offset e /\ se_offset e + Z.of_nat (length (decl_heights ch dc)) <= Z.of_nat (length hs).
Proof.
  intros ch ds es hs i e D L P E. pose proof (declared_ok ch D) as Hc.
  destruct (parse_stack_spec ch ds es hs Hc L P) as (LD & HS & NE & _).
  pose proof (laid_length _ _ _ _ LD) as LL. rewrite !rev_length in LL.
  assert (Hi : (i < length es)%nat) by (apply nth_error_Some; rewrite E; discriminate).
  assert (E' : nth_error (rev es) (length es - 1 - i) = Some e).
  { rewrite nth_error_rev by lia. replace (length es - 1 - (length es - 1 - i))%nat with i by lia. exact E. }
  destruct (laid_nth _ _ _ _ LD _ _ E') as (dc & N & M & O & K). exists dc.
  rewrite nth_error_rev in N by lia. replace (length ds - 1 - (length es - 1 - i))%nat with i in N by lia.
  split; [exact N|]. split; [exact M|].
  destruct (stack_layout ch ds es hs D L P) as (_ & _ & SL & _). destruct (SL i e E) as (dc' & N' & O' & K' & B1 & B2).
  assert (dc' = dc) by congruence. subst dc'. split; [exact O'|]. rewrite K' in B2. split; assumption.
Qed.

Lemma declared_source : forall c, declared (Some c) ->
    ch_source_offset c = channel_source_offset (ch_model c) /\ ch_model c <> CM_NONE.
Proof.
  intros c (cd & len & n & H). destruct cd; cbn in H.
  - injection H as <-. cbn. split; [reflexivity|discriminate].
  - destruct (to_u32 _); try discriminate. cbn in H. injection H as <-. cbn. split; [reflexivity|discriminate].
  - injection H as <-. cbn. destruct staggered; split; try reflexivity; discriminate.
Qed.

Lemma source_layer_named : forall ch ds es hs i e,
    declared ch -> Z.of_nat (length (stack_heights ch ds)) < two32 ->
    parse_stack ch ds = Ok (Some (es, hs)) -> nth_error es i = Some e ->
    named_layer ch ds i (get_source_layer_offset e) /\ 0 <= get_source_layer_offset e < Z.of_nat (length hs).
Proof.
  intros ch ds es hs i e D L P E.
  destruct (elements_of ch ds es hs i e D L P E) as (dc & N & [o M] & O & B1 & B2).
  assert (HL : Z.of_nat (length hs) < two32).
  { destruct (parse_stack_spec ch ds es hs (declared_ok ch D) L P) as (_ & HS & _). rewrite HS, rev_length. exact L. }
  unfold named_layer. rewrite N. unfold get_source_layer_offset.
  destruct dc as [id above source below f|id ly|id]; cbn [make_element_decl] in M.
  - assert (K : se_kind e = SKDie (make_die above source below f)) by congruence. rewrite K. cbn [make_die die_source_offset].
    cbn [decl_heights] in B2. rewrite app_length in B2. cbn [length] in B2. rewrite !map_length in B2.
    rewrite u32_id by lia. split; lia.
  - assert (K : se_kind e = SKLayer ly) by congruence. rewrite K. cbn [decl_heights length] in B2. split; lia.
  - destruct ch as [c|]; [|discriminate]. assert (K : se_kind e = SKChannel c) by congruence. rewrite K.
    destruct (declared_source c D) as (-> & NM).
    cbn [decl_heights] in B2. rewrite repeat_length in B2. unfold chan_layers in B2.
    destruct (ch_model c) eqn:EM; cbn [channel_source_offset]; try congruence; rewrite u32_id by lia; (split; [|lia]); exists c.
    all: first [ exists 0%nat, LT_CHANNEL_4RM; rewrite EM; cbn; repeat split; lia
               | eexists 2%nat, _; rewrite EM; cbn; split; [reflexivity|]; split; [reflexivity|]; split; [reflexivity|lia] ].
Qed.

(** Temperature (or power) of the cell of row [r] and column [c] of layer [l]. *)
Definition value_at (d : dims) (v : list Q) (l r c : Z) : Q := nth (Z.to_nat ((l * d_nrows d + r) * d_ncols d + c)) v 0%Q.

Lemma nth_skipn : forall {A} n k (l : list A) x, nth k (skipn n l) x = nth (n + k) l x.
Proof.
  induction n as [|n IH]; intros k l x; [reflexivity|]. destruct l as [|a l]; [cbn; destruct k; reflexivity|]. cbn [skipn Nat.add nth]. apply IH.
Qed.
Section Reads.
  Variables (d : dims) (e : stkel) (v : list Q).
  Hypothesis (A : accepted d) (G : good_grid d).
  Hypothesis B : 0 <= get_source_layer_offset e < d_nlayers d.
  Hypothesis V : d_nlayers d * d_nrows d * d_ncols d <= Z.of_nat (length v).

  Lemma from_layer_start : offset_in_stack d (get_source_layer_offset e) 0 0 = get_source_layer_offset e * d_nrows d * d_ncols d.
  Proof.
    pose proof G as (R & C & _). destruct (offset_pure d (get_source_layer_offset e) 0 0 A) as (_ & O & _).
    - split; [exact B|]. split; lia.
    - rewrite O. ring.
  Qed.
  Lemma from_layer_fits : d_nrows d * d_ncols d <= Z.of_nat (length (from_layer d e v)).
  Proof.
    pose proof G as (R & C & _). unfold from_layer. rewrite from_layer_start, skipn_length.
    set (n := d_nrows d * d_ncols d). assert (0 <= n) by (unfold n; nia).
    assert (E1 : get_source_layer_offset e * d_nrows d * d_ncols d = get_source_layer_offset e * n) by (unfold n; ring).
    assert (E2 : d_nlayers d * d_nrows d * d_ncols d = d_nlayers d * n) by (unfold n; ring). rewrite E2 in V. rewrite E1. nia.
  Qed.
  Lemma from_layer_nth : forall k, 0 <= k ->
      nth (Z.to_nat k) (from_layer d e v) 0%Q = nth (Z.to_nat (get_source_layer_offset e * d_nrows d * d_ncols d + k)) v 0%Q.
  Proof.
    intros k K. pose proof G as (R & C & _). unfold from_layer. rewrite from_layer_start, nth_skipn. f_equal.
    assert (0 <= get_source_layer_offset e * d_nrows d * d_ncols d) by (apply Z.mul_nonneg_nonneg; [apply Z.mul_nonneg_nonneg|]; lia). lia.
  Qed.
  Lemma from_layer_temp : forall r c, 0 <= r -> 0 <= c ->
      temp d (from_layer d e v) r c = value_at d v (get_source_layer_offset e) r c.
  Proof.
    intros r c Hr Hc. pose proof G as (R & C & _). unfold temp, value_at. rewrite from_layer_nth by nia. f_equal. f_equal. ring.
  Qed.
  Lemma layer_map_ok : exists m, layer_map d e v = Ok m /\ Z.of_nat (length m) = d_nrows d * d_ncols d /\
      forall r c, 0 <= r < d_nrows d -> 0 <= c < d_ncols d ->
        nth_error m (Z.to_nat (r * d_ncols d + c)) = Some (value_at d v (get_source_layer_offset e) r c).
  Proof.
    pose proof G as (R & C & _). pose proof from_layer_fits as F. unfold layer_map. rewrite read_all_ok.
    2:{ apply Forall_forall. intros k Hk. apply in_zrange in Hk. lia. }
    eexists. split; [reflexivity|]. split.
    - rewrite map_length, zrange_length. nia.
    - intros r c Hr Hc.
      assert (K : 0 <= r * d_ncols d + c < d_nrows d * d_ncols d).
      { assert ((r + 1) * d_ncols d <= d_nrows d * d_ncols d) by (apply Z.mul_le_mono_nonneg_r; lia). nia. }
      rewrite nth_error_map. unfold zrange. rewrite nth_error_map.
      assert (nth_error (seq 0 (Z.to_nat (d_nrows d * d_ncols d - 1 - 0 + 1))) (Z.to_nat (r * d_ncols d + c)) = Some (Z.to_nat (r * d_ncols d + c))) as ->.
      { rewrite (nth_error_nth' _ 0%nat) by (rewrite seq_length; lia). f_equal. rewrite seq_nth by lia. reflexivity. }
      cbn [option_map]. f_equal. rewrite <- from_layer_temp by lia. unfold temp. f_equal. lia.
  Qed.
End Reads.

