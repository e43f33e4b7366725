(** * Cells of each layer, and what they cover *)
From Coq Require Import ZArith List Bool QArith Lia Lqa.
From Verif Require Import Base QSum Dims DimsSpec DimsProofs Floorplan FloorplanProofs Stack NonUniform NuSpec NuGeomProofs NuCountProofs NuPositionProofs NuRangeProofs NuGridProofs.
Import ListNotations.
Local Open Scope Z_scope.

(** ** Cells of a layer *)
Lemma filter_number : forall hs l g k, filter (fun c => c_layer c =? Z.of_nat l) (number hs k g) =
    if (k <=? l)%nat then map (cell_of hs l) (snd (nth (l - k) g (0, []))) else [].
Proof.
  assert (ALL : forall hs l l' cs, filter (fun c => c_layer c =? Z.of_nat l) (map (cell_of hs l') cs) = if (l =? l')%nat then map (cell_of hs l') cs else []).
  { intros hs l l' cs. induction cs as [|c cs IH]; [destruct (l =? l')%nat; reflexivity|]. cbn [map filter cell_of c_layer]. rewrite IH.
    destruct (Nat.eqb_spec l l') as [->|N]; [rewrite Z.eqb_refl; reflexivity|]. destruct (Z.eqb_spec (Z.of_nat l') (Z.of_nat l)); [lia|reflexivity]. }
  intros hs l g. induction g as [|L g IH]; intros k.
  - cbn [number filter]. destruct (k <=? l)%nat; [|reflexivity]. destruct (l - k)%nat; reflexivity.
  - cbn [number]. rewrite filter_app, ALL, IH. destruct (Nat.eqb_spec l k) as [->|N].
    + rewrite Nat.leb_refl, Nat.sub_diag. destruct (Nat.leb_spec (Datatypes.S k) k); [lia|]. rewrite app_nil_r. reflexivity.
    + cbn [app]. destruct (Nat.leb_spec (Datatypes.S k) l); destruct (Nat.leb_spec k l); try lia; [|reflexivity].
      replace (l - k)%nat with (Datatypes.S (l - Datatypes.S k)) by lia. reflexivity.
Qed.
Lemma layer_cells : forall hs N g st l, st_at hs N g st ->
    filter (fun c => c_layer c =? Z.of_nat l) (ns_cells st) = map (cell_of hs l) (snd (nth l g (0, []))).
Proof. intros hs N g st l (C & _). rewrite C, filter_number, Nat.sub_0_r. reflexivity. Qed.

Lemma rects_of_cells : forall hs l cs, map c_rect (map (cell_of hs l) cs) = map g_rect cs.
Proof. intros. rewrite map_map. reflexivity. Qed.

(** ** Layers of an element of the stack *)
Lemma layer_at : forall d top above e below k, Forall good_kind (above ++ e :: below) -> 0 <= k < nu_nlayers e ->
    nth (Z.to_nat (total_layers below + k)) (grid d top (above ++ e :: below)) (0, []) = nth (Z.to_nat k) (kind_layers d e) (0, []).
Proof.
  intros d top above e below k G K. apply Forall_app in G. destruct G as (_ & G). inversion G as [|? ? GE GB]; subst.
  unfold grid. rewrite rev_app_distr. cbn [rev]. rewrite <- app_assoc. cbn [app]. rewrite flat_map_concat_map, map_app, concat_app. cbn [map concat]. rewrite <- !flat_map_concat_map, <- !app_assoc.
  pose proof (layers_length d (rev below) ltac:(apply Forall_rev; exact GB)) as LB. rewrite total_layers_rev in LB.
  pose proof (layers_length d [e] ltac:(constructor; [exact GE|constructor])) as LE. cbn [flat_map total_layers fold_right] in LE. rewrite app_nil_r in LE.
  rewrite app_nth2 by lia. rewrite app_nth1 by lia. f_equal. lia.
Qed.

(** ** Tiles *)
Lemma nth_error_flat : forall {A B} (f : A -> list B) l k y, nth_error (flat_map f l) k = Some y ->
    exists i x j, nth_error l i = Some x /\ nth_error (f x) j = Some y /\ k = (length (flat_map f (firstn i l)) + j)%nat.
Proof.
  intros A B f l. induction l as [|a l IH]; intros k y H; [destruct k; discriminate H|]. cbn [flat_map] in H.
  destruct (Nat.lt_ge_cases k (length (f a))) as [L|L].
  - rewrite nth_error_app1 in H by exact L. exists 0%nat, a, k. split; [reflexivity|]. split; [exact H|reflexivity].
  - rewrite nth_error_app2 in H by exact L. destruct (IH _ _ H) as (i & x & j & E1 & E2 & E3). exists (Datatypes.S i), x, j. split; [exact E1|]. split; [exact E2|]. cbn [firstn flat_map]. rewrite app_length. lia.
Qed.
Lemma flat_nth_error : forall {A B} (f : A -> list B) l i x j y, nth_error l i = Some x -> nth_error (f x) j = Some y ->
    nth_error (flat_map f l) (length (flat_map f (firstn i l)) + j) = Some y.
Proof.
  intros A B f l. induction l as [|a l IH]; intros i x j y H1 H2; [destruct i; discriminate H1|]. destruct i as [|i].
  - injection H1 as ->. cbn [firstn flat_map length Nat.add]. rewrite nth_error_app1; [exact H2|]. apply nth_error_Some. congruence.
  - cbn [nth_error] in H1. cbn [firstn flat_map]. rewrite app_length, nth_error_app2 by lia. replace (_ - _)%nat with (length (flat_map f (firstn i l)) + j)%nat by lia. exact (IH i x j y H1 H2).
Qed.
Lemma tiles_flat : forall {A} (f : A -> rect) (cs : A -> list rect) es R,
    tiles (map f es) R -> (forall e, In e es -> tiles (cs e) (f e)) -> tiles (flat_map cs es) R.
Proof.
  intros A f cs es R (COV & INS) T. split.
  - intros x y IN. destruct (COV x y IN) as (i & r & E & IR & U). rewrite nth_error_map in E. destruct (nth_error es i) as [e|] eqn:EI; [|discriminate E]. cbn in E. injection E as <-.
    destruct (T e (nth_error_In _ _ EI)) as (COVE & _). destruct (COVE x y IR) as (j & c & EJ & IC & UJ).
    exists (length (flat_map cs (firstn i es)) + j)%nat, c. split; [exact (flat_nth_error cs es i e j c EI EJ)|]. split; [exact IC|].
    intros k' c' K' IC'. destruct (nth_error_flat cs es k' c' K') as (i' & e' & j' & EI' & EJ' & ->).
    assert (i' = i). { apply (U i' (f e')); [rewrite nth_error_map, EI'; reflexivity|]. destruct (T e' (nth_error_In _ _ EI')) as (_ & INSE). exact (INSE c' x y (nth_error_In _ _ EJ') IC'). }
    subst i'. assert (e' = e) by congruence. subst e'. rewrite (UJ j' c' EJ' IC'). reflexivity.
  - intros c x y IC INC. apply in_flat_map in IC. destruct IC as (e & IE & IC). apply (INS (f e)); [apply in_map; exact IE|]. exact (proj2 (T e IE) c x y IC INC).
Qed.
Lemma element_tiles : forall x e, 0 < fst (discretisation x e) -> 0 < snd (discretisation x e) ->
    (0 < ni_len (ne_first e) -> 0 < ni_wid (ne_first e) -> tiles (element_rects x e) (rect_of (ne_first e)))%Q.
Proof.
  intros x e A B L W. unfold element_rects, rect_of. destruct (discretisation x e) as (dx, dy). apply cut_tiles; cbn [fst snd] in *; [lia|lia|exact L|exact W].
Qed.

(** ** Sizes of an accepted description *)
Lemma parse_positive : forall L W cl cw s hs sc d, parse_dims L W cl cw s hs sc = Ok (Some d) -> 0 <= sc -> positive_sizes L W cl cw s ->
    (0 < d_first d /\ 0 < d_last d /\ 0 < d_wall d /\ 0 < d_chan d /\ 0 < d_chip_length d /\ 0 < d_chip_width d)%Q.
Proof.
  intros L W cl cw s hs sc d H SC ((PL & PW & PC & PD) & PS). destruct (parse_dims_inv _ _ _ _ _ _ _ _ H SC) as (A & Ew & EL & EW & _ & _ & _ & Hc). rewrite EL, EW.
  unfold parse_columns in Hc. destruct (to_u32 (L / cl)) as [n| |]; cbn [bind] in Hc; try discriminate Hc. destruct s as [c|f l w c].
  - injection Hc as <- <- <- <- _. repeat split; assumption.
  - destruct (Qeq_bool _ _); [|discriminate Hc]. destruct (to_u32 _) as [n4| |]; cbn [bind] in Hc; try discriminate Hc. destruct (Z.even n4); [discriminate Hc|]. destruct (n4 <? 3); [discriminate Hc|]. injection Hc as <- <- <- <- _. destruct PS as (? & ? & ? & ?). repeat split; assumption.
Qed.
