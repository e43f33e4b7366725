From Coq Require Import ZArith List Bool QArith Lia Lqa.
From Verif Require Import Base QSum Dims DimsSpec DimsProofs Queue QueueProofs Floorplan FloorplanSpec
     FloorplanProofs FlpMatrixProofs TempProofs Stack StackSpec StackProofs PowerGrid Emulate EmulateSpec SourceProofs.
Import ListNotations.
Local Open Scope Z_scope.

Notation qreps els qs := (Forall2 (fun e l => qrep (fe_powers e) l) els qs).
Notation area d := (d_nrows d * d_ncols d)%Z.

(** boundary_source with the type of the layer given. *)
Definition boundary_of (pg : pgrid) (d : dims) (t : layer_type) (l r c : Z) : Q :=
  let i := Z.to_nat (r * d_ncols d + c) in
  ((if to_ambient t then match pg_top pg with Some k => top_ambient k | None => 0 end * nth i (pg_top_tcs pg) 0 else 0) +
   (if to_pcb t then match pg_bottom pg with Some k => bs_ambient k | None => 0 end * nth i (pg_bottom_tcs pg) 0 else 0) +
   (if is_coolant t && (r =? 0)%Z then
      match pg_channel pg with
      | Some ch => if is_channel_column (ch_model ch) c then 2 * convection ch d l c * co_tin ch else 0
      | None => 0
      end else 0))%Q.

(** What the power grid must provide, apart from the layers. *)
Definition sized (d : dims) (pg : pgrid) : Prop :=
  good_grid d /\ pg_ncells_layer pg = area d /\
  Z.of_nat (length (pg_top_tcs pg)) = area d /\ Z.of_nat (length (pg_bottom_tcs pg)) = area d.

Lemma area_ok : forall d, good_grid d -> get_layer_area d = area d /\ 1 <= area d.
Proof.
  intros d (HR & HC & HA & _). unfold get_layer_area. rewrite u32_id by (nia || lia). split; [lia|nia].
Qed.

Lemma cell_index : forall d r c, good_grid d -> 0 <= r < d_nrows d -> 0 <= c < d_ncols d ->
    0 <= r * d_ncols d + c < area d /\ (r * d_ncols d + c < d_ncols d <-> r = 0).
Proof.
  intros d r c (HR & HC & HA & _) Hr Hc. split; [nia|]. split; intro H; [nia|subst r; lia].
Qed.

Lemma nth_repeat0 : forall n i, nth i (repeat 0%Q n) 0%Q = 0%Q.
Proof. induction n as [|n IH]; intros [|i]; cbn; auto. Qed.

Lemma nth_skipn : forall {A} n i (l : list A) d, nth i (skipn n l) d = nth (n + i) l d.
Proof. intros A. induction n as [|n IH]; intros i [|h t] d; cbn; auto. destruct i; reflexivity. Qed.
Lemma nth_firstn_lt : forall {A} n i (l : list A) d, (i < n)%nat -> nth i (firstn n l) d = nth i l d.
Proof. intros A. induction n as [|n IH]; intros [|i] [|h t] d H; cbn; auto; try lia. apply IH. lia. Qed.

Lemma good_layer_some : forall d pg t f, good_layer d pg t (Some f) -> is_source t = true.
Proof. intros d pg t f (_ & H & _). apply H. discriminate. Qed.

Lemma good_layer_change : forall d pg t f f', good_layer d pg t (Some f) -> good_floorplan d f' -> good_layer d pg t (Some f').
Proof.
  intros d pg t f f' (A & B & C & D) G. split; [exact A|]. split; [|split; [|exact D]].
  - split; [discriminate|]. intros _. apply B. discriminate.
  - intros g Hg. assert (g = f') as -> by congruence. exact G.
Qed.

Lemma update_layer_spec : forall pg d l t fo qs n y, sized d pg -> good_layer d pg t fo ->
    qreps (layer_elements fo) qs -> 0 <= l < Z.of_nat (length (d_heights d)) -> Z.of_nat n = area d ->
    exists fo' x',
      update_layer pg d l t fo (repeat 0%Q n ++ y) =
        Ok (if fst (fst (take_heads qs)) then TDICE_SUCCESS else TDICE_FAILURE, fo', x' ++ y) /\
      length x' = n /\ good_layer d pg t fo' /\
      Forall2 same_element (layer_elements fo) (layer_elements fo') /\
      qreps (layer_elements fo') (snd (fst (take_heads qs))) /\
      (fst (fst (take_heads qs)) = true ->
       forall r c, 0 <= r < d_nrows d -> 0 <= c < d_ncols d ->
         (nth (Z.to_nat (r * d_ncols d + c)) x' 0 ==
          boundary_of pg d t l r c + qsum (map (share d r c) (combine (snd (take_heads qs)) (layer_elements fo))))%Q).
Proof.
  intros pg d l t fo qs n y (G & NL & LT & LB) GL F Hl Hn.
  pose proof GL as (NN & SRC & GF & AMB & PCB & COOL).
  (* filling the sources of a floorplan on top of x *)
  assert (FLP : is_source t = true -> forall x, length x = n ->
    exists fo' x', match fo with None => UB | Some f => do r <- fill_sources_floorplan f (x ++ y) ; let '(e, f', s') := r in Ok (e, Some f', s') end
      = Ok (if fst (fst (take_heads qs)) then TDICE_SUCCESS else TDICE_FAILURE, fo', x' ++ y) /\
      length x' = n /\ good_layer d pg t fo' /\ Forall2 same_element (layer_elements fo) (layer_elements fo') /\
      qreps (layer_elements fo') (snd (fst (take_heads qs))) /\
      (fst (fst (take_heads qs)) = true ->
       forall r c, 0 <= r < d_nrows d -> 0 <= c < d_ncols d ->
         (nth (Z.to_nat (r * d_ncols d + c)) x' 0 ==
          nth (Z.to_nat (r * d_ncols d + c)) x 0 +
          qsum (map (share d r c) (combine (snd (take_heads qs)) (layer_elements fo))))%Q)).
  { intros IS x Lx. destruct fo as [f|]; [|exfalso; apply SRC in IS; congruence]. cbn [layer_elements] in *.
    destruct (fill_sources_spec d f qs x y G (GF f eq_refl) F ltac:(lia)) as (f' & x' & E & L & GF' & SE & F2 & W).
    rewrite E. cbn [bind]. exists (Some f'), x'. split; [reflexivity|]. split; [congruence|].
    split; [apply (good_layer_change d pg t f f' GL GF')|]. auto. }
  (* layers without a floorplan *)
  assert (NOFLP : is_source t = false -> fo = None /\ qs = []).
  { intros IS. destruct fo as [f|]; [exfalso; pose proof (proj2 SRC ltac:(discriminate)); congruence|].
    split; [reflexivity|]. cbn in F. inversion F. reflexivity. }
  assert (PLAIN : is_source t = false -> forall x, length x = n ->
     (forall r c, 0 <= r < d_nrows d -> 0 <= c < d_ncols d ->
       (nth (Z.to_nat (r * d_ncols d + c)) x 0 == boundary_of pg d t l r c)%Q) ->
     exists fo' x',
      Ok (TDICE_SUCCESS, fo, x ++ y) =
        Ok (if fst (fst (take_heads qs)) then TDICE_SUCCESS else TDICE_FAILURE, fo', x' ++ y) /\
      length x' = n /\ good_layer d pg t fo' /\
      Forall2 same_element (layer_elements fo) (layer_elements fo') /\
      qreps (layer_elements fo') (snd (fst (take_heads qs))) /\
      (fst (fst (take_heads qs)) = true ->
       forall r c, 0 <= r < d_nrows d -> 0 <= c < d_ncols d ->
         (nth (Z.to_nat (r * d_ncols d + c)) x' 0 ==
          boundary_of pg d t l r c + qsum (map (share d r c) (combine (snd (take_heads qs)) (layer_elements fo))))%Q)).
  { intros IS x Lx W. destruct (NOFLP IS) as [-> ->]. exists None, x. cbn [take_heads fst snd layer_elements combine map].
    split; [reflexivity|]. split; [exact Lx|]. split; [exact GL|]. split; [constructor|]. split; [constructor|].
    intros _ r c Hr Hc. rewrite (W r c Hr Hc), qsum_nil. ring. }
  assert (Z0 : forall r c, (nth (Z.to_nat (r * d_ncols d + c)) (repeat 0%Q n) 0 == 0)%Q).
  { intros r c. rewrite nth_repeat0. reflexivity. }
  assert (AT : forall ambient tcs, Z.of_nat (length tcs) = area d ->
     exists x', add_ambient (Z.to_nat (pg_ncells_layer pg)) ambient tcs (repeat 0%Q n ++ y) = Ok (x' ++ y) /\ length x' = n /\
       forall r c, 0 <= r < d_nrows d -> 0 <= c < d_ncols d ->
         (nth (Z.to_nat (r * d_ncols d + c)) x' 0 == ambient * nth (Z.to_nat (r * d_ncols d + c)) tcs 0)%Q).
  { intros ambient tcs Lt.
    destruct (add_ambient_spec n ambient tcs (repeat 0%Q n) y ltac:(apply repeat_length) ltac:(lia)) as (x' & E & L & W).
    exists x'. replace (Z.to_nat (pg_ncells_layer pg)) with n by lia. split; [exact E|]. split; [exact L|].
    intros r c Hr Hc. destruct (cell_index d r c G Hr Hc) as [I _]. rewrite W by lia. rewrite nth_repeat0. ring. }

  assert (SRCB : is_source t = true -> forall x, length x = n ->
     (forall r c, 0 <= r < d_nrows d -> 0 <= c < d_ncols d ->
       (nth (Z.to_nat (r * d_ncols d + c)) x 0 == boundary_of pg d t l r c)%Q) ->
     exists fo' x',
      match fo with None => UB | Some f => do r <- fill_sources_floorplan f (x ++ y) ; let '(e, f', s') := r in Ok (e, Some f', s') end =
        Ok (if fst (fst (take_heads qs)) then TDICE_SUCCESS else TDICE_FAILURE, fo', x' ++ y) /\
      length x' = n /\ good_layer d pg t fo' /\
      Forall2 same_element (layer_elements fo) (layer_elements fo') /\
      qreps (layer_elements fo') (snd (fst (take_heads qs))) /\
      (fst (fst (take_heads qs)) = true ->
       forall r c, 0 <= r < d_nrows d -> 0 <= c < d_ncols d ->
         (nth (Z.to_nat (r * d_ncols d + c)) x' 0 ==
          boundary_of pg d t l r c + qsum (map (share d r c) (combine (snd (take_heads qs)) (layer_elements fo))))%Q)).
  { intros IS x Lx W. destruct (FLP IS x Lx) as (fo' & x' & E & L & GL' & SE & F2 & W2).
    exists fo', x'. repeat (split; [assumption|]). intros B r c Hr Hc. rewrite (W2 B r c Hr Hc), (W r c Hr Hc). reflexivity. }
  clear FLP NOFLP.
  assert (INL : is_coolant t = true -> exists ch x', pg_channel pg = Some ch /\
     set_inlets ch d l (zrange 0 (last_column d)) (repeat 0%Q n ++ y) = Ok (x' ++ y) /\ length x' = n /\
     forall r c, 0 <= r < d_nrows d -> 0 <= c < d_ncols d ->
         nth (Z.to_nat (r * d_ncols d + c)) x' 0%Q =
         if (r =? 0) then (if is_channel_column (ch_model ch) c then 2 * convection ch d l c * co_tin ch else 0)%Q else 0%Q).
  { intros IC. destruct (pg_channel pg) as [ch|] eqn:EC; [|exfalso; apply (COOL IC); reflexivity].
    pose proof G as (HR & HC & HA & _).
    assert (LC : last_column d = d_ncols d - 1) by (unfold last_column; apply u32_id; lia).
    destruct (set_inlets_spec ch d l Hl (Z.to_nat (d_ncols d)) 0 (repeat 0%Q n ++ y) ltac:(lia)) as (s' & E & L & W).
    { rewrite app_length, repeat_length. nia. }
    exists ch, (firstn n s'). split; [reflexivity|].
    assert (Ls : length s' = (n + length y)%nat) by (rewrite L, app_length, repeat_length; reflexivity).
    assert (SK : skipn n s' = y).
    { apply (nth_ext _ _ 0%Q 0%Q); [rewrite skipn_length; lia|]. intros i Hi. rewrite skipn_length in Hi.
      rewrite nth_skipn, W. replace (Z.of_nat (n + i) <? 0 + Z.of_nat (Z.to_nat (d_ncols d))) with false
        by (symmetry; apply Z.ltb_ge; nia). rewrite andb_false_r. cbn [andb].
      rewrite app_nth2 by (rewrite repeat_length; lia). rewrite repeat_length. f_equal. lia. }
    split; [|split; [rewrite firstn_length; lia|]].
    - unfold zrange. rewrite LC. replace (Z.to_nat (d_ncols d - 1 - 0 + 1)) with (Z.to_nat (d_ncols d)) by lia.
      rewrite E. f_equal. rewrite <- (firstn_skipn n s') at 1. rewrite SK. reflexivity.
    - intros r c Hr Hc. destruct (cell_index d r c G Hr Hc) as [I I0].
      rewrite nth_firstn_lt by lia. rewrite W. rewrite Z2Nat.id by lia.
      replace (0 <=? r * d_ncols d + c) with true by (symmetry; apply Z.leb_le; lia). cbn [andb].
      destruct (Z.eqb_spec r 0) as [->|Hr0].
      + replace (0 * d_ncols d + c) with c by lia. replace (c <? 0 + Z.of_nat (Z.to_nat (d_ncols d))) with true by (symmetry; apply Z.ltb_lt; lia).
        cbn [andb]. destruct (is_channel_column (ch_model ch) c); [reflexivity|].
        rewrite app_nth1 by (rewrite repeat_length; nia). apply nth_repeat0.
      + replace (r * d_ncols d + c <? 0 + Z.of_nat (Z.to_nat (d_ncols d))) with false by (symmetry; apply Z.ltb_ge; lia).
        cbn [andb]. rewrite app_nth1 by (rewrite repeat_length; lia). apply nth_repeat0. }
  unfold update_layer. destruct t; cbn [is_source is_coolant to_ambient to_pcb] in *.
  all: try congruence.
  all: try (apply (PLAIN eq_refl); [apply repeat_length|]; intros r c Hr Hc; rewrite Z0; unfold boundary_of; cbn [to_ambient to_pcb is_coolant andb]; ring).
  all: try (apply (SRCB eq_refl); [apply repeat_length|]; intros r c Hr Hc; rewrite Z0; unfold boundary_of; cbn [to_ambient to_pcb is_coolant andb]; ring).
  all: try (destruct (INL eq_refl) as (ch & x' & EC & E & L & W); rewrite EC, E; cbn [bind];
    apply (PLAIN eq_refl); [exact L|]; intros r c Hr Hc; rewrite (W r c Hr Hc); unfold boundary_of; rewrite EC; cbn [to_ambient to_pcb is_coolant andb];
    destruct (r =? 0); ring).
  all: clear INL.
  - destruct (AMB eq_refl) as (h & a & ET). destruct (AT a (pg_top_tcs pg) LT) as (x' & E & L & W).
    rewrite ET. cbn [top_ambient]. rewrite E. cbn [bind]. apply (PLAIN eq_refl); [exact L|].
    intros r c Hr Hc. rewrite (W r c Hr Hc). unfold boundary_of. rewrite ET. cbn [to_ambient to_pcb is_coolant andb top_ambient]. ring.
  - destruct (pg_bottom pg) as [k|] eqn:EB; [|exfalso; apply (PCB eq_refl); reflexivity].
    destruct (AT (bs_ambient k) (pg_bottom_tcs pg) LB) as (x' & E & L & W).
    rewrite E. cbn [bind]. apply (PLAIN eq_refl); [exact L|].
    intros r c Hr Hc. rewrite (W r c Hr Hc). unfold boundary_of. rewrite EB. cbn [to_ambient to_pcb is_coolant andb]. ring.
  - destruct (AMB eq_refl) as (h & a & ET). destruct (AT a (pg_top_tcs pg) LT) as (x' & E & L & W).
    rewrite ET. cbn [top_ambient]. rewrite E. cbn [bind]. apply (SRCB eq_refl); [exact L|].
    intros r c Hr Hc. rewrite (W r c Hr Hc). unfold boundary_of. rewrite ET. cbn [to_ambient to_pcb is_coolant andb top_ambient]. ring.
  - destruct (pg_bottom pg) as [k|] eqn:EB; [|exfalso; apply (PCB eq_refl); reflexivity].
    destruct (AT (bs_ambient k) (pg_bottom_tcs pg) LB) as (x' & E & L & W).
    rewrite E. cbn [bind]. apply (SRCB eq_refl); [exact L|].
    intros r c Hr Hc. rewrite (W r c Hr Hc). unfold boundary_of. rewrite EB. cbn [to_ambient to_pcb is_coolant andb]. ring.
Qed.
