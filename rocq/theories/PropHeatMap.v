(** * C83: drawing temperature maps *)
From Coq Require Import ZArith QArith Qabs Qminmax Qround Qfield Bool List Lia Lqa.
From Verif Require Import Base GradientSpec HeatMap HeatMapSpec.
Import ListNotations.
Local Open Scope list_scope.
Local Open Scope Z_scope.

Lemma grid_nth : forall (f : Q -> Q -> rect) xs ys m r, nth_error (flat_map (fun y => map (f y) xs) ys) m = Some r ->
  exists x y, nth_error xs (m mod List.length xs) = Some x /\ nth_error ys (m / List.length xs) = Some y /\ r = f y x.
Proof.
  intros f xs ys. induction ys as [|y ys IH]; intros m r H; [destruct m; discriminate H|]. cbn [flat_map] in H.
  destruct (Nat.lt_ge_cases m (List.length xs)) as [L|L].
  - rewrite nth_error_app1 in H by (rewrite map_length; exact L). rewrite nth_error_map in H. destruct (nth_error xs m) as [x|] eqn:X; [|discriminate]. cbn in H.
    exists x, y. rewrite Nat.mod_small, Nat.div_small by exact L. split; [exact X|]. split; [reflexivity|congruence].
  - rewrite nth_error_app2 in H by (rewrite map_length; exact L). rewrite map_length in H.
    assert (N0 : List.length xs <> 0%nat). { intros E. destruct xs; [|discriminate E]. cbn [List.length map] in H. clear - H. revert H. generalize (m - 0)%nat. induction ys as [|y ys IH]; intros k H; [destruct k; discriminate H|]. cbn in H. exact (IH k H). }
    destruct (IH _ _ H) as (x & z & X & Z1 & R). exists x, z. assert (E : m = (m - List.length xs + 1 * List.length xs)%nat) by lia. rewrite E; rewrite Nat.mod_add, Nat.div_add by exact N0.
    split; [exact X|]. split; [rewrite Nat.add_1_r; exact Z1|exact R].
Qed.
Lemma grid_length : forall (f : Q -> Q -> rect) xs ys, List.length (flat_map (fun y => map (f y) xs) ys) = (List.length ys * List.length xs)%nat.
Proof. intros f xs ys. induction ys as [|y ys IH]; [reflexivity|]. cbn [flat_map List.length]. rewrite app_length, map_length, IH. reflexivity. Qed.

Definition scaled (c : rect) : rect := mk_rect (x_left c / 1000) (y_left c / 1000) (dim_x c / 1000) (dim_y c / 1000).
Definition index_of (n : Z) (lo hi t : Q) : Z := truncate ((t - lo) / (hi - lo) * inject_Z n).
Lemma draw_some : forall n lo hi temp cells l, draw n lo hi cells temp = Some l ->
  List.length l = List.length temp /\ (List.length temp <= List.length cells)%nat /\
  forall m r k, nth_error l m = Some (r, k) -> exists c t, nth_error cells m = Some c /\ nth_error temp m = Some t /\ r = scaled c /\ item n (index_of n lo hi t) = Some k.
Proof.
  intros n lo hi. induction temp as [|t ts IH]; intros cells l H; cbn [draw] in H.
  - assert (E : l = []) by (destruct cells; congruence). subst l. split; [reflexivity|]. split; [cbn; lia|]. intros [|m] r k K; discriminate K.
  - destruct cells as [|c cs]; [discriminate|]. destruct (Qeq_bool (hi - lo) 0); [discriminate|]. fold (index_of n lo hi t) in H.
    destruct (item n (index_of n lo hi t)) as [k0|] eqn:I; [|discriminate]. destruct (draw n lo hi cs ts) as [l0|] eqn:D; [|discriminate]. injection H as <-.
    destruct (IH _ _ D) as (A & B & C). split; [cbn; congruence|]. split; [cbn; lia|]. intros [|m] r k K; cbn in K.
    + injection K as <- <-. exists c, t. split; [reflexivity|]. split; [reflexivity|]. split; [reflexivity|exact I].
    + destruct (C m r k K) as (c' & t' & E). exists c', t'. exact E.
Qed.
Lemma draw_ok : forall n lo hi temp cells, ~ (hi - lo == 0)%Q -> (List.length temp <= List.length cells)%nat ->
  (forall t, In t temp -> item n (index_of n lo hi t) <> None) -> exists l, draw n lo hi cells temp = Some l.
Proof.
  intros n lo hi. induction temp as [|t ts IH]; intros cells N L H; cbn [draw].
  - exists []. destruct cells; reflexivity.
  - destruct cells as [|c cs]; [cbn in L; lia|]. destruct (Qeq_bool (hi - lo) 0) eqn:E; [apply Qeq_bool_iff in E; contradiction|]. fold (index_of n lo hi t).
    destruct (item n (index_of n lo hi t)) as [k|] eqn:I; [|exfalso; apply (H t); [left; reflexivity|exact I]].
    destruct (IH cs N) as (l & ->); [cbn in L; lia|intros u U; apply H; right; exact U|]. eexists. reflexivity.
Qed.

(** Colours inside the limits. *)
Lemma colour_index : forall n lo hi t, 0 < n -> (lo < hi)%Q -> (lo <= t)%Q -> (t < hi)%Q ->
  exists k, item n (index_of n lo hi t) = Some k /\ colour_of lo hi n t k.
Proof.
  intros n lo hi t N L A B. unfold index_of, truncate. assert (NQ : (0 < inject_Z n)%Q) by (change 0%Q with (inject_Z 0); rewrite <- Zlt_Qlt; exact N).
  set (w := ((hi - lo) / inject_Z n)%Q). assert (W : (0 < w)%Q) by (apply Qlt_shift_div_l; [exact NQ|lra]).
  set (u := ((t - lo) / (hi - lo) * inject_Z n)%Q). assert (U : (u * w == t - lo)%Q) by (unfold u, w; field; split; lra).
  assert (WN : (w * inject_Z n == hi - lo)%Q) by (unfold w; field; lra). unfold colour_of. fold w. clearbody u w.
  assert (U0 : (0 <= u)%Q). { apply Qnot_lt_le. intros K. assert (G : (0 < (- u) * w)%Q) by (apply Qmult_lt_0_compat; lra). lra. }
  assert (U1 : (u < inject_Z n)%Q). { apply Qnot_le_lt. intros K. assert (G : (0 <= (u - inject_Z n) * w)%Q) by (apply Qmult_le_0_compat; lra). lra. }
  rewrite (proj2 (Qle_bool_iff 0 u) U0). assert (F1 := Qfloor_le u). assert (F2 := Qlt_floor u). set (k := Qfloor u) in *. clearbody k.
  assert (K0 : 0 <= k). { assert (G : (inject_Z 0 < inject_Z (k + 1))%Q) by (change (inject_Z 0) with 0%Q; lra). rewrite <- Zlt_Qlt in G. lia. }
  assert (K1 : k < n) by (assert (G : (inject_Z k < inject_Z n)%Q) by lra; rewrite <- Zlt_Qlt in G; exact G).
  exists k. unfold item. replace ((0 <=? k) && (k <? n)) with true by (symmetry; apply andb_true_iff; lia). split; [reflexivity|]. split; [lia|].
  assert (G1 : (0 <= (u - inject_Z k) * w)%Q) by (apply Qmult_le_0_compat; lra). assert (G2 : (0 < (inject_Z (k + 1) - u) * w)%Q) by (apply Qmult_lt_0_compat; lra).
  split; lra.
Qed.
(** A hotter cell never has a colder colour; a cell has one colour. *)
Theorem C83_hotter : forall lo hi n t u k l, (lo < hi)%Q -> colour_of lo hi n t k -> colour_of lo hi n u l -> (t <= u)%Q -> k <= l.
Proof.
  intros lo hi n t u k l L ((A0 & A1) & A2 & A3) ((B0 & B1) & B2 & B3) H. destruct (Z.le_gt_cases k l) as [K|K]; [exact K|exfalso].
  assert (NQ : (0 < inject_Z n)%Q) by (change 0%Q with (inject_Z 0); rewrite <- Zlt_Qlt; lia).
  set (w := ((hi - lo) / inject_Z n)%Q) in *. assert (W : (0 < w)%Q) by (apply Qlt_shift_div_l; [exact NQ|lra]). clearbody w.
  assert (G : (inject_Z (l + 1) <= inject_Z k)%Q) by (rewrite <- Zle_Qle; lia). assert (G2 : (0 <= (inject_Z k - inject_Z (l + 1)) * w)%Q) by (apply Qmult_le_0_compat; lra). lra.
Qed.
Print Assumptions C83_hotter.

(** The m-th temperature is drawn at the m-th cell, row by row. *)
Theorem C83_place : forall xs ys rows n lo hi l length width e, draw_uniform xs ys rows n lo hi = Some l ->
  centres length e xs -> centres width e ys ->
  List.length l = List.length (concat rows) /\
  forall m r k, nth_error l m = Some (r, k) -> drawn_at length width e (m / List.length xs) (m mod List.length xs) r.
Proof.
  intros xs ys rows n lo hi l cl cw e H CX CY. unfold draw_uniform, uniform_cells, temperatures in H.
  destruct xs as [|x0 [|x1 xr]]; [discriminate|discriminate|]. destruct ys as [|y0 [|y1 yr]]; [discriminate|discriminate|].
  set (xs := x0 :: x1 :: xr) in *. set (ys := y0 :: y1 :: yr) in *.
  assert (X0 := CX 0%nat x0 eq_refl). assert (X1 := CX 1%nat x1 eq_refl). assert (Y0 := CY 0%nat y0 eq_refl). assert (Y1 := CY 1%nat y1 eq_refl).
  change (inject_Z (Z.of_nat 0)) with 0%Q in X0, Y0. change (inject_Z (Z.of_nat 1)) with 1%Q in X1, Y1. clearbody xs ys.
  set (cells := flat_map _ _) in H.
  assert (D : exists a b, draw n a b cells (concat rows) = Some l). { unfold plot_tmap in H. cbv zeta in H. destruct (n <? 0); [discriminate|].
    destruct lo as [lo|]; destruct hi as [hi|]; destruct (concat rows) as [|t ts]; try discriminate H; eexists; eexists; exact H. }
  destruct D as (a & b & D). destruct (draw_some _ _ _ _ _ _ D) as (L1 & L2 & P). split; [exact L1|]. intros m r k K. destruct (P m r k K) as (c & t & C & _ & -> & _).
  unfold cells in C. apply grid_nth in C. destruct C as (x & y & X & Y & ->). assert (AX := CX _ _ X). assert (AY := CY _ _ Y).
  unfold drawn_at, scaled. cbn [x_left y_left dim_x dim_y]. set (jx := inject_Z (Z.of_nat (m mod List.length xs))) in *. set (iy := inject_Z (Z.of_nat (m / List.length xs))) in *. clearbody jx iy.
  apply Qabs_Qle_condition in X0, X1, Y0, Y1, AX, AY. assert (TH : forall q, (1000 * (q / 1000) == q)%Q) by (intros; field). rewrite !TH.
  assert (HF : forall q, (q / 2 == q * (1 # 2))%Q) by (intros; field). rewrite !HF.
  split; [|split; [|split]]; apply Qabs_Qle_condition; split; lra.
Qed.
Print Assumptions C83_place.

Lemma least_ok : forall ts t, least_of (least t ts) (t :: ts).
Proof.
  unfold least, least_of. induction ts as [|u ts IH]; intros t; cbn [fold_left]; [split; [left; reflexivity|repeat constructor; apply Qle_refl]|].
  destruct (IH (Qmin t u)) as (A & B). inversion B as [|? ? B1 B2]; subst. split.
  - inversion A as [? ? A1|? ? A1]; subst; [|right; right; exact A1]. destruct (Q.min_spec t u) as [[_ M]|[_ M]]; [left; rewrite A1; exact M|right; left; rewrite A1; exact M].
  - assert (M1 := Q.le_min_l t u). assert (M2 := Q.le_min_r t u). constructor; [lra|constructor; [lra|exact B2]].
Qed.
Lemma greatest_ok : forall ts t, greatest_of (greatest t ts) (t :: ts).
Proof.
  unfold greatest, greatest_of. induction ts as [|u ts IH]; intros t; cbn [fold_left]; [split; [left; reflexivity|repeat constructor; apply Qle_refl]|].
  destruct (IH (Qmax t u)) as (A & B). inversion B as [|? ? B1 B2]; subst. split.
  - inversion A as [? ? A1|? ? A1]; subst; [|right; right; exact A1]. destruct (Q.max_spec t u) as [[_ M]|[_ M]]; [right; left; rewrite A1; exact M|left; rewrite A1; exact M].
  - assert (M1 := Q.le_max_l t u). assert (M2 := Q.le_max_r t u). constructor; [lra|constructor; [lra|exact B2]].
Qed.
(** With the limits taken from the map, every map of positive temperatures is drawn, every
    cell in the colour of its temperature. *)
Theorem C83_default : forall xs ys rows n, 0 < n -> (2 <= List.length xs)%nat -> (2 <= List.length ys)%nat ->
  concat rows <> [] -> Forall (fun t => 0 < t)%Q (concat rows) -> (List.length (concat rows) <= List.length ys * List.length xs)%nat ->
  exists l lo hi, draw_uniform xs ys rows n None None = Some l /\ least_of lo (concat rows) /\ greatest_of hi (concat rows) /\
    forall m r k t, nth_error l m = Some (r, k) -> nth_error (concat rows) m = Some t ->
      colour_of (lo - (1 # 1000) * lo) (hi + (1 # 1000) * lo) n t k.
Proof.
  intros xs ys rows n N XL YL NE POS LE. unfold draw_uniform, uniform_cells, temperatures, plot_tmap. cbv zeta.
  destruct xs as [|x0 [|x1 xr]]; [cbn in XL; lia|cbn in XL; lia|]. destruct ys as [|y0 [|y1 yr]]; [cbn in YL; lia|cbn in YL; lia|].
  set (xs := x0 :: x1 :: xr) in *. set (ys := y0 :: y1 :: yr) in *. clearbody xs ys. set (cells := flat_map _ _).
  assert (CL : List.length cells = (List.length ys * List.length xs)%nat) by (apply (grid_length (fun x_i y_i => mk_rect (y_i - (x1 - x0) / 2) (x_i - (y1 - y0) / 2) (x1 - x0) (y1 - y0)))).
  clearbody cells. replace (n <? 0) with false by (symmetry; apply Z.ltb_ge; lia).
  destruct (concat rows) as [|t ts]; [congruence|]. assert (LO := least_ok ts t). assert (HI := greatest_ok ts t). set (lo := least t ts) in *. set (hi := greatest t ts) in *. clearbody lo hi.
  assert (L0 : (0 < lo)%Q). { destruct LO as [E _]. apply Exists_exists in E. destruct E as (v & V & ->). rewrite Forall_forall in POS. exact (POS v V). }
  assert (IN : forall u, In u (t :: ts) -> (lo <= u /\ u <= hi)%Q). { intros u U. destruct LO as [_ A]. destruct HI as [_ B]. rewrite Forall_forall in A, B. split; [exact (A u U)|exact (B u U)]. }
  assert (LH : (lo <= hi)%Q) by (destruct (IN t (or_introl eq_refl)); lra).
  destruct (draw_ok n (lo - (1 # 1000) * lo) (hi + (1 # 1000) * lo) (t :: ts) cells) as (l & D); [lra|lia| |].
  - intros u U K. destruct (IN u U). destruct (colour_index n (lo - (1 # 1000) * lo) (hi + (1 # 1000) * lo) u N) as (k & K1 & _); [lra|lra|lra|congruence].
  - exists l, lo, hi. split; [exact D|]. split; [exact LO|]. split; [exact HI|]. intros m r k u H1 H2. destruct (draw_some _ _ _ _ _ _ D) as (_ & _ & P).
    destruct (P m r k H1) as (c & u' & _ & U & _ & I). assert (u' = u) by congruence. subst u'. destruct (IN u (nth_error_In _ _ U)).
    destruct (colour_index n (lo - (1 # 1000) * lo) (hi + (1 # 1000) * lo) u N) as (k' & K1 & K2); [lra|lra|lra|]. assert (k' = k) by congruence. subst k'. exact K2.
Qed.
Print Assumptions C83_default.

(** ** Defects *)
(** More numbers than cells, as in every file with more than one map, end in an error. *)
Theorem C83_too_many : forall xs ys rows n lo hi, (List.length ys * List.length xs < List.length (concat rows))%nat -> draw_uniform xs ys rows n lo hi = None.
Proof.
  intros xs ys rows n lo hi L. destruct (draw_uniform xs ys rows n lo hi) as [l|] eqn:H; [exfalso|reflexivity].
  unfold draw_uniform, uniform_cells, temperatures in H. destruct xs as [|x0 [|x1 xr]]; [discriminate|discriminate|]. destruct ys as [|y0 [|y1 yr]]; [discriminate|discriminate|].
  set (xs := x0 :: x1 :: xr) in *. set (ys := y0 :: y1 :: yr) in *. clearbody xs ys. set (cells := flat_map _ _) in H.
  assert (CL : List.length cells = (List.length ys * List.length xs)%nat) by (apply (grid_length (fun x_i y_i => mk_rect (y_i - (x1 - x0) / 2) (x_i - (y1 - y0) / 2) (x1 - x0) (y1 - y0)))).
  clearbody cells. assert (D : exists a b, draw n a b cells (concat rows) = Some l). { unfold plot_tmap in H. cbv zeta in H. destruct (n <? 0); [discriminate|].
    destruct lo as [lo|]; destruct hi as [hi|]; destruct (concat rows) as [|t ts]; try discriminate H; eexists; eexists; exact H. }
  destruct D as (a & b & D). destruct (draw_some _ _ _ _ _ _ D) as (_ & L2 & _). lia.
Qed.
Print Assumptions C83_too_many.
(** With --tempmax, a temperature that reaches it ends in an error. *)
Theorem C83_limit_refuted : forall xs ys rows n lo hi t, 0 <= n -> (lo < hi)%Q -> In t (concat rows) -> (hi <= t)%Q ->
  draw_uniform xs ys rows n (Some lo) (Some hi) = None.
Proof.
  intros xs ys rows n lo hi t N L I H. destruct (draw_uniform xs ys rows n (Some lo) (Some hi)) as [l|] eqn:E; [exfalso|reflexivity].
  unfold draw_uniform, temperatures, plot_tmap in E. destruct (uniform_cells xs ys) as [cells|]; [|discriminate]. cbv zeta in E. destruct (n <? 0); [discriminate|].
  destruct (draw_some _ _ _ _ _ _ E) as (L1 & _ & P). apply In_nth_error in I. destruct I as (m & I).
  assert (ML : (m < List.length l)%nat) by (rewrite L1; apply nth_error_Some; congruence). destruct (nth_error l m) as [[r k]|] eqn:K; [|apply nth_error_None in K; lia].
  destruct (P m r k K) as (c & u & _ & U & _ & J). assert (u = t) by congruence. subst u. revert J. unfold index_of, truncate, item.
  assert (NQ : (0 <= inject_Z n)%Q) by (change 0%Q with (inject_Z 0); rewrite <- Zle_Qle; exact N).
  assert (Q1 : (1 <= (t - lo) / (hi - lo))%Q) by (apply Qle_shift_div_l; lra). set (q := ((t - lo) / (hi - lo))%Q) in *. clearbody q.
  assert (Q2 : (0 <= (q - 1) * inject_Z n)%Q) by (apply Qmult_le_0_compat; lra). assert (Q3 : (inject_Z n <= q * inject_Z n)%Q) by lra.
  rewrite (proj2 (Qle_bool_iff 0 (q * inject_Z n))) by lra. assert (F := Qlt_floor (q * inject_Z n)). set (f := Qfloor (q * inject_Z n)) in *. clearbody f.
  assert (G : (inject_Z n < inject_Z (f + 1))%Q) by lra. rewrite <- Zlt_Qlt in G.
  replace ((0 <=? f) && (f <? n)) with false by (symmetry; apply andb_false_iff; lia). replace ((- n <=? f) && (f <? 0)) with false by (symmetry; apply andb_false_iff; lia). discriminate.
Qed.
Print Assumptions C83_limit_refuted.
(** With --tempmin, cells colder than it get the colours of the hottest: here the coldest
    cell (299 K) is drawn redder than one of 398 K. *)
Theorem C83_cold_refuted : exists l, option_map (map snd) (draw_uniform [5; 15]%Q [5; 15]%Q [[299; 320]; [350; 398]]%Q 100 (Some 300%Q) (Some 400%Q)) = Some l /\ l = [99; 20; 50; 98].
Proof. eexists. split; [vm_compute; reflexivity|reflexivity]. Qed.
Print Assumptions C83_cold_refuted.
(** The hypotheses of C83_place and C83_default are met: 2 by 2 cells of 10 um. *)
Example C83_witness : centres 10 0 [5; 15]%Q /\ 
  option_map (map snd) (draw_uniform [5; 15]%Q [5; 15]%Q [[300; 320]; [350; 398]]%Q 10 None None) = Some [0; 2; 5; 9].
Proof.
  split; [|vm_compute; reflexivity]. intros [|[|j]] x H; [injection H as <-; vm_compute; discriminate|injection H as <-; vm_compute; discriminate|destruct j; discriminate H].
Qed.
Print Assumptions C83_witness.
(** A non-uniform grid: the first map of the file, each temperature in its cell. *)
Theorem C83_nonuniform : forall cells r0 rows n lo hi l, draw_nonuniform cells (r0 :: rows) n lo hi = Some l ->
  List.length l = List.length r0 /\ (List.length r0 <= List.length cells)%nat /\
  (forall m r k, nth_error l m = Some (r, k) -> exists c, nth_error cells m = Some c /\
     (1000 * x_left r == x_left c /\ 1000 * y_left r == y_left c /\ 1000 * dim_x r == dim_x c /\ 1000 * dim_y r == dim_y c)%Q) /\
  (forall a b, lo = Some a -> hi = Some b -> 0 < n -> (a < b)%Q -> forall m r k t, nth_error l m = Some (r, k) -> nth_error r0 m = Some t ->
     (a <= t)%Q -> (t < b)%Q -> colour_of a b n t k).
Proof.
  intros cells r0 rows n lo hi l H. unfold draw_nonuniform in H.
  assert (D : exists a b, draw n a b cells r0 = Some l /\ (forall x, lo = Some x -> a = x) /\ (forall x, hi = Some x -> b = x)).
  { unfold plot_tmap in H. cbv zeta in H. destruct (n <? 0); [discriminate|].
    destruct lo as [lo|]; destruct hi as [hi|]; destruct r0 as [|t ts]; try discriminate H; eexists; eexists; (split; [exact H|]); split; intros x E; congruence. }
  destruct D as (a & b & D & EA & EB). destruct (draw_some _ _ _ _ _ _ D) as (L1 & L2 & P).
  split; [exact L1|]. split; [exact L2|]. split.
  - intros m r k K. destruct (P m r k K) as (c & t & C & _ & R & _). exists c. split; [exact C|]. subst r. unfold scaled. cbn [x_left y_left dim_x dim_y].
    split; [field|]. split; [field|]. split; field.
  - intros a' b' E1 E2 N AB m r k t K T A B. specialize (EA a' E1). specialize (EB b' E2). subst a b.
    destruct (P m r k K) as (c & u & _ & U & _ & J). assert (u = t) by congruence. subst u.
    destruct (colour_index n a' b' t N AB A B) as (k' & I & CO). assert (k' = k) by congruence. subst k'. exact CO.
Qed.
Print Assumptions C83_nonuniform.
Example C83_nonuniform_witness : option_map (map snd) (draw_nonuniform [mk_rect 0 0 10 10; mk_rect 10 0 20 10] [[320; 399]; [320; 400]]%Q 10 (Some 300%Q) (Some 400%Q)) = Some [2; 9].
Proof. vm_compute. reflexivity. Qed.
(** Limits above and below all temperatures: every cell is drawn, in its colour. *)
Theorem C83_limits : forall xs ys rows n a b, 0 < n -> (a < b)%Q -> (2 <= List.length xs)%nat -> (2 <= List.length ys)%nat ->
  Forall (fun t => a <= t /\ t < b)%Q (concat rows) -> (List.length (concat rows) <= List.length ys * List.length xs)%nat ->
  exists l, draw_uniform xs ys rows n (Some a) (Some b) = Some l /\
    forall m r k t, nth_error l m = Some (r, k) -> nth_error (concat rows) m = Some t -> colour_of a b n t k.
Proof.
  intros xs ys rows n a b N AB XL YL F LE. unfold draw_uniform, uniform_cells, temperatures, plot_tmap. cbv zeta.
  destruct xs as [|x0 [|x1 xr]]; [cbn in XL; lia|cbn in XL; lia|]. destruct ys as [|y0 [|y1 yr]]; [cbn in YL; lia|cbn in YL; lia|].
  set (xs := x0 :: x1 :: xr) in *. set (ys := y0 :: y1 :: yr) in *. clearbody xs ys. set (cells := flat_map _ _).
  assert (CL : List.length cells = (List.length ys * List.length xs)%nat) by (apply (grid_length (fun x_i y_i => mk_rect (y_i - (x1 - x0) / 2) (x_i - (y1 - y0) / 2) (x1 - x0) (y1 - y0)))).
  clearbody cells. replace (n <? 0) with false by (symmetry; apply Z.ltb_ge; lia). rewrite Forall_forall in F.
  destruct (draw_ok n a b (concat rows) cells) as (l & D).
  - intros E. lra.
  - rewrite CL. exact LE.
  - intros t T. destruct (F t T) as (A & B). destruct (colour_index n a b t N AB A B) as (k & I & _). congruence.
  - exists l. split; [exact D|]. intros m r k t K T. destruct (draw_some _ _ _ _ _ _ D) as (_ & _ & P).
    destruct (P m r k K) as (c & u & _ & U & _ & J). assert (u = t) by congruence. subst u.
    destruct (F t (nth_error_In _ _ T)) as (A & B). destruct (colour_index n a b t N AB A B) as (k' & I & CO). assert (k' = k) by congruence. subst k'. exact CO.
Qed.
Print Assumptions C83_limits.
