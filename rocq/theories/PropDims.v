(** * Properties C11, C12, C49: the uniform grid *)
From Coq Require Import ZArith List QArith Lia Lqa.
From Verif Require Import Base QSum Dims DimsSpec DimsProofs.
Import ListNotations.
Local Open Scope Z_scope.

(** C11 *)
Theorem C11_cell_numbering_bijective : forall L W cl cw s heights sc d,
    parse_dims L W cl cw s heights sc = Ok (Some d) -> 0 <= sc ->
    let total := d_nlayers d * d_nrows d * d_ncols d in
    (forall l r c, in_grid d l r c ->
       0 <= offset_in_stack d l r c < total /\ total <= d_ncells d < 2147483648) /\
    (forall l r c l' r' c', in_grid d l r c -> in_grid d l' r' c' ->
       offset_in_stack d l r c = offset_in_stack d l' r' c' -> l = l' /\ r = r' /\ c = c') /\
    (forall k, 0 <= k < total -> exists l r c, in_grid d l r c /\ offset_in_stack d l r c = k).
Proof.
  intros L W cl cw s heights sc d H Hsc total.
  destruct (parse_dims_inv _ _ _ _ _ _ _ _ H Hsc) as (A & _).
  split; [|split].
  - intros l r c G. destruct (offset_pure d l r c A G) as (_ & _ & B). destruct A. unfold total in *. lia.
  - intros l r c l' r' c' G G' E. exact (offset_injective d l r c l' r' c' A G G' E).
  - intros k Hk. exact (offset_surjective d k A Hk).
Qed.
Print Assumptions C11_cell_numbering_bijective.

(** C12, columns: consecutive cells touch, centres are half way (except on
    two-column grids, see below). *)
Theorem C12_columns_tile_partial : forall L W cl cw s heights sc d,
    parse_dims L W cl cw s heights sc = Ok (Some d) -> 0 <= sc ->
    forall c, 0 <= c < d_ncols d ->
      (c + 1 < d_ncols d ->
       (get_cell_location_x d (c + 1) == get_cell_location_x d c + get_cell_length d c)%Q) /\
      (d_ncols d <> 2 ->
       (get_cell_center_x d c == get_cell_location_x d c + get_cell_length d c / 2)%Q).
Proof.
  intros L W cl cw s heights sc d H Hsc c Hc.
  assert (regular d) as R by (eapply parse_regular; eauto; lia).
  split; intros Hx; [apply location_step; auto; lia|apply center_mid; auto].
Qed.
Print Assumptions C12_columns_tile_partial.

(** C12, rows. *)
Theorem C12_rows_tile : forall L W cl cw s heights sc d,
    parse_dims L W cl cw s heights sc = Ok (Some d) -> 0 <= sc ->
    forall r, 0 <= r < d_nrows d ->
      (get_cell_location_y d (r + 1) == get_cell_location_y d r + get_cell_width d r)%Q /\
      (get_cell_center_y d r == get_cell_location_y d r + get_cell_width d r / 2)%Q.
Proof.
  intros L W cl cw s heights sc d H Hsc r Hr.
  destruct (parse_dims_inv _ _ _ _ _ _ _ _ H Hsc) as (A & _).
  apply location_y_step; [exact Hr|destruct A; lia].
Qed.
Print Assumptions C12_rows_tile.

(** C12, total length: exact for 4RM grids; for other grids exact when the chip
    length is a multiple of the cell length, otherwise less than one cell short. *)
Theorem C12_total_length_partial : forall L W cl cw s heights sc d,
    parse_dims L W cl cw s heights sc = Ok (Some d) -> 0 <= sc -> 1 <= d_ncols d ->
    positive_sizes L W cl cw s ->
    let total := qsum (column_lengths d (Z.to_nat (d_ncols d))) in
    match s with
    | MC4RM _ _ _ _ => (total == d_chip_length d)%Q
    | Uniform _ => (total <= d_chip_length d < total + cl)%Q /\
                   ((exists n, L == qz n * cl)%Q -> (total == d_chip_length d)%Q)
    end.
Proof. exact chip_length_tiled. Qed.
Print Assumptions C12_total_length_partial.

Theorem C12_total_width_partial : forall L W cl cw s heights sc d,
    parse_dims L W cl cw s heights sc = Ok (Some d) -> 0 <= sc ->
    positive_sizes L W cl cw s ->
    let total := qsum (row_widths d (Z.to_nat (d_nrows d))) in
    (total <= d_chip_width d < total + cw)%Q /\
    ((exists n, W == qz n * cw)%Q -> (total == d_chip_width d)%Q).
Proof. exact chip_width_tiled. Qed.
Print Assumptions C12_total_width_partial.

(** C12 is false as stated: (1) on a grid with two columns the centre of the
    second column is computed with a wrapped unsigned subtraction; (2) a chip
    length that is not a multiple of the cell length is accepted and the cells
    do not cover the chip. *)
Theorem C12_two_columns_center_refuted : exists d,
    parse_dims 20 10 10 10 (Uniform 10) [1%Q] 0 = Ok (Some d) /\ d_ncols d = 2 /\
    (20 < get_cell_center_x d 1)%Q.
Proof.
  eexists. split; [vm_compute; reflexivity|]. split; [reflexivity|]. vm_compute. reflexivity.
Qed.
Print Assumptions C12_two_columns_center_refuted.

Theorem C12_cover_refuted : exists d,
    parse_dims 10 10 3 5 (Uniform 3) [1%Q] 0 = Ok (Some d) /\
    (qsum (column_lengths d (Z.to_nat (d_ncols d))) < d_chip_length d)%Q.
Proof. eexists. split; [vm_compute; reflexivity|]. vm_compute. reflexivity. Qed.
Print Assumptions C12_cover_refuted.

(** The guard of get_cell_height accepts one layer too many. *)
Theorem C12_height_guard_refuted : exists d,
    parse_dims 20 10 10 10 (Uniform 10) [1%Q; 2%Q] 0 = Ok (Some d) /\
    get_cell_height d (d_nlayers d) = UB.
Proof. eexists. split; [vm_compute; reflexivity|]. reflexivity. Qed.

(** Witnesses: a 4RM grid with 7 columns and a uniform one. *)
Example C12_4rm_witness : exists d,
    parse_dims 260 100 20 50 (MC4RM 25 35 30 40) [1%Q; 2%Q; 3%Q] 0 = Ok None /\
    parse_dims 240 100 20 50 (MC4RM 25 35 30 40) [1%Q; 2%Q; 3%Q] 0 = Ok (Some d) /\
    d_ncols d = 7 /\ d_nrows d = 2 /\ d_ncells d = 42 /\
    positive_sizes 240 100 20 50 (MC4RM 25 35 30 40).
Proof.
  eexists. split; [vm_compute; reflexivity|]. split; [vm_compute; reflexivity|].
  repeat split; reflexivity.
Qed.
Example C11_witness : exists d,
    parse_dims 100 50 10 10 (Uniform 10) [1%Q; 2%Q; 3%Q] 0 = Ok (Some d) /\
    d_ncols d = 10 /\ in_grid d 2 4 9 /\ offset_in_stack d 2 4 9 = 149.
Proof. eexists. split; [vm_compute; reflexivity|]. repeat split; cbn; lia. Qed.

(** C49 (uniform grid). *)
Theorem C49_spreader_roundtrip_partial : forall L W cl cw sp heights d len wid s,
    initialize_heat_spreader d len wid = Ok (Some s) ->
    parse_dims L W cl cw sp heights (s_nrows s * s_ncols s) = Ok (Some d) ->
    0 <= s_nrows s * s_ncols s ->
    2 * s_border_rows s + d_nrows d < two32 -> 2 * s_border_cols s + d_ncols d < two32 ->
    (* every chip cell has a spreader cell above it, which maps back to it *)
    (forall l r c, in_grid d l r c ->
       exists r' c', 0 <= r' < s_nrows s /\ 0 <= c' < s_ncols s /\
         spreader_offset_from_layer d s r c = spreader_offset d s r' c' /\
         has_layer_underneath d s r' c' = true /\
         layer_offset_from_spreader d s l r' c' = Ok (offset_in_stack d l r c)) /\
    (* a spreader cell has a chip layer underneath iff it is above a chip cell *)
    (forall r' c', 0 <= r' < s_nrows s -> 0 <= c' < s_ncols s ->
       (has_layer_underneath d s r' c' = true <->
        exists r c, 0 <= r < d_nrows d /\ 0 <= c < d_ncols d /\
                    r' = r + s_border_rows s /\ c' = c + s_border_cols s)) /\
    (* spreader cells are numbered after the chip cells, without collision *)
    (forall r c, 0 <= r < s_nrows s -> 0 <= c < s_ncols s ->
       d_nlayers d * d_nrows d * d_ncols d <= spreader_offset d s r c < d_ncells d) /\
    (forall r c r' c', 0 <= r < s_nrows s -> 0 <= c < s_ncols s ->
       0 <= r' < s_nrows s -> 0 <= c' < s_ncols s ->
       spreader_offset d s r c = spreader_offset d s r' c' -> r = r' /\ c = c').
Proof.
  intros L W cl cw sp heights d len wid s HI HP Hsc Hr Hc.
  destruct (parse_dims_inv _ _ _ _ _ _ _ _ HP Hsc) as (A & _ & _ & _ & _ & _ & Hcells & _).
  assert (good_spreader d s) as G.
  { eapply initialize_good; eauto. destruct A. lia. }
  split; [|split; [|split]].
  - intros l r c Gr. exists (r + s_border_rows s), (c + s_border_cols s).
    destruct (spreader_roundtrip d s l r c A G Gr) as (H1 & H2 & H3).
    destruct Gr as [Hl [Hr0 Hc0]]. destruct G. repeat split; try lia; auto.
  - intros r' c' H1 H2. apply underneath_iff; auto.
  - intros r c H1 H2. destruct (spreader_offset_pure d s r c A G H1 H2) as (_ & B). lia.
  - intros r c r' c' H1 H2 H3 H4 E. exact (spreader_injective d s r c r' c' A G H1 H2 H3 H4 E).
Qed.
Print Assumptions C49_spreader_roundtrip_partial.

Example C49_witness : exists d s,
    initialize_heat_spreader d 160 80 = Ok (Some s) /\
    parse_dims 100 50 10 10 (Uniform 10) [1%Q; 2%Q] (s_nrows s * s_ncols s) = Ok (Some d) /\
    s_nrows s = 7 /\ s_ncols s = 16 /\ s_border_rows s = 1 /\ s_border_cols s = 3.
Proof.
  exists (mkDims 10 10 10 10 10 [1%Q;2%Q] 2 5 10 212 100 50). eexists.
  split; [vm_compute; reflexivity|]. repeat split; vm_compute; reflexivity.
Qed.

(** Not covered by C49_spreader_roundtrip_partial, and false: on a non-uniform
    grid all spreader cells get the same offset. *)
Theorem C49_nonuniform_collision_refuted : exists ncells s,
    s_nrows s * s_ncols s <= ncells /\ 1 < s_ncols s /\ 1 <= s_nrows s /\
    spreader_offset_nonuniform ncells s 0 0 = spreader_offset_nonuniform ncells s 0 1.
Proof. exists 100, (mkSpreader 3 4 1 1 1 1). vm_compute. repeat split; discriminate. Qed.
Print Assumptions C49_nonuniform_collision_refuted.
