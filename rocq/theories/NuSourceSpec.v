(** * Specification vocabulary: the heat that enters the cells of the
      non-uniform grid *)
From Coq Require Import ZArith List Bool QArith.
From Verif Require Import Base Dims Queue QueueProofs Floorplan Stack StackSpec PowerGrid Emulate EmulateSpec Conduct Matrix MatrixSpec NonUniform NuSpec NuMatrix NuMatrixSpec NuSource.
Import ListNotations.
Local Open Scope Z_scope.

(** Number of cells of an element, and of a floorplan. *)
Definition pieces (e : nu_source) : nat := Z.to_nat (so_dx e * so_dy e).
Definition all_pieces (els : list nu_source) : nat := fold_right Nat.add O (map pieces els).

(** Power of cell number [k] of a source layer: its elements, in order, take
    [pieces] cells each and share their power equally. *)
Fixpoint share (els : list nu_source) (powers : list Q) (k : nat) : Q :=
  match els, powers with
  | e :: els', p :: ps' => if (k <? pieces e)%nat then (p / qz (Z.of_nat (pieces e)))%Q else share els' ps' (k - pieces e)
  | _, _ => 0%Q
  end.

(** Power values waiting in the queues of a floorplan: at least one for each
    element; the first ones are [powers_now]. *)
Definition queued (els : list nu_source) (qs : list (list Q)) : Prop := Forall2 (fun e q => qrep (so_powers e) q) els qs.
Definition powers_now (qs : list (list Q)) : list Q := map (hd 0%Q) qs.
Definition good_pieces (els : list nu_source) : Prop := Forall (fun e => 0 < so_dx e * so_dy e < two32) els.

(** Cell [k] of layer [l]. *)
Definition layer_block (G : list nlayer) (l : nat) : list gcell := snd (nth l G (0, [])).
Definition grid_cell (hs : list Q) (G : list nlayer) (l k : nat) : cell := cell_of hs l (nth k (layer_block G l) (mkG rect0 false material0)).

(** Heat from the ambient through the top sink, the cell being at 0 K. *)
Definition from_air (g : tgrid) (d : dims) (c : cell) : Q :=
  match tg_top g with Some (SinkTop _ a) => (a * to_air g d c)%Q | _ => 0%Q end.
(** The same for a sink below: the program takes the lower face of the cells to be
    at the temperature of the ambient. *)
Definition to_board (g : tgrid) (d : dims) (c : cell) : Q :=
  if to_pcb (type_of g (c_layer c)) then (c_length c * c_width c / (cell_height d c / 2 / mt_kz (cell_material g c)))%Q else 0%Q.
Definition from_board (g : tgrid) (d : dims) (c : cell) : Q :=
  match tg_bottom g with Some b => (bs_ambient b * to_board g d c)%Q | None => 0%Q end.
(** The coolant enters in the first row of the coolant layers. *)
Definition from_inlet (g : tgrid) (d : dims) (l k : nat) : Q :=
  match tg_channel g with
  | Some ch => if coolant_type (type_of g (Z.of_nat l)) && (Z.of_nat k <? d_ncols d) && is_channel_column (ch_model ch) (Z.of_nat k)
               then (2 * convection ch d (Z.of_nat l) (Z.of_nat k) * co_tin ch)%Q else 0%Q
  | None => 0%Q
  end.

(** A power grid built on the grid [G], with the values [qs l] waiting for the
    source layers: the cells of a source layer are those of its floorplan; the
    layers of coolant have one row at least. *)
Definition flp_at (pg : npgrid) (l : nat) : list nu_source := match nth l (np_flps pg) None with Some els => els | None => [] end.
Record ready (pg : npgrid) (d : dims) (hs : list Q) (G : list nlayer) (qs : nat -> list (list Q)) : Prop := {
  rd_cells : np_cells pg = number hs 0 G;
  rd_layers : (length (tg_types (np_grid pg)) <= length G)%nat;
  rd_air : has_ambient (tg_top (np_grid pg)) -> length G = length (tg_types (np_grid pg));
  rd_flps : length (np_flps pg) = length (tg_types (np_grid pg));
  rd_sources : length (np_sources pg) = length (grid_cells G);
  rd_top : nu_top_tcs (np_grid pg) d (np_cells pg) = Ok (np_top_tcs pg);
  rd_bottom : nu_bottom_tcs (np_grid pg) d (np_cells pg) = Ok (np_bottom_tcs pg);
  rd_some : forall l, (l < length G)%nat -> layer_block G l <> [];
  rd_queues : forall l, (l < length (tg_types (np_grid pg)))%nat -> is_source (type_of (np_grid pg) (Z.of_nat l)) = true ->
      (exists els, nth_error (np_flps pg) l = Some (Some els)) /\ queued (flp_at pg l) (qs l) /\ good_pieces (flp_at pg l) /\
      all_pieces (flp_at pg l) = length (layer_block G l);
  rd_rows : forall l, (l < length (tg_types (np_grid pg)))%nat -> coolant_type (type_of (np_grid pg) (Z.of_nat l)) = true ->
      d_ncols d <= Z.of_nat (length (layer_block G l))
}.

(** What enters cell [k] of layer [l] during a step. *)
Definition heat_in (pg : npgrid) (d : dims) (hs : list Q) (G : list nlayer) (qs : nat -> list (list Q)) (l k : nat) : Q :=
  let g := np_grid pg in let c := grid_cell hs G l k in
  ((if is_source (type_of g (Z.of_nat l)) then share (flp_at pg l) (powers_now (qs l)) k else 0) + from_air g d c + from_board g d c + from_inlet g d l k)%Q.

(** ** The stack *)
(** For each layer from the bottom: the die whose source layer it is. *)
Fixpoint die_profile (x : nu_die) (index : Z) (ls : list layer) : list (option nu_die) :=
  match ls with [] => [] | _ :: t => (if index =? nd_offset x then Some x else None) :: die_profile x (index + 1) t end.
Definition kind_profile (e : nu_kind) : list (option nu_die) :=
  match e with
  | NuDie x => die_profile x 0 (rev (nd_layers x))
  | NuLayer _ _ => [None]
  | NuChannel m => repeat None (Z.to_nat (channel_layers m))
  end.
Definition profile (es : list nu_kind) : list (option nu_die) := flat_map kind_profile (rev es).
(** For each layer, whether it belongs to a channel. *)
Definition in_channel_of (e : nu_kind) : list bool :=
  match e with
  | NuDie x => map (fun _ => false) (nd_layers x)
  | NuLayer _ _ => [false]
  | NuChannel m => repeat true (Z.to_nat (channel_layers m))
  end.
Definition channels_of (es : list nu_kind) : list bool := flat_map in_channel_of (rev es).

(** The profile of the floorplans: the elements of the die, cut as the grid cuts
    them, with the values of [qs] waiting. *)
Definition sources_of (x : nu_die) (els : list nu_source) : Prop :=
  map (fun e => (so_dx e, so_dy e)) els = map (discretisation x) (nd_els x).
(** Types, floorplans and queues of a stack. *)
Record describes (es : list nu_kind) (g : tgrid) (flps : list (option (list nu_source))) (qs : nat -> list (list Q)) : Prop := {
  ds_types : length (tg_types g) = length (profile es);
  ds_source : forall l, is_source (type_of g (Z.of_nat l)) = true <-> exists x, nth_error (profile es) l = Some (Some x);
  ds_coolant : forall l, coolant_type (type_of g (Z.of_nat l)) = true -> nth_error (channels_of es) l = Some true;
  ds_flps : length flps = length (profile es);
  ds_els : forall l x, nth_error (profile es) l = Some (Some x) ->
      exists els, nth_error flps l = Some (Some els) /\ sources_of x els /\ queued els (qs l)
}.
