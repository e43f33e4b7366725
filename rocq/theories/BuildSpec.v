(** * Specification vocabulary: descriptions that make physical sense *)
From Coq Require Import ZArith List Bool QArith.
From Verif Require Import Base Dims Queue QueueProofs Floorplan FloorplanSpec Stack StackSpec PowerGrid Emulate EmulateSpec Conduct Matrix MatrixSpec Build.
Import ListNotations.
Local Open Scope Z_scope.

(** Layers: positive height, physical materials. *)
Definition sound_layer (l : layer) : Prop := (0 < ly_height l)%Q /\ physical_layer l.

(** Channels: everything that is divided by or conducts is positive. *)
Definition sound_channel (cd : channel_decl) : Prop :=
  match cd with
  | Decl4RM h w fr hs ht hb vhc tin => (0 < h /\ 0 <= fr /\ 0 < hs /\ 0 < ht /\ 0 < hb /\ 0 < vhc)%Q /\ physical_material w
  | Decl2RM h len wl w fr hs ht hb vhc tin =>
    (0 < h /\ 0 < len /\ 0 < wl /\ 0 <= fr /\ 0 < ht /\ 0 < hb /\ 0 < vhc)%Q /\ physical_material w
  | DeclPF st h por pin darcy vhc tin htc => (0 < h /\ 0 < por /\ por < 1 /\ 0 <= darcy /\ 0 < vhc /\ 0 < htc)%Q /\ physical_material pin
  end.

(** Floorplans: filled from rectangles on the chip, recorded by the parser; the
    queues of the elements are those of the parser. *)
Definition sound_floorplan (d : dims) (f : floorplan) : Prop :=
  exists els, Forall (good_element d) els /\ coefficients els < two32 /\ fill_floorplan els d = Ok f /\
              Forall (fun e => exists l, qrep (fe_powers e) l) els.

Definition sound_decl (d : dims) (dc : stack_decl) : Prop :=
  match dc with
  | DeclDie _ above source below f => Forall sound_layer (above ++ source :: below) /\ sound_floorplan d f
  | DeclLayer _ l => sound_layer l
  | DeclChannel _ => True
  end.

(** The cells fit the chip: positive sizes, at least one row and one column;
    the walls of a 4RM channel are positive. *)
Definition sound_cells (x : description) : Prop :=
  (0 < x_chip_length x /\ 0 < x_chip_width x /\ 0 < x_cell_length x /\ 0 < x_cell_width x /\
   x_cell_width x <= x_chip_width x)%Q /\
  match x_channel x with
  | Some (Decl4RM _ _ _ _ _ _ _ _) =>
    let '(first, last, wall, chan) := x_walls x in (0 < first /\ 0 < last /\ 0 < wall /\ 0 < chan)%Q
  | _ => (x_cell_length x <= x_chip_length x)%Q
  end.

Definition sound_top (t : option top_decl) : Prop :=
  match t with
  | None => True
  | Some (DeclTop htc _) => (0 < htc)%Q
  | Some (DeclPluggable _ _ h m) => (0 < h)%Q /\ physical_material m
  end.

(** The description as a whole; [lo] is what the parser made of it.  The number
    of rows and columns of a spreader are not wrapped around, and a two-resistor
    chip is wide enough for one channel. *)
Record sound (x : description) (lo : loaded) : Prop := {
  so_cells : sound_cells x;
  so_channel : forall cd, x_channel x = Some cd -> sound_channel cd;
  so_stack : Forall (sound_decl (lo_dims lo)) (x_stack x);
  so_layers : Z.of_nat (length (stack_heights (lo_channel lo) (x_stack x))) < two32;
  so_top : sound_top (x_top x);
  so_bottom : forall b, x_bottom x = Some b -> (0 < bs_htc b)%Q;
  so_spreader : forall s h m, lo_top lo = Some (SinkPluggable s h m) ->
      2 * s_border_rows s + d_nrows (lo_dims lo) < two32 /\ 2 * s_border_cols s + d_ncols (lo_dims lo) < two32
}.

(** At least one channel crosses a two-resistor chip. *)
Definition some_channel (lo : loaded) : Prop :=
  forall ch, lo_channel lo = Some ch -> ch_model ch = CM_MC_2RM -> 0 < ch_nchannels ch.

(** Queues of the floorplans of the stack, dies from the bottom (the description
    lists them from the top). *)
Definition decl_elements (dc : stack_decl) : list flpel :=
  match dc with DeclDie _ _ _ _ f => f_elements f | _ => [] end.
Definition described_elements (x : description) : list flpel := flat_map decl_elements (rev (x_stack x)).

(** The reasons for which a stack is refused when its grid is filled. *)
Definition refused (x : description) (lo : loaded) : Prop :=
  (has_spreader (lo_top lo) /\ uses_4rm (lo_channel lo) (x_stack x)) \/
  (d_nlayers (lo_dims lo) = 1 /\ lo_top lo <> None /\ x_bottom x <> None).
