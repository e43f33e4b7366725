(** * Specification vocabulary: what a stack declaration means *)
From Coq Require Import ZArith List QArith.
From Verif Require Import Base Dims Floorplan Stack.
Import ListNotations.
Local Open Scope Z_scope.

(** Number of thermal layers of a channel: one for 4RM, four for the others. *)
Definition chan_height (ch : option channel) : Q := match ch with Some c => ch_height c | None => 0%Q end.
Definition chan_layers (ch : option channel) : nat :=
  match ch with Some c => match ch_model c with CM_MC_4RM => 1%nat | _ => 4%nat end | None => O end.

(** Heights of the layers of one declaration, top to bottom as in the file. *)
Definition decl_heights (ch : option channel) (dc : stack_decl) : list Q :=
  match dc with
  | DeclDie _ above source below _ => map ly_height above ++ ly_height source :: map ly_height below
  | DeclLayer _ l => [ly_height l]
  | DeclChannel _ => repeat (chan_height ch) (chan_layers ch)
  end.

(** All layers of the stack, top to bottom. *)
Definition stack_heights (ch : option channel) (ds : list stack_decl) : list Q :=
  flat_map (decl_heights ch) ds.

(** Number of layers declared below declaration number [i]. *)
Definition layers_below (ch : option channel) (ds : list stack_decl) (i : nat) : Z :=
  Z.of_nat (length (stack_heights ch (skipn (S i) ds))).

(** Layer [l] (counted from the bottom) is the source layer of a declared die,
    whose floorplan is [f]. *)
Definition source_at (ch : option channel) (ds : list stack_decl) (l : Z) (f : floorplan) : Prop :=
  exists i id above source below,
    nth_error ds i = Some (DeclDie id above source below f) /\
    l = layers_below ch ds i + Z.of_nat (length below).

(** Layer [l] belongs to a declared channel. *)
Definition channel_at (ch : option channel) (ds : list stack_decl) (l : Z) : Prop :=
  exists i id, nth_error ds i = Some (DeclChannel id) /\
    layers_below ch ds i <= l < layers_below ch ds i + Z.of_nat (chan_layers ch).

(** The channel, if any, is one the microchannel section can declare. *)
Definition declared (ch : option channel) : Prop :=
  match ch with
  | None => True
  | Some c => exists cd len ncols, declare_channel cd len ncols = Ok c
  end.

(** Families of layer types. *)
Definition is_source (t : layer_type) : bool :=
  match t with LT_SOURCE | LT_SOURCE_AMBIENT | LT_SOURCE_SPREADER | LT_SOURCE_PCB => true | _ => false end.
Definition is_passive_solid (t : layer_type) : bool :=
  match t with LT_SOLID | LT_SOLID_AMBIENT | LT_SOLID_SPREADER | LT_SOLID_PCB => true | _ => false end.
Definition to_ambient (t : layer_type) : bool :=
  match t with LT_SOLID_AMBIENT | LT_SOURCE_AMBIENT => true | _ => false end.
Definition to_spreader (t : layer_type) : bool :=
  match t with LT_SOLID_SPREADER | LT_SOURCE_SPREADER => true | _ => false end.
Definition to_pcb (t : layer_type) : bool :=
  match t with LT_SOLID_PCB | LT_SOURCE_PCB => true | _ => false end.
Definition has_ambient (top : option top_sink) : Prop := exists h t, top = Some (SinkTop h t).
Definition has_spreader (top : option top_sink) : Prop := exists s h m, top = Some (SinkPluggable s h m).

(** Two neighbouring declarations are channels. *)
Definition adjacent_channels (ds : list stack_decl) : Prop :=
  exists i a b, nth_error ds i = Some (DeclChannel a) /\ nth_error ds (S i) = Some (DeclChannel b).

(** Layers of a channel from the bottom: one coolant layer for 4RM, otherwise
    bottom wall, virtual wall, coolant, top wall. *)
Definition expected_channel_types (m : channel_model) : list layer_type :=
  match m with
  | CM_MC_4RM => [LT_CHANNEL_4RM]
  | CM_MC_2RM => [LT_BOTTOM_WALL; LT_VWALL_CHANNEL; LT_CHANNEL_2RM; LT_TOP_WALL]
  | CM_PF_INLINE => [LT_BOTTOM_WALL; LT_VWALL_PINFINS; LT_PINFINS_INLINE; LT_TOP_WALL]
  | CM_PF_STAGGERED => [LT_BOTTOM_WALL; LT_VWALL_PINFINS; LT_PINFINS_STAGGERED; LT_TOP_WALL]
  | CM_NONE => []
  end.

(** The stack uses a 4RM channel. *)
Definition uses_4rm (ch : option channel) (ds : list stack_decl) : Prop :=
  (exists i id, nth_error ds i = Some (DeclChannel id)) /\
  exists c, ch = Some c /\ ch_model c = CM_MC_4RM.

(** The layers as declared, top to bottom; a channel layer is made of the wall
    material. *)
Definition decl_layers (ch : option channel) (dc : stack_decl) : list layer :=
  match dc with
  | DeclDie _ above source below _ => above ++ source :: below
  | DeclLayer _ l => [l]
  | DeclChannel _ =>
    match ch with Some c => repeat (mkLayer (ch_height c) (ch_wall c) []) (chan_layers ch) | None => [] end
  end.

(** Kind and identifier of a declaration. *)
Definition is_chan_decl (dc : stack_decl) : bool := match dc with DeclChannel _ => true | _ => false end.
Definition decl_id (dc : stack_decl) : list Z :=
  match dc with DeclDie id _ _ _ _ => id | DeclLayer id _ => id | DeclChannel id => id end.
Definition is_die_decl (dc : stack_decl) : bool := match dc with DeclDie _ _ _ _ _ => true | _ => false end.

(** What the parser requires of a stack: distinct identifiers, a die, no
    channel at either end, and a declared channel if one is used. *)
Definition acceptable (ch : option channel) (ds : list stack_decl) : Prop :=
  NoDup (map decl_id ds) /\
  (exists dc, In dc ds /\ is_die_decl dc = true) /\
  (exists dc, nth_error ds 0 = Some dc /\ is_chan_decl dc = false) /\
  (exists dc, nth_error ds (length ds - 1) = Some dc /\ is_chan_decl dc = false) /\
  ((exists dc, In dc ds /\ is_chan_decl dc = true) -> ch <> None).
