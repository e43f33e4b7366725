(** * Properties C23, C24, C44: layout of the stack, layer types *)
From Coq Require Import ZArith List Bool QArith Lia.
From Verif Require Import Base Dims Queue Floorplan Stack StackSpec StackProofs StackGridProofs StackAcceptProofs.
Import ListNotations.
Local Open Scope Z_scope.

(** C23.  [ds] are the declarations of the file, top-most first; [es] the
    elements built, [hs] the height vector (index 0: bottom).  Any number of
    elements, fewer than 2^32 layers in all. *)
Theorem C23_stack_layout : forall ch ds es hs,
    declared ch -> Z.of_nat (length (stack_heights ch ds)) < two32 ->
    parse_stack ch ds = Ok (Some (es, hs)) ->
    hs = rev (stack_heights ch ds) /\
    length es = length ds /\
    (forall i e, nth_error es i = Some e -> exists dc, nth_error ds i = Some dc /\
        se_offset e = layers_below ch ds i /\ se_nlayers e = Z.of_nat (length (decl_heights ch dc)) /\
        0 <= se_offset e /\ se_offset e + se_nlayers e <= Z.of_nat (length hs)) /\
    (forall l, 0 <= l < Z.of_nat (length hs) -> exists i e, nth_error es i = Some e /\
        se_offset e <= l < se_offset e + se_nlayers e /\
        forall j e', nth_error es j = Some e' -> se_offset e' <= l < se_offset e' + se_nlayers e' -> j = i) /\
    (forall i e d, nth_error es i = Some e -> se_kind e = SKDie d ->
        exists id above source below f, nth_error ds i = Some (DeclDie id above source below f) /\
          0 <= die_source_offset d < se_nlayers e /\
          nth_error hs (Z.to_nat (se_offset e + die_source_offset d)) = Some (ly_height source)).
Proof. exact stack_layout. Qed.
Print Assumptions C23_stack_layout.

(** C23, which stacks are accepted: exactly the acceptable ones, and the parser
    never writes outside the height vector. *)
Theorem C23_accepted_exactly : forall ch ds,
    declared ch -> Z.of_nat (length (stack_heights ch ds)) < two32 ->
    (acceptable ch ds <-> exists es hs, parse_stack ch ds = Ok (Some (es, hs))) /\
    (~ acceptable ch ds -> parse_stack ch ds = Ok None).
Proof. exact parse_stack_accepts. Qed.
Print Assumptions C23_accepted_exactly.

(** C24.  Both grids are filled without touching memory outside their vectors;
    the thermal grid is refused exactly for a pluggable sink over a 4RM channel
    or two sinks on a stack of one layer; otherwise the two typings agree and
    every layer has the type that its declaration calls for. *)
Theorem C24_layer_types : forall ch ds es hs,
    declared ch -> Z.of_nat (length (stack_heights ch ds)) < two32 ->
    parse_stack ch ds = Ok (Some (es, hs)) ->
    forall top bot, exists err g ts fs,
      thermal_grid_fill (thermal_grid_build (Z.of_nat (length hs))) es top bot = Ok (err, g) /\
      power_grid_types (Z.of_nat (length hs)) es top bot = Ok (ts, fs) /\
      (err = TDICE_FAILURE <->
         (has_spreader top /\ uses_4rm ch ds) \/ (length hs = 1%nat /\ top <> None /\ bot <> None)) /\
      (err = TDICE_SUCCESS ->
        tg_types g = ts /\ tg_layers g = rev (flat_map (decl_layers ch) ds) /\
        tg_top g = top /\ tg_bottom g = bot /\
        ((exists i id, nth_error ds i = Some (DeclChannel id)) -> tg_channel g = ch) /\
        length ts = length hs /\ length fs = length hs /\
        forall k, (k < length hs)%nat ->
          let t := nth k ts LT_NONE in
          t <> LT_NONE /\
          (is_source t = true <-> exists f, source_at ch ds (Z.of_nat k) f) /\
          (forall f, nth k fs None = Some f <-> source_at ch ds (Z.of_nat k) f) /\
          (is_source t || is_passive_solid t = true <-> ~ channel_at ch ds (Z.of_nat k)) /\
          (to_ambient t = true <-> k = (length hs - 1)%nat /\ has_ambient top) /\
          (to_spreader t = true <-> k = (length hs - 1)%nat /\ has_spreader top) /\
          (to_pcb t = true <-> k = 0%nat /\ bot <> None) /\
          (forall i id j c, nth_error ds i = Some (DeclChannel id) -> ch = Some c -> (j < chan_layers ch)%nat ->
             Z.of_nat k = layers_below ch ds i + Z.of_nat j -> nth_error (expected_channel_types (ch_model c)) j = Some t)).
Proof. exact grids_agree. Qed.
Print Assumptions C24_layer_types.

(** A stack used as witness: die over channel over die; the die has one layer
    above and two layers below its source. *)
Definition wmat : material := mkMaterial 1 2 3 4.
Definition wlayer (h : Q) : layer := mkLayer h wmat [].
Definition wflp : floorplan := mkFlp 0 [] [] (mkFlpMatrix 0 0 0 [] [] []).
Definition wdie (n : Z) : stack_decl := DeclDie [n] [wlayer 5] (wlayer 7) [wlayer 11; wlayer 13] wflp.
Definition w2rm : channel_decl := Decl2RM 100 20 30 wmat 42 1 2 3 4 300.
Definition w4rm : channel_decl := Decl4RM 100 wmat 42 1 2 3 4 300.

Example C23_witness : exists c es hs,
    declare_channel w2rm 10000 21 = Ok c /\ declared (Some c) /\ acceptable (Some c) [wdie 1; DeclChannel [2]; wdie 3] /\
    parse_stack (Some c) [wdie 1; DeclChannel [2]; wdie 3] = Ok (Some (es, hs)) /\
    hs = [13; 11; 7; 5; 100; 100; 100; 100; 13; 11; 7; 5]%Q /\ map se_offset es = [8; 4; 0].
Proof.
  eexists. eexists. eexists. split; [vm_compute; reflexivity|]. split; [exists w2rm, 10000%Q, 21; vm_compute; reflexivity|].
  split; [|split; [vm_compute; reflexivity|split; reflexivity]].
  split. { cbn. repeat constructor; cbn; intuition discriminate. }
  split. { exists (wdie 1). split; [left|]; reflexivity. }
  split. { exists (wdie 1). split; reflexivity. }
  split. { exists (wdie 3). split; reflexivity. }
  discriminate.
Qed.

(** The two refusals of C24 are possible, and so is a success. *)
Example C24_witness : exists c es hs g1 g2 ts,
    declare_channel w4rm 10000 21 = Ok c /\
    parse_stack (Some c) [wdie 1; DeclChannel [2]; wdie 3] = Ok (Some (es, hs)) /\
    thermal_grid_fill (thermal_grid_build (Z.of_nat (length hs))) es (Some (SinkTop 1 300)) (Some (mkBottomSink 1 300)) = Ok (TDICE_SUCCESS, g1) /\
    tg_types g1 = [LT_SOLID_PCB; LT_SOLID; LT_SOURCE; LT_SOLID; LT_CHANNEL_4RM; LT_SOLID; LT_SOLID; LT_SOURCE; LT_SOLID_AMBIENT] /\
    thermal_grid_fill (thermal_grid_build (Z.of_nat (length hs))) es (Some (SinkPluggable ts 1 wmat)) None = Ok (TDICE_FAILURE, g2).
Proof.
  eexists. eexists. eexists. eexists. eexists. exists (mkSpreader 0 0 0 0 0 0). split; [vm_compute; reflexivity|]. split; [vm_compute; reflexivity|].
  split; [vm_compute; reflexivity|]. split; [reflexivity|]. vm_compute. reflexivity.
Qed.

(** C44 is false of the code: the adjacency test compares a new element with the
    first element of the stack, not with the previous one.  Two adjacent
    channels inside a stack are accepted. *)
Theorem C44_adjacent_channels_refuted : exists c ds es hs,
    declared (Some c) /\ adjacent_channels ds /\ parse_stack (Some c) ds = Ok (Some (es, hs)).
Proof.
  destruct (declare_channel w4rm 10000 21) as [c| |] eqn:E; try discriminate.
  exists c, [wdie 1; DeclChannel [2]; DeclChannel [3]; wdie 4].
  vm_compute in E. injection E as <-.
  eexists. eexists. split; [exists w4rm, 10000%Q, 21; vm_compute; reflexivity|].
  split; [exists 1%nat, [2], [3]; split; reflexivity|]. vm_compute. reflexivity.
Qed.
Print Assumptions C44_adjacent_channels_refuted.

(** What holds: adjacency plays no role at all in the verdict; a pair of
    channels is refused exactly when the stack is refused for another reason,
    in particular when the pair is at the top or the bottom. *)
Theorem C44_ends_partial : forall ch ds i a b,
    declared ch -> Z.of_nat (length (stack_heights ch ds)) < two32 ->
    nth_error ds i = Some (DeclChannel a) -> nth_error ds (S i) = Some (DeclChannel b) ->
    (i = 0%nat \/ S (S i) = length ds) -> parse_stack ch ds = Ok None.
Proof.
  intros ch ds i a b D L N1 N2 H. apply (proj2 (parse_stack_accepts ch ds D L)).
  intros (_ & _ & (d1 & M1 & C1) & (d2 & M2 & C2) & _). destruct H as [->|H].
  - assert (d1 = DeclChannel a) by congruence. subst. discriminate.
  - rewrite <- H in M2. replace (S (S i) - 1)%nat with (S i) in M2 by lia.
    assert (d2 = DeclChannel b) by congruence. subst. discriminate.
Qed.
Print Assumptions C44_ends_partial.
