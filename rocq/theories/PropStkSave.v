(** * C74. Saved stack descriptions.

    [generate_stack_description_file k]: the text the library writes for a
    description in memory. [read_stack]: what the parser of the library makes
    of a text (C71); [None] is a syntax error. [stk_tokens text = x_syntax d]:
    the text of a section has exactly the lexemes of the declaration [d]. *)
From Coq Require Import ZArith List Bool QArith Qabs Qround String Ascii Lia Lqa.
From Verif Require Import Base Flex Vtk VtkSpec FlpText FlpTextSpec Inspect StkScan StkText StkTextSpec StkGramProofs PropStkText LayText StkSave StkSaveSpec StkSaveProofs.
Import ListNotations.
Local Open Scope string_scope.
Local Open Scope list_scope.
Local Open Scope Z_scope.

Lemma tokens_whole : forall text ts, (forall t, stk_tokens (text ++ t) = ts ++ stk_tokens t) -> stk_tokens text = ts.
Proof. intros text ts H. specialize (H []). rewrite app_nil_r in H. rewrite H. apply app_nil_r. Qed.

(** ** No saved description is ever read back *)
Theorem C74_material_refused : forall m rest, a_name_of (sm_id m) -> read_stack (print_material m ++ rest) = None.
Proof.
  intros m rest N. destruct (lex_material m N) as (x & y & z & v & _ & _ & _ & _ & H). unfold read_stack. rewrite H.
  destruct (parse_tokens _) as [f|] eqn:P; [|reflexivity]. exfalso. apply C71_grammar in P. destruct P as [E _].
  unfold file_syntax, several, material_syntax in E. destruct (s_materials f) as [[i k w] l]. destruct k; cbn in E; discriminate E.
Qed.
Theorem C74_never_read_back : forall k text, k_materials k <> [] -> Forall (fun m => a_name_of (sm_id m)) (k_materials k) ->
  generate_stack_description_file k = Ok text -> read_stack text = None.
Proof.
  intros k text N F G. unfold generate_stack_description_file in G. destruct (print_list_ub print_layer (k_layers k)) as [ls| |]; try discriminate G.
  cbn [bind] in G. injection G as <-. destruct (k_materials k) as [|m ms]; [congruence|]. inversion F as [|? ? F1 _]; subst.
  unfold print_list at 1. cbn [flat_map]. rewrite <- !app_assoc. apply C74_material_refused. assumption.
Qed.
Print Assumptions C74_never_read_back.
(** Saving a description with a layer that has no layout file passes a null
    pointer to a "%s". *)
Theorem C74_plain_layer : forall k, Exists (fun l => sl_layout l = None) (k_layers k) -> generate_stack_description_file k = UB.
Proof.
  intros k H. unfold generate_stack_description_file. assert (U : print_list_ub print_layer (k_layers k) = UB); [|rewrite U; reflexivity].
  induction (k_layers k) as [|l r IH]; [inversion H|]. cbn [print_list_ub]. unfold print_layer at 1. destruct (sl_layout l) eqn:E; [|reflexivity]. cbn [bind].
  inversion H as [? ? X|? ? X]; subst; [congruence|]. rewrite IH by assumption. reflexivity.
Qed.
Print Assumptions C74_plain_layer.

(** ** The sections that say what they should *)
Theorem C74_top : forall h a, exists h' a', same_sink h a h' a' /\ stk_tokens (print_top (SConvective h a)) = top_syntax (Convective h' a').
Proof. intros h a. destruct (lex_top h a) as (x & y & S & H). exists x, y. split; [assumption|]. apply tokens_whole, H. Qed.
Theorem C74_bottom : forall h a, exists h' a', same_sink h a h' a' /\ stk_tokens (print_convective "bottom" h a) = bottom_syntax (mkBot h' a').
Proof. intros h a. destruct (lex_bottom h a) as (x & y & S & H). exists x, y. split; [assumption|]. apply tokens_whole, H. Qed.
Theorem C74_channel : forall c, a_name_of (chan_name c) -> exists c', same_channel c c' /\ stk_tokens (print_channel c) = channel_syntax c'.
Proof. intros c N. destruct (lex_channel c N) as (c' & S & H). exists c'. split; [assumption|]. apply tokens_whole, H. Qed.
(** The grid is always saved as a uniform one. *)
Theorem C74_dims : forall d, exists d', same_dims d d' /\ dd_nonuniform d' = None /\ stk_tokens (print_dims d) = dims_syntax d'.
Proof. intros d. destruct (lex_dims d) as (d' & S & U & H). exists d'. split; [assumption|]. split; [assumption|]. apply tokens_whole, H. Qed.
Theorem C74_layer : forall l, layer_names l -> exists text l', print_layer l = Ok text /\ same_layer l l' /\ stk_tokens text = layer_syntax l'.
Proof. intros l N. destruct (lex_layer l N) as (text & l' & P & S & H). exists text, l'. split; [assumption|]. split; [assumption|]. apply tokens_whole, H. Qed.
Theorem C74_die : forall d, die_names d -> 0 <= sd_source d < Z.of_nat (List.length (sd_layers d)) -> Z.of_nat (List.length (sd_layers d)) < two32 ->
  exists d', same_die d d' /\ stk_tokens (print_die d) = die_syntax d'.
Proof. intros d N S U. destruct (lex_die d N S U) as (d' & D & H). exists d'. split; [assumption|]. apply tokens_whole, H. Qed.
Theorem C74_element : forall e, elem_ok e -> exists e', same_element e e' /\ stk_tokens (print_element e) = element_syntax e'.
Proof. intros e N. destruct (lex_element e N) as (e' & S & H). exists e'. split; [assumption|]. apply tokens_whole, H. Qed.
Theorem C74_point : forall p, pt_ok p -> plain_point p -> exists p', same_point p p' /\ stk_tokens (print_point p) = point_syntax p'.
Proof.
  intros p O P. destruct (lex_point p O) as (x & y & N & H); [intros f w ->; exact P|]. exists (kept_point x y p). split; [|apply tokens_whole, H].
  destruct p as [i a b f w|i f q w|i e f q w|i f w|f w|i f w|i f q w]; cbn [plain_point kept_point same_point the_instant] in *; try tauto;
    repeat (split; [reflexivity|]); (split; [|reflexivity]); destruct P as [->|[->| ->]]; reflexivity.
Qed.
Print Assumptions C74_point.

(** ** The sections that do not *)
(** A pluggable heat sink, whatever follows: after the length of the spreader
    the syntax wants a comma. *)
Lemma top_pluggable_first : forall x c ts, c <> ","%char ->
  p_top (SK "top" :: SK "pluggable" :: SK "heat" :: SK "sink" :: SM ":" :: SK "spreader" :: SK "length" :: SN x :: SM c :: ts) = None.
Proof.
  intros x c ts N. destruct (p_top _) as [[q r]|] eqn:H; [|reflexivity]. destruct (top_sound _ _ _ H) as [E _]. destruct q as [h a|l w h m p args]; cbn in E; congruence.
Qed.
Theorem C74_pluggable_refused : forall p rest, p_top (stk_tokens (print_pluggable p ++ rest)) = None.
Proof.
  intros p rest. destruct (tok_whole (sp_length p)) as (q & W). unfold print_pluggable. rewrite <- !app_assoc.
  rewrite (tok_lit (str "top pluggable heat sink :") [SK "top"; SK "pluggable"; SK "heat"; SK "sink"; SM ":"]) by (vm_compute; reflexivity).
  rewrite tok_nl, (tok_lit (str "   spreader length          ") [SK "spreader"; SK "length"]) by (vm_compute; reflexivity).
  rewrite W by reflexivity. rewrite (tok_lit (str " ;") [SM ";"]) by (vm_compute; reflexivity). cbn [app]. apply top_pluggable_first. discriminate.
Qed.
Print Assumptions C74_pluggable_refused.
(** The solver section: the number of cores is not written with the keyword of
    the syntax, and what stands there instead can neither begin an output
    section nor be the end of a file. *)
Theorem C74_solver_partial : forall a, 0 <= sa_cores a < two32 -> exists s number rest, same_solver a s /\ v_cores s = None /\
  stk_tokens (print_analysis a) = solver_syntax s ++ SI number :: rest.
Proof.
  intros a C. destruct (lex_solver a C) as (s & q & S & V & H). exists s. eexists. eexists. split; [assumption|]. split; [assumption|].
  apply tokens_whole. intros t. rewrite H. rewrite <- app_assoc. reflexivity.
Qed.
(** Times below 5 ms are saved as 0.00. *)
Theorem C74_short_times : forall t, (0 <= t)%Q -> (t < 1 # 200)%Q -> fixed 2 t = "0.00".
Proof.
  intros t P U. unfold fixed. assert (S : Qle_bool 0 t = true) by (apply Qle_bool_iff; assumption). rewrite S.
  assert (R : round_even (Qabs t * inject_Z (10 ^ Z.of_nat 2)) = 0); [|rewrite R; reflexivity].
  assert (A : (Qabs t * inject_Z (10 ^ Z.of_nat 2) == t * 100)%Q) by (rewrite Qabs_pos by assumption; reflexivity).
  assert (F : Qfloor (Qabs t * inject_Z (10 ^ Z.of_nat 2)) = 0).
  { rewrite A. apply Z.le_antisymm.
    - apply Z.lt_succ_r. change (Qfloor (t * 100) < 1). rewrite Zlt_Qlt. eapply Qle_lt_trans; [apply Qfloor_le|]. change (inject_Z 1) with 1%Q. lra.
    - change 0 with (Qfloor 0). apply Qfloor_resp_le. lra. }
  unfold round_even. rewrite F. assert (C : (Qabs t * inject_Z (10 ^ Z.of_nat 2) - inject_Z 0 ?= 1 # 2)%Q = Lt); [|rewrite C; reflexivity].
  apply -> Qlt_alt. rewrite A. change (inject_Z 0) with 0%Q. lra.
Qed.
(** A map of the whole stack cannot be read; a gradient is saved as an average. *)
Theorem C74_t3d_refused : forall f w rest, a_path_of f -> p_point (stk_tokens (print_point (PT3d f w) ++ rest)) = None.
Proof. intros f w rest P. rewrite lex_t3d by assumption. reflexivity. Qed.
Theorem C74_gradient_refuted : forall i f w, a_name_of i -> a_path_of f ->
  stk_tokens (print_point (PTflp i f OQ_GRADIENT w)) = point_syntax (PTflp i f OQ_AVERAGE (Some (the_instant w))).
Proof.
  intros i f w I F. destruct (lex_point (PTflp i f OQ_GRADIENT w)) as (x & y & _ & H); [split; assumption|discriminate|]. apply tokens_whole, H.
Qed.
Print Assumptions C74_gradient_refuted.

(** ** A description that can be saved *)
Definition w_codes (s : string) : list Z := name_codes (str s).
Lemma w_name : forall s, lexm_okb (SI (str s)) = true -> a_name_of (w_codes s).
Proof. intros s H. exists (str s). split; [reflexivity|]. apply (lexm_okb_ok (SI (str s)) H). Qed.
Lemma w_path : forall s, lexm_okb (SP (str s)) = true -> a_path_of (w_codes s).
Proof. intros s H. exists (str s). split; [reflexivity|]. apply (lexm_okb_ok (SP (str s)) H). Qed.
Definition w_kept : kept := {|
  k_materials := [mkSmat (w_codes "SILICON") (13 # 100000) (13 # 100000) (26 # 100000) (1628 # 1000000000000000)];
  k_top := Some (SConvective (1 # 10000000) 300);
  k_bottom := None;
  k_channel := Some (S2 100 50 100 (w_codes "SILICON") (7 * 1000000000) (57 # 1000000000) (57 # 1000000000) (417 # 100000000000000) 300);
  k_layers := [mkSlayer (w_codes "PCB") 10 (w_codes "SILICON") (Some (w_codes "pcb.lay"))];
  k_dies := [mkSdie (w_codes "TOP_IC") [(2#1, w_codes "SILICON"); (50#1, w_codes "SILICON"); (10#1, w_codes "SILICON")] 1];
  k_dims := mkSdims 1000 1000 (50 # 1) 50 true;
  k_stack := [SDie (w_codes "D1") (w_codes "TOP_IC") (w_codes "a.flp"); SLayer (w_codes "L1") (w_codes "PCB")];
  k_analysis := mkSanalysis (Some (1 # 1000, 1 # 10)%Q) 300 4;
  k_final := [PTflp (w_codes "D1") (w_codes "o.txt") OQ_GRADIENT (Some OI_FINAL)]; k_slot := []; k_step := [PT (w_codes "L1") (10#1) (20#1) (w_codes "t.txt") (Some OI_STEP)] |}.
Example C74_witness : (exists text, generate_stack_description_file w_kept = Ok text /\ read_stack text = None) /\
  (exists c, k_channel w_kept = Some c /\ a_name_of (chan_name c)) /\ Forall layer_names (k_layers w_kept) /\
  Forall (fun d => die_names d /\ 0 <= sd_source d < Z.of_nat (List.length (sd_layers d)) /\ Z.of_nat (List.length (sd_layers d)) < two32) (k_dies w_kept) /\ Forall elem_ok (k_stack w_kept) /\
  Forall (fun p => pt_ok p /\ plain_point p) (k_step w_kept).
Proof.
  assert (N : a_name_of (w_codes "SILICON")) by (apply w_name; vm_compute; reflexivity).
  split.
  { eexists. split; [reflexivity|]. apply (C74_never_read_back w_kept); [discriminate|constructor; [exact N|constructor]|reflexivity]. }
  split; [eexists; split; [reflexivity|exact N]|].
  split; [constructor; [|constructor]; split; [apply w_name; vm_compute; reflexivity|]; split; [exact N|apply w_path; vm_compute; reflexivity]|].
  split. { constructor; [|constructor]. split; [|cbn; unfold two32; lia]. split; [apply w_name; vm_compute; reflexivity|]. constructor; [exact N|]. constructor; [exact N|]. constructor; [exact N|constructor]. }
  split. { constructor; [|constructor; [|constructor]].
    - split; [apply w_name; vm_compute; reflexivity|]. split; [apply w_name|apply w_path]; vm_compute; reflexivity.
    - split; apply w_name; vm_compute; reflexivity. }
  constructor; [|constructor]. split; [|exact I]. split; [apply w_name|apply w_path]; vm_compute; reflexivity.
Qed.
