(** * C81: the materials file at the head of a stack description *)
From Coq Require Import ZArith List Bool QArith Qabs String Ascii Lia Lqa.
From Verif Require Import Base Flex FlexProofs Vtk VtkSpec VtkProofs FlpText FlpTextSpec FlpTextProofs FlpLexProofs FlpPrintProofs Inspect
  StkScan StkText StkTextSpec ScanProofs StkInstProofs LayText StkSave StkSaveSpec StkSaveProofs PropStkText Gradient PropGradient Gds GdsSpec PropGds GdsText GdsTextSpec.
Import ListNotations.
Local Open Scope string_scope.
Local Open Scope list_scope.
Local Open Scope Z_scope.

Lemma gds_a_name : forall k, 0 <= k -> a_name reserved (gds_name k).
Proof.
  intros k K. split; [exact (proj1 (gds_name_ok k K))|].
  intros H. unfold gds_name in H. cbn in H. repeat (destruct H as [H|H]; [discriminate H|]). exact H.
Qed.
Lemma tok_e6 : forall x, exists q, close6 q x /\ forall t, stops t -> stk_tokens (e6 x ++ t) = SN q :: stk_tokens t.
Proof.
  intros x. destruct (scientific_numeral 6 x ltac:(lia)) as (n & O & T & N). exists (numeral_value n). split.
  - unfold close6. eapply Qle_trans; [|exact N]. change (2 * inject_Z (10 ^ Z.of_nat 6))%Q with (2000000 # 1)%Q. apply Qle_refl.
  - intros t W. unfold e6. rewrite T. apply tok_num; assumption.
Qed.
Lemma tok_line_end : forall t, stk_tokens (line_end ++ t) = stk_tokens t.
Proof. intros t. change line_end with nl. apply tok_nl. Qed.
Lemma lex_definition : forall m, a_name reserved (m_name m) -> exists d, defines m d /\
  forall t, stk_tokens (material_text m ++ t) = material_syntax d ++ stk_tokens t.
Proof.
  intros m I. destruct (tok_e6 (m_kx m)) as (x & X & HX), (tok_e6 (m_ky m)) as (y & Y & HY), (tok_e6 (m_kz m)) as (z & Z' & HZ), (tok_e6 (Gds.m_vhc m)) as (v & V & HV).
  exists (mkMat (name_codes (m_name m)) (Directional x y z) v).
  split; [split; [reflexivity|split; [exists x, y, z; split; [reflexivity|tauto]|exact V]]|]. intros t. unfold material_text.
  assert (NM : forall t, wstops t -> stk_tokens (m_name m ++ t) = SI (name_codes (m_name m)) :: stk_tokens t).
  { intros u W. assert (E : m_name m = id_ (name_codes (m_name m))) by (symmetry; apply codes_back). rewrite E at 1. apply tok_name; [exists (m_name m); split; [reflexivity|exact I]|exact W]. }
  rewrite <- !app_assoc. rewrite (tok_lit (str "material ") [SK "material"]) by (vm_compute; reflexivity). rewrite NM by reflexivity.
  rewrite (tok_lit (str " :") [SM ":"]) by (vm_compute; reflexivity). rewrite tok_line_end.
  rewrite (tok_lit (str "   thermal conductivity     ") [SK "thermal"; SK "conductivity"]) by (vm_compute; reflexivity).
  rewrite HX by reflexivity. rewrite (tok_lit (str ", ") [SM ","]) by (vm_compute; reflexivity). rewrite HY by reflexivity. rewrite (tok_lit (str ", ") [SM ","]) by (vm_compute; reflexivity).
  rewrite HZ by reflexivity. rewrite (tok_lit (str ";") [SM ";"]) by (vm_compute; reflexivity). rewrite tok_line_end.
  rewrite (tok_lit (str "   volumetric heat capacity ") [SK "volumetric"; SK "heat"; SK "capacity"]) by (vm_compute; reflexivity).
  rewrite HV by reflexivity. rewrite (tok_lit (str ";") [SM ";"]) by (vm_compute; reflexivity). rewrite !tok_line_end. reflexivity.
Qed.
Lemma lex_definitions : forall ms, Forall (fun m => a_name reserved (m_name m)) ms -> exists ds, Forall2 defines ms ds /\
  forall t, stk_tokens (materials_file ms ++ t) = flat_map material_syntax ds ++ stk_tokens t.
Proof.
  intros ms H. induction H as [|m ms H1 H2 (ds & A & B)]; [exists []; split; [constructor|reflexivity]|].
  destruct (lex_definition m H1) as (d & D1 & D2). exists (d :: ds). split; [constructor; assumption|]. intros t.
  unfold materials_file in *. cbn [flat_map]. rewrite <- app_assoc, D2, B, app_assoc. reflexivity.
Qed.
(** material.txt before the text of a stack description: the file is read, with these
    materials in front of its own. *)
Theorem C81_materials : forall root bs text ms, convert root bs = Some (text, ms) -> Forall (fun b => 0 <= b_ratio b)%Q bs ->
  exists ds, Forall2 defines ms ds /\
    forall f rest, describes f rest -> read_stack (materials_file ms ++ rest) = Some (with_materials ds (file_value f)).
Proof.
  intros root bs text ms H POS.
  assert (NM : Forall (fun m => a_name reserved (m_name m)) ms).
  { apply Forall_forall. intros m I. destruct (C81_defined _ _ _ _ H POS) as (_ & U & _). destruct (U m I) as (b & k & B & K & ->). apply gds_a_name.
    rewrite Forall_forall in POS. destruct (number_index _ (POS b B)) as [K2 K3]. rewrite (number_unique _ _ _ K K2). lia. }
  destruct (lex_definitions ms NM) as (ds & A & B). exists ds. split; [exact A|]. intros f rest D.
  assert (R := C71_reads f rest D). unfold read_stack in R. apply C71_grammar in R. destruct R as [R O].
  unfold read_stack. apply C71_grammar. rewrite B, R. set (g := file_value f) in *. clearbody g. destruct ds as [|d ds]; [split; [reflexivity|exact O]|].
  split; [|exact O]. unfold file_syntax, with_materials, several. cbn [s_materials fst snd s_top s_bottom s_channel s_dims s_layers s_dies s_stack s_solver s_output flat_map].
  rewrite flat_map_app. cbn [flat_map]. rewrite <- !app_assoc. reflexivity.
Qed.
Print Assumptions C81_materials.
