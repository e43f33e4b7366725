(** * Heat balance of a cell in the assembled equations *)
From Coq Require Import ZArith List Bool QArith Lia Lqa Sorted.
From Verif Require Import Base QSum Dims DimsSpec DimsProofs Floorplan FloorplanSpec FloorplanProofs TempProofs Stack StackSpec StackProofs PowerGrid Emulate EmulateSpec Conduct Matrix MatrixSpec CellProofs NodeProofs LinkProofs SignProofs CscProofs NetProofs EnumProofs.
Import ListNotations.
Local Open Scope Z_scope.

(** Filling any allocated matrix. *)
Lemma fill_stored : forall g d an m0 m, good_tgrid d g ->
    len (sm_ptr m0) = unknowns g d + 1 -> length (sm_vals m0) = length (sm_rows m0) ->
    fill_system_matrix m0 g an d = Ok m ->
    exists rt vt, m = stored (map (col g d an) (nodes g d)) rt vt /\ length rt = length vt /\
      length (sm_rows m) = length (sm_rows m0).
Proof.
  intros g d an [ptr rows vals] m G L1 L2 H. cbn [sm_ptr sm_rows sm_vals] in *.
  unfold fill_system_matrix in H. cbn [sm_ptr sm_rows sm_vals] in H.
  pose proof (unknowns_pos g d G) as U.
  destruct ptr as [|p0 ptr]; [cbn in L1; lia|].
  change (p0 :: ptr) with ([] ++ p0 :: ptr) in H. rewrite (arr_set_mid [] p0 ptr 0 0) in H by reflexivity. cbn [bind app] in H.
  rewrite (columns_ok g d an G) in H. cbn [bind] in H.
  set (cs := map (col g d an) (nodes g d)) in *.
  assert (length cs = length ptr) as E.
  { unfold cs. rewrite map_length. pose proof (nodes_length g d G). cbn [length] in L1. lia. }
  assert (total cs <> 0) as T.
  { unfold total. destruct cs as [|c cs']; [pose proof (nodes_length g d G) as NN; cbn [length] in *; lia|].
    cbn [all_entries flat_map]. unfold entries. rewrite !app_length. cbn [length]. lia. }
  pose proof (write_bound cs _ _ _ _ H T) as B. cbn [sm_rows] in B. unfold total in B.
  destruct (split_list rows (length (all_entries cs))) as (ra & rb & -> & RA); [lia|].
  destruct (split_list vals (length (all_entries cs))) as (va & vb & -> & VA); [rewrite L2; lia|].
  pose proof (write_columns_ok cs [] 0 ptr [] [] ra rb [] va vb 1) as W. cbn [app] in W. rewrite !app_nil_r in W.
  rewrite W in H by (try reflexivity; lia). injection H as <-.
  exists rb, vb. cbn [sm_rows]. rewrite !app_length, map_length in *. repeat split; lia.
Qed.

Section Balance.
  Variables (g : tgrid) (d : dims) (an : analysis).
  Hypothesis G : good_tgrid d g.
  Notation NL := (d_nlayers d).
  Notation NR := (d_nrows d).
  Notation NC := (d_ncols d).
  Notation ty := (type_of g).
  Notation ix := (idx g d).
  Notation lks n := (links_of g d an n).
  Notation lk n := (all_links (links_of g d an n)).

  Definition ncap (n : node) : Q :=
    match n with Cell l r c => cell_cap g d l r c | Spr _ _ => spreader_capacity (spr g) (sp_h g) (sp_m g) end.
  Definition nsink (n : node) : Q := match n with Cell l r c => sink_of g d l r c | Spr _ _ => 0%Q end.
  (** Cells filled with coolant. *)
  Definition wet (n : node) : bool :=
    match n with
    | Cell l r c => is_coolant (ty l) && (match ty l with LT_CHANNEL_4RM => Z.odd c | _ => true end)
    | Spr _ _ => false
    end.
  Definition ncon (n : node) : Q := match n with Cell l r c => cN g d l r c | Spr _ _ => 0%Q end.
  Definition nrow (n : node) : Z := match n with Cell _ r _ => r | Spr r _ => r end.

  Lemma sink_dry : forall l r c, is_solid (ty l) = false -> sink_of g d l r c = 0%Q.
  Proof. intros l r c H. unfold sink_of. destruct (type_of g l); try reflexivity; discriminate. Qed.

  Lemma base_eq : forall n, valid g d n -> (k_base (lks n) == capn an (ncap n) + nsink n)%Q.
  Proof.
    intros [l r c|r c] V; [|cbn; ring].
    unfold ncap, nsink, links_of.
    destruct (type_of g l) eqn:E; try reflexivity;
      try (rewrite sink_dry by (rewrite E; reflexivity); cbn; ring).
    destruct (Z.odd c); [|reflexivity]. rewrite sink_dry by (rewrite E; reflexivity). cbn. ring.
  Qed.

  Lemma dry_extra : forall n, wet n = false -> k_extra (lks n) = 0%Q.
  Proof.
    intros [l r c|r c] H; [|reflexivity]. unfold wet in H. unfold links_of.
    destruct (type_of g l) eqn:E; cbn in H; try discriminate; try reflexivity. rewrite H. reflexivity.
  Qed.
  Lemma wet_extra : forall l r c, wet (Cell l r c) = true -> k_extra (lks (Cell l r c)) = inout g d l r c.
  Proof.
    intros l r c H. unfold wet in H. unfold links_of. destruct (type_of g l) eqn:E; cbn in H; try discriminate; try reflexivity.
    rewrite H. reflexivity.
  Qed.

  Lemma conv_pw : forall b (m : node) x, (qsum (map (fun p => fconv (snd p)) (pw b (m, Cond x))) == 0)%Q.
  Proof. intros [] m x; cbn; ring. Qed.
  Lemma conv_pw_conv : forall b (m : node) x, (qsum (map (fun p => fconv (snd p)) (pw b (m, Conv x))) == if b then x else 0)%Q.
  Proof. intros [] m x; cbn; ring. Qed.

  (** A sum over the links of a weight that depends on conduction or convection. *)
  Lemma dry_conv : forall n m f, wet n = false -> In (m, f) (lk n) -> exists x, f = Cond x.
  Proof.
    intros n m f W I.
    assert (forall b (a : node * flow), In (m, f) (pw b a) -> (exists x, snd a = Cond x) -> exists x, f = Cond x) as K.
    { intros b a H (x & E). apply in_pw in H. destruct H as (_ & <-). exists x. exact E. }
    destruct n as [l r c|r c]; cbn [links_of] in I.
    - cbn [wet] in W. destruct (type_of g l) eqn:E; cbn in W; try discriminate W; rewrite ?W in I;
      unfold all_links, solid_links, vwall_links, top_links, bottom_links in I; cbn [k_before k_after] in I;
      repeat (rewrite in_app_iff in I; cbn [In] in I);
      repeat match type of I with
        | _ \/ _ => destruct I as [I|I]
        | (_, _) = _ => injection I as <- <-; eexists; reflexivity
        | False => destruct I
        | In _ (pw _ _) => apply K in I; [exact I|eexists; reflexivity]
      end.
    - unfold all_links, spreader_links in I; cbn [k_before k_after] in I;
      repeat (rewrite in_app_iff in I; cbn [In] in I);
      repeat match type of I with
        | _ \/ _ => destruct I as [I|I]
        | False => destruct I
        | In _ (pw _ _) => apply K in I; [exact I|eexists; reflexivity]
      end.
  Qed.

  (** The links of a coolant cell along the channel. *)
  Lemma wet_conv : forall l r c (k : node -> Q -> Q), wet (Cell l r c) = true ->
      (qsum (map (fun p => match snd p with Cond _ => 0 | Conv v => k (fst p) v end) (lk (Cell l r c))) ==
       (if r =? 0 then 0 else k (Cell l (r - 1) c) (cN g d l r c)) +
       (if r =? NR - 1 then 0 else k (Cell l (r + 1) c) (cS g d l r c)))%Q.
  Proof.
    intros l r c k W. cbn [wet] in W. unfold links_of.
    destruct (type_of g l) eqn:E; cbn in W; try discriminate W; rewrite ?W;
      unfold all_links, liquid4_links, liquid2_links; cbn [k_before k_after app map]; rewrite ?map_app, ?qsum_app;
      unfold pw; destruct (r =? 0), (r =? NR - 1); try destruct (l =? 0); try destruct (l =? NL - 1);
      try destruct (c =? 0); try destruct (c =? NC - 1); cbn; ring.
  Qed.

  Lemma wet_place : forall l r c, wet (Cell l r c) = true -> is_coolant (ty l) = true /\ (ty l = LT_CHANNEL_4RM -> Z.odd c = true).
  Proof.
    intros l r c H. cbn [wet] in H. apply andb_true_iff in H. destruct H as (A & B). split; [exact A|].
    intros E. rewrite E in B. exact B.
  Qed.
  Hypothesis P : physical g d.
  Lemma wet_opp : forall l r r2 c, 0 <= l < NL -> wet (Cell l r c) = true -> (cS g d l r2 c == - cN g d l r c)%Q.
  Proof.
    intros l r r2 c L H. destruct (wet_place l r c H) as (A & B). exact (conv_opposite g d G l r2 r c L A B).
  Qed.

End Balance.
