(** * Proofs about the text of the output files. *)
From Coq Require Import ZArith List Bool QArith Qabs Qround String Ascii Lia Lqa ZifyBool.
From Verif Require Import Base Dims Floorplan FloorplanProofs Stack PowerGrid Emulate Inspect Emulator EmulatorSpec NonUniform Vtk VtkSpec VtkProofs OutText OutTextSpec.
Import ListNotations.
Local Open Scope string_scope.
Local Open Scope Z_scope.

(** ** Lines *)
Lemma one_line_app : forall a b, one_line (a ++ b) = one_line a && one_line b.
Proof. induction a; intros; cbn; [easy|]. now rewrite IHa, andb_assoc. Qed.
Lemma no_blank_one_line : forall s, no_blank s = true -> one_line s = true.
Proof.
  induction s as [|c s IH]; [easy|]. cbn. rewrite !andb_true_iff, !negb_true_iff. intros [A B]. split; [|now apply IH].
  unfold blank in A. destruct (Ascii.eqb c "010"); [|easy]. now rewrite orb_true_r in A.
Qed.
Lemma lines_line : forall a r, one_line a = true -> lines (a ++ endl ++ r) = a :: lines r.
Proof.
  induction a as [|c a IH]; intros r H; [reflexivity|]. cbn [one_line append lines] in *.
  apply andb_true_iff in H. destruct H as [H1 H2]. rewrite (proj1 (negb_true_iff _) H1). now rewrite (IH r H2).
Qed.
Lemma pad_app : forall w s r, exists b, pad_left w s ++ r = b ++ (s ++ r) /\ one_line b = true /\ (forall x, words (b ++ x) = words x).
Proof.
  intros w s r. unfold pad_left. induction (w - String.length s)%nat as [|n IH].
  - exists "". easy.
  - destruct IH as (b & E & O & W). exists (String " " b). cbn [List.repeat fold_right append one_line]. rewrite E. split; [reflexivity|].
    split; [exact O|]. intro x. rewrite words_blank by reflexivity. apply W.
Qed.
Lemma pad_one_line : forall w s, one_line (pad_left w s) = one_line s.
Proof. intros w s. unfold pad_left. induction (w - String.length s)%nat as [|n IH]; [reflexivity|]. exact IH. Qed.
Lemma fixed_one_line : forall p x, one_line (fixed p x) = true.
Proof. intros. apply no_blank_one_line, fixed_no_blank. Qed.
Lemma pad_comment : forall w s, comment s = false -> comment (pad_left w s) = false.
Proof. intros w s H. unfold pad_left. destruct (w - String.length s)%nat; [exact H|reflexivity]. Qed.
Lemma dec_one_line : forall n, 0 <= n -> one_line (dec n) = true.
Proof. intros. now apply no_blank_one_line, digits_no_blank, dec_digit. Qed.
Lemma fixed_app_comment : forall p x r, comment (fixed p x ++ r) = false.
Proof.
  intros p x r. unfold fixed. destruct (Qle_bool 0 x); [|reflexivity]. cbn [append].
  set (n := _ / _). assert (D : 0 <= n).
  { unfold n. apply Z.div_pos; [|apply Z.pow_pos_nonneg; lia]. apply round_even_pos. apply Qmult_le_0_compat; [apply Qabs_nonneg|].
    pose proof (pow10_pos p). lra. }
  pose proof (dec_digit n D) as A. pose proof (dec_nonempty n D) as NE. destruct (dec n) as [|c s]; [congruence|].
  cbn [append comment all_digits] in *. destruct (Ascii.eqb_spec c "%") as [->|]; [discriminate A|reflexivity].
Qed.
Lemma pad_app_comment : forall w p x r, comment (pad_left w (fixed p x) ++ r) = false.
Proof.
  intros w p x r. unfold pad_left. destruct (w - String.length (fixed p x))%nat; [apply fixed_app_comment|reflexivity].
Qed.

(** ** Numbers *)
Lemma words_single : forall w, w <> "" -> no_blank w = true -> words w = [w].
Proof.
  intros w NE H. assert (S : split_words w = (w, [])).
  { clear NE. induction w as [|c w IH]; [reflexivity|]. cbn [no_blank split_words] in *. apply andb_true_iff in H. destruct H as [A B].
    rewrite (IH B). now rewrite (proj1 (negb_true_iff _) A). }
  unfold words. rewrite S. destruct w; [congruence|reflexivity].
Qed.
Lemma app_sp' : forall c r, String c "" ++ r = String c r. Proof. reflexivity. Qed.
Lemma words_gap : forall r, words (gap ++ r) = words r.
Proof. intros. unfold gap, tab. cbn [append]. now rewrite !words_blank by reflexivity. Qed.
Lemma words_fixed : forall w p x c r, blank c = true -> words (pad_left w (fixed p x) ++ String c r) = fixed p x :: words r.
Proof. intros w p x c r B. rewrite words_pad. destruct (fixed_no_blank p x). now apply words_word. Qed.
Lemma words_fixed_end : forall w p x, words (pad_left w (fixed p x)) = [fixed p x].
Proof.
  intros w p x. rewrite <- (app_nil_r' (pad_left w _)), words_pad, app_nil_r'. destruct (fixed_no_blank p x). now apply words_single.
Qed.
Lemma number_fixed : forall p e x, (2 * inject_Z (10 ^ Z.of_nat p) * e == 1)%Q -> exists q, read_number (fixed p x) = Some q /\ near e q x.
Proof.
  intros p e x E. destruct (read_fixed p x) as [q [R H]]. exists q. split; [exact R|].
  unfold near. pose proof (pow10_pos p) as P. set (T := inject_Z (10 ^ Z.of_nat p)) in *.
  assert (H2 : (0 < 2 * T)%Q) by lra.
  apply (Qmult_le_r _ _ (2 * T) H2). rewrite (Qmult_comm e). eapply Qle_trans; [exact H|]. rewrite E. apply Qle_refl.
Qed.
Lemma numbers_fixed : forall p e xs, (2 * inject_Z (10 ^ Z.of_nat p) * e == 1)%Q ->
  exists qs, numbers (map (fixed p) xs) = Some qs /\ Forall2 (near e) qs xs.
Proof.
  intros p e xs E. induction xs as [|x xs (qs & N & F)]; [exists []; split; [reflexivity|constructor]|].
  destruct (number_fixed p e x E) as (q & R & H). exists (q :: qs). cbn [map numbers]. rewrite R, N. split; [reflexivity|now constructor].
Qed.

(** ** Rows *)
Lemma rows_row : forall a r, one_line a = true -> comment a = false ->
  rows (lines (a ++ endl ++ r)) = match numbers (words a), rows (lines r) with Some x, Some xs => Some (x :: xs) | _, _ => None end.
Proof. intros a r O C. rewrite lines_line by assumption. cbn [rows]. now rewrite C. Qed.
Lemma data_row : forall a r x xs, one_line a = true -> comment a = false -> numbers (words a) = Some x -> data r = Some xs ->
  data (a ++ endl ++ r) = Some (x :: xs).
Proof. intros a r x xs O C N D. unfold data in *. rewrite rows_row by assumption. now rewrite N, D. Qed.
Lemma data_comment : forall a r, one_line a = true -> comment a = true -> data (a ++ endl ++ r) = data r.
Proof. intros a r O C. unfold data. rewrite lines_line by assumption. cbn [rows]. now rewrite C. Qed.

(** One cell: "%7.3f  ", and one column of Tflp: "%5.3f \t ". *)
Lemma words_cells : forall w sep l r, (forall x, words (sep ++ x) = words x) -> (exists c s, sep = String c s /\ blank c = true) ->
  words (concat_map (fun v => pad_left w (fixed 3 v) ++ sep) l ++ r) = (map (fixed 3) l ++ words r)%list.
Proof.
  intros w sep l r W (c & s & -> & B). induction l as [|v l IH]; [reflexivity|].
  cbn [concat_map fold_right map List.app]. fold (concat_map (fun v => pad_left w (fixed 3 v) ++ String c s) l).
  rewrite !app_ass. change (String c s ++ concat_map (fun v0 => pad_left w (fixed 3 v0) ++ String c s) l ++ r)
    with (String c (s ++ concat_map (fun v0 => pad_left w (fixed 3 v0) ++ String c s) l ++ r)).
  rewrite words_fixed by exact B. f_equal. rewrite <- IH. rewrite <- (words_blank c _ B). exact (W (concat_map _ l ++ r)).
Qed.
Lemma concat_one_line : forall {A} (f : A -> string) l, (forall x, In x l -> one_line (f x) = true) -> one_line (concat_map f l) = true.
Proof.
  intros A f l H. induction l as [|x l IH]; [reflexivity|]. cbn [concat_map fold_right]. fold (concat_map f l).
  rewrite one_line_app, H by now left. apply IH. intros. apply H. now right.
Qed.
Lemma cells_one_line : forall w sep l, one_line sep = true -> one_line (concat_map (fun v => pad_left w (fixed 3 v) ++ sep) l) = true.
Proof. intros. apply concat_one_line. intros. now rewrite one_line_app, pad_one_line, fixed_one_line. Qed.

Lemma cell_row : forall l, exists row, numbers (words (concat_map cell_text l)) = Some row /\ Forall2 (near (1 # 2000)) row l.
Proof.
  intro l. rewrite <- (app_nil_r' (concat_map cell_text l)). unfold cell_text.
  rewrite words_cells; [|intro; cbn [append]; now rewrite !words_blank by reflexivity|now exists " "%char, " "].
  change (words "") with (@nil string). rewrite app_nil_r. now apply numbers_fixed.
Qed.

Lemma forall2_len : forall {A B} (R : A -> B -> Prop) a b, Forall2 R a b -> Datatypes.length a = Datatypes.length b.
Proof. induction 1; cbn; congruence. Qed.

Lemma nth_error_skipn' : forall {A} n (l : list A) k, nth_error (skipn n l) k = nth_error l (n + k).
Proof. intros A. induction n as [|n IH]; intros l k; [reflexivity|]. destruct l; [now destruct k|]. apply IH. Qed.
(** Maps. *)
Lemma map_text_data : forall rows cols vs r xs, (Datatypes.length vs = rows * cols)%nat -> data r = Some xs ->
  exists b, data (map_text rows cols vs ++ r) = Some (b ++ xs)%list /\ Datatypes.length b = rows /\
    Forall (fun row => Datatypes.length row = cols) b /\ (0 < cols -> Forall (fun row => row <> []) b)%nat /\
    forall i j v, (i < rows)%nat -> (j < cols)%nat -> nth_error vs (i * cols + j) = Some v ->
      exists row x, nth_error b i = Some row /\ nth_error row j = Some x /\ near (1 # 2000) x v.
Proof.
  induction rows as [|n IH]; intros cols vs r xs L D.
  - exists []. split; [exact D|]. split; [reflexivity|]. split; [constructor|]. split; [constructor|]. intros. lia.
  - cbn [map_text]. cbn [Nat.mul] in L.
    assert (LS : Datatypes.length (skipn cols vs) = (n * cols)%nat) by (rewrite skipn_length; lia).
    assert (LF : Datatypes.length (firstn cols vs) = cols) by (rewrite firstn_length; lia).
    destruct (IH cols (skipn cols vs) r xs LS D) as (b & DB & LB & FB & NB & VB).
    destruct (cell_row (firstn cols vs)) as (row & NR & FR). pose proof (forall2_len _ _ _ FR) as LR.
    exists (row :: b). split; [|split; [cbn; lia|split; [constructor; [lia|exact FB]|split]]].
    + rewrite !app_ass. apply (data_row _ _ row (b ++ xs)%list).
      * now apply (cells_one_line 7 "  ").
      * destruct (firstn cols vs) as [|v l]; [reflexivity|]. cbn [concat_map fold_right]. unfold cell_text. rewrite !app_ass. apply pad_app_comment.
      * exact NR.
      * exact DB.
    + intro P. constructor; [|now apply NB]. intro E. subst row. cbn in LR. lia.
    + intros i j v Hi Hj E. destruct i as [|i].
      * cbn [Nat.mul Nat.add] in E. assert (E2 : nth_error (firstn cols vs) j = Some v).
        { rewrite <- E. clear -Hj. revert vs j Hj. induction cols as [|m IHm]; intros vs j Hj; [lia|]. destruct vs; [now destruct j|].
          destruct j; [reflexivity|]. cbn. apply IHm. lia. }
        destruct (forall2_nth _ _ _ FR j v E2) as (x & X & N). exists row, x. auto.
      * cbn [nth_error]. apply (VB i j v); [lia|exact Hj|]. rewrite <- E. rewrite nth_error_skipn'. f_equal. cbn. lia.
Qed.
Lemma blocks_block : forall b r, Forall (fun row => row <> []) b -> blocks (b ++ [] :: r) = b :: blocks r.
Proof.
  induction b as [|row b IH]; intros r F; [reflexivity|]. inversion F as [|a l NE F']. subst. cbn [List.app blocks].
  destruct row; [congruence|]. now rewrite IH.
Qed.

(** ** Names *)
Lemma code_text_says : forall n, code_text n = says n.
Proof. intro n. unfold says, code_text. induction n as [|c n IH]; [reflexivity|]. cbn [fold_right map string_of_list_ascii]. now rewrite IH. Qed.
Lemma visible_no_blank : forall n, visible n -> no_blank (says n) = true /\ says n <> "".
Proof.
  intros n (NE & F). split.
  - clear NE. unfold says. induction F as [|c n C F IH]; [reflexivity|]. cbn [map string_of_list_ascii no_blank]. rewrite IH, andb_true_r, negb_true_iff.
    unfold blank. assert (X : nat_of_ascii (ascii_of_nat (Z.to_nat c)) = Z.to_nat c) by (apply nat_ascii_embedding; lia).
    destruct (Ascii.eqb_spec (ascii_of_nat (Z.to_nat c)) " ") as [E|]; [rewrite E in X; cbn in X; lia|].
    destruct (Ascii.eqb_spec (ascii_of_nat (Z.to_nat c)) "010") as [E|]; [rewrite E in X; cbn in X; lia|].
    destruct (Ascii.eqb_spec (ascii_of_nat (Z.to_nat c)) "009") as [E|]; [rewrite E in X; cbn in X; lia|]. reflexivity.
  - destruct n; [congruence|discriminate].
Qed.
Lemma visible_one_line : forall n, visible n -> one_line (code_text n) = true.
Proof. intros n V. rewrite code_text_says. now apply no_blank_one_line, visible_no_blank. Qed.
Lemma dec_int_one_line : forall n, 0 <= n < two32 -> one_line (dec_int n) = true.
Proof.
  intros n H. unfold dec_int. destruct (n <? 2147483648) eqn:E; [apply dec_one_line; lia|].
  rewrite one_line_app. cbn [one_line]. apply (dec_one_line (two32 - n)). lia.
Qed.

(** ** Headers *)
Definition no_comment (r : string) : Prop := filter comment (lines r) = [].
Lemma comments_line : forall a r, one_line a = true -> comment a = true -> filter comment (lines (a ++ endl ++ r)) = a :: filter comment (lines r).
Proof. intros a r O C. rewrite lines_line by assumption. cbn [filter]. now rewrite C. Qed.
Lemma no_comment_row : forall a r, one_line a = true -> comment a = false -> no_comment r -> no_comment (a ++ endl ++ r).
Proof. intros a r O C N. unfold no_comment in *. rewrite lines_line by assumption. cbn [filter]. now rewrite C. Qed.

Definition has_header (p : ipoint) : Prop :=
  match ip_type p with
  | OT_TCELL => 0 <= ip_row p < two32 /\ 0 <= ip_col p < two32
  | OT_TMAP | OT_PMAP => True
  | OT_TFLP | OT_TFLPEL | OT_TCOOLANT => ip_quantity p <> OQ_NONE
  | OT_T3D | OT_NONE => False
  end.
Lemma quantity_texts : forall q, q <> OQ_NONE -> exists s, quantity_text q = Some s /\ one_line s = true.
Proof. intros [] H; try congruence; eexists; (split; [reflexivity|reflexivity]). Qed.

Lemma last_line : forall a l, one_line l = true -> comment l = true -> (forall r, filter comment (lines (a ++ r)) = (filter comment (lines a) ++ filter comment (lines r))%list) ->
  forall r, no_comment r -> headings (a ++ l ++ endl ++ r) = tl (words l).
Proof.
  intros a l O C A r N. unfold headings. rewrite A, (comments_line l r O C), N, rev_app_distr. reflexivity.
Qed.

Ltac one_line_tac := rewrite ?one_line_app, ?pad_one_line, ?fixed_one_line, ?dec_int_one_line, ?visible_one_line by assumption; cbn; try assumption; try reflexivity.

Lemma words_then_gap : forall w r, w <> "" -> no_blank w = true -> words (w ++ gap ++ r) = w :: words r.
Proof. intros w r W N. unfold gap, tab. cbn [append]. rewrite words_word by (assumption || reflexivity). now rewrite !words_blank by reflexivity. Qed.
Lemma words_prefix : forall r, words (prefix_text ++ r) = "%" :: words r.
Proof. intro r. change (prefix_text ++ r) with ("%" ++ String " " r). apply words_word; [discriminate|reflexivity|reflexivity]. Qed.
Lemma words_ids : forall ws, (forall w, In w ws -> w <> "" /\ no_blank w = true) -> words (concat_map (fun w => w ++ gap) ws) = ws.
Proof.
  induction ws as [|w ws IH]; intro H; [reflexivity|]. cbn [concat_map fold_right]. fold (concat_map (fun w => w ++ gap) ws).
  destruct (H w ltac:(now left)) as (W1 & W2). rewrite app_ass, words_then_gap by assumption. f_equal. apply IH. intros. apply H. now right.
Qed.

(** What a header does to what is read: nothing to the data, and its last line gives the headings. *)
Record header_ok (p : ipoint) (h : string) : Prop := {
  ho_data : forall r, data (h ++ r) = data r;
  ho_head : is_table (ip_type p) -> forall r, no_comment r -> headings (h ++ r) = column_names p
}.
Definition comments (ls : list string) : string := concat_map (fun a => prefix_text ++ a ++ endl) ls.
Lemma comments_data : forall ls r, (forall a, In a ls -> one_line a = true) -> data (comments ls ++ r) = data r.
Proof.
  induction ls as [|a ls IH]; intros r H; [reflexivity|]. unfold comments. cbn [concat_map fold_right]. fold (comments ls).
  rewrite !app_ass, <- (app_ass prefix_text a). rewrite data_comment; [|exact (H a (or_introl eq_refl))|reflexivity]. apply IH. intros. apply H. now right.
Qed.
Lemma comments_lines : forall ls r, (forall a, In a ls -> one_line a = true) ->
  filter comment (lines (comments ls ++ r)) = (map (append prefix_text) ls ++ filter comment (lines r))%list.
Proof.
  induction ls as [|a ls IH]; intros r H; [reflexivity|]. unfold comments. cbn [concat_map fold_right map List.app]. fold (comments ls).
  rewrite !app_ass, <- (app_ass prefix_text a). rewrite comments_line; [|exact (H a (or_introl eq_refl))|reflexivity]. f_equal. apply IH. intros. apply H. now right.
Qed.
Lemma comments_ok : forall p ls h, h = comments ls -> (forall a, In a ls -> one_line a = true) ->
  (is_table (ip_type p) -> words (last ls "") = column_names p) -> ls <> [] -> header_ok p h.
Proof.
  intros p ls h -> H W NE. split.
  - intro r. now apply comments_data.
  - intros T r N. unfold headings. rewrite comments_lines, N, app_nil_r by exact H. specialize (W T).
    destruct (exists_last NE) as (l' & b & ->). rewrite last_last in W. rewrite map_app, rev_app_distr. cbn [map rev List.app]. now rewrite words_prefix, W.
Qed.
Ltac same_text := unfold comments; cbn [concat_map fold_right]; rewrite ?app_ass, ?app_nil_r'; reflexivity.

Lemma header_reads : forall pl p, has_header p -> good_names p -> exists h, header_text pl p = inl h /\ header_ok p h.
Proof.
  intros pl p H (V1 & V2 & V3). pose proof (visible_one_line _ V1) as O1. set (id := code_text (se_id (ip_stkel p))) in *.
  unfold header_text, has_header in *.
  assert (TT : words ("Time(s)" ++ gap ++ "Temperature(K)") = ["Time(s)"; "Temperature(K)"]) by (rewrite words_then_gap by (discriminate || reflexivity); reflexivity).
  destruct (ip_type p) eqn:T; try contradiction.
  - (* Tcell *)
    destruct H as (HR & HC). eexists. split; [reflexivity|].
    apply (comments_ok p [
      "Cell temperature for the location [" ++ id ++ ", x=" ++ pad_left 5 (fixed 3 (pl_x pl)) ++ ",y=" ++ pad_left 5 (fixed 3 (pl_y pl)) ++ "]";
      "Nearest [column, row] indices found= [" ++ dec_int (ip_col p) ++ "," ++ dec_int (ip_row p)
        ++ "] (locations [x=" ++ pad_left 5 (fixed 3 (pl_ax pl)) ++ ",y=" ++ pad_left 5 (fixed 3 (pl_ay pl)) ++ "])";
      "Time(s)" ++ gap ++ "Temperature(K)"]).
    + same_text.
    + intros x [<-|[<-|[<-|[]]]]; [| |reflexivity].
      * rewrite !one_line_app, !pad_one_line, !fixed_one_line, O1. reflexivity.
      * rewrite !one_line_app, !pad_one_line, !fixed_one_line, !dec_int_one_line by assumption. reflexivity.
    + intros _. cbn [last]. rewrite TT. unfold column_names. now rewrite T.
    + discriminate.
  - (* Tflp *)
    destruct (quantity_texts _ H) as (q & -> & OQ). eexists. split; [reflexivity|].
    apply (comments_ok p [q ++ "temperatures for the floorplan of the die " ++ id; "Time(s)" ++ gap ++ concat_map (fun w => w ++ gap) (map (fun e => says (fe_id e) ++ "(K)") (elements_of p))]).
    + unfold comments. cbn [concat_map fold_right]. rewrite ?app_ass, ?app_nil_r'. repeat f_equal.
      assert (X : forall l, concat_map (fun e => code_text (fe_id e) ++ "(K)" ++ gap) l = concat_map (fun w => w ++ gap) (map (fun e => says (fe_id e) ++ "(K)") l)).
      { clear. induction l as [|e l IH]; [reflexivity|]. unfold concat_map in *. cbn [fold_right map]. rewrite <- IH. rewrite code_text_says, !app_ass. reflexivity. }
      now rewrite X.
    + intros x [<-|[<-|[]]].
      * rewrite !one_line_app, O1, OQ. reflexivity.
      * rewrite !one_line_app. cbn [one_line andb negb Ascii.eqb Bool.eqb]. apply concat_one_line. intros w Hw. apply in_map_iff in Hw. destruct Hw as (e & <- & He).
        unfold elements_of in He. rewrite !one_line_app. destruct (se_kind (ip_stkel p)); try contradiction.
        rewrite Forall_forall in V2. rewrite <- code_text_says, visible_one_line by now apply V2. reflexivity.
    + intros _. cbn [last]. rewrite words_then_gap by (discriminate || reflexivity). rewrite words_ids.
      * unfold column_names, elements_of. rewrite T. now destruct (se_kind (ip_stkel p)).
      * intros w Hw. apply in_map_iff in Hw. destruct Hw as (e & <- & He). unfold elements_of in He. destruct (se_kind (ip_stkel p)); try contradiction.
        rewrite Forall_forall in V2. destruct (visible_no_blank _ (V2 e He)) as (B & N). split.
        -- destruct (says (fe_id e)); [congruence|discriminate].
        -- now rewrite no_blank_app, B.
    + discriminate.
  - (* Tflpel *)
    destruct (quantity_texts _ H) as (q & -> & OQ). eexists. split; [reflexivity|].
    assert (OE : one_line (id_of_element p) = true /\ no_blank (id_of_element p) = true).
    { unfold id_of_element. destruct (ip_element p); [|easy]. split; [now apply visible_one_line|]. rewrite code_text_says. now apply visible_no_blank. }
    destruct OE as (OE & BE).
    apply (comments_ok p [q ++ "temperatures for the floorplan element " ++ id_of_element p ++ " of the die " ++ id; "Time(s)" ++ gap ++ (id ++ "." ++ id_of_element p ++ "(K)")]).
    + same_text.
    + intros x [<-|[<-|[]]].
      * rewrite !one_line_app, O1, OE, OQ. reflexivity.
      * rewrite !one_line_app, O1, OE. reflexivity.
    + intros _. cbn [last]. rewrite words_then_gap by (discriminate || reflexivity). destruct (visible_no_blank _ V1) as (B & N).
      rewrite words_single; [| |].
      * unfold column_names, id_of_element, id. rewrite T, code_text_says. destruct (ip_element p); [now rewrite code_text_says|reflexivity].
      * unfold id. rewrite code_text_says. destruct (says _); [congruence|discriminate].
      * unfold id. rewrite !no_blank_app, code_text_says, B, BE. reflexivity.
    + discriminate.
  - (* Tmap *)
    eexists. split; [reflexivity|]. apply (comments_ok p ["Thermal map for layer " ++ id ++ " (please find axis information in ""xaxis.txt"" and ""yaxis.txt"")"]); [same_text| | |discriminate].
    + intros x [<-|[]]. rewrite !one_line_app, O1. reflexivity.
    + rewrite T. unfold is_table. intuition congruence.
  - (* Pmap *)
    eexists. split; [reflexivity|]. apply (comments_ok p ["Power map for layer " ++ id ++ " (please find axis information in ""xaxis.txt"" and ""yaxis.txt"")"]); [same_text| | |discriminate].
    + intros x [<-|[]]. rewrite !one_line_app, O1. reflexivity.
    + rewrite T. unfold is_table. intuition congruence.
  - (* Tcoolant *)
    destruct (quantity_texts _ H) as (q & -> & OQ). eexists. split; [reflexivity|].
    apply (comments_ok p [q ++ "temperatures for the outlet of the channel " ++ id; "Time(s)" ++ gap ++ "Temperature(K)"]).
    + same_text.
    + intros x [<-|[<-|[]]]; [|reflexivity]. rewrite !one_line_app, O1, OQ. reflexivity.
    + intros _. cbn [last]. rewrite TT. unfold column_names. now rewrite T.
    + discriminate.
Qed.

(** ** Rows of a table *)
Lemma one_value : forall d temps sources p q v, ip_values d temps sources p q = Ok (Some v) ->
  is_table (ip_type p) -> ip_type p <> OT_TFLP -> exists x, v = [x].
Proof.
  intros d temps sources p q v E T N. unfold ip_values in E. destruct (ip_type p); try (destruct T as [|[|[|]]]; discriminate); try congruence.
  - destruct (arr_get temps _) as [x| |]; try discriminate. cbn [bind] in E. exists x. congruence.
  - destruct (flpel_value q) as [g|]; [|discriminate]. destruct (ip_element p) as [el|]; [|discriminate].
    destruct (g d el _) as [x| |]; try discriminate. cbn [bind] in E. exists x. congruence.
  - destruct (outlet_value q) as [g|]; [|discriminate]. destruct (se_kind (ip_stkel p)); try discriminate.
    match type of E with bind ?m _ = _ => destruct m as [x| |]; try discriminate end. cbn [bind] in E. exists x. congruence.
Qed.

Definition reads_as (a : string) (x : list Q) : Prop := one_line a = true /\ comment a = false /\ numbers (words a) = Some x.

Lemma table_row : forall d p time v, is_table (ip_type p) -> (ip_type p <> OT_TFLP -> exists x, v = [x]) ->
  exists a row, row_text d p time (Some v) = a ++ endl /\ reads_as a row /\ row_says (ip_type p) time v row.
Proof.
  intros d p time v T S. unfold row_text, row_says, reads_as.
  assert (G : forall w p1 p2 e1 e2 x, (2 * inject_Z (10 ^ Z.of_nat p1) * e1 == 1)%Q -> (2 * inject_Z (10 ^ Z.of_nat p2) * e2 == 1)%Q ->
    forall w1, exists row, reads_as (pad_left w1 (fixed p1 time) ++ gap ++ pad_left w (fixed p2 x)) row /\
      exists r0 rs, row = r0 :: rs /\ near e1 r0 time /\ Forall2 (near e2) rs [x]).
  { intros w p1 p2 e1 e2 x E1 E2 w1. destruct (number_fixed p1 e1 time E1) as (q1 & R1 & N1). destruct (number_fixed p2 e2 x E2) as (q2 & R2 & N2).
    exists [q1; q2]. split; [|exists q1, [q2]; split; [reflexivity|split; [exact N1|now constructor]]].
    split; [|split].
    - rewrite !one_line_app, !pad_one_line, !fixed_one_line. reflexivity.
    - apply pad_app_comment.
    - destruct (fixed_no_blank p1 time). rewrite words_pad, words_then_gap by assumption. rewrite words_fixed_end. cbn [numbers]. now rewrite R1, R2. }
  destruct (ip_type p) eqn:Y; try (destruct T as [|[|[|]]]; discriminate).
  - destruct (S ltac:(discriminate)) as (x & ->).
    destruct (G 16%nat 6%nat 12%nat (1 # 2000000)%Q (1 # 2000000000000)%Q x eq_refl eq_refl 0%nat) as (row & R & E).
    exists (fixed 6 time ++ gap ++ pad_left 16 (fixed 12 x)), row. split; [now rewrite !app_ass|]. split; [exact R|exact E].
  - destruct (number_fixed 3 (1 # 2000) time eq_refl) as (q1 & R1 & N1). destruct (numbers_fixed 3 (1 # 2000) v eq_refl) as (qs & R2 & N2).
    exists (pad_left 5 (fixed 3 time) ++ gap ++ concat_map (fun v => pad_left 5 (fixed 3 v) ++ gap) v), (q1 :: qs).
    split; [now rewrite !app_ass|]. split; [|exists q1, qs; auto]. split; [|split].
    + rewrite !one_line_app, !pad_one_line, !fixed_one_line, cells_one_line by reflexivity. reflexivity.
    + apply pad_app_comment.
    + destruct (fixed_no_blank 3 time). rewrite words_pad, words_then_gap by assumption.
      rewrite <- (app_nil_r' (concat_map _ v)). rewrite words_cells; [|exact words_gap|now exists " "%char, (tab ++ " ")].
      change (words "") with (@nil string). rewrite app_nil_r. cbn [numbers]. now rewrite R1, R2.
  - destruct (S ltac:(discriminate)) as (x & ->).
    destruct (G 7%nat 3%nat 3%nat (1 # 2000)%Q (1 # 2000)%Q x eq_refl eq_refl 5%nat) as (row & R & E).
    exists (pad_left 5 (fixed 3 time) ++ gap ++ pad_left 7 (fixed 3 x)), row. split; [now rewrite !app_ass|]. split; [exact R|exact E].
  - destruct (S ltac:(discriminate)) as (x & ->).
    destruct (G 7%nat 3%nat 3%nat (1 # 2000)%Q (1 # 2000)%Q x eq_refl eq_refl 5%nat) as (row & R & E).
    exists (pad_left 5 (fixed 3 time) ++ gap ++ pad_left 7 (fixed 3 x)), row. split; [now rewrite !app_ass|]. split; [exact R|exact E].
Qed.

(** ** Whole files *)
Definition render (d : dims) (where_ : ipoint -> place) (l : line) : string :=
  match l with
  | Head p => match header_text (where_ p) p with inl s => s | inr s => s end
  | Row p time v => row_text d p time v
  end.
Definition render_all (d : dims) (where_ : ipoint -> place) (ls : list line) : string := concat_map (render d where_) ls.
Lemma concat_map_app : forall {A} (f : A -> string) a b, concat_map f (a ++ b) = concat_map f a ++ concat_map f b.
Proof. intros A f a b. unfold concat_map. induction a as [|x a IH]; [reflexivity|]. cbn [List.app fold_right]. now rewrite IH, app_ass. Qed.

Lemma table_rows : forall d where_ p (tvs : list (Q * list Q)) ls, is_table (ip_type p) ->
  Forall2 (fun tv l => l = Row p (fst tv) (Some (snd tv)) /\ (ip_type p <> OT_TFLP -> exists x, snd tv = [x])) tvs ls ->
  exists tb, data (render_all d where_ ls) = Some tb /\ no_comment (render_all d where_ ls) /\
    Forall2 (fun tv row => row_says (ip_type p) (fst tv) (snd tv) row) tvs tb.
Proof.
  intros d where_ p tvs ls T F. induction F as [|tv l tvs ls (-> & S) F (tb & D & N & G)].
  - exists []. split; [reflexivity|]. split; [reflexivity|constructor].
  - unfold render_all, concat_map. cbn [fold_right]. fold (concat_map (render d where_) ls). fold (render_all d where_ ls). cbn [render].
    destruct (table_row d p (fst tv) (snd tv) T S) as (a & row & -> & (O & C & R) & RS). exists (row :: tb).
    rewrite app_ass. split; [now apply data_row|]. split; [now apply no_comment_row|now constructor].
Qed.
Lemma map_rows : forall d where_ p (tvs : list (Q * list Q)) ls, is_map (ip_type p) -> 0 <= d_nrows d -> 0 < d_ncols d ->
  Forall2 (fun tv l => l = Row p (fst tv) (Some (snd tv)) /\ Z.of_nat (Datatypes.length (snd tv)) = d_nrows d * d_ncols d) tvs ls ->
  exists tb, data (render_all d where_ ls) = Some tb /\ Forall2 (fun tv b => map_says d (snd tv) b) tvs (blocks tb).
Proof.
  intros d where_ p tvs ls T HR HC F. induction F as [|tv l tvs ls (-> & S) F (tb & D & G)].
  - exists []. split; [reflexivity|constructor].
  - unfold render_all, concat_map. cbn [fold_right]. fold (concat_map (render d where_) ls). fold (render_all d where_ ls). cbn [render].
    assert (E : row_text d p (fst tv) (Some (snd tv)) = map_text (Z.to_nat (d_nrows d)) (Z.to_nat (d_ncols d)) (snd tv) ++ endl).
    { unfold row_text. destruct T as [-> | ->]; reflexivity. }
    rewrite E, app_ass.
    destruct (map_text_data (Z.to_nat (d_nrows d)) (Z.to_nat (d_ncols d)) (snd tv) (endl ++ render_all d where_ ls) ([] :: tb)) as (b & DB & LB & FB & NB & VB).
    + lia.
    + apply (data_row "" (render_all d where_ ls) [] tb); [reflexivity|reflexivity|reflexivity|exact D].
    + exists (b ++ [] :: tb)%list. split; [exact DB|]. rewrite blocks_block by (apply NB; lia). constructor; [|exact G].
      split; [lia|]. split; [eapply Forall_impl; [|exact FB]; cbn beta; intros; lia|].
      intros i j v Hi Hj E1. apply (VB (Z.to_nat i) (Z.to_nat j) v); [lia|lia|]. rewrite <- E1. f_equal. nia.
Qed.
Lemma axis_reads : forall centre n, exists xs, data (axis_text centre n) = Some (map (fun x => [x]) xs) /\
  Forall2 (near (1 # 200)) xs (map centre (zrange 0 n)).
Proof.
  intros centre n. unfold axis_text, concat_map. induction (zrange 0 n) as [|i l (xs & D & F)]; [exists []; split; [reflexivity|constructor]|].
  destruct (number_fixed 2 (1 # 200) (centre i) eq_refl) as (q & R & N). exists (q :: xs). cbn [fold_right map]. split; [|now constructor].
  rewrite app_ass. apply data_row; [now rewrite pad_one_line, fixed_one_line|rewrite <- (app_nil_r' (pad_left _ _)); apply pad_app_comment| |exact D].
  rewrite words_fixed_end. cbn [numbers]. now rewrite R.
Qed.

(** ** The emulator with texts does what the emulator with lines does *)
Section Sim.
  Variable openable : list Z -> bool.
  Variable where_ : ipoint -> place.
  Definition plain (p : ipoint) : Prop := ip_type p <> OT_NONE /\ ip_file p <> xaxis_name /\ ip_file p <> yaxis_name.
  Definition rel (d : dims) (ns : list (list Z)) (f : files) (k : tfiles) : Prop := forall n, In n ns -> k n = option_map (render_all d where_) (f n).
  Definition frame (ns : list (list Z)) (k k' : tfiles) : Prop := forall n, ~ In n ns -> k' n = k n.

  Definition present (ns : list (list Z)) (f : files) : Prop := forall n, In n ns -> f n <> None.

  Lemma outputs_sim : forall d temps sources time ns ps f k e f1, incl (map ip_file ps) ns -> Forall plain ps ->
    outputs openable d temps sources time ps f = Ok (e, f1) -> rel d ns f k -> present ns f ->
    exists k1, t_outputs openable d temps sources time ps k = Ok (e, k1) /\ rel d ns f1 k1 /\ frame ns k k1 /\ present ns f1.
  Proof.
    intros d temps sources time ns ps. induction ps as [|p ps IH]; intros f k e f1 I P E R X.
    - cbn in E. assert (e = TDICE_SUCCESS /\ f1 = f) as [-> ->] by (split; congruence). exists k. split; [reflexivity|]. split; [exact R|]. split; [intros n _; reflexivity|exact X].
    - inversion P as [|p' ps' (TP & XP & YP) P']. subst. cbn [outputs t_outputs] in *.
      assert (IP : In (ip_file p) ns) by (apply I; now left). assert (I' : incl (map ip_file ps) ns) by (intros n Hn; apply I; now right).
      assert (STEP : forall e0 f0, point_output openable d temps sources time p f = Ok (e0, f0) ->
        exists k0, t_output openable d temps sources time p k = Ok (e0, k0) /\ rel d ns f0 k0 /\ frame ns k k0 /\ present ns f0).
      { intros e0 f0 E0. unfold point_output, t_output in *.
        destruct (ip_type p) eqn:Y; try congruence;
          (destruct (openable (ip_file p)); [|assert (e0 = TDICE_FAILURE /\ f0 = f) as [-> ->] by (split; congruence); exists k; split; [reflexivity|split; [exact R|split; [intros n _; reflexivity|exact X]]]]) ||
          (assert (e0 = TDICE_SUCCESS /\ f0 = f) as [-> ->] by (split; congruence); exists k; split; [reflexivity|split; [exact R|split; [intros n _; reflexivity|exact X]]]);
          (destruct (ip_values d temps sources p (ip_quantity p)) as [v| |]; cbn [bind] in *; try discriminate;
           assert (e0 = TDICE_SUCCESS /\ f0 = put_file (ip_file p) (get_file f (ip_file p) ++ [Row p time v]) f) as [-> ->] by (split; congruence);
           eexists; split; [reflexivity|]; split; [|split]).
        all: try (intros n Hn; unfold put_file, tappend, tput; destruct (name_dec n (ip_file p)) as [->|NE]; [|exact (R n Hn)];
          specialize (X _ IP); rewrite (R _ IP); unfold get_file; destruct (f (ip_file p)) as [c|]; [|congruence]; cbn [option_map];
          unfold render_all; rewrite concat_map_app; unfold concat_map at 3; cbn [fold_right render]; now rewrite app_nil_r').
        all: try (intros n Hn; unfold tappend, tput; destruct (name_dec n (ip_file p)) as [->|NE]; [contradiction|reflexivity]).
        all: intros n Hn; unfold put_file; destruct (name_dec _ _); [discriminate|now apply X]. }
      destruct (point_output openable d temps sources time p f) as [[e0 f0]| |]; cbn [bind] in E; try discriminate.
      destruct (STEP e0 f0 eq_refl) as (k0 & E0 & R0 & F0 & X0). rewrite E0. cbn [bind].
      destruct e0.
      + destruct (IH f0 k0 e f1 I' P' E R0 X0) as (k1 & E1 & R1 & F1 & X1). exists k1. split; [exact E1|]. split; [exact R1|]. split; [|exact X1]. intros n Hn. rewrite (F1 n Hn). now apply F0.
      + assert (e = TDICE_FAILURE /\ f1 = f0) as [-> ->] by (split; congruence). exists k0. auto.
  Qed.

  Context {M PS : Type}.
  Variable emulate : dims -> sim M PS -> outcome (simresult * sim M PS).
  Lemma emit_sim : forall o d i (s : sim M PS) f k f1, Forall plain (all_points o) -> let ns := map ip_file (all_points o) in
    emit openable o d i s f = Ok f1 -> rel d ns f k -> present ns f ->
    exists k1, t_emit openable o d i s k = Ok k1 /\ rel d ns f1 k1 /\ frame ns k k1 /\ present ns f1.
  Proof.
    clear emulate. intros o d i s f k f1 P ns E R X. unfold emit, t_emit, generate_output, t_generate_output in *.
    destruct (points o i) as [ps|] eqn:PO.
    - destruct (outputs openable d (s_temps s) (pg_sources (s_pg s)) (get_simulated_time (s_an s)) ps f) as [[e f0]| |] eqn:E0; cbn [bind] in E; try discriminate.
      assert (f0 = f1) by (cbn [snd] in E; congruence). subst f0.
      assert (I : incl ps (all_points o)).
      { unfold points in PO. intros q Hq. unfold all_points. rewrite !in_app_iff. destruct i; try discriminate; assert (ps = _) by (symmetry; injection PO; intro; eassumption); subst; tauto. }
      destruct (outputs_sim d (s_temps s) (pg_sources (s_pg s)) (get_simulated_time (s_an s)) ns ps f k e f1) as (k1 & E1 & R1 & F1 & X1).
      + intros n Hn. apply in_map_iff in Hn. destruct Hn as (q & <- & Hq). apply in_map. now apply I.
      + rewrite Forall_forall in *. intros q Hq. apply P. now apply I.
      + exact E0.
      + exact R.
      + exact X.
      + exists k1. rewrite E1. auto.
    - assert (f1 = f) by (cbn [bind snd] in E; congruence). subst f1. exists k. split; [reflexivity|]. split; [exact R|]. split; [intros n _; reflexivity|exact X].
  Qed.
  Lemma frame_trans : forall ns a b c, frame ns a b -> frame ns b c -> frame ns a c.
  Proof. intros ns a b c H1 H2 n Hn. rewrite (H2 n Hn). now apply H1. Qed.
  Lemma loop_sim : forall o d, Forall plain (all_points o) -> let ns := map ip_file (all_points o) in forall fuel (s : sim M PS) f k s1 f1,
    emulator_loop openable emulate fuel o d s f = Ok (s1, f1) -> rel d ns f k -> present ns f ->
    exists k1, t_loop openable emulate fuel o d s k = Ok (s1, k1) /\ rel d ns f1 k1 /\ frame ns k k1 /\ present ns f1.
  Proof.
    intros o d P ns fuel. induction fuel as [|n IH]; intros s f k s1 f1 E R X; [discriminate|]. cbn [emulator_loop t_loop] in *.
    destruct (emulate d s) as [[res s']| |]; cbn [bind] in *; try discriminate.
    assert (ID : forall g h, rel d ns g h -> present ns g -> exists h1, Ok (A := tfiles) h = Ok h1 /\ rel d ns g h1 /\ frame ns h h1 /\ present ns g).
    { intros g h R' X'. exists h. split; [reflexivity|]. split; [exact R'|]. split; [intros m _; reflexivity|exact X']. }
    assert (S1 : forall fa, (match res with TDICE_STEP_DONE | TDICE_SLOT_DONE => emit openable o d OI_STEP s' f | _ => Ok f end) = Ok fa ->
      exists ka, (match res with TDICE_STEP_DONE | TDICE_SLOT_DONE => t_emit openable o d OI_STEP s' k | _ => Ok k end) = Ok ka /\ rel d ns fa ka /\ frame ns k ka /\ present ns fa).
    { intros fa EA. destruct res; try (assert (fa = f) by congruence; subst fa; now apply ID); now apply (emit_sim o d OI_STEP s' f k fa P EA R X). }
    destruct (match res with TDICE_STEP_DONE | TDICE_SLOT_DONE => emit openable o d OI_STEP s' f | _ => Ok f end) as [fa| |]; cbn [bind] in E; try discriminate.
    destruct (S1 fa eq_refl) as (ka & -> & RA & FA & XA). cbn [bind].
    assert (S2 : forall fb, (match res with TDICE_SLOT_DONE => emit openable o d OI_SLOT s' fa | _ => Ok fa end) = Ok fb ->
      exists kb, (match res with TDICE_SLOT_DONE => t_emit openable o d OI_SLOT s' ka | _ => Ok ka end) = Ok kb /\ rel d ns fb kb /\ frame ns ka kb /\ present ns fb).
    { intros fb EB. destruct res; try (assert (fb = fa) by congruence; subst fb; now apply ID); now apply (emit_sim o d OI_SLOT s' fa ka fb P EB RA XA). }
    destruct (match res with TDICE_SLOT_DONE => emit openable o d OI_SLOT s' fa | _ => Ok fa end) as [fb| |]; cbn [bind] in E; try discriminate.
    destruct (S2 fb eq_refl) as (kb & -> & RB & FB & XB). cbn [bind].
    assert (F : frame ns k kb) by (eapply frame_trans; eassumption).
    destruct res; try (assert (s1 = s' /\ f1 = fb) as [-> ->] by (split; congruence); exists kb; auto; fail);
      (destruct (IH s' fb kb s1 f1 E RB XB) as (k1 & E1 & R1 & F1 & X1); exists k1; split; [exact E1|]; split; [exact R1|]; split; [eapply frame_trans; eassumption|exact X1]).
  Qed.

End Sim.

Section Heads.
  Variable openable : list Z -> bool.
  Variable where_ : ipoint -> place.
  (** Headers. *)
  Definition axes_written (d : dims) (k : tfiles) : Prop :=
    k xaxis_name = Some (axis_text (get_cell_center_x d) (last_column d)) /\ k yaxis_name = Some (axis_text (get_cell_center_y d) (last_row d)).
  Lemma axes_differ : xaxis_name <> yaxis_name. Proof. discriminate. Qed.
  Lemma t_headers_spec : forall d ps, Forall (fun p => plain p /\ has_header p /\ good_names p /\ openable (ip_file p) = true) ps -> NoDup (map ip_file ps) -> forall k,
    exists k1, t_headers openable where_ d ps k = (TDICE_SUCCESS, k1) /\
      (forall p, In p ps -> k1 (ip_file p) = Some (render d where_ (Head p))) /\
      (forall n, ~ In n (map ip_file ps) -> n <> xaxis_name -> n <> yaxis_name -> k1 n = k n) /\
      ((exists p, In p ps /\ is_map (ip_type p)) \/ axes_written d k -> openable xaxis_name = true -> openable yaxis_name = true -> axes_written d k1).
  Proof.
    intros d ps F. induction F as [|p ps ((TP & XP & YP) & HP & GN & OP) F IH]; intros ND k.
    - exists k. split; [reflexivity|]. split; [intros q []|]. split; [reflexivity|]. intros [(q & [] & _)|A] _ _. exact A.
    - cbn [map] in ND. inversion ND as [|? ? ND1 ND2]. subst. cbn [t_headers].
      destruct (header_reads (where_ p) p HP GN) as (h & EH & _).
      set (k0 := match ip_type p with OT_TMAP | OT_PMAP => print_axes openable d k | _ => k end).
      assert (E : t_header openable where_ d p k = (TDICE_SUCCESS, tput (ip_file p) h k0)).
      { unfold t_header. rewrite EH, OP. unfold k0. unfold has_header in HP. destruct (ip_type p); try contradiction; reflexivity. }
      rewrite E. destruct (IH ND2 (tput (ip_file p) h k0)) as (k1 & E1 & A1 & B1 & C1). exists k1. split; [exact E1|].
      assert (K0 : forall n, n <> xaxis_name -> n <> yaxis_name -> k0 n = k n).
      { intros n NX NY. unfold k0, print_axes. destruct (ip_type p); try reflexivity; destruct (openable xaxis_name); try reflexivity;
          destruct (openable yaxis_name); unfold tput; repeat (destruct (name_dec _ _); try congruence). }
      split; [|split].
      + intros q [<-|Hq]; [|now apply A1]. rewrite B1 by assumption. unfold tput. destruct (name_dec _ _); [|congruence]. cbn [render]. now rewrite EH.
      + intros n Hn NX NY. cbn [map In] in Hn. rewrite B1 by tauto. unfold tput. destruct (name_dec n (ip_file p)); [subst; tauto|]. now apply K0.
      + intros H OX OY. apply C1; [|exact OX|exact OY]. 
        assert (W : forall kk, axes_written d kk -> axes_written d (tput (ip_file p) h kk)).
        { intros kk (W1 & W2). unfold axes_written, tput. destruct (name_dec xaxis_name (ip_file p)); [congruence|]. destruct (name_dec yaxis_name (ip_file p)); [congruence|]. auto. }
        assert (PA : axes_written d (print_axes openable d k)).
        { unfold print_axes. rewrite OX, OY. unfold axes_written, tput. pose proof axes_differ.
          repeat (destruct (name_dec _ _); try congruence). auto. }
        destruct H as [(q & [<-|Hq] & MQ)|A].
        * right. apply W. unfold k0. destruct MQ as [-> | ->]; exact PA.
        * left. exists q. auto.
        * right. apply W. unfold k0. destruct (ip_type p); auto.
  Qed.
End Heads.
