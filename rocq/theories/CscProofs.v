(** * Writing columns one after another gives compressed-column storage *)
From Coq Require Import ZArith List Bool QArith Lia Lqa Sorted.
From Verif Require Import Base QSum Dims Floorplan FloorplanProofs Stack StackProofs PowerGrid Emulate Conduct Matrix MatrixSpec.
Import ListNotations.
Local Open Scope Z_scope.

Notation len l := (Z.of_nat (length l)).

(** Positions of the ends of the columns. *)
Fixpoint ends (e : Z) (cs : list column) : list Z :=
  match cs with [] => [] | c :: cs' => (e + len (entries c)) :: ends (e + len (entries c)) cs' end.
Definition all_entries (cs : list column) : list (Z * Q) := flat_map entries cs.
Definition total (cs : list column) : Z := len (all_entries cs).

Lemma ends_length : forall cs e, length (ends e cs) = length cs.
Proof. induction cs; intros e; cbn; [reflexivity|]. f_equal. apply IHcs. Qed.

Lemma split_list : forall {A} (l : list A) n, (n <= length l)%nat -> exists a b, l = a ++ b /\ length a = n.
Proof. intros A l n H. exists (firstn n l), (skipn n l). rewrite firstn_skipn. split; [reflexivity|]. apply firstn_length_le. assumption. Qed.

Lemma write_columns_ok : forall cs pre e pmid ppost rpre rmid rpost vpre vmid vpost k,
    k = len pre + 1 -> length pmid = length cs ->
    e = len rpre -> e = len vpre -> length rmid = length (all_entries cs) -> length vmid = length (all_entries cs) ->
    write_columns (mkSysmatrix (pre ++ e :: pmid ++ ppost) (rpre ++ rmid ++ rpost) (vpre ++ vmid ++ vpost)) k e cs =
    Ok (mkSysmatrix (pre ++ e :: ends e cs ++ ppost) (rpre ++ map fst (all_entries cs) ++ rpost)
                    (vpre ++ map snd (all_entries cs) ++ vpost)).
Proof.
  induction cs as [|c cs IH]; intros pre e pmid ppost rpre rmid rpost vpre vmid vpost k Hk Hp Hr Hv Lr Lv.
  - destruct pmid; [|discriminate]. destruct rmid; [|discriminate]. destruct vmid; [|discriminate]. reflexivity.
  - cbn [all_entries flat_map] in Lr, Lv. fold (all_entries cs) in Lr, Lv. rewrite app_length in Lr, Lv.
    destruct pmid as [|p pmid]; [discriminate|]. injection Hp as Hp.
    destruct (split_list rmid (length (entries c))) as (r1 & r2 & -> & R1); [lia|].
    destruct (split_list vmid (length (entries c))) as (v1 & v2 & -> & V1); [lia|].
    rewrite app_length in Lr, Lv.
    cbn [write_columns]. cbn [sm_rows sm_vals sm_ptr].
    rewrite <- !app_assoc.
    rewrite arr_set_all_mid by (rewrite ?map_length; lia). cbn [bind].
    rewrite arr_set_all_mid by (rewrite ?map_length; lia). cbn [bind].
    rewrite (arr_get_mid pre e) by lia. cbn [bind].
    replace (pre ++ e :: (p :: pmid) ++ ppost) with ((pre ++ [e]) ++ p :: (pmid ++ ppost)) by (rewrite <- app_assoc; reflexivity).
    rewrite arr_set_mid by (rewrite app_length; cbn [length]; lia). cbn [bind].
    replace (rpre ++ map fst (entries c) ++ r2 ++ rpost) with ((rpre ++ map fst (entries c)) ++ r2 ++ rpost) by (rewrite <- app_assoc; reflexivity).
    replace (vpre ++ map snd (entries c) ++ v2 ++ vpost) with ((vpre ++ map snd (entries c)) ++ v2 ++ vpost) by (rewrite <- app_assoc; reflexivity).
    rewrite IH; try (rewrite ?app_length, ?map_length; cbn [length]; lia).
    cbn [ends all_entries flat_map]. fold (all_entries cs). rewrite !map_app, <- !app_assoc. reflexivity.
Qed.

Lemma fill_ok : forall g d an cs size nnz, matrix_columns g d an = Ok cs -> size = len cs -> total cs <= nnz ->
    fill_system_matrix (system_matrix_build size nnz) g an d =
    Ok (mkSysmatrix (0 :: ends 0 cs) (map fst (all_entries cs) ++ repeat 0 (Z.to_nat (nnz - total cs)))
                    (map snd (all_entries cs) ++ repeat 0%Q (Z.to_nat (nnz - total cs)))).
Proof.
  intros g d an cs size nnz H -> N. unfold fill_system_matrix, system_matrix_build. cbn [sm_ptr sm_rows sm_vals].
  replace (Z.to_nat (len cs + 1)) with (S (length cs)) by lia. cbn [repeat].
  change (0 :: repeat 0 (length cs)) with ([] ++ 0 :: repeat 0 (length cs)). rewrite (arr_set_mid [] 0 (repeat 0 (length cs)) 0 0) by reflexivity. cbn [bind app]. rewrite H. cbn [bind].
  unfold total in N.
  replace (Z.to_nat nnz) with (length (all_entries cs) + Z.to_nat (nnz - total cs))%nat by (unfold total; lia).
  rewrite !repeat_app.
  pose proof (write_columns_ok cs [] 0 (repeat 0 (length cs)) [] [] (repeat 0 (length (all_entries cs))) (repeat 0 (Z.to_nat (nnz - total cs)))
                [] (repeat 0%Q (length (all_entries cs))) (repeat 0%Q (Z.to_nat (nnz - total cs))) 1) as W.
  cbn [app] in W. rewrite !app_nil_r in W. apply W; rewrite ?repeat_length; reflexivity.
Qed.

(** Too small an allocation is written past its end. *)
Lemma arr_set_all_bound : forall {A} (xs : list A) a i b, arr_set_all a i xs = Ok b ->
    length b = length a /\ (xs <> [] -> i + len xs <= len a).
Proof.
  induction xs as [|x xs IH]; intros a i b H.
  - injection H as <-. split; [reflexivity|congruence].
  - cbn [arr_set_all] in H. unfold arr_set in H. destruct ((0 <=? i) && (i <? len a)) eqn:E; [|discriminate].
    cbn [bind] in H. apply andb_true_iff in E. destruct E as (E1 & E2). apply Z.ltb_lt in E2.
    apply IH in H. destruct H as (L & B). rewrite list_set_length in *.
    split; [assumption|]. intros _. destruct xs as [|y xs]; [cbn; lia|].
    specialize (B ltac:(discriminate)). cbn [length] in *. lia.
Qed.
Lemma write_bound : forall cs m k e m', write_columns m k e cs = Ok m' -> total cs <> 0 -> e + total cs <= len (sm_rows m).
Proof.
  induction cs as [|c cs IH]; intros m k e m' H T; [unfold total in T; cbn in T; congruence|].
  cbn [write_columns] in H.
  destruct (arr_set_all (sm_rows m) e (map fst (entries c))) as [rows| |] eqn:ER; try discriminate. cbn [bind] in H.
  destruct (arr_set_all (sm_vals m) e (map snd (entries c))) as [vals| |]; try discriminate. cbn [bind] in H.
  destruct (arr_get (sm_ptr m) (k - 1)) as [p| |]; try discriminate. cbn [bind] in H.
  destruct (arr_set (sm_ptr m) k _) as [ptr| |]; try discriminate. cbn [bind] in H.
  apply arr_set_all_bound in ER. destruct ER as (L & B). rewrite map_length in B.
  assert (NE : map fst (entries c) <> []) by (unfold entries; destruct (c_before c); discriminate).
  specialize (B NE).
  unfold total, all_entries in *. cbn [flat_map]. rewrite app_length.
  destruct cs as [|c2 cs]; [cbn [flat_map length] in *; lia|].
  assert (len (flat_map entries (c2 :: cs)) <> 0) by (cbn [flat_map]; rewrite app_length; unfold entries at 1; rewrite app_length; cbn [length]; lia).
  apply IH in H; [|assumption]. cbn [sm_rows] in H. rewrite L in H. lia.
Qed.

(** ** Reading the storage back *)
Lemma nth_ends : forall cs e j, (j <= length cs)%nat -> nth j (e :: ends e cs) 0 = e + len (all_entries (firstn j cs)).
Proof.
  induction cs as [|c cs IH]; intros e j J.
  - cbn in J. replace j with 0%nat by lia. cbn. lia.
  - destruct j as [|j]; [cbn; lia|]. cbn [ends]. cbn [length] in J.
    change (nth (S j) (e :: e + len (entries c) :: ends (e + len (entries c)) cs) 0)
      with (nth j (e + len (entries c) :: ends (e + len (entries c)) cs) 0).
    rewrite IH by lia. cbn [firstn all_entries flat_map]. rewrite app_length. unfold all_entries. lia.
Qed.
Lemma all_entries_app : forall a b, all_entries (a ++ b) = all_entries a ++ all_entries b.
Proof. intros. unfold all_entries. apply flat_map_app. Qed.

Definition stored (cs : list column) (rtail : list Z) (vtail : list Q) : sysmatrix :=
  mkSysmatrix (0 :: ends 0 cs) (map fst (all_entries cs) ++ rtail) (map snd (all_entries cs) ++ vtail).

Section Stored.
  Variables (cs : list column) (rt : list Z) (vt : list Q).
  Notation M := (stored cs rt vt).

  Lemma ptr_at : forall j, 0 <= j <= len cs -> zat (sm_ptr M) j = len (all_entries (firstn (Z.to_nat j) cs)).
  Proof. intros j J. unfold zat. cbn [sm_ptr stored]. rewrite nth_ends by lia. lia. Qed.

  Lemma split_at : forall j c0, 0 <= j < len cs -> cs = firstn (Z.to_nat j) cs ++ nth (Z.to_nat j) cs c0 :: skipn (S (Z.to_nat j)) cs.
  Proof.
    intros j c0 J. rewrite <- (firstn_skipn (Z.to_nat j) cs) at 1. f_equal.
    assert (H : (Z.to_nat j < length cs)%nat) by lia. revert H. generalize (Z.to_nat j). clear J. intros n. generalize cs.
    induction n as [|n IH]; intros l Hl; destruct l as [|a l]; try (cbn in Hl; lia); [reflexivity|].
    cbn [skipn nth]. apply IH. cbn in Hl. lia.
  Qed.
  Lemma ptr_next : forall j c0, 0 <= j < len cs -> zat (sm_ptr M) (j + 1) = zat (sm_ptr M) j + len (entries (nth (Z.to_nat j) cs c0)).
  Proof.
    intros j c0 J. rewrite !ptr_at by lia. replace (Z.to_nat (j + 1)) with (S (Z.to_nat j)) by lia.
    rewrite (split_at j c0 J) at 1.
    rewrite firstn_app. rewrite firstn_firstn. replace (Nat.min (S (Z.to_nat j)) (Z.to_nat j)) with (Z.to_nat j) by lia.
    rewrite firstn_length_le by lia. replace (S (Z.to_nat j) - Z.to_nat j)%nat with 1%nat by lia. cbn [firstn].
    rewrite all_entries_app, app_length. cbn [all_entries flat_map]. rewrite app_nil_r. lia.
  Qed.
  Lemma entry_at : forall j i c0 d0, 0 <= j < len cs -> 0 <= i < len (entries (nth (Z.to_nat j) cs c0)) ->
      zat (sm_rows M) (zat (sm_ptr M) j + i) = fst (nth (Z.to_nat i) (entries (nth (Z.to_nat j) cs c0)) d0) /\
      qat (sm_vals M) (zat (sm_ptr M) j + i) = snd (nth (Z.to_nat i) (entries (nth (Z.to_nat j) cs c0)) d0).
  Proof.
    intros j i c0 d0 J I. rewrite ptr_at by lia. unfold zat, qat. cbn [sm_rows sm_vals stored].
    set (a := all_entries (firstn (Z.to_nat j) cs)). set (k := entries (nth (Z.to_nat j) cs c0)) in *.
    assert (E : all_entries cs = a ++ k ++ all_entries (skipn (S (Z.to_nat j)) cs)).
    { rewrite (split_at j c0 J) at 1. rewrite all_entries_app. reflexivity. }
    rewrite E, !map_app, <- !app_assoc.
    assert (N : (Z.to_nat (len a + i) - length a)%nat = Z.to_nat i) by lia.
    split.
    - rewrite app_nth2 by (rewrite map_length; lia). rewrite map_length, N. rewrite app_nth1 by (rewrite map_length; lia).
      rewrite (nth_indep (map fst k) 0 (fst d0)) by (rewrite map_length; lia). apply map_nth.
    - rewrite app_nth2 by (rewrite map_length; lia). rewrite map_length, N. rewrite app_nth1 by (rewrite map_length; lia).
      rewrite (nth_indep (map snd k) 0%Q (snd d0)) by (rewrite map_length; lia). apply map_nth.
  Qed.

  Definition entry_sum (es : list (Z * Q)) (i : Z) : Q := qsum (map (fun p => if fst p =? i then snd p else 0%Q) es).

  Lemma zrange_shift : forall e n, zrange e (e + Z.of_nat n - 1) = map (fun i => e + Z.of_nat i) (seq 0 n).
  Proof. intros e n. unfold zrange. replace (Z.to_nat (e + Z.of_nat n - 1 - e + 1)) with n by lia. reflexivity. Qed.
  Lemma list_as_nth : forall {A} (l : list A) d0, l = map (fun i => nth i l d0) (seq 0 (length l)).
  Proof.
    intros A l d0. induction l as [|a l IH]; [reflexivity|]. cbn [length seq map nth]. f_equal.
    rewrite <- seq_shift, map_map. exact IH.
  Qed.
  Lemma coefficient_sum : forall i j c0, 0 <= j < len cs -> coefficient M i j = entry_sum (entries (nth (Z.to_nat j) cs c0)) i.
  Proof.
    intros i j c0 J. unfold coefficient, entry_sum. rewrite (ptr_next j c0 J), zrange_shift, map_map.
    rewrite (list_as_nth (entries (nth (Z.to_nat j) cs c0)) (0, 0%Q)) at 2. rewrite map_map. f_equal.
    apply map_ext_in. intros k Hk. apply in_seq in Hk.
    destruct (entry_at j (Z.of_nat k) c0 (0, 0%Q) J) as (E1 & E2); [lia|]. rewrite E1, E2, Nat2Z.id. reflexivity.
  Qed.

  (** The storage is well formed when each column is sorted, in range and has
      its own index on the diagonal. *)
  Lemma stored_csc : (forall j c, 0 <= j < len cs -> nth_error cs (Z.to_nat j) = Some c ->
                        c_self c = j /\ StronglySorted Z.lt (map fst (entries c)) /\ Forall (fun p => 0 <= fst p < len cs) (entries c)) ->
      length rt = length vt ->
      csc (len cs) M /\ zat (sm_ptr M) (len cs) = total cs.
  Proof.
    intros H LT.
    assert (c0 : column) by exact (mkColumn [] 0 0 0 []).
    assert (H' : forall j, 0 <= j < len cs -> let c := nth (Z.to_nat j) cs c0 in
                c_self c = j /\ StronglySorted Z.lt (map fst (entries c)) /\ Forall (fun p => 0 <= fst p < len cs) (entries c)).
    { intros j J. apply H; [assumption|]. apply nth_error_nth'. lia. }
    clear H. assert (LAST : zat (sm_ptr M) (len cs) = total cs).
    { rewrite ptr_at by lia. rewrite Nat2Z.id, firstn_all. reflexivity. }
    split; [|assumption]. split.
    - cbn [sm_ptr stored length]. rewrite ends_length. lia.
    - reflexivity.
    - intros j J. rewrite (ptr_next j c0 J). unfold entries. rewrite app_length. cbn [length]. lia.
    - rewrite LAST. cbn [sm_rows stored]. rewrite app_length, map_length. unfold total. lia.
    - cbn [sm_rows sm_vals stored]. rewrite !app_length, !map_length. lia.
    - intros k K. rewrite LAST in K. unfold zat. cbn [sm_rows stored]. unfold total in K.
      rewrite app_nth1 by (rewrite map_length; lia).
      assert (I : In (nth (Z.to_nat k) (map fst (all_entries cs)) 0) (map fst (all_entries cs))).
      { apply nth_In. rewrite map_length. lia. }
      apply in_map_iff in I. destruct I as (p & E & I). rewrite <- E. apply in_flat_map in I. destruct I as (c & Ic & Ip).
      apply (In_nth _ _ c0) in Ic. destruct Ic as (n & Ln & En).
      destruct (H' (Z.of_nat n)) as (_ & _ & F); [lia|]. rewrite Nat2Z.id, En in F. rewrite Forall_forall in F. apply F. assumption.
    - intros j k J K1 K2. rewrite (ptr_next j c0 J) in K2. set (i := k - zat (sm_ptr M) j).
      destruct (entry_at j i c0 (0, 0%Q) J) as (E1 & _); [unfold i; lia|].
      destruct (entry_at j (i + 1) c0 (0, 0%Q) J) as (E2 & _); [unfold i; lia|].
      replace (zat (sm_ptr M) j + i) with k in E1 by (unfold i; lia).
      replace (zat (sm_ptr M) j + (i + 1)) with (k + 1) in E2 by (unfold i; lia).
      rewrite E1, E2. destruct (H' j J) as (_ & SS & _). cbv zeta in SS. replace (Z.to_nat (i + 1)) with (S (Z.to_nat i)) by (unfold i; lia).
      assert (N : (S (Z.to_nat i) < length (entries (nth (Z.to_nat j) cs c0)))%nat) by (unfold i; lia).
      revert SS N. generalize (entries (nth (Z.to_nat j) cs c0)). generalize (Z.to_nat i). intros n.
      induction n as [|n IH]; intros l SS N; destruct l as [|a l]; try (cbn in N; lia).
      + destruct l as [|b l]; [cbn in N; lia|]. cbn [nth]. inversion SS as [|? ? S1 F1]; subst. inversion F1; subst. assumption.
      + cbn [map] in SS. inversion SS; subst. apply (IH l); [assumption|]. cbn [length] in N. lia.
    - intros j J. destruct (H' j J) as (SE & _ & _). cbv zeta in SE. exists (zat (sm_ptr M) j + len (c_before (nth (Z.to_nat j) cs c0))).
      rewrite (ptr_next j c0 J). set (c := nth (Z.to_nat j) cs c0) in *.
      assert (LE : len (entries c) = len (c_before c) + 1 + len (c_after c)).
      { unfold entries. rewrite app_length, !map_length. cbn [length]. rewrite map_length. lia. }
      split; [lia|]. destruct (entry_at j (len (c_before c)) c0 (0, 0%Q) J) as (E1 & _); [fold c; lia|].
      rewrite E1. fold c. rewrite Nat2Z.id. unfold entries. rewrite app_nth2 by (rewrite map_length; lia).
      rewrite map_length, Nat.sub_diag. cbn [nth fst]. assumption.
  Qed.
End Stored.
