(** * The client's decoding loops *)
From Coq Require Import ZArith List Bool QArith Lia.
From Verif Require Import Base Dims Queue Floorplan FloorplanProofs Stack PowerGrid Emulate Inspect Emulator Message MessageSpec MessageProofs Server ServerSpec ServerIoProofs ServerProofs.
Import ListNotations.
Local Open Scope Z_scope.

Lemma four_ind : forall (P : list Z -> Prop), P [] -> (forall a, P [a]) -> (forall a b, P [a; b]) -> (forall a b c, P [a; b; c]) ->
    (forall a b c e t, P t -> P (a :: b :: c :: e :: t)) -> forall l, P l.
Proof.
  intros P P0 P1 P2 P3 P4. assert (X : forall n l, (length l <= n)%nat -> P l).
  { induction n as [|n IH]; intros l L; [destruct l; [exact P0|cbn in L; lia]|].
    destruct l as [|a [|b [|c [|e t]]]]; auto. apply P4. apply IH. cbn in L. lia. }
  intro l. apply (X (length l)). lia.
Qed.

Lemma unpack_word : forall a b c e, is_byte a -> is_byte b -> is_byte c -> is_byte e -> bytes_of_word (word_of_bytes a b c e) = [a; b; c; e].
Proof.
  intros a b c e A B C E. unfold is_byte in *. unfold bytes_of_word, word_of_bytes.
  assert (X : (a + 256 * b + 65536 * c + 16777216 * e) mod 256 = a).
  { replace (a + 256 * b + 65536 * c + 16777216 * e) with (a + (b + 256 * c + 65536 * e) * 256) by ring. rewrite Z.mod_add by lia. apply Z.mod_small. lia. }
  assert (Y : (a + 256 * b + 65536 * c + 16777216 * e) / 256 = b + 256 * c + 65536 * e).
  { replace (a + 256 * b + 65536 * c + 16777216 * e) with (a + (b + 256 * c + 65536 * e) * 256) by ring. rewrite Z.div_add by lia. rewrite Z.div_small by lia. lia. }
  assert (Y2 : (a + 256 * b + 65536 * c + 16777216 * e) / 65536 = c + 256 * e).
  { replace (a + 256 * b + 65536 * c + 16777216 * e) with ((a + 256 * b) + (c + 256 * e) * 65536) by ring. rewrite Z.div_add by lia. rewrite Z.div_small by lia. lia. }
  assert (Y3 : (a + 256 * b + 65536 * c + 16777216 * e) / 16777216 = e).
  { replace (a + 256 * b + 65536 * c + 16777216 * e) with ((a + 256 * b + 65536 * c) + e * 16777216) by ring. rewrite Z.div_add by lia. rewrite Z.div_small by lia. lia. }
  rewrite X, Y, Y2, Y3. f_equal. f_equal; [|f_equal; [|f_equal]].
  - replace (b + 256 * c + 65536 * e) with (b + (c + 256 * e) * 256) by ring. rewrite Z.mod_add by lia. apply Z.mod_small. lia.
  - replace (c + 256 * e) with (c + e * 256) by ring. rewrite Z.mod_add by lia. apply Z.mod_small. lia.
  - apply Z.mod_small. lia.
Qed.
Lemma byte0 : is_byte 0.
Proof. unfold is_byte. lia. Qed.
Lemma word_of_bytes_word : forall a b c e, is_byte a -> is_byte b -> is_byte c -> is_byte e -> is_word (word_of_bytes a b c e).
Proof. intros a b c e A B C E. unfold is_byte, is_word, word_of_bytes, two32 in *. lia. Qed.
Lemma pack_words : forall bs, is_text bs -> Forall is_word (pack_bytes bs).
Proof.
  pose proof byte0 as B0. intro bs. induction bs as [|a|a b|a b c|a b c e t IH] using four_ind; intro T; cbn [pack_bytes]; auto.
  - inversion T; subst. constructor; auto using word_of_bytes_word.
  - inversion T as [|? ? ? T1]; subst. inversion T1; subst. constructor; auto using word_of_bytes_word.
  - inversion T as [|? ? ? T1]; subst. inversion T1 as [|? ? ? T2]; subst. inversion T2; subst. constructor; auto using word_of_bytes_word.
  - inversion T as [|? ? ? T1]; subst. inversion T1 as [|? ? ? T2]; subst. inversion T2 as [|? ? ? T3]; subst. inversion T3; subst.
    constructor; auto using word_of_bytes_word.
Qed.
Lemma pack_length : forall bs, (length (pack_bytes bs) <= length bs)%nat.
Proof. intro bs. induction bs as [|a|a b|a b c|a b c e t IH] using four_ind; cbn [pack_bytes length] in *; lia. Qed.

Lemma extract_mid : forall m ty pre w post, carries m ty (pre ++ w :: post) -> extract_message_word m (Z.of_nat (length pre)) = Ok (Some w).
Proof.
  intros m ty pre w post C. pose proof (word_at_mid m ty pre w post C) as X. unfold word_at in X.
  destruct (extract_message_word m (Z.of_nat (length pre))) as [[w'|]| |]; cbn [bind] in X; congruence.
Qed.

Lemma extract_bytes_spec : forall bs, is_text bs -> forall m ty pre post n, carries m ty (pre ++ pack_bytes bs ++ post) ->
    (length (pack_bytes bs) <= n)%nat ->
    extract_bytes m n (Z.of_nat (length bs)) (Z.of_nat (length pre)) =
    Ok (Some (bs, Z.of_nat (length pre) + Z.of_nat (length (pack_bytes bs)))).
Proof.
  assert (STOP : forall m n nb i, nb <= 0 -> extract_bytes m n nb i = Ok (Some ([], i))).
  { intros m [|n] nb i L; [reflexivity|]. cbn [extract_bytes]. destruct (Z.leb_spec nb 0); [reflexivity|lia]. }
  pose proof byte0 as B0.
  intro bs. induction bs as [|a|a b|a b c|a b c e t IH] using four_ind; intros T m ty pre post n C N.
  - rewrite STOP by (cbn; lia). cbn. do 3 f_equal. lia.
  - destruct n as [|n]; [cbn in N; lia|]. inversion T; subst. cbn [extract_bytes]. cbn [pack_bytes app] in C. rewrite (extract_mid m ty pre _ _ C).
    cbn [bind length]. change (Z.of_nat 1 <=? 0) with false. cbv iota. rewrite STOP by lia. cbn [bind]. rewrite unpack_word by assumption.
    change (Z.to_nat (Z.of_nat 1)) with 1%nat. cbn [firstn app pack_bytes length]. reflexivity.
  - destruct n as [|n]; [cbn in N; lia|]. inversion T as [|? ? ? T1]; subst. inversion T1; subst.
    cbn [extract_bytes]. cbn [pack_bytes app] in C. rewrite (extract_mid m ty pre _ _ C).
    cbn [bind length]. change (Z.of_nat 2 <=? 0) with false. cbv iota. rewrite STOP by lia. cbn [bind]. rewrite unpack_word by assumption.
    change (Z.to_nat (Z.of_nat 2)) with 2%nat. cbn [firstn app pack_bytes length]. reflexivity.
  - destruct n as [|n]; [cbn in N; lia|]. inversion T as [|? ? ? T1]; subst. inversion T1 as [|? ? ? T2]; subst. inversion T2; subst.
    cbn [extract_bytes]. cbn [pack_bytes app] in C. rewrite (extract_mid m ty pre _ _ C).
    cbn [bind length]. change (Z.of_nat 3 <=? 0) with false. cbv iota. rewrite STOP by lia. cbn [bind]. rewrite unpack_word by assumption.
    change (Z.to_nat (Z.of_nat 3)) with 3%nat. cbn [firstn app pack_bytes length]. reflexivity.
  - destruct n as [|n]; [cbn in N; lia|].
    inversion T as [|? ? ? T1]; subst. inversion T1 as [|? ? ? T2]; subst. inversion T2 as [|? ? ? T3]; subst. inversion T3 as [|? ? ? T4]; subst.
    cbn [extract_bytes]. cbn [pack_bytes app] in C. rewrite (extract_mid m ty pre _ _ C). cbn [bind].
    destruct (Z.leb_spec (Z.of_nat (length (a :: b :: c :: e :: t))) 0); [cbn [length] in *; lia|].
    replace (Z.of_nat (length (a :: b :: c :: e :: t)) - 4) with (Z.of_nat (length t)) by (cbn [length]; lia).
    replace (Z.of_nat (length pre) + 1) with (Z.of_nat (length (pre ++ [word_of_bytes a b c e]))) by (rewrite app_length; cbn [length]; lia).
    rewrite (IH T4 m ty (pre ++ [word_of_bytes a b c e]) post n); [|rewrite <- app_assoc; exact C|cbn [pack_bytes length] in N; lia].
    cbn [bind]. rewrite unpack_word by assumption. rewrite (firstn_all2 (n := Z.to_nat _)) by (cbn [length]; lia).
    cbn [app pack_bytes]. rewrite app_length. cbn [length]. do 3 f_equal. lia.
Qed.

Lemma extract_floats_spec : forall ws m ty pre post, carries m ty (pre ++ ws ++ post) ->
    extract_floats m (length ws) (Z.of_nat (length pre)) = Ok ws.
Proof.
  induction ws as [|w ws IH]; intros m ty pre post C; cbn [length extract_floats]; [reflexivity|].
  rewrite (word_at_mid m ty pre w (ws ++ post) C). cbn [bind].
  replace (Z.of_nat (length pre) + 1) with (Z.of_nat (length (pre ++ [w]))) by (rewrite app_length; cbn [length]; lia).
  rewrite (IH m ty (pre ++ [w]) post); [reflexivity|]. rewrite <- app_assoc. exact C.
Qed.

Section Decode.
  Variables (encF : Q -> word) (d : dims).
  Notation result_words := (result_words encF d).

  Lemma decode_tflps_spec : forall ps vss, length vss = length ps -> Forall (fun p => ip_type p = OT_TFLP /\ is_text (ip_file p) /\ is_text (header_of p)) ps ->
      forall m ty pre post, carries m ty (pre ++ flat_map result_words (combine ps vss) ++ post) ->
      decode_tflps m (length ps) (Z.of_nat (length pre)) =
      Ok (Some (map (fun pv => (ip_file (fst pv), header_of (fst pv), map encF (snd pv))) (combine ps vss),
                Z.of_nat (length pre) + Z.of_nat (length (flat_map result_words (combine ps vss))))).
  Proof.
    induction ps as [|p ps IH]; intros vss LV F m ty pre post C; cbn [length decode_tflps].
    - cbn. do 3 f_equal. lia.
    - destruct vss as [|vs vss]; [discriminate|]. inversion F as [|? ? (T & TF & TH) F']; subst. cbn [combine flat_map map fst snd] in *.
      set (tail := flat_map result_words (combine ps vss)) in *.
      assert (RW : result_words (p, vs) = Z.of_nat (length (ip_file p)) :: Z.of_nat (length (header_of p)) :: Z.of_nat (length vs) ::
                 pack_bytes (ip_file p) ++ pack_bytes (header_of p) ++ map encF vs) by (unfold ServerSpec.result_words; rewrite T; reflexivity).
      rewrite RW in *. set (l1 := Z.of_nat (length (ip_file p))) in *. set (l2 := Z.of_nat (length (header_of p))) in *. set (l3 := Z.of_nat (length vs)) in *.
      assert (C1 : carries m ty (pre ++ l1 :: l2 :: l3 :: pack_bytes (ip_file p) ++ pack_bytes (header_of p) ++ map encF vs ++ tail ++ post)).
      { cbn [app] in C. rewrite <- !app_assoc in C. exact C. }
      unfold decode_tflp. rewrite (word_at_mid m ty pre _ _ C1). cbn [bind].
      assert (C2 : carries m ty ((pre ++ [l1]) ++ l2 :: l3 :: pack_bytes (ip_file p) ++ pack_bytes (header_of p) ++ map encF vs ++ tail ++ post))
        by (rewrite <- app_assoc; exact C1).
      replace (Z.of_nat (length pre) + 1) with (Z.of_nat (length (pre ++ [l1]))) by (rewrite app_length; cbn [length]; lia).
      rewrite (word_at_mid m ty _ _ _ C2). cbn [bind].
      assert (C3 : carries m ty ((pre ++ [l1; l2]) ++ l3 :: pack_bytes (ip_file p) ++ pack_bytes (header_of p) ++ map encF vs ++ tail ++ post))
        by (rewrite <- app_assoc; exact C1).
      replace (Z.of_nat (length pre) + 2) with (Z.of_nat (length (pre ++ [l1; l2]))) by (rewrite app_length; cbn [length]; lia).
      rewrite (word_at_mid m ty _ _ _ C3). cbn [bind].
      assert (C4 : carries m ty ((pre ++ [l1; l2; l3]) ++ pack_bytes (ip_file p) ++ pack_bytes (header_of p) ++ map encF vs ++ tail ++ post))
        by (rewrite <- app_assoc; exact C1).
      replace (Z.of_nat (length pre) + 3) with (Z.of_nat (length (pre ++ [l1; l2; l3]))) by (rewrite app_length; cbn [length]; lia).
      unfold l1 at 2. rewrite (extract_bytes_spec (ip_file p) TF m ty _ _ _ C4) by (unfold l1; rewrite Nat2Z.id; apply pack_length). cbn [bind].
      assert (C5 : carries m ty ((pre ++ [l1; l2; l3] ++ pack_bytes (ip_file p)) ++ pack_bytes (header_of p) ++ map encF vs ++ tail ++ post))
        by (rewrite <- !app_assoc; exact C1).
      replace (Z.of_nat (length (pre ++ [l1; l2; l3])) + Z.of_nat (length (pack_bytes (ip_file p))))
        with (Z.of_nat (length (pre ++ [l1; l2; l3] ++ pack_bytes (ip_file p)))) by (rewrite !app_length; lia).
      unfold l2 at 2. rewrite (extract_bytes_spec (header_of p) TH m ty _ _ _ C5) by (unfold l2; rewrite Nat2Z.id; apply pack_length). cbn [bind].
      assert (C6 : carries m ty ((pre ++ [l1; l2; l3] ++ pack_bytes (ip_file p) ++ pack_bytes (header_of p)) ++ map encF vs ++ tail ++ post))
        by (rewrite <- !app_assoc; exact C1).
      replace (Z.of_nat (length (pre ++ [l1; l2; l3] ++ pack_bytes (ip_file p))) + Z.of_nat (length (pack_bytes (header_of p))))
        with (Z.of_nat (length (pre ++ [l1; l2; l3] ++ pack_bytes (ip_file p) ++ pack_bytes (header_of p)))) by (rewrite !app_length; lia).
      unfold l3 at 1. rewrite Nat2Z.id.
      replace (length vs) with (length (map encF vs)) at 1 by apply map_length.
      rewrite (extract_floats_spec (map encF vs) m ty _ _ C6). cbn [bind].
      assert (C7 : carries m ty ((pre ++ [l1; l2; l3] ++ pack_bytes (ip_file p) ++ pack_bytes (header_of p) ++ map encF vs) ++ tail ++ post))
        by (rewrite <- !app_assoc; exact C1).
      replace (Z.of_nat (length (pre ++ [l1; l2; l3] ++ pack_bytes (ip_file p) ++ pack_bytes (header_of p))) + l3)
        with (Z.of_nat (length (pre ++ [l1; l2; l3] ++ pack_bytes (ip_file p) ++ pack_bytes (header_of p) ++ map encF vs)))
        by (unfold l3; rewrite !app_length, map_length; lia).
      rewrite (IH vss ltac:(cbn in LV; lia) F' m ty _ post C7). cbn [bind]. fold tail. do 3 f_equal. rewrite !app_length. cbn [length]. rewrite !app_length. lia.
  Qed.

  Lemma decode_rows_spec : forall rows ncols ws m ty pre post, carries m ty (pre ++ ws ++ post) -> 0 <= ncols ->
      Z.of_nat (length ws) = Z.of_nat rows * ncols ->
      exists rs, decode_rows m rows ncols (Z.of_nat (length pre)) = Ok rs /\ concat rs = ws /\ length rs = rows /\
        Forall (fun r => Z.of_nat (length r) = ncols) rs.
  Proof.
    induction rows as [|rows IH]; intros ncols ws m ty pre post C N L; cbn [decode_rows].
    - exists []. destruct ws; [auto|cbn in L; lia].
    - set (a := firstn (Z.to_nat ncols) ws). set (b := skipn (Z.to_nat ncols) ws).
      assert (EW : ws = a ++ b) by (symmetry; apply firstn_skipn).
      assert (LA : length a = Z.to_nat ncols) by (unfold a; rewrite firstn_length; nia).
      rewrite EW in C. rewrite <- app_assoc in C. rewrite <- LA, (extract_floats_spec a m ty pre (b ++ post) C). cbn [bind].
      replace (Z.of_nat (length pre) + ncols) with (Z.of_nat (length (pre ++ a))) by (rewrite app_length; lia).
      destruct (IH ncols b m ty (pre ++ a) post) as (rs & E & CC & LR & FR).
      + rewrite <- app_assoc. exact C.
      + exact N.
      + unfold b. rewrite skipn_length. nia.
      + rewrite E. cbn [bind]. exists (a :: rs). cbn [concat length]. rewrite CC, LR. repeat split; auto. constructor; [lia|exact FR].
  Qed.

  Definition map_shape (rows : list (list word)) (vs : list Q) : Prop :=
    concat rows = map encF vs /\ Z.of_nat (length rows) = d_nrows d /\ Forall (fun r => Z.of_nat (length r) = d_ncols d) rows.
  Lemma decode_maps_spec : forall ps vss, Forall2 (fun p vs => Z.of_nat (length vs) = d_nrows d * d_ncols d) ps vss ->
      Forall (fun p => ip_type p = OT_TMAP \/ ip_type p = OT_PMAP) ps -> 0 <= d_nrows d -> 0 <= d_ncols d ->
      forall m ty pre post, carries m ty (pre ++ flat_map result_words (combine ps vss) ++ post) ->
      exists maps, decode_maps m (length ps) (Z.of_nat (length pre)) =
        Ok (maps, Z.of_nat (length pre) + Z.of_nat (length (flat_map result_words (combine ps vss)))) /\ Forall2 map_shape maps vss.
  Proof.
    intros ps vss H. induction H as [|p vs ps vss L H IH]; intros F NR NC m ty pre post C; cbn [length decode_maps].
    - exists []. cbn. split; [do 2 f_equal; lia|constructor].
    - inversion F as [|? ? T F']; subst. cbn [combine flat_map] in *. set (tail := flat_map result_words (combine ps vss)) in *.
      assert (RW : result_words (p, vs) = d_nrows d :: d_ncols d :: map encF vs) by (unfold ServerSpec.result_words; destruct T as [-> | ->]; reflexivity).
      rewrite RW in *. cbn [app] in C. rewrite <- app_assoc in C. rewrite (word_at_mid m ty pre _ _ C). cbn [bind].
      assert (C2 : carries m ty ((pre ++ [d_nrows d]) ++ d_ncols d :: map encF vs ++ tail ++ post)) by (rewrite <- app_assoc; exact C).
      replace (Z.of_nat (length pre) + 1) with (Z.of_nat (length (pre ++ [d_nrows d]))) by (rewrite app_length; cbn [length]; lia).
      rewrite (word_at_mid m ty _ _ _ C2). cbn [bind].
      assert (C3 : carries m ty ((pre ++ [d_nrows d; d_ncols d]) ++ map encF vs ++ tail ++ post)) by (rewrite <- app_assoc; exact C).
      replace (Z.of_nat (length pre) + 2) with (Z.of_nat (length (pre ++ [d_nrows d; d_ncols d]))) by (rewrite app_length; cbn [length]; lia).
      destruct (decode_rows_spec (Z.to_nat (d_nrows d)) (d_ncols d) (map encF vs) m ty _ _ C3 NC) as (rs & E & CC & LR & FR).
      { rewrite map_length, L, Z2Nat.id by exact NR. reflexivity. }
      rewrite E. cbn [bind].
      assert (C4 : carries m ty ((pre ++ [d_nrows d; d_ncols d] ++ map encF vs) ++ tail ++ post)) by (rewrite <- !app_assoc; exact C).
      replace (Z.of_nat (length (pre ++ [d_nrows d; d_ncols d])) + d_nrows d * d_ncols d)
        with (Z.of_nat (length (pre ++ [d_nrows d; d_ncols d] ++ map encF vs))) by (rewrite !app_length, map_length; cbn [length]; lia).
      destruct (IH F' NR NC m ty _ post C4) as (maps & E2 & F2). rewrite E2. cbn [bind]. exists (rs :: maps). split.
      + fold tail. do 2 f_equal. rewrite ?app_length; cbn [length]; rewrite ?app_length, ?map_length; cbn [length]; lia.
      + constructor; [|exact F2]. split; [exact CC|]. split; [lia|exact FR].
  Qed.
End Decode.
