(** * Proofs about copies and ownership: a separation logic over lists of blocks *)
From Coq Require Import ZArith List Bool QArith Permutation Lia.
From Verif Require Import Base Queue QueueProofs Own OwnSpec.
Import ListNotations.
Local Open Scope Z_scope.

(** ** Permutations of concatenations *)
Inductive hx := HV (n : nat) | HA (a b : hx) | HN.
Fixpoint hden (env : list heap) (e : hx) : heap :=
  match e with HV n => nth n env [] | HA a b => hden env a ++ hden env b | HN => [] end.
Fixpoint hflat (e : hx) : list nat := match e with HV n => [n] | HA a b => hflat a ++ hflat b | HN => [] end.
Lemma hden_flat : forall env e, hden env e = flat_map (fun n => nth n env []) (hflat e).
Proof.
  induction e as [n|a IHa b IHb|]; cbn [hden hflat flat_map]; [rewrite app_nil_r; reflexivity| |reflexivity].
  rewrite flat_map_app, IHa, IHb. reflexivity.
Qed.
Fixpoint rem1 (n : nat) (l : list nat) : option (list nat) :=
  match l with [] => None | m :: r => if Nat.eqb n m then Some r else option_map (cons m) (rem1 n r) end.
Fixpoint permb (a b : list nat) : bool :=
  match a with [] => match b with [] => true | _ => false end | n :: r => match rem1 n b with Some b' => permb r b' | None => false end end.
Lemma rem1_perm : forall n l r, rem1 n l = Some r -> Permutation l (n :: r).
Proof.
  induction l as [|m l IH]; intros r H; cbn in H; [discriminate|]. destruct (Nat.eqb_spec n m) as [->|]; [injection H as <-; reflexivity|].
  destruct (rem1 n l) as [r'|]; [|discriminate]. injection H as <-. rewrite (IH r' eq_refl). apply perm_swap.
Qed.
Lemma permb_perm : forall a b, permb a b = true -> Permutation a b.
Proof.
  induction a as [|n a IH]; intros b H; cbn in H; [destruct b; [constructor|discriminate]|].
  destruct (rem1 n b) as [r|] eqn:E; [|discriminate]. rewrite (rem1_perm _ _ _ E). constructor. apply IH, H.
Qed.
Lemma perm_reflect : forall env a b, permb (hflat a) (hflat b) = true -> Permutation (hden env a) (hden env b).
Proof. intros env a b H. rewrite !hden_flat. apply Permutation_flat_map, permb_perm, H. Qed.
Ltac hsame x y := match constr:(Set) with _ => unify x y end.
Ltac hfind x env := match env with ?y :: _ => let _ := hsame x y in constr:(O) | _ :: ?r => let n := hfind x r in constr:(S n) end.
Ltac hin x env := match env with ?y :: _ => let _ := hsame x y in constr:(true) | _ :: ?r => hin x r | _ => constr:(false) end.
Ltac hadd e env :=
  lazymatch e with
  | ?a ++ ?b => let env := hadd a env in hadd b env
  | @nil _ => env
  | ?x :: ?r => lazymatch r with @nil _ => lazymatch hin e env with true => env | false => constr:(e :: env) end
                | _ => let y := constr:([x]) in let env := hadd y env in hadd r env end
  | _ => lazymatch hin e env with true => env | false => constr:(e :: env) end
  end.
Ltac hquote e env :=
  lazymatch e with
  | ?a ++ ?b => let x := hquote a env in let y := hquote b env in constr:(HA x y)
  | @nil _ => constr:(HN)
  | ?x :: ?r => lazymatch r with @nil _ => let n := hfind e env in constr:(HV n)
                | _ => let z := constr:([x]) in let a := hquote z env in let b := hquote r env in constr:(HA a b) end
  | _ => let n := hfind e env in constr:(HV n)
  end.
Ltac perm :=
  lazymatch goal with |- Permutation ?a ?b =>
    let env := hadd a (@nil heap) in let env := hadd b env in let x := hquote a env in let y := hquote b env in
    change (Permutation (hden env x) (hden env y)); apply perm_reflect; vm_compute; reflexivity
  end.
Goal forall (a b c : heap) (x y : addr * block), Permutation (x :: a ++ y :: b ++ c) (c ++ (y :: x :: b) ++ a).
Proof. intros. perm. Qed.

(** ** The heap up to order *)
Definition keys (h : heap) : list addr := map fst h.
Lemma get_in : forall h a b, NoDup (keys h) -> In (a, b) h -> get h a = Some b.
Proof.
  induction h as [|[x c] h IH]; intros a b N I; [destruct I|]. cbn in N. inversion N as [|? ? N1 N2]; subst. cbn [get].
  destruct I as [I|I]; [injection I as -> ->; rewrite Z.eqb_refl; reflexivity|]. destruct (Z.eqb_spec x a) as [->|]; [|apply IH; assumption].
  exfalso. apply N1. change a with (fst (a, b)). apply in_map. assumption.
Qed.
Lemma get_none : forall h a, get h a = None -> ~ In a (keys h).
Proof.
  induction h as [|[x c] h IH]; intros a H I; [destruct I|]. cbn [get] in H. destruct (Z.eqb_spec x a) as [->|N]; [discriminate|].
  destruct I as [I|I]; [cbn in I; congruence|]. exact (IH a H I).
Qed.
Lemma del_perm : forall h a b, get h a = Some b -> Permutation h ((a, b) :: del h a).
Proof.
  induction h as [|[x c] h IH]; intros a b H; [discriminate|]. cbn [get] in H. cbn [del]. destruct (Z.eqb_spec x a) as [->|N]; [injection H as ->; reflexivity|].
  rewrite (IH a b H) at 1. apply perm_swap.
Qed.
Lemma put_perm : forall h a b b', get h a = Some b -> Permutation (put h a b') ((a, b') :: del h a).
Proof.
  induction h as [|[x c] h IH]; intros a b b' H; [discriminate|]. cbn [get] in H. cbn [del put]. destruct (Z.eqb_spec x a) as [->|N]; [reflexivity|].
  rewrite (IH a b b' H) at 1. apply perm_swap.
Qed.
Lemma keys_perm : forall h h', Permutation h h' -> NoDup (keys h) -> NoDup (keys h').
Proof. intros h h' P N. eapply Permutation_NoDup; [|exact N]. apply Permutation_map, P. Qed.
Lemma in_use_perm : forall h L L', Permutation L L' -> in_use h L -> in_use h L'.
Proof. intros h L L' P [N Q]. split; [assumption|]. rewrite Q. assumption. Qed.

(** ** Triples *)
Definition hoare {A} (L : heap) (m : M A) (Q : A -> heap -> Prop) : Prop :=
  forall h R, in_use h (L ++ R) -> exists h' x L', m h = Ok (h', x) /\ Q x L' /\ in_use h' (L' ++ R).
Lemma hoare_ret : forall A (x : A) L (Q : A -> heap -> Prop), Q x L -> hoare L (ret x) Q.
Proof. intros A x L Q H h R I. exists h, x, L. repeat split; try apply I; assumption. Qed.
Lemma hoare_perm : forall A (m : M A) L L' Q, Permutation L L' -> hoare L' m Q -> hoare L m Q.
Proof. intros A m L L' Q P H h R I. apply H. eapply in_use_perm; [|exact I]. apply Permutation_app_tail, P. Qed.
Lemma hoare_post : forall A (m : M A) L (Q Q' : A -> heap -> Prop), (forall x L', Q x L' -> Q' x L') -> hoare L m Q -> hoare L m Q'.
Proof. intros A m L Q Q' W H h R I. destruct (H h R I) as (h' & x & L' & E & P & I'). exists h', x, L'. auto. Qed.
Lemma hoare_seq : forall A B (m : M A) (f : A -> M B) L L1 F Q1 Q, Permutation L (L1 ++ F) -> hoare L1 m Q1 ->
  (forall x L', Q1 x L' -> hoare (L' ++ F) (f x) Q) -> hoare L (bnd m f) Q.
Proof.
  intros A B m f L L1 F Q1 Q P H1 H2 h R I. destruct (H1 h (F ++ R)) as (h' & x & L' & E & Q' & I').
  { eapply in_use_perm; [|exact I]. rewrite P. rewrite <- app_assoc. reflexivity. }
  destruct (H2 x L' Q' h' R) as (h2 & y & L2 & E2 & Q2 & I2); [rewrite <- app_assoc; assumption|].
  exists h2, y, L2. unfold bnd. rewrite E. auto.
Qed.
Lemma hoare_load : forall a b, hoare [(a, b)] (load a) (fun x L => x = b /\ L = [(a, b)]).
Proof.
  intros a b h R [N P]. exists h, b, [(a, b)]. split; [|split; [auto|split; assumption]]. unfold load. rewrite (get_in h a b); [reflexivity|assumption|].
  rewrite P. left. reflexivity.
Qed.
Lemma hoare_store : forall a b b', hoare [(a, b)] (store a b') (fun _ L => L = [(a, b')]).
Proof.
  intros a b b' h R [N P]. assert (G : get h a = Some b) by (apply get_in; [assumption|rewrite P; left; reflexivity]).
  assert (D : Permutation (del h a) R). { apply Permutation_cons_inv with (a := (a, b)). rewrite <- (del_perm h a b G). exact P. }
  exists (put h a b'), tt, [(a, b')]. split; [unfold store; rewrite G; reflexivity|]. split; [reflexivity|].
  assert (PP : Permutation (put h a b') ((a, b') :: R)) by (rewrite (put_perm h a b b' G), D; reflexivity). split; [|exact PP].
  unfold keys in *. eapply Permutation_NoDup; [apply Permutation_map; symmetry; exact PP|]. apply (Permutation_map fst) in P. apply (Permutation_NoDup P) in N. exact N.
Qed.
Lemma hoare_free : forall a b, a <> 0 -> hoare [(a, b)] (free a) (fun _ L => L = []).
Proof.
  intros a b NZ h R [N P]. assert (G : get h a = Some b) by (apply get_in; [assumption|rewrite P; left; reflexivity]).
  assert (D : Permutation (del h a) R). { apply Permutation_cons_inv with (a := (a, b)). rewrite <- (del_perm h a b G). exact P. }
  exists (del h a), tt, []. unfold free. apply Z.eqb_neq in NZ. rewrite NZ, G. split; [reflexivity|]. split; [reflexivity|]. split; [|exact D].
  eapply Permutation_NoDup; [apply Permutation_map; symmetry; exact D|]. apply (Permutation_map fst) in P. apply (Permutation_NoDup P) in N. inversion N. assumption.
Qed.

(** Copies: the new blocks beside the old ones. *)
Definition made {A} (P : A -> heap -> Prop) (L : heap) : A -> heap -> Prop := fun x L' => exists Lx, P x Lx /\ Permutation L' (Lx ++ L).
Definition gone {A} (P : A -> Prop) : A -> heap -> Prop := fun x L' => L' = [] /\ P x.
Lemma seq_made : forall A B (m : M A) (f : A -> M B) L L1 F P Q, Permutation L (L1 ++ F) -> hoare L1 m (made P L1) ->
  (forall x Lx, P x Lx -> hoare (Lx ++ L1 ++ F) (f x) Q) -> hoare L (bnd m f) Q.
Proof.
  intros A B m f L L1 F P Q PL H1 H2. eapply hoare_seq; [exact PL|exact H1|]. intros x L' (Lx & Px & E).
  eapply hoare_perm; [|apply H2, Px]. rewrite E. rewrite <- app_assoc. reflexivity.
Qed.
Lemma seq_gone : forall A B (m : M A) (f : A -> M B) L L1 F P Q, Permutation L (L1 ++ F) -> hoare L1 m (gone P) ->
  (forall x, P x -> hoare F (f x) Q) -> hoare L (bnd m f) Q.
Proof. intros A B m f L L1 F P Q PL H1 H2. eapply hoare_seq; [exact PL|exact H1|]. intros x L' [-> Px]. apply H2, Px. Qed.
Lemma seq_ret : forall A B (x : A) (f : A -> M B) L Q, hoare L (f x) Q -> hoare L (bnd (ret x) f) Q.
Proof. intros A B x f L Q H. exact H. Qed.

Lemma pull_here : forall A F : heap, Permutation (A ++ F) (A ++ F).
Proof. reflexivity. Qed.
Lemma pull_end : forall A : heap, Permutation A (A ++ []).
Proof. intros. rewrite app_nil_r. reflexivity. Qed.
Lemma pull_skip : forall x l A F : heap, Permutation l (A ++ F) -> Permutation (x ++ l) (A ++ x ++ F).
Proof. intros x l A F H. rewrite H. perm. Qed.
Lemma pull_in : forall x l A F G : heap, Permutation (x ++ l) (A ++ F) -> Permutation ((x ++ l) ++ G) (A ++ F ++ G).
Proof. intros x l A F G H. rewrite H. rewrite <- app_assoc. reflexivity. Qed.
Ltac pull := rewrite <- ?app_assoc; first [apply pull_here | apply pull_end | apply pull_skip; pull].

Section Logic.
Variable pick : heap -> addr.
Variable junk : Z.
Hypothesis FRESH : allocator pick.
Lemma hoare_malloc : forall b, hoare [] (malloc pick b) (fun a L => a <> 0 /\ L = [(a, b)]).
Proof.
  intros b h R [N P]. destruct (FRESH h) as [Z G]. exists ((pick h, b) :: h), (pick h), [(pick h, b)]. split; [reflexivity|]. split; [auto|].
  split; [|cbn [app]; constructor; exact P]. cbn. constructor; [apply get_none, G|exact N].
Qed.
Lemma seq_malloc : forall B b (f : addr -> M B) L Q, (forall a, a <> 0 -> hoare ([(a, b)] ++ L) (f a) Q) -> hoare L (bnd (malloc pick b) f) Q.
Proof. intros B b f L Q H. apply (hoare_seq _ _ _ _ L [] L _ _ (Permutation_refl _) (hoare_malloc b)). intros x L' [N ->]. apply H, N. Qed.
Lemma seq_load : forall B a b (f : block -> M B) L F Q, Permutation L ([(a, b)] ++ F) -> hoare L (f b) Q -> hoare L (bnd (load a) f) Q.
Proof.
  intros B a b f L F Q P H. apply (hoare_seq _ _ _ _ L _ F _ _ P (hoare_load a b)). intros x L' [-> ->]. eapply hoare_perm; [symmetry; exact P|exact H].
Qed.
Lemma seq_store : forall B a b b' (f : unit -> M B) L F Q, Permutation L ([(a, b)] ++ F) -> hoare ([(a, b')] ++ F) (f tt) Q -> hoare L (bnd (store a b') f) Q.
Proof. intros B a b b' f L F Q P H. apply (hoare_seq _ _ _ _ L _ F _ _ P (hoare_store a b b')). intros [] L' ->. exact H. Qed.
Lemma seq_free : forall B a b (f : unit -> M B) L F Q, a <> 0 -> Permutation L ([(a, b)] ++ F) -> hoare F (f tt) Q -> hoare L (bnd (free a) f) Q.
Proof. intros B a b f L F Q N P H. apply (hoare_seq _ _ _ _ L _ F _ _ P (hoare_free a b N)). intros [] L' ->. exact H. Qed.

(** ** Strings and arrays *)
Lemma text_destroy : forall a c L, owns_text a c L -> hoare L (string_destroy a) (gone (fun x => x = 0)).
Proof.
  intros a c L [(-> & -> & ->)|(t & N & -> & ->)]; unfold string_destroy.
  - apply hoare_ret. split; reflexivity.
  - rewrite (proj2 (Z.eqb_neq _ _) N). eapply seq_free; [exact N|pull|]. apply hoare_ret. split; reflexivity.
Qed.
Lemma hoare_assoc : forall A B C (m : M A) (f : A -> M B) (g : B -> M C) L Q, hoare L (bnd m (fun x => bnd (f x) g)) Q -> hoare L (bnd (bnd m f) g) Q.
Proof. intros A B C m f g L Q H h R I. destruct (H h R I) as (h' & x & L' & E & W). exists h', x, L'. split; [|exact W]. revert E. unfold bnd. destruct (m h) as [[h1 y]| |]; auto. Qed.
Lemma hoare_last : forall A (m : M A) L Q, hoare L (bnd m ret) Q -> hoare L m Q.
Proof. intros A m L Q H h R I. destruct (H h R I) as (h' & x & L' & E & W). exists h', x, L'. split; [|exact W]. revert E. unfold bnd, ret. destruct (m h) as [[h1 y]| |]; auto. Qed.
Lemma text_copy : forall a c L, owns_text a c L -> hoare L (string_copy pick 0 a) (made (fun x => owns_text x c) L).
Proof.
  intros a c L H. unfold string_copy, string_destroy. cbn [Z.eqb]. apply seq_ret. destruct H as [(-> & -> & ->)|(t & N & -> & ->)].
  - apply hoare_ret. exists []. split; [left; auto|reflexivity].
  - rewrite (proj2 (Z.eqb_neq _ _) N). unfold load_text. apply hoare_assoc. eapply seq_load; [pull|]. apply seq_ret. apply hoare_last. apply seq_malloc. intros x NX.
    apply hoare_ret. exists [(x, BText t)]. split; [right; exists t; auto|reflexivity].
Qed.
Lemma array_free : forall B a n c L (f : unit -> M B) L0 F Q, owns_nums a n c L -> Permutation L0 (L ++ F) -> hoare F (f tt) Q -> hoare L0 (bnd (free a) f) Q.
Proof.
  intros B a n c L f L0 F Q [(-> & -> & ->)|(l & N & _ & -> & ->)] P H.
  - eapply hoare_perm; [exact P|]. exact H.
  - eapply seq_free; [exact N|exact P|exact H].
Qed.
Lemma firstn_exact : forall A (l : list A) n, Z.of_nat (length l) = n -> firstn (Z.to_nat n) l = l.
Proof. intros A l n <-. rewrite Nat2Z.id. apply firstn_all. Qed.
(** The copy of an array. *)
Lemma seq_nums : forall B a l n x z (f : unit -> M B) L F Q, a <> 0 -> Z.of_nat (length l) = n -> Permutation L ([(a, BNums l)] ++ [(x, z)] ++ F) ->
  hoare ([(x, BNums l)] ++ [(a, BNums l)] ++ F) (f tt) Q -> hoare L (bnd (memcpy_nums x a n) f) Q.
Proof.
  intros B a l n x z f L F Q N E P H. unfold memcpy_nums. rewrite (proj2 (Z.eqb_neq _ _) N). unfold load_nums. apply hoare_assoc, hoare_assoc.
  eapply seq_load; [exact P|]. apply seq_ret. rewrite (proj2 (Z.ltb_ge _ _)) by lia. rewrite firstn_exact by assumption.
  apply (seq_store _ x z (BNums l) f L ([(a, BNums l)] ++ F) Q); [rewrite P; perm|exact H].
Qed.
Lemma seq_ints : forall B a l n x z (f : unit -> M B) L F Q, a <> 0 -> Z.of_nat (length l) = n -> Permutation L ([(a, BInts l)] ++ [(x, z)] ++ F) ->
  hoare ([(x, BInts l)] ++ [(a, BInts l)] ++ F) (f tt) Q -> hoare L (bnd (memcpy_ints x a n) f) Q.
Proof.
  intros B a l n x z f L F Q N E P H. unfold memcpy_ints. rewrite (proj2 (Z.eqb_neq _ _) N). unfold load_ints. apply hoare_assoc, hoare_assoc.
  eapply seq_load; [exact P|]. apply seq_ret. rewrite (proj2 (Z.ltb_ge _ _)) by lia. rewrite firstn_exact by assumption.
  apply (seq_store _ x z (BInts l) f L ([(a, BInts l)] ++ F) Q); [rewrite P; perm|exact H].
Qed.

(** ** What is proved of every type *)
Record kind {V} (owns : V -> holds) (blank : tree) (init : V) (destroy : V -> M V) (assign copy : V -> V -> M V) : Prop := {
  k_init : owns init blank [];
  k_destroy : forall v c L, owns v c L -> hoare L (destroy v) (gone (fun x => owns x blank []));
  k_assign : forall d s c L, owns d blank [] -> owns s c L -> hoare L (assign d s) (made (fun x => owns x c) L);
  k_blank : forall v L, owns v blank L -> L = [];
  k_copy : forall d s, copy d s = bnd (destroy d) (fun d => assign d s) }.
Lemma kind_copy : forall V (owns : V -> holds) blank init destroy assign copy, kind owns blank init destroy assign copy ->
  forall d s cd cs Ld Ls, owns d cd Ld -> owns s cs Ls -> hoare (Ld ++ Ls) (copy d s) (made (fun x => owns x cs) Ls).
Proof.
  intros V owns blank init destroy assign copy K d s cd cs Ld Ls Od Os. rewrite (k_copy _ _ _ _ _ _ K). eapply seq_gone; [apply pull_here|eapply (k_destroy _ _ _ _ _ _ K); exact Od|].
  intros x Ox. apply (k_assign _ _ _ _ _ _ K); assumption.
Qed.
Lemma kind_new : forall V (owns : V -> holds) blank init destroy assign copy, kind owns blank init destroy assign copy ->
  forall d s cd cs Ls, owns d cd [] -> owns s cs Ls -> hoare Ls (copy d s) (made (fun x => owns x cs) Ls).
Proof. intros V owns blank init destroy assign copy K d s cd cs Ls Od Os. apply (kind_copy _ _ _ _ _ _ _ K d s cd cs [] Ls Od Os). Qed.
Lemma kind_managed : forall V (owns : V -> holds) blank init destroy assign copy, kind owns blank init destroy assign copy -> managed owns blank init destroy assign copy.
Proof.
  intros V owns blank init destroy assign copy K. split; [apply (k_init _ _ _ _ _ _ K)|]. split; [|split].
  - intros v c L R h O I. destruct (k_destroy _ _ _ _ _ _ K v c L O h R I) as (h' & x & L' & E & [-> B] & I'). exists h', x. auto.
  - intros d s cd cs Ld Ls R h Od Os I. destruct (kind_copy _ _ _ _ _ _ _ K d s cd cs Ld Ls Od Os h R) as (h' & x & L' & E & (Lx & O & P) & I').
    { rewrite <- app_assoc. exact I. } exists h', x, Lx. split; [exact E|]. split; [exact O|]. eapply in_use_perm; [|exact I']. rewrite P, <- app_assoc. reflexivity.
  - intros v c L R h O I. destruct (k_destroy _ _ _ _ _ _ K v c L O h R I) as (h' & x & L' & E & [-> B] & I').
    destruct (k_assign _ _ _ _ _ _ K x x blank [] B B h' R I') as (h2 & y & L2 & E2 & (Ly & Oy & P) & I2). unfold bnd. rewrite E.
    exists h2, y. rewrite E2. split; [reflexivity|]. pose proof (k_blank _ _ _ _ _ _ K y Ly Oy) as Z. subst Ly. split; [exact Oy|].
    eapply in_use_perm; [|exact I2]. rewrite P. reflexivity.
Qed.

(** ** Fields *)
Fixpoint blanks (ps : list holds) (cs : list tree) : Prop :=
  match ps, cs with [], [] => True | p :: ps, c :: cs => p c [] /\ blanks ps cs | _, _ => False end.
Lemma struct_blank : forall ps cs, struct ps (TRec cs) [] -> blanks ps cs.
Proof.
  intros ps cs (cs' & E & H). injection E as <-. revert cs H. induction ps as [|p ps IH]; intros [|c cs] H; cbn in *; auto.
  destruct H as (L1 & L2 & E & H1 & H2). symmetry in E. apply app_eq_nil in E. destruct E as [-> ->]. auto.
Qed.
Lemma blank_struct : forall ps cs, blanks ps cs -> struct ps (TRec cs) [].
Proof.
  intros ps cs H. exists cs. split; [reflexivity|]. revert cs H. induction ps as [|p ps IH]; intros [|c cs] H; cbn in *; auto; try contradiction.
  exists [], []. destruct H. auto.
Qed.
(** Nothing is owned by blank fields. *)
Fixpoint empties (ps : list holds) (cs : list tree) : Prop :=
  match ps, cs with [], [] => True | p :: ps, c :: cs => (forall L, p c L -> L = []) /\ empties ps cs | _, _ => True end.
Lemma struct_empty : forall ps cs L, empties ps cs -> struct ps (TRec cs) L -> L = [].
Proof.
  intros ps cs L B (cs' & E & H). injection E as <-. revert cs L B H. induction ps as [|p ps IH]; intros [|c cs] L B H; cbn in *; auto; try contradiction.
  destruct H as (L1 & L2 & -> & H1 & H2), B as [B1 B2]. rewrite (B1 _ H1), (IH _ _ B2 H2). reflexivity.
Qed.
Lemma num_empty : forall q c L, num q c L -> L = [].
Proof. intros q c L [_ H]. exact H. Qed.
Lemma int_empty : forall q c L, int q c L -> L = [].
Proof. intros q c L [_ H]. exact H. Qed.
Lemma text_empty : forall a L, owns_text a TNull L -> L = [].
Proof. intros a L [(_ & _ & ->)|(t & _ & E & _)]; [reflexivity|discriminate]. Qed.
Lemma text_blank : owns_text 0 TNull [].
Proof. left. auto. Qed.
Lemma text_null : forall a, owns_text a TNull [] -> a = 0.
Proof. intros a [(-> & _)|(t & _ & E & _)]; [reflexivity|discriminate]. Qed.
Lemma text_new : forall d s c L, owns_text d TNull [] -> owns_text s c L -> hoare L (string_copy pick d s) (made (fun x => owns_text x c) L).
Proof. intros d s c L D S. rewrite (text_null d D). apply text_copy, S. Qed.

(** ** Lists *)
Section Chains.
Context {V : Type} (inj : lnode V -> block) (prj : block -> option (lnode V)) (owns : V -> holds) (blank : tree).
Variables (init : V) (destroy : V -> M V) (assign copy : V -> V -> M V).
Hypothesis PI : forall n, prj (inj n) = Some n.
Hypothesis K : kind owns blank init destroy assign copy.
Lemma seq_node : forall B a n (f : lnode V -> M B) L F Q, Permutation L ([(a, inj n)] ++ F) -> hoare L (f n) Q -> hoare L (bnd (load_node prj a) f) Q.
Proof. intros B a n f L F Q P H. unfold load_node. apply hoare_assoc. eapply seq_load; [exact P|]. rewrite PI. apply seq_ret, H. Qed.
Lemma chain_length : forall cs prev p last next L, chain inj owns prev p cs last next L -> (length cs <= length L)%nat.
Proof.
  induction cs as [|c cs IH]; intros prev p last next L H; cbn [length]; [lia|]. destruct H as (v & n & Lv & Lr & _ & _ & -> & H). apply IH in H.
  cbn [length]. rewrite app_length. lia.
Qed.
Lemma chain_destroy : forall cs fuel prev p last L, (length cs < fuel)%nat -> chain inj owns prev p cs last 0 L ->
  hoare L (list_destroy_f prj destroy fuel p) (gone (fun _ => True)).
Proof.
  induction cs as [|c cs IH]; intros [|fuel] prev p last L F H; cbn [length] in F; try lia; cbn [list_destroy_f].
  - destruct H as (-> & _ & ->). cbn. apply hoare_ret. split; auto.
  - destruct H as (v & n & Lv & Lr & N & O & -> & H). rewrite (proj2 (Z.eqb_neq _ _) N).
    apply (seq_node _ p (mkLnode v prev n) _ _ (Lv ++ Lr)); [reflexivity|]. cbn [ln_data ln_next].
    eapply (seq_gone _ _ _ _ _ Lv ((p, inj (mkLnode v prev n)) :: Lr)); [perm|eapply (k_destroy _ _ _ _ _ _ K), O|]. intros x _.
    apply (seq_free _ p (inj (mkLnode v prev n)) _ _ Lr _ N); [reflexivity|]. apply (IH fuel p n last); [lia|exact H].
Qed.
Lemma list_destroys : forall l c L, owns_list inj owns l c L -> hoare L (list_destroy prj destroy l) (gone (fun x => owns_list inj owns x (TRec []) [])).
Proof.
  intros l c L (cs & -> & S & C) h R I. unfold list_destroy.
  assert (F : (length cs < Datatypes.S (length h))%nat). { destruct I as [_ P]. apply Permutation_length in P. rewrite app_length in P. apply chain_length in C. lia. }
  apply (seq_gone _ _ (list_destroy_f prj destroy (Datatypes.S (length h)) (ls_first l)) (fun _ => ret list_init) L L [] (fun _ => True)); [apply pull_end| | |exact I].
  - eapply chain_destroy; [exact F|exact C].
  - intros _ _. apply hoare_ret. split; [reflexivity|]. exists []. cbn. auto.
Qed.
Lemma chain_app : forall c1 c2 prev p q r L1 L2 last next, chain inj owns prev p c1 q r L1 -> chain inj owns q r c2 last next L2 ->
  chain inj owns prev p (c1 ++ c2) last next (L1 ++ L2).
Proof.
  induction c1 as [|c c1 IH]; intros c2 prev p q r L1 L2 last next H1 H2; cbn [app].
  - destruct H1 as (-> & -> & ->). exact H2.
  - destruct H1 as (v & n & Lv & Lr & N & O & -> & H). exists v, n, Lv, (Lr ++ L2). split; [exact N|]. split; [exact O|]. split; [cbn; rewrite app_assoc; reflexivity|].
    eapply IH; eassumption.
Qed.
Lemma chain_end : forall cs prev p last next L, cs <> [] -> chain inj owns prev p cs last next L ->
  last <> 0 /\ exists v pv F, Permutation L ((last, inj (mkLnode v pv next)) :: F) /\
  forall next', exists L', chain inj owns prev p cs last next' L' /\ Permutation L' ((last, inj (mkLnode v pv next')) :: F).
Proof.
  induction cs as [|c cs IH]; intros prev p last next L NE H; [congruence|]. destruct H as (v & n & Lv & Lr & N & O & -> & H). destruct cs as [|c' cs].
  - destruct H as (-> & -> & ->). split; [exact N|]. exists v, prev, Lv. rewrite app_nil_r. split; [reflexivity|]. intros next'.
    exists ((p, inj (mkLnode v prev next')) :: Lv). split; [|reflexivity]. exists v, next', Lv, []. rewrite app_nil_r. cbn. auto 10.
  - destruct (IH p n last next Lr) as (NL & v' & pv & F & P & W); [discriminate|exact H|]. split; [exact NL|].
    exists v', pv, ((p, inj (mkLnode v prev n)) :: Lv ++ F). split; [rewrite P; perm|]. intros next'. destruct (W next') as (L' & C' & P').
    exists ((p, inj (mkLnode v prev n)) :: Lv ++ L'). split; [exists v, n, Lv, L'; auto|rewrite P'; perm].
Qed.
Lemma u32_succ : forall n, u32 (u32 n + 1) = u32 (n + 1).
Proof. intros n. unfold u32. rewrite Zplus_mod_idemp_l. reflexivity. Qed.
Lemma list_inserts : forall l cs L data c Ld, owns_list inj owns l (TRec cs) L -> owns data c Ld ->
  hoare (L ++ Ld) (list_insert_end pick inj prj init copy l data) (fun x L' => exists Lx, owns_list inj owns x (TRec (cs ++ [c])) Lx /\ Permutation L' (Lx ++ Ld)).
Proof.
  intros l cs L data c Ld (cs' & E & S & C) O. injection E as <-. unfold list_insert_end. apply seq_malloc. intros new NN.
  eapply (seq_made _ _ _ _ _ Ld ([(new, inj (mkLnode init 0 0))] ++ L)); [perm|eapply (kind_new _ _ _ _ _ _ _ K); [apply (k_init _ _ _ _ _ _ K)|exact O]|].
  intros v Lv Ov. destruct cs as [|c0 cs0].
  - cbn [chain] in C. destruct C as (F & T & ->). rewrite F, T. cbn [Z.eqb andb].
    apply (seq_store _ new (inj (mkLnode init 0 0)) _ _ _ (Lv ++ Ld)); [perm|]. apply hoare_ret. exists ([(new, inj (mkLnode v 0 0))] ++ Lv). split; [|perm].
    exists [c]. split; [reflexivity|]. cbn [ls_size ls_first ls_last]. split; [rewrite S; reflexivity|]. exists v, 0, Lv, []. rewrite app_nil_r. cbn. auto 10.
  - set (cs := c0 :: cs0) in *. destruct (chain_end cs 0 (ls_first l) (ls_last l) 0 L) as (NL & vl & pv & F & P & W); [discriminate|exact C|].
    assert (NF : ls_first l <> 0) by (destruct C as (? & ? & ? & ? & N & _); exact N).
    rewrite (proj2 (Z.eqb_neq _ _) NF). cbn [andb].
    apply (seq_store _ new (inj (mkLnode init 0 0)) _ _ _ (Lv ++ Ld ++ L)); [perm|].
    apply (seq_node _ (ls_last l) (mkLnode vl pv 0) _ _ ([(new, inj (mkLnode v (ls_last l) 0))] ++ Lv ++ Ld ++ F)); [rewrite P; perm|]. cbn [ln_data ln_prev].
    apply (seq_store _ (ls_last l) (inj (mkLnode vl pv 0)) _ _ _ ([(new, inj (mkLnode v (ls_last l) 0))] ++ Lv ++ Ld ++ F)); [rewrite P; perm|].
    destruct (W new) as (L' & C' & P'). apply hoare_ret. exists (L' ++ [(new, inj (mkLnode v (ls_last l) 0))] ++ Lv). split; [|rewrite P'; perm].
    exists (cs ++ [c]). split; [reflexivity|]. cbn [ls_size ls_first ls_last]. split.
    { rewrite S, u32_succ, app_length. cbn [length]. f_equal. lia. }
    eapply chain_app; [exact C'|]. exists v, 0, Lv, []. rewrite app_nil_r. cbn. auto 10.
Qed.
Lemma list_prepends : forall l cs L data c Ld, owns_list inj owns l (TRec cs) L -> owns data c Ld ->
  hoare (L ++ Ld) (list_insert_begin pick inj prj init copy l data) (fun x L' => exists Lx, owns_list inj owns x (TRec (c :: cs)) Lx /\ Permutation L' (Lx ++ Ld)).
Proof.
  intros l cs L data c Ld (cs' & E & S & C) O. injection E as <-. unfold list_insert_begin. apply seq_malloc. intros new NN.
  eapply (seq_made _ _ _ _ _ Ld ([(new, inj (mkLnode init 0 0))] ++ L)); [perm|eapply (kind_new _ _ _ _ _ _ _ K); [apply (k_init _ _ _ _ _ _ K)|exact O]|].
  intros v Lv Ov. destruct cs as [|c0 cs0].
  - cbn [chain] in C. destruct C as (F & T & ->). rewrite F, T. cbn [Z.eqb andb].
    apply (seq_store _ new (inj (mkLnode init 0 0)) _ _ _ (Lv ++ Ld)); [perm|]. apply hoare_ret. exists ([(new, inj (mkLnode v 0 0))] ++ Lv). split; [|perm].
    exists [c]. split; [reflexivity|]. cbn [ls_size ls_first ls_last]. split; [rewrite S; reflexivity|]. exists v, 0, Lv, []. rewrite app_nil_r. cbn. auto 10.
  - destruct (chain_end (c0 :: cs0) 0 (ls_first l) (ls_last l) 0 L) as (NL & _); [discriminate|exact C|].
    destruct C as (w & n & Lw & Lr & NF & Ow & -> & C).
    rewrite (proj2 (Z.eqb_neq _ _) NF), (proj2 (Z.eqb_neq _ _) NL). cbn [andb orb].
    apply (seq_store _ new (inj (mkLnode init 0 0)) _ _ _ (Lv ++ Ld ++ (ls_first l, inj (mkLnode w 0 n)) :: Lw ++ Lr)); [perm|].
    apply (seq_node _ (ls_first l) (mkLnode w 0 n) _ _ ([(new, inj (mkLnode v 0 (ls_first l)))] ++ Lv ++ Ld ++ Lw ++ Lr)); [perm|]. cbn [ln_data ln_next].
    apply (seq_store _ (ls_first l) (inj (mkLnode w 0 n)) _ _ _ ([(new, inj (mkLnode v 0 (ls_first l)))] ++ Lv ++ Ld ++ Lw ++ Lr)); [perm|].
    apply hoare_ret. exists ((new, inj (mkLnode v 0 (ls_first l))) :: Lv ++ (ls_first l, inj (mkLnode w new n)) :: Lw ++ Lr). split; [|perm].
    exists (c :: c0 :: cs0). split; [reflexivity|]. cbn [ls_size ls_first ls_last]. split.
    { rewrite S, u32_succ. f_equal. cbn [length]. lia. }
    exists v, (ls_first l), Lv, ((ls_first l, inj (mkLnode w new n)) :: Lw ++ Lr). split; [exact NN|]. split; [exact Ov|]. split; [reflexivity|].
    exists w, n, Lw, Lr. auto.
Qed.
Lemma list_merges : forall l1 l2 c1 c2 L1 L2, owns_list inj owns l1 (TRec c1) L1 -> owns_list inj owns l2 (TRec c2) L2 ->
  hoare (L1 ++ L2) (list_merge inj prj l1 l2) (fun x L => exists L', owns_list inj owns (fst x) (TRec (c1 ++ c2)) L' /\ owns_list inj owns (snd x) (TRec []) [] /\ Permutation L L').
Proof.
  intros l1 l2 c1 c2 L1 L2 (x1 & E1 & S1 & C1) (x2 & E2 & S2 & C2). injection E1 as <-. injection E2 as <-. unfold list_merge.
  assert (B : owns_list inj owns list_init (TRec []) []) by (exists []; cbn; auto).
  destruct c1 as [|a c1].
  - destruct C1 as (F & T & ->). rewrite F. cbn [Z.eqb]. apply hoare_ret. exists L2. cbn [fst snd app]. split; [|split; [exact B|reflexivity]]. exists c2. auto.
  - assert (NF : ls_first l1 <> 0) by (destruct C1 as (? & ? & ? & ? & N & _); exact N). rewrite (proj2 (Z.eqb_neq _ _) NF). destruct c2 as [|b c2].
    + destruct C2 as (F & T & ->). rewrite F. cbn [Z.eqb]. apply hoare_ret. exists L1. cbn [fst snd]. rewrite !app_nil_r. split; [exists (a :: c1); auto|]. split; [|reflexivity].
      exists []. cbn [length]. split; [reflexivity|]. split; [exact S2|]. cbn. auto.
    + destruct (chain_end (a :: c1) 0 (ls_first l1) (ls_last l1) 0 L1) as (NL & vl & pv & F & P & W); [discriminate|exact C1|].
      destruct C2 as (w & n & Lw & Lr & N2 & Ow & -> & C2). rewrite (proj2 (Z.eqb_neq _ _) N2). destruct (W (ls_first l2)) as (L' & C' & P').
      apply (seq_node _ (ls_last l1) (mkLnode vl pv 0) _ _ (F ++ (ls_first l2, inj (mkLnode w 0 n)) :: Lw ++ Lr)); [rewrite P; perm|]. cbn [ln_data ln_prev].
      apply (seq_store _ (ls_last l1) (inj (mkLnode vl pv 0)) _ _ _ (F ++ (ls_first l2, inj (mkLnode w 0 n)) :: Lw ++ Lr)); [rewrite P; perm|].
      apply (seq_node _ (ls_first l2) (mkLnode w 0 n) _ _ ([(ls_last l1, inj (mkLnode vl pv (ls_first l2)))] ++ F ++ Lw ++ Lr)); [perm|]. cbn [ln_data ln_next].
      apply (seq_store _ (ls_first l2) (inj (mkLnode w 0 n)) _ _ _ ([(ls_last l1, inj (mkLnode vl pv (ls_first l2)))] ++ F ++ Lw ++ Lr)); [perm|].
      apply hoare_ret. exists (L' ++ (ls_first l2, inj (mkLnode w (ls_last l1) n)) :: Lw ++ Lr). cbn [fst snd]. split; [|split; [exact B|rewrite P'; perm]].
      exists ((a :: c1) ++ b :: c2). split; [reflexivity|]. cbn [ls_size ls_first ls_last]. split.
      { rewrite S1, S2, app_length. unfold u32. rewrite <- Zplus_mod. f_equal. lia. }
      eapply chain_app; [exact C'|]. exists w, n, Lw, Lr. auto.
Qed.
Lemma list_assigns_f : forall cs2 fuel prev p last Ls dst cs1 Ld, (length cs2 < fuel)%nat -> chain inj owns prev p cs2 last 0 Ls -> owns_list inj owns dst (TRec cs1) Ld ->
  hoare (Ld ++ Ls) (list_assign_f pick inj prj init copy fuel dst p) (fun x L' => exists Lx, owns_list inj owns x (TRec (cs1 ++ cs2)) Lx /\ Permutation L' (Lx ++ Ls)).
Proof.
  induction cs2 as [|c cs2 IH]; intros [|fuel] prev p last Ls dst cs1 Ld F C O; cbn [length] in F; try lia; cbn [list_assign_f].
  - destruct C as (-> & _ & ->). cbn. apply hoare_ret. exists Ld. rewrite app_nil_r. split; [exact O|reflexivity].
  - destruct C as (v & n & Lv & Lr & N & Ov & -> & C). rewrite (proj2 (Z.eqb_neq _ _) N).
    apply (seq_node _ p (mkLnode v prev n) _ _ (Ld ++ Lv ++ Lr)); [perm|]. cbn [ln_data ln_next].
    eapply (hoare_seq _ _ _ _ _ (Ld ++ Lv) ([(p, inj (mkLnode v prev n))] ++ Lr)); [perm|apply list_inserts; eassumption|]. cbn beta.
    intros x L' (Lx & Ox & P). eapply (hoare_perm _ _ _ ((Lx ++ Lr) ++ Lv ++ [(p, inj (mkLnode v prev n))])); [rewrite P; perm|].
    apply hoare_last. eapply (hoare_seq _ _ _ _ _ (Lx ++ Lr) (Lv ++ [(p, inj (mkLnode v prev n))])); [reflexivity| |].
    { eapply IH; [|exact C|exact Ox]. lia. }
    cbn beta. intros y L2 (Ly & Oy & P2). apply hoare_ret. exists Ly. rewrite <- app_assoc in Oy. split; [exact Oy|]. rewrite P2. perm.
Qed.
Lemma kind_list : kind (owns_list inj owns) (TRec []) list_init (list_destroy prj destroy) (list_assign pick inj prj init copy) (list_copy pick inj prj init copy destroy).
Proof.
  constructor.
  - exists []. cbn. auto.
  - exact list_destroys.
  - intros d s c L D S h R I. destruct S as (cs & -> & S & C). unfold list_assign.
    assert (F : (length cs < Datatypes.S (length h))%nat). { destruct I as [_ P]. apply Permutation_length in P. rewrite app_length in P. apply chain_length in C. lia. }
    exact (list_assigns_f cs (Datatypes.S (length h)) 0 (ls_first s) (ls_last s) L d [] [] F C D h R I).
  - intros v L (cs & E & _ & C). injection E as <-. apply C.
  - reflexivity.
Qed.
End Chains.

(** ** Structures in blocks *)
Section Boxed.
Context {V : Type} (inj : V -> block) (prj : block -> option V) (owns : V -> holds) (blank : tree).
Variables (init : V) (destroy : V -> M V) (assign copy : V -> V -> M V).
Hypothesis PI : forall n, prj (inj n) = Some n.
Hypothesis K : kind owns blank init destroy assign copy.
Lemma seq_box : forall B a n (f : V -> M B) L F Q, Permutation L ([(a, inj n)] ++ F) -> hoare L (f n) Q -> hoare L (bnd (load_box prj a) f) Q.
Proof. intros B a n f L F Q P H. unfold load_box. apply hoare_assoc. eapply seq_load; [exact P|]. rewrite PI. apply seq_ret, H. Qed.
Lemma box_clones : forall p c L, owns_box inj owns p c L -> hoare L (box_clone pick inj prj init copy p) (made (fun x => owns_box inj owns x c) L).
Proof.
  intros p c L [(-> & -> & ->)|(v & L' & N & O & ->)]; unfold box_clone.
  - apply hoare_ret. exists []. split; [left; auto|reflexivity].
  - rewrite (proj2 (Z.eqb_neq _ _) N). apply seq_malloc. intros a NA. apply (seq_box _ p v _ _ ([(a, inj init)] ++ L')); [perm|].
    eapply (seq_made _ _ _ _ _ L' ([(a, inj init)] ++ [(p, inj v)])); [perm|eapply (kind_new _ _ _ _ _ _ _ K); [apply (k_init _ _ _ _ _ _ K)|exact O]|].
    intros x Lx Ox. apply (seq_store _ a (inj init) _ _ _ (Lx ++ L' ++ [(p, inj v)])); [perm|]. apply hoare_ret. exists ((a, inj x) :: Lx). split; [|perm].
    right. exists x, Lx. auto.
Qed.
Lemma box_frees : forall p c L, owns_box inj owns p c L -> hoare L (box_free prj destroy p) (gone (fun _ => True)).
Proof.
  intros p c L [(-> & -> & ->)|(v & L' & N & O & ->)]; unfold box_free.
  - apply hoare_ret. split; auto.
  - rewrite (proj2 (Z.eqb_neq _ _) N). apply (seq_box _ p v _ _ L'); [perm|].
    eapply (seq_gone _ _ _ _ _ L' [(p, inj v)]); [perm|eapply (k_destroy _ _ _ _ _ _ K), O|]. intros x _.
    eapply hoare_post; [|apply (hoare_free _ (inj v) N)]. intros y L2 ->. split; auto.
Qed.
Lemma box_empty : (forall v L, ~ owns v TNull L) -> forall a L, owns_box inj owns a TNull L -> L = [].
Proof. intros NN a L [(_ & _ & ->)|(v & L' & _ & O & _)]; [reflexivity|]. destruct (NN _ _ O). Qed.
End Boxed.
End Logic.
