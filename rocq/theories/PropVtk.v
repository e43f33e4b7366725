(** * C68: the three-dimensional thermal maps of the non-uniform grid *)
From Coq Require Import ZArith List Bool QArith Qabs String Ascii Lia ZifyBool.
From Verif Require Import Base Dims Floorplan Stack StackSpec PowerGrid Emulate EmulateSpec Conduct Matrix MatrixSpec BalanceSpec Inspect NonUniform NuSpec NuMatrix NuMatrixSpec NuSource NuSourceSpec NuEmulate NuRunSpec NuRunProofs PropNuMatrix PropNuRun SimWitness MatrixWitness PropMatrix NuMini Vtk VtkSpec VtkProofs.
Import ListNotations.
Local Open Scope string_scope.
Local Open Scope Z_scope.

(** ** One call *)

(** The file is a VTK file, and a reader finds in it the box, the temperature and
    the label of every cell. *)
Theorem C68_file : forall openable cells temps t l file i name k,
  9 * Z.of_nat (Datatypes.length cells) < 2147483648 -> (Datatypes.length cells <= Datatypes.length temps)%nat ->
  vtk_name file t l i = Ok name -> openable name = true ->
  exists k', print_thermal_map_3D openable true (Z.of_nat (Datatypes.length cells)) cells temps t l file i k = Ok k' /\
    holds k' name cells temps /\ forall x, x <> name -> k' x = k x.
Proof.
  intros openable cells temps t l file i name k B L N O.
  destruct (vtk_text_shows cells temps B L) as [text [g [T [R S]]]].
  exists (write_file name text k). unfold print_thermal_map_3D. rewrite N. cbn [bind]. rewrite O, T. cbn [bind].
  split; [reflexivity|]. split.
  - exists text, g. split; [|easy]. unfold write_file. now rewrite String.eqb_refl.
  - intros x X. unfold write_file. now rewrite (proj2 (String.eqb_neq x name) X).
Qed.

(** The map number n of "stem.vtk" goes to "stemn.vtk", and a final map to the
    file given. *)
Theorem C68_name : forall stem t l i, no_dot stem = true -> (String.length stem <= 36)%nat -> 0 <= t -> 0 < l ->
  match i with
  | OI_FINAL => vtk_name (stem ++ ".vtk") t l i = Ok (stem ++ ".vtk")
  | _ => let n := match i with OI_SLOT => t / l | _ => t end in
         n < 1000000000 -> exists name, vtk_name (stem ++ ".vtk") t l i = Ok name /\ numbered stem n name
  end.
Proof.
  intros stem t l i D L T P.
  assert (G : i <> OI_FINAL -> let n := match i with OI_SLOT => t / l | _ => t end in
         n < 1000000000 -> exists name, vtk_name (stem ++ ".vtk") t l i = Ok name /\ numbered stem n name).
  { intros I n B. exists (stem ++ dec n ++ ".vtk"). split; [now apply name_fits|]. exists (dec n). split; [|reflexivity].
    apply dec_numeral. subst n. destruct i; try lia; apply Z.div_pos; lia. }
  destruct i; try (apply G; discriminate).
  unfold vtk_name, in_array. rewrite length_app. change (String.length ".vtk") with 4%nat.
  now replace (String.length stem + 4 <? 50)%nat with true by (symmetry; apply Nat.ltb_lt; lia).
Qed.

(** On the uniform grid nothing is written. *)
Theorem C68_uniform_nothing : forall openable n cells temps t l file i k, print_thermal_map_3D openable false n cells temps t l file i k = Ok k.
Proof. reflexivity. Qed.

(** ** A simulation *)
Section Run.
  Context {PS : Type}.
  Variable solve : sysmatrix -> list Q -> error_t * list Q.
  Variable plugin : PS -> list Q -> list Q -> bool * list Q * PS.
  Variable openable : string -> bool.
  Variable cells : list vcell.
  Notation ncells := (Z.of_nat (Datatypes.length cells)).
  Variables (g : tgrid) (d : dims) (hs : list Q) (G : list nlayer) (cs : list conn) (qs : nat -> list (list Q)) (s0 : nsim PS).
  Hypothesis IP : in_place solve plugin.
  Hypothesis EX : exact solve.
  Hypothesis ST : nu_start g d hs G cs qs s0.
  Hypothesis CELLS : map v_cell cells = np_cells (n_pg s0).
  Hypothesis FEW : 9 * ncells < 2147483648.
  (** Some element has [p] values, and [p] slots are less than 2^32 steps. *)
  Variables (src : nat) (p : list Q).
  Hypothesis SRC : (src < Datatypes.length (tg_types g))%nat /\ is_source (type_of g (Z.of_nat src)) = true /\ In p (qs src).
  Notation L := (an_slot_length (n_an s0)).
  Hypothesis SHORT : Z.of_nat (Datatypes.length p) * L + 1 < two32.

  Lemma steps_bounded : forall m s, nu_steps solve plugin d m s0 s -> Z.of_nat m <= Z.of_nat (Datatypes.length p) * L.
  Proof.
    pose proof (st_slot _ _ _ _ _ _ _ ST) as SP.
    induction m as [|m IH]; intros s H; [lia|].
    inversion H as [|m' s1' r s1 s2 H1 E W]; subst.
    specialize (IH s1 H1).
    destruct (C59_ends solve plugin g d hs G cs qs s0 s1 m IP EX ST H1 ltac:(lia)) as [r' [s' [E' [_ I]]]].
    assert (r' = r) by congruence. subst r'.
    assert (N : ~ (Datatypes.length p <= m / Z.to_nat L)%nat).
    { intros X. destruct SRC as [S1 [S2 S3]]. assert (Y : r = TDICE_END_OF_SIMULATION).
      { apply I. exists src. split; [exact S1|]. split; [exact S2|]. apply Exists_exists. exists p. split; assumption. }
      destruct W; congruence. }
    pose proof (Nat.div_mod m (Z.to_nat L) ltac:(lia)) as D. pose proof (Nat.mod_upper_bound m (Z.to_nat L) ltac:(lia)) as D'.
    assert (X : (m / Z.to_nat L + 1 <= Datatypes.length p)%nat) by lia.
    assert (Y : (Z.to_nat L * (m / Z.to_nat L + 1) <= Z.to_nat L * Datatypes.length p)%nat) by (apply Nat.mul_le_mono_l; exact X).
    nia.
  Qed.
  Lemma steps_state : forall m s, nu_steps solve plugin d m s0 s ->
    an_time (n_an s) = Z.of_nat m /\ an_slot_length (n_an s) = L /\ (Datatypes.length cells <= Datatypes.length (n_temps s))%nat.
  Proof.
    intros m s H. pose proof (steps_bounded m s H) as B.
    pose proof (steps_running solve plugin IP EX g d hs G cs qs s0 ST m s H ltac:(lia)) as RN.
    pose proof (rn_an _ _ _ _ _ _ _ _ RN) as A. pose proof (rn_temps _ _ _ _ _ _ _ _ RN) as T.
    rewrite A. cbn [an_time an_slot_length]. split; [reflexivity|]. split; [reflexivity|].
    rewrite T, <- CELLS, map_length. lia.
  Qed.
  Lemma steps_det : forall m s s', nu_steps solve plugin d m s0 s -> nu_steps solve plugin d m s0 s' -> s = s'.
  Proof.
    induction m as [|m IH]; intros s s' H H'; inversion H; inversion H'; subst; [reflexivity|].
    match goal with A : nu_steps _ _ _ _ _ ?a, B : nu_steps _ _ _ _ _ ?b |- _ => assert (a = b) by (eapply IH; eassumption) end. subst. congruence.
  Qed.
  Lemma steps_before : forall m s, nu_steps solve plugin d m s0 s -> forall n, (n < m)%nat ->
    exists a r b, nu_steps solve plugin d n s0 a /\ nu_emulate_step solve plugin d a = Ok (r, b) /\ went_on r /\ nu_steps solve plugin d (S n) s0 b.
  Proof.
    induction m as [|m IH]; intros s H n N; [lia|]. inversion H as [|m' s1' r s1 s2 H1 E W]; subst.
    destruct (Nat.eq_dec n m) as [->|]; [exists s1, r, s; split; [exact H1 | split; [exact E | split; [exact W | exact H]]] | apply (IH s1 H1 n); lia].
  Qed.

  (** The number of the map due after step [n]. *)
  Definition due (i : output_instant) (n : nat) (j : Z) : Prop :=
    match i with
    | OI_STEP => j = Z.of_nat n
    | OI_SLOT => Z.of_nat n = j * L
    | _ => False
    end.

  Variables (file : string) (i : output_instant).
  Notation run := (t3d_loop solve plugin openable ncells cells [(file, i)]).
  Notation nm j := (cut_dot file ++ dec j ++ ".vtk").

  Lemma due_pos : forall n j, due i n j -> 0 <= j.
  Proof. clear IP EX CELLS FEW SRC SHORT. intros n j H. pose proof (st_slot _ _ _ _ _ _ _ ST). unfold due in H. destruct i; try contradiction; nia. Qed.

  (** What one turn of the loop writes. *)
  Lemma turn : forall n s r s1 k k2, nu_steps solve plugin d n s0 s -> nu_emulate_step solve plugin d s = Ok (r, s1) -> went_on r ->
    (do k1 <- (match r with TDICE_STEP_DONE | TDICE_SLOT_DONE => t3d_output openable ncells cells [(file, i)] OI_STEP s1 k | _ => Ok k end) ;
     match r with TDICE_SLOT_DONE => t3d_output openable ncells cells [(file, i)] OI_SLOT s1 k1 | _ => Ok k1 end) = Ok k2 ->
    ((forall j, ~ due i (S n) j) /\ k2 = k) \/
    (exists j, due i (S n) j /\ holds k2 (nm j) cells (n_temps s1) /\ forall x, x <> nm j -> k2 x = k x).
  Proof.
    intros n s r s1 k k2 H E W K. pose proof (st_slot _ _ _ _ _ _ _ ST) as SP.
    assert (H1 : nu_steps solve plugin d (S n) s0 s1) by (econstructor; eassumption).
    pose proof (steps_bounded _ _ H1) as BB.
    destruct (steps_state _ _ H1) as [T [TL LT]].
    assert (SD : r = TDICE_SLOT_DONE <-> (S n mod Z.to_nat L = 0)%nat).
    { pose proof (steps_running solve plugin IP EX g d hs G cs qs s0 ST n s H ltac:(lia)) as RN.
      exact (proj1 (proj2 (proj2 (proj2 (proj2 (step_full solve plugin IP EX g d hs G cs qs s0 ST n s r s1 RN ltac:(lia) E W)))))). }
    assert (PR : forall k k', print_thermal_map_3D openable true ncells cells (n_temps s1) (an_time (n_an s1)) (an_slot_length (n_an s1)) file i k = Ok k' -> i <> OI_FINAL ->
       exists j, j = match i with OI_SLOT => Z.of_nat (S n) / L | _ => Z.of_nat (S n) end /\ holds k' (nm j) cells (n_temps s1) /\ forall x, x <> nm j -> k' x = k x).
    { intros k0 k' P I. unfold print_thermal_map_3D in P.
      destruct (vtk_name file (an_time (n_an s1)) (an_slot_length (n_an s1)) i) as [name| |] eqn:V; try discriminate P. cbn [bind] in P.
      destruct (name_cut _ _ _ _ _ V I ltac:(lia)) as [j [J N]].
      destruct (openable name) eqn:O; [|discriminate P].
      destruct (C68_file openable cells (n_temps s1) (an_time (n_an s1)) (an_slot_length (n_an s1)) file i name k0 FEW LT V O) as [k'' [P'' [HO UN]]].
      unfold print_thermal_map_3D in P''. rewrite V in P''. cbn [bind] in P''. rewrite O, P in P''. assert (k' = k'') by congruence. subst k''.
      exists j. rewrite <- N. rewrite T, TL in J. split; [exact J|]. now split. }
    unfold t3d_output in K. cbn [fold_out snd fst] in K.
    destruct i eqn:I; unfold same_instant in K; cbn [bind] in K.
    all: try (left; split; [intros j []|]; destruct W as [W|W]; rewrite W in K; cbn [bind] in K; congruence).
    - (* slot *)
      destruct W as [W|W].
      + left. rewrite W in K. cbn [bind] in K. split; [|congruence]. intros j D. cbn [due] in D.
        assert (N : (S n mod Z.to_nat L <> 0)%nat) by (intros X; apply SD in X; congruence). apply N.
        assert (J0 : 0 <= j) by nia.
        replace (S n) with (Z.to_nat j * Z.to_nat L)%nat by nia. apply Nat.mod_mul. lia.
      + right. assert (M : (S n mod Z.to_nat L = 0)%nat) by (now apply SD). rewrite W in K. cbn [bind] in K.
        destruct (print_thermal_map_3D _ _ _ _ _ _ _ _ _ k) as [k3| |] eqn:P; try discriminate K. cbn [bind] in K.
        destruct (PR k k3 P ltac:(discriminate)) as [j [J X]]. exists j. assert (k2 = k3) by congruence. subst k3. split; [|exact X].
        cbn [due]. pose proof (Nat.div_mod (S n) (Z.to_nat L) ltac:(lia)) as D. rewrite M in D.
        rewrite J. rewrite <- (Z2Nat.id L) by lia. rewrite <- Nat2Z.inj_div. nia.
    - (* step *)
      right.
      assert (K' : print_thermal_map_3D openable true ncells cells (n_temps s1) (an_time (n_an s1)) (an_slot_length (n_an s1)) file OI_STEP k = Ok k2).
      { destruct (print_thermal_map_3D _ _ _ _ _ _ _ _ _ k) as [k3| |]; destruct W as [W|W]; rewrite W in K; cbn [bind] in K; congruence. }
      destruct (PR k k2 K' ltac:(discriminate)) as [j [J X]]. exists j. split; [exact J | exact X].
  Qed.

  Lemma loop_spec : forall fuel n s k s' k', nu_steps solve plugin d n s0 s -> run fuel d s k = Ok (s', k') ->
    (forall m s1 j, (n < m)%nat -> nu_steps solve plugin d m s0 s1 -> due i m j -> holds k' (nm j) cells (n_temps s1)) /\
    (forall x, (forall m s1 j, (n < m)%nat -> nu_steps solve plugin d m s0 s1 -> due i m j -> x <> nm j) -> k' x = k x) /\
    (exists N s1 r, nu_steps solve plugin d N s0 s1 /\ nu_emulate_step solve plugin d s1 = Ok (r, s') /\ ~ went_on r).
  Proof.
    induction fuel as [|fuel IH]; intros n s k s' k' H R; [discriminate R|].
    pose proof (steps_bounded n s H) as B. pose proof (st_slot _ _ _ _ _ _ _ ST) as SP.
    destruct (C59_ends solve plugin g d hs G cs qs s0 s n IP EX ST H ltac:(lia)) as [r [s1 [E [NW _]]]].
    cbn [t3d_loop] in R. rewrite E in R. cbn [bind] in R.
    assert (DEC : went_on r \/ (r = TDICE_END_OF_SIMULATION \/ r = TDICE_SOLVER_ERROR)).
    { unfold went_on. destruct r; try tauto; congruence. }
    destruct DEC as [W|STOP].
    - assert (H1 : nu_steps solve plugin d (S n) s0 s1) by (econstructor; eassumption).
      assert (R2 : exists k2, (do k1 <- (match r with TDICE_STEP_DONE | TDICE_SLOT_DONE => t3d_output openable ncells cells [(file, i)] OI_STEP s1 k | _ => Ok k end) ;
         match r with TDICE_SLOT_DONE => t3d_output openable ncells cells [(file, i)] OI_SLOT s1 k1 | _ => Ok k1 end) = Ok k2 /\ run fuel d s1 k2 = Ok (s', k')).
      { destruct (match r with TDICE_STEP_DONE | TDICE_SLOT_DONE => _ | _ => _ end) as [k1| |]; try discriminate R. cbn [bind] in *.
        destruct (match r with TDICE_SLOT_DONE => _ | _ => _ end) as [k2| |]; try discriminate R. cbn [bind] in *. exists k2. split; [reflexivity|].
        destruct W as [W|W]; rewrite W in R; exact R. }
      destruct R2 as [k2 [K R2]]. destruct (IH (S n) s1 k2 s' k' H1 R2) as [IA [IB IC]].
      destruct (turn n s r s1 k k2 H E W K) as [[NO ->]|[j [DJ [HO UN]]]].
      + split; [|split; [|exact IC]].
        * intros m sm jm M Hm D. destruct (Nat.eq_dec m (S n)) as [->|]; [exfalso; now apply (NO jm)|]. apply (IA m); [lia | assumption | assumption].
        * intros x X. apply IB. intros m sm jm M. apply X. lia.
      + assert (SEP : forall m sm jm, (S n < m)%nat -> nu_steps solve plugin d m s0 sm -> due i m jm -> nm j <> nm jm).
        { intros m sm jm M _ D X. apply name_inj in X; [|now apply (due_pos (S n))|now apply (due_pos m)]. subst jm.
          unfold due in D, DJ. destruct i; try contradiction; nia. }
        split; [|split; [|exact IC]].
        * intros m sm jm M Hm D. destruct (Nat.eq_dec m (S n)) as [->|]; [|apply (IA m); [lia | assumption | assumption]].
          assert (jm = j) by (unfold due in D, DJ; destruct i; try contradiction; nia). subst jm.
          rewrite (steps_det _ _ _ Hm H1). destruct HO as [text [v [A C]]]. exists text, v. rewrite (IB (nm j) SEP). now split.
        * intros x X. rewrite IB by (intros m sm jm M; apply X; lia). apply UN. exact (X (S n) s1 j ltac:(lia) H1 DJ).
    - assert (R' : s' = s1 /\ k' = k) by (destruct STOP as [W|W]; rewrite W in R; cbn [bind] in R; split; congruence). destruct R' as [-> ->].
      assert (NG : ~ went_on r) by (intros [W|W]; destruct STOP; congruence).
      split; [|split].
      + intros m sm jm M Hm _. exfalso. destruct (steps_before m sm Hm n M) as [a [r' [b [Ha [Eb [W _]]]]]].
        rewrite (steps_det _ _ _ Ha H) in Eb. assert (r' = r) by congruence. subst r'. contradiction.
      + intros x _. reflexivity.
      + exists n, s, r. now split.
  Qed.

  Lemma end_temps : forall s s1, nu_emulate_step solve plugin d s = Ok (TDICE_END_OF_SIMULATION, s1) -> n_temps s1 = n_temps s.
  Proof.
    intros s s1 E. unfold nu_emulate_step in E. destruct (an_type (n_an s)); try congruence.
    destruct (slot_completed (n_an s)) as [b| |]; try discriminate E. cbn [bind] in E.
    destruct (if b then _ else _) as [[e1 pg1]| |]; try discriminate E. cbn [bind] in E.
    destruct e1; [|injection E as <-; reflexivity].
    destruct (nu_pluggable plugin _) as [[e2 s2]| |]; try discriminate E. cbn [bind] in E. destruct e2; [|congruence].
    destruct (nu_rhs _ _ _) as [v| |]; try discriminate E. cbn [bind] in E. destruct (solve _ _) as [e3 x]. destruct e3; [|congruence].
    destruct (slot_completed _) as [b2| |]; try discriminate E. cbn [bind] in E. destruct b2; congruence.
  Qed.
End Run.

(** Numbered maps: after the whole simulation, the file number m of the point
    shows the temperatures after step m (or after slot m), for every step (slot)
    made; no other file has changed. *)
Theorem C68_run : forall {PS} solve plugin openable cells g d hs G cs qs (s0 : nsim PS) src p stem i fuel k s' k',
  in_place solve plugin -> exact solve -> nu_start g d hs G cs qs s0 ->
  map v_cell cells = np_cells (n_pg s0) -> 9 * Z.of_nat (Datatypes.length cells) < 2147483648 ->
  (src < Datatypes.length (tg_types g))%nat -> is_source (type_of g (Z.of_nat src)) = true -> In p (qs src) ->
  Z.of_nat (Datatypes.length p) * an_slot_length (n_an s0) + 1 < two32 ->
  no_dot stem = true -> i = OI_STEP \/ i = OI_SLOT ->
  t3d_run solve plugin openable (Z.of_nat (Datatypes.length cells)) cells [(stem ++ ".vtk", i)] fuel d s0 k = Ok (s', k') ->
  let number (m : nat) (j : Z) := match i with OI_SLOT => Z.of_nat m = j * an_slot_length (n_an s0) | _ => j = Z.of_nat m end in
  (forall m s j, (0 < m)%nat -> nu_steps solve plugin d m s0 s -> number m j ->
     exists name, numbered stem j name /\ holds k' name cells (n_temps s)) /\
  (forall x, (forall m s j, (0 < m)%nat -> nu_steps solve plugin d m s0 s -> number m j -> ~ numbered stem j x) -> k' x = k x).
Proof.
  intros PS solve plugin openable cells g d hs G cs qs s0 src p stem i fuel k s' k' IP EX ST CELLS FEW S1 S2 S3 SHORT D I R number.
  unfold t3d_run in R. destruct (t3d_loop _ _ _ _ _ _ _ _ _ _) as [[s1 k1]| |] eqn:LO; try discriminate R. cbn [bind] in R.
  assert (k' = k1) as ->.
  { unfold t3d_output in R. cbn [fold_out snd] in R. destruct I as [-> | ->]; cbn [same_instant bind] in R; congruence. }
  destruct (loop_spec solve plugin openable cells g d hs G cs qs s0 IP EX ST CELLS FEW src p (conj S1 (conj S2 S3)) SHORT (stem ++ ".vtk") i fuel 0 s0 k s1 k1 (NS_nil _ _ _ _) LO) as [A [B _]].
  assert (CD : cut_dot (stem ++ ".vtk") = stem) by (change (stem ++ ".vtk") with (stem ++ String "."%char "vtk"); now apply cut_dot_stem).
  rewrite CD in *.
  assert (DUE : forall m j, number m j <-> due s0 i m j) by (intros m j; destruct I as [-> | ->]; reflexivity).
  assert (NB : forall m j, number m j -> numbered stem j (stem ++ dec j ++ ".vtk")).
  { intros m j N. exists (dec j). split; [|reflexivity]. apply dec_numeral. apply DUE in N. eapply due_pos; eassumption. }
  split.
  - intros m s j M H N. exists (stem ++ dec j ++ ".vtk"). split; [now apply (NB m)|]. apply (A m s j M H). now apply DUE.
  - intros x X. apply B. intros m s j M H N ->. apply DUE in N. exact (X m s j M H N (NB m j N)).
Qed.

(** A final map: the file shows the temperatures at the end of the simulation. *)
Theorem C68_final : forall {PS} solve plugin openable cells g d hs G cs qs (s0 : nsim PS) src p file fuel k s' k',
  in_place solve plugin -> exact solve -> nu_start g d hs G cs qs s0 ->
  map v_cell cells = np_cells (n_pg s0) -> 9 * Z.of_nat (Datatypes.length cells) < 2147483648 ->
  (src < Datatypes.length (tg_types g))%nat -> is_source (type_of g (Z.of_nat src)) = true -> In p (qs src) ->
  Z.of_nat (Datatypes.length p) * an_slot_length (n_an s0) + 1 < two32 ->
  t3d_run solve plugin openable (Z.of_nat (Datatypes.length cells)) cells [(file, OI_FINAL)] fuel d s0 k = Ok (s', k') ->
  exists N s r, nu_steps solve plugin d N s0 s /\ nu_emulate_step solve plugin d s = Ok (r, s') /\ ~ went_on r /\
    (r = TDICE_END_OF_SIMULATION -> n_temps s' = n_temps s /\ holds k' file cells (n_temps s)) /\
    forall x, x <> file -> k' x = k x.
Proof.
  intros PS solve plugin openable cells g d hs G cs qs s0 src p file fuel k s' k' IP EX ST CELLS FEW S1 S2 S3 SHORT R.
  unfold t3d_run in R. destruct (t3d_loop _ _ _ _ _ _ _ _ _ _) as [[s1 k1]| |] eqn:LO; try discriminate R. cbn [bind] in R.
  destruct (loop_spec solve plugin openable cells g d hs G cs qs s0 IP EX ST CELLS FEW src p (conj S1 (conj S2 S3)) SHORT file OI_FINAL fuel 0 s0 k s1 k1 (NS_nil _ _ _ _) LO) as [_ [B [N [s [r [H [E NG]]]]]]].
  destruct (t3d_output _ _ _ _ _ _ _) as [k2| |] eqn:TO; try discriminate R. cbn [bind] in R. 
  assert (s1 = s' /\ k2 = k') as [-> ->] by (split; congruence).
  unfold t3d_output in TO. cbn [fold_out snd fst same_instant] in TO.
  destruct (print_thermal_map_3D _ _ _ _ _ _ _ _ _ _) as [k3| |] eqn:P in TO; try discriminate TO. cbn [bind] in TO. assert (k3 = k') as -> by congruence.
  assert (V : exists t, vtk_name file (an_time (n_an s')) (an_slot_length (n_an s')) OI_FINAL = Ok file /\ openable file = true /\ vtk_text (Z.of_nat (Datatypes.length cells)) cells (n_temps s') = Ok t /\ k' = write_file file t k1).
  { unfold print_thermal_map_3D, vtk_name, in_array in *. destruct (String.length file <? 50)%nat; [|discriminate P]. cbn [bind] in *.
    destruct (openable file); [|discriminate P]. destruct (vtk_text _ _ _) as [t| |]; try discriminate P. cbn [bind] in P. exists t. repeat (split; [reflexivity|]). congruence. }
  destruct V as [t [V [O [TX KW]]]].
  exists N, s, r. split; [exact H|]. split; [exact E|]. split; [exact NG|]. split.
  - intros ->. pose proof (end_temps solve plugin d s s' E) as TE. split; [exact TE|]. 
    destruct (steps_state solve plugin cells g d hs G cs qs s0 IP EX ST CELLS FEW src p (conj S1 (conj S2 S3)) SHORT N s H) as [_ [_ LT]]. rewrite <- TE in *.
    destruct (C68_file openable cells (n_temps s') (an_time (n_an s')) (an_slot_length (n_an s')) file OI_FINAL file k1 FEW LT V O) as [k4 [P4 [HO _]]].
    assert (k4 = k') as -> by congruence. exact HO.
  - intros x X. rewrite KW. unfold write_file. rewrite (proj2 (String.eqb_neq x file) X). apply B. intros m sm j _ _ [].
Qed.

(** Nothing undefined happens, and the simulation ends: with a path short enough
    and without dots, and fewer than 10^9 steps. *)
Theorem C68_defined : forall {PS} solve plugin openable cells g d hs G cs qs (s0 : nsim PS) src p stem i fuel k,
  in_place solve plugin -> exact solve -> nu_start g d hs G cs qs s0 ->
  map v_cell cells = np_cells (n_pg s0) -> 9 * Z.of_nat (Datatypes.length cells) < 2147483648 ->
  (src < Datatypes.length (tg_types g))%nat -> is_source (type_of g (Z.of_nat src)) = true -> In p (qs src) ->
  Z.of_nat (Datatypes.length p) * an_slot_length (n_an s0) < 1000000000 ->
  no_dot stem = true -> (String.length stem <= 36)%nat -> (forall x, openable x = true) -> i = OI_STEP \/ i = OI_SLOT ->
  (Datatypes.length p * Z.to_nat (an_slot_length (n_an s0)) < fuel)%nat ->
  exists s' k', t3d_run solve plugin openable (Z.of_nat (Datatypes.length cells)) cells [(stem ++ ".vtk", i)] fuel d s0 k = Ok (s', k').
Proof.
  intros PS solve plugin openable cells g d hs G cs qs s0 src p stem i fuel k IP EX ST CELLS FEW S1 S2 S3 SHORT D LEN OP I FU.
  pose proof (st_slot _ _ _ _ _ _ _ ST) as SP. set (L := an_slot_length (n_an s0)) in *.
  assert (SH : Z.of_nat (Datatypes.length p) * L + 1 < two32) by (unfold two32; lia).
  assert (OUT : forall n s j k, nu_steps solve plugin d n s0 s -> j <> OI_FINAL -> exists k', t3d_output openable (Z.of_nat (Datatypes.length cells)) cells [(stem ++ ".vtk", i)] j s k = Ok k').
  { intros n s j k0 H J. destruct (steps_state solve plugin cells g d hs G cs qs s0 IP EX ST CELLS FEW src p (conj S1 (conj S2 S3)) SH n s H) as [T [TL LT]].
    pose proof (steps_bounded solve plugin cells g d hs G cs qs s0 IP EX ST FEW src p (conj S1 (conj S2 S3)) SH n s H) as B. fold L in TL, B.
    unfold t3d_output. cbn [fold_out snd fst]. destruct (same_instant i j); [|eexists; reflexivity].
    assert (NA : vtk_name (stem ++ ".vtk") (an_time (n_an s)) (an_slot_length (n_an s)) i = Ok (stem ++ dec (match i with OI_SLOT => an_time (n_an s) / an_slot_length (n_an s) | _ => an_time (n_an s) end) ++ ".vtk")).
    { apply name_fits; try assumption; try lia; [destruct I; congruence|]. rewrite T, TL. destruct i; try lia.
      apply Z.div_lt_upper_bound; [lia|]. nia. }
    destruct (C68_file openable cells (n_temps s) _ _ _ _ _ k0 FEW LT NA (OP _)) as [k' [P _]]. rewrite P. eexists. reflexivity. }
  assert (LOOP : forall fuel n s k, nu_steps solve plugin d n s0 s -> (Datatypes.length p * Z.to_nat L < fuel + n)%nat ->
    exists s' k', t3d_loop solve plugin openable (Z.of_nat (Datatypes.length cells)) cells [(stem ++ ".vtk", i)] fuel d s k = Ok (s', k')).
  { clear FU fuel k. induction fuel as [|fuel IH]; intros n s k H F.
    - exfalso. pose proof (steps_bounded solve plugin cells g d hs G cs qs s0 IP EX ST FEW src p (conj S1 (conj S2 S3)) SH n s H) as B. fold L in B. nia.
    - pose proof (steps_bounded solve plugin cells g d hs G cs qs s0 IP EX ST FEW src p (conj S1 (conj S2 S3)) SH n s H) as B. fold L in B.
      destruct (C59_ends solve plugin g d hs G cs qs s0 s n IP EX ST H ltac:(lia)) as [r [s1 [E [NW _]]]].
      cbn [t3d_loop]. rewrite E. cbn [bind].
      destruct r; try congruence; try (cbn [bind]; eauto; fail).
      + assert (H1 : nu_steps solve plugin d (S n) s0 s1) by (econstructor; [eassumption | eassumption | now left]).
        destruct (OUT (S n) s1 OI_STEP k H1 ltac:(discriminate)) as [k1 ->]. cbn [bind]. apply (IH (S n)); [exact H1 | lia].
      + assert (H1 : nu_steps solve plugin d (S n) s0 s1) by (econstructor; [eassumption | eassumption | now right]).
        destruct (OUT (S n) s1 OI_STEP k H1 ltac:(discriminate)) as [k1 ->]. cbn [bind].
        destruct (OUT (S n) s1 OI_SLOT k1 H1 ltac:(discriminate)) as [k2 ->]. cbn [bind]. apply (IH (S n)); [exact H1 | lia]. }
  destruct (LOOP fuel 0%nat s0 k (NS_nil _ _ _ _) ltac:(lia)) as [s' [k' R]].
  exists s', k'. unfold t3d_run. rewrite R. cbn [bind]. unfold t3d_output. cbn [fold_out snd].
  destruct I as [-> | ->]; reflexivity.
Qed.

(** ** What is not true *)

(** A path with a directory that has a dot, "./" and "../" among them: the maps
    of every such point go to the same files of the working directory. *)
Theorem C68_dotted_path_refuted : forall a b t l na nb, 0 <= t ->
  vtk_name ("./" ++ a ++ ".vtk") t l OI_STEP = Ok na -> vtk_name ("../" ++ b ++ ".vtk") t l OI_STEP = Ok nb ->
  na = nb /\ ~ numbered ("./" ++ a) t na /\ ~ numbered ("../" ++ b) t nb.
Proof.
  intros a b t l na nb T A B.
  destruct (name_cut _ _ _ _ _ A ltac:(discriminate) T) as [n [N NA]]. destruct (name_cut _ _ _ _ _ B ltac:(discriminate) T) as [m [M NB]].
  subst n m. cbn [append cut_dot Ascii.eqb Bool.eqb] in NA, NB.
  change (na = dec t ++ ".vtk") in NA. change (nb = dec t ++ ".vtk") in NB. subst na nb. split; [reflexivity|].
  assert (X : forall s, dec t ++ ".vtk" <> String "."%char s).
  { intros s E. destruct (first_digit (dec t) ".vtk" (dec_digit t T) (dec_nonempty t T)) as [c [r [W _]]].
    pose proof (dec_digit t T) as DD. destruct (dec t) as [|c' r'] eqn:ED; [now apply (dec_nonempty t T)|].
    cbn [append] in E. injection E as -> _. cbn [all_digits] in DD. discriminate DD. }
  split; intros [x [_ E]]; exact (X _ E).
Qed.

(** Two paths without dots may share a file as well. *)
Theorem C68_two_points_refuted : forall l,
  vtk_name "map.vtk" 12 l OI_STEP = Ok "map12.vtk" /\ vtk_name "map1.vtk" 2 l OI_STEP = Ok "map12.vtk".
Proof. intros l. split; reflexivity. Qed.

(** A path of 50 characters or more is written past the end of an array. *)
Theorem C68_long_path_refuted : forall openable n cells temps t l file i k, (50 <= String.length file)%nat ->
  print_thermal_map_3D openable true n cells temps t l file i k = UB.
Proof.
  intros openable n cells temps t l file i k H. unfold print_thermal_map_3D, vtk_name, in_array.
  now replace (String.length file <? 50)%nat with false by (symmetry; apply Nat.ltb_ge; lia).
Qed.
(** So is the number of the map from 10^9 on; and a file that cannot be created
    is written to a null stream. *)
Theorem C68_long_run_refuted : forall openable n cells temps t l file k, 1000000000 <= t ->
  print_thermal_map_3D openable true n cells temps t l file OI_STEP k = UB.
Proof.
  intros openable n cells temps t l file k H. unfold print_thermal_map_3D, vtk_name, in_array.
  destruct (_ <? _)%nat; [|reflexivity]. cbn [bind].
  replace (String.length (dec t) <? 10)%nat with false; [reflexivity|].
  symmetry. apply Nat.ltb_ge. destruct (Nat.le_gt_cases 10 (String.length (dec t))) as [X|X]; [exact X|].
  exfalso. apply dec_short in X; lia.
Qed.
Theorem C68_no_directory_refuted : forall n cells temps t l file i k name, vtk_name file t l i = Ok name ->
  print_thermal_map_3D (fun _ => false) true n cells temps t l file i k = UB.
Proof. intros n cells temps t l file i k name N. unfold print_thermal_map_3D. now rewrite N. Qed.

(** ** Witnesses *)

(** A text, character by character. *)
Definition vtk_cell_demo : vcell := mkVcell (mkCell 0 (mkRect 0 (-1#2) 100 (1#3)) 5 10 false material0) (Some "AIR").
Example C68_text_witness : exists k name text, print_thermal_map_3D (fun _ => true) true 1 [vtk_cell_demo] [3005 # 10]%Q 24 2 "hot.vtk" OI_SLOT (fun _ => None) = Ok k /\
  name = "hot12.vtk" /\ k name = Some text /\
  text = "# vtk DataFile Version 3.0
3D Temperature Map
ASCII
DATASET UNSTRUCTURED_GRID
POINTS 8 float
0.000000 -0.500000 5.000000
100.000000 -0.500000 5.000000
100.000000 0.333333 5.000000
0.000000 0.333333 5.000000
0.000000 -0.500000 15.000000
100.000000 -0.500000 15.000000
100.000000 0.333333 15.000000
0.000000 0.333333 15.000000
CELLS 1 9
8 0 1 2 3 4 5 6 7
CELL_TYPES 1
12
CELL_DATA 1
SCALARS Temperature float 1
LOOKUP_TABLE default
300.500
SCALARS Labels int 1
LOOKUP_TABLE default
1

".
Proof. do 3 eexists. split; [reflexivity|]. split; [reflexivity|]. split; [reflexivity|]. vm_compute. reflexivity. Qed.

(** A simulation of five cells on a non-uniform grid, with a map at every step. *)
Example C68_witness : exists (s0 s1 : nsim unit) s' k' cells,
    in_place (guess [mini_after]) wplugin /\ exact (guess [mini_after]) /\
    nu_start (mini_grid None) mini_dims mini_hs mini_G mini_conns (mini_powers mini_p mini_q) s0 /\
    map v_cell cells = np_cells (n_pg s0) /\ Datatypes.length cells = 5%nat /\
    t3d_run (guess [mini_after]) wplugin (fun _ => true) 5 cells [("map.vtk", OI_STEP)] 30 mini_dims s0 (fun _ => None) = Ok (s', k') /\
    nu_steps (guess [mini_after]) wplugin mini_dims 1 s0 s1 /\ n_temps s1 = mini_after /\
    exists name, numbered "map" 1 name /\ holds k' name cells mini_after.
Proof.
  assert (Y : match mini_sim None AT_TRANSIENT mini_p mini_q with Ok s => match nu_emulate_step (guess [mini_after]) wplugin mini_dims s with Ok (TDICE_STEP_DONE, s') => n_temps s' | _ => [] end | _ => [] end = mini_after) by (vm_compute; reflexivity).
  destruct (mini_sim None AT_TRANSIENT mini_p mini_q) as [s0| |] eqn:E; try discriminate Y. destruct (nu_emulate_step (guess [mini_after]) wplugin mini_dims s0) as [[r s1]| |] eqn:S; try discriminate Y. destruct r; try discriminate Y.
  pose proof (mini_start None _ _ s0 I E) as ST. destruct (mini_network None _ _ _ s0 I E) as (_ & AN & _ & CE & _).
  set (cells := map (fun c => mkVcell c (Some "AIR")) mini_cells).
  assert (CC : map v_cell cells = np_cells (n_pg s0)) by (rewrite CE; unfold cells; rewrite map_map; apply map_id).
  assert (LE : Datatypes.length cells = 5%nat) by (vm_compute; reflexivity).
  assert (IP : in_place (guess [mini_after]) wplugin) by apply guess_in_place.
  assert (EX : exact (guess [mini_after])) by apply guess_exact.
  assert (SRC : In (mini_queue mini_p) (mini_powers mini_p mini_q 0%nat)) by now left.
  assert (L10 : an_slot_length (n_an s0) = 10) by (rewrite AN; reflexivity).
  destruct (C68_defined (guess [mini_after]) wplugin (fun _ => true) cells (mini_grid None) mini_dims mini_hs mini_G mini_conns (mini_powers mini_p mini_q) s0 0%nat
    (mini_queue mini_p) "map" OI_STEP 30 (fun _ => None) IP EX ST CC ltac:(rewrite LE; cbn; lia) ltac:(cbn; lia) ltac:(reflexivity) SRC ltac:(rewrite L10; cbn; lia)
    ltac:(reflexivity) ltac:(cbn; lia) ltac:(reflexivity) ltac:(now left) ltac:(rewrite L10; cbn; lia)) as [s' [k' R]].
  assert (ONE : nu_steps (guess [mini_after]) wplugin mini_dims 1 s0 s1) by (apply (NS_step _ _ _ 0 s0 TDICE_STEP_DONE s0 s1); [constructor | exact S | now left]).
  exists s0, s1, s', k', cells. split; [exact IP|]. split; [exact EX|]. split; [exact ST|]. split; [exact CC|]. split; [exact LE|].
  split; [rewrite LE in R; exact R|]. split; [exact ONE|]. split; [exact Y|].
  destruct (C68_run (guess [mini_after]) wplugin (fun _ => true) cells (mini_grid None) mini_dims mini_hs mini_G mini_conns (mini_powers mini_p mini_q) s0 0%nat
    (mini_queue mini_p) "map" OI_STEP 30 (fun _ => None) s' k' IP EX ST CC ltac:(rewrite LE; cbn; lia) ltac:(cbn; lia) ltac:(reflexivity) SRC ltac:(rewrite L10; cbn; unfold two32; lia)
    ltac:(reflexivity) ltac:(now left) R) as [A _].
  destruct (A 1%nat s1 1 ltac:(lia) ONE eq_refl) as [name [N H]]. exists name. split; [exact N|]. rewrite Y in H. exact H.
Qed.
