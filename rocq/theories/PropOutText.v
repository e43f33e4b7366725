(** * C69: the output files can be read back *)
From Coq Require Import ZArith List Bool QArith Qabs String Ascii Lia Lqa ZifyBool.
From Verif Require Import Base QSum Dims DimsSpec DimsProofs Queue QueueProofs Floorplan FloorplanSpec FloorplanProofs Stack StackSpec PowerGrid
     Emulate EmulateSpec EmulateProofs SimWitness PropEmulate Inspect PropInspect Emulator EmulatorSpec EmulatorProofs PropEmulator ServerRunProofs
     NonUniform Vtk VtkSpec VtkProofs OutText OutTextSpec OutTextProofs.
Import ListNotations.
Local Open Scope string_scope.
Local Open Scope Z_scope.

Lemma good_has_header : forall d p, good_grid d -> good_point d p -> has_header p.
Proof.
  intros d p (R & C & _) (_ & G). unfold has_header. destruct (ip_type p); try exact I; try contradiction; try (destruct G; assumption). lia.
Qed.
Lemma good_plain : forall d p, good_point d p -> ip_file p <> xaxis_name -> ip_file p <> yaxis_name -> plain p.
Proof. intros d p (_ & G) X Y. split; [|auto]. destruct (ip_type p); easy. Qed.
Lemma good_kind : forall d p, good_point d p -> is_table (ip_type p) \/ is_map (ip_type p).
Proof. intros d p (_ & G). unfold is_table, is_map. destruct (ip_type p); tauto. Qed.
Lemma table_not_map : forall t, is_table t -> is_map t -> False.
Proof. intros t T [-> | ->]; destruct T as [|[|[|]]]; discriminate. Qed.

Lemma table_length : forall d temps sources p v, ip_values d temps sources p (ip_quantity p) = Ok (Some v) -> is_table (ip_type p) ->
  S (Datatypes.length v) = Datatypes.length (column_names p).
Proof.
  intros d temps sources p v E T. destruct (ip_type p) eqn:Y; try (destruct T as [|[|[|]]]; discriminate).
  2:{ unfold ip_values in E. rewrite Y in E. unfold column_names. rewrite Y. destruct (flpel_value (ip_quantity p)) as [g|]; [|discriminate].
    destruct (se_kind (ip_stkel p)); try discriminate.
    destruct (flp_all g (die_floorplan d0) d _) as [vs| |] eqn:EV; cbn [bind] in E; try discriminate.
    assert (vs = v) by congruence. subst vs. apply map_out_length in EV. cbn [Datatypes.length]. rewrite map_length. now rewrite EV. }
  all: destruct (one_value d temps sources p (ip_quantity p) v E) as (x & ->); [now rewrite Y|rewrite Y; discriminate|]; unfold column_names; now rewrite Y.
Qed.
Lemma map_length' : forall d temps sources p v, 0 < d_nrows d -> 0 < d_ncols d -> ip_values d temps sources p (ip_quantity p) = Ok (Some v) -> is_map (ip_type p) ->
  Z.of_nat (Datatypes.length v) = d_nrows d * d_ncols d.
Proof.
  intros d temps sources p v R C E T.
  assert (G : forall t ws, layer_map d (ip_stkel p) t = Ok ws -> Z.of_nat (Datatypes.length ws) = d_nrows d * d_ncols d).
  { intros t ws H. unfold layer_map in H. apply read_all_length in H. rewrite H, zrange_length. nia. }
  unfold ip_values in E. destruct T as [Y|Y]; rewrite Y in E;
    match type of E with bind ?m _ = _ => destruct m as [vs| |] eqn:EV; cbn [bind] in E; try discriminate end; assert (vs = v) by congruence; subst vs; exact (G _ _ EV).
Qed.

Lemma forall2_imp : forall {A B} (P Q : A -> B -> Prop) a b, (forall x y, P x y -> Q x y) -> Forall2 P a b -> Forall2 Q a b.
Proof. intros A B P Q a b H F. induction F; constructor; auto. Qed.
(** A file that holds a header and rows reads as it should. *)
Lemma file_reads : forall {M PS} d where_ dt p ks (at_ : Z -> sim M PS) ls, good_grid d -> good_point d p -> good_names p ->
  Forall2 (fun k l => reports d dt p k (at_ k) l) ks ls ->
  file_says d dt p ks at_ (render_all d where_ (Head p :: ls)).
Proof.
  intros M PS d where_ dt p ks at_ ls G GP GN F.
  destruct (header_reads (where_ p) p (good_has_header d p G GP) GN) as (h & EH & [HD HH]).
  assert (E : render_all d where_ (Head p :: ls) = h ++ render_all d where_ ls) by (unfold render_all, concat_map; cbn [fold_right render]; now rewrite EH).
  rewrite E. unfold file_says. rewrite HD. pose proof G as (R & C & _).
  assert (X : exists vs, Forall2 (fun k v => reads d p (at_ k) v) ks vs /\
     Forall2 (fun k tv => fst tv = (qz k * dt)%Q /\ reads d p (at_ k) (snd tv)) ks (combine (map (fun k => qz k * dt)%Q ks) vs) /\
     Forall2 (fun tv l => l = Row p (fst tv) (Some (snd tv)) /\ exists s : sim M PS, reads d p s (snd tv)) (combine (map (fun k => qz k * dt)%Q ks) vs) ls).
  { clear -F. induction F as [|k l ks ls (v & EV & ->) F (vs & F1 & F2 & F3)]; [exists []; repeat split; constructor|].
    exists (v :: vs). split; [now constructor|]. cbn [map combine]. split; constructor; auto. split; [reflexivity|]. now exists (at_ k). }
  destruct X as (vs & _ & F2 & F3). set (tvs := combine _ vs) in *.
  destruct (good_kind d p GP) as [T|T].
  - destruct (table_rows d where_ p tvs ls T) as (tb & D & N & F4).
    { eapply forall2_imp; [|exact F3]. cbn beta. intros tv l (-> & s & RV). split; [reflexivity|]. intro Y. exact (one_value _ _ _ _ _ _ RV T Y). }
    exists tb. split; [exact D|]. split; [|intro T'; elim (table_not_map _ T T')]. intros _. split; [now apply HH|].
    assert (F5 : Forall2 (fun k row => exists v, reads d p (at_ k) v /\ row_says (ip_type p) (qz k * dt) v row) ks tb).
    { clear -F2 F4. revert tb F4. induction F2 as [|k tv ks tvs (T1 & T2) F2 IH]; intros tb F4; inversion F4; subst; constructor; [|now apply IH].
      exists (snd tv). rewrite <- T1. auto. }
    split; [|exact F5]. clear -F5 T. induction F5 as [|k row ks tb (v & RV & (r0 & rs & -> & _ & F)) F5 IH]; constructor; [|exact IH].
    rewrite <- (table_length _ _ _ _ _ RV T). cbn [Datatypes.length]. f_equal. exact (forall2_len _ _ _ F).
  - destruct (map_rows d where_ p tvs ls T) as (tb & D & F4); [lia|lia| |].
    { eapply forall2_imp; [|exact F3]. cbn beta. intros tv l (-> & s & RV). split; [reflexivity|]. eapply map_length'; [lia|lia|exact RV|exact T]. }
    exists tb. split; [exact D|]. split; [intro T'; elim (table_not_map _ T' T)|]. intros _.
    clear -F2 F4. generalize dependent (blocks tb). intros bs F4. revert bs F4.
    induction F2 as [|k tv ks tvs (T1 & T2) F2 IH]; intros bs F4; inversion F4; subst; constructor; [|now apply IH]. exists (snd tv). auto.
Qed.
Lemma axis_file : forall centre n, 0 <= n -> axis_says centre (n + 1) (axis_text centre n).
Proof.
  intros centre n Hn. destruct (axis_reads centre n) as (xs & D & F). exists xs. split; [exact D|].
  pose proof (forall2_len _ _ _ F) as L. rewrite map_length in L. pose proof (zrange_length 0 n). split; [lia|].
  intros i Hi. destruct (forall2_nth _ _ _ F (Z.to_nat i) (centre i)) as (x & X & N); [|exists x; auto].
  rewrite nth_error_map. unfold zrange. rewrite nth_error_map.
  assert (nth_error (seq 0 (Z.to_nat (n - 0 + 1))) (Z.to_nat i) = Some (Z.to_nat i)) as ->.
  { rewrite (nth_error_nth' _ 0%nat) by (rewrite seq_length; lia). f_equal. rewrite seq_nth by lia. reflexivity. }
  cbn [option_map]. f_equal. f_equal. lia.
Qed.

(** Whatever lines a run of the emulator writes, the texts read as them. *)
Lemma text_run : forall {M PS} openable where_ (emulate : dims -> sim M PS -> outcome (simresult * sim M PS)) fuel o d s s' f' dt k0,
    good_grid d -> Forall (fun p => good_point d p /\ openable (ip_file p) = true) (all_points o) -> NoDup (map ip_file (all_points o)) ->
    Forall good_names (all_points o) -> ~ In xaxis_name (map ip_file (all_points o)) -> ~ In yaxis_name (map ip_file (all_points o)) ->
    emulator openable emulate fuel o d s (fun _ => None) = Ok (Some (s', f')) ->
    exists k', t_emulator openable where_ emulate fuel o d s k0 = Ok (Some (s', k')) /\
      (forall p ks (at_ : Z -> sim M PS) ls, In p (all_points o) -> f' (ip_file p) = Some (Head p :: ls) ->
         Forall2 (fun k l => reports d dt p k (at_ k) l) ks ls -> exists text, k' (ip_file p) = Some text /\ file_says d dt p ks at_ text) /\
      ((exists p, In p (all_points o) /\ is_map (ip_type p)) -> openable xaxis_name = true -> openable yaxis_name = true ->
         exists tx ty, k' xaxis_name = Some tx /\ k' yaxis_name = Some ty /\
           axis_says (get_cell_center_x d) (d_ncols d) tx /\ axis_says (get_cell_center_y d) (d_nrows d) ty) /\
      (forall m, ~ In m (map ip_file (all_points o)) -> m <> xaxis_name -> m <> yaxis_name -> k' m = k0 m).
Proof.
  intros M PS openable where_ emulate fuel o d s s' f' dt k0 G U ND GN NX NY E. pose proof G as (GR & GC & _).
  assert (PL : Forall (fun p => plain p /\ has_header p /\ good_names p /\ openable (ip_file p) = true) (all_points o)).
  { rewrite Forall_forall in *. intros p Hp. destruct (U p Hp) as (GPp & OP). assert (HF : In (ip_file p) (map ip_file (all_points o))) by now apply in_map.
    split; [|split; [exact (good_has_header d p G GPp)|split; [now apply GN|exact OP]]]. apply (good_plain d p GPp); intro Y; rewrite Y in HF; contradiction. }
  assert (PL1 : Forall plain (all_points o)) by (eapply Forall_impl; [|exact PL]; cbn beta; tauto).
  destruct (t_headers_spec openable where_ d (all_points o) PL ND k0) as (kh & EH & AH & BH & CH).
  unfold emulator in E. destruct (headers_spec openable d (all_points o) U ND (fun _ => None)) as (fh & EF & AF & _).
  unfold generate_output_headers in E. unfold all_points in EF. rewrite EF in E.
  set (ns := map ip_file (all_points o)).
  assert (RH : rel where_ d ns fh kh).
  { intros n Hn. apply in_map_iff in Hn. destruct Hn as (p & <- & Hp). rewrite (AF p Hp), (AH p Hp). unfold render_all, concat_map. cbn [option_map fold_right]. now rewrite app_nil_r'. }
  assert (XH : present ns fh).
  { intros n Hn. apply in_map_iff in Hn. destruct Hn as (p & <- & Hp). rewrite (AF p Hp). discriminate. }
  destruct (emulator_loop openable emulate fuel o d s fh) as [[s1 f1]| |] eqn:EL; cbn [bind] in E; try discriminate.
  destruct (loop_sim openable where_ emulate o d PL1 fuel s fh kh s1 f1 EL RH XH) as (k1 & EK & RK & FK & XK).
  destruct (emit openable o d OI_FINAL s1 f1) as [f2| |] eqn:EE; cbn [bind] in E; try discriminate.
  destruct (emit_sim openable where_ o d OI_FINAL s1 f1 k1 f2 PL1 EE RK XK) as (k2 & EK2 & RK2 & FK2 & XK2).
  assert (s1 = s' /\ f2 = f') as [-> ->] by (split; congruence).
  exists k2. split.
  { unfold t_emulator, t_output_headers. unfold all_points in EH. rewrite EH, EK. cbn [bind]. rewrite EK2. reflexivity. }
  split; [|split].
  - intros p ks at' ls Hp EP F. exists (render_all d where_ (Head p :: ls)). split.
    + rewrite (RK2 (ip_file p)) by now apply in_map. rewrite EP. reflexivity.
    + rewrite Forall_forall in U, GN. destruct (U p Hp). apply file_reads; auto.
  - intros MP OX OY. destruct (CH (or_introl MP) OX OY) as (W1 & W2).
    exists (axis_text (get_cell_center_x d) (last_column d)), (axis_text (get_cell_center_y d) (last_row d)).
    rewrite (FK2 xaxis_name NX), (FK xaxis_name NX), (FK2 yaxis_name NY), (FK yaxis_name NY), W1, W2. split; [reflexivity|]. split; [reflexivity|].
    unfold last_column, last_row.
    rewrite !u32_id by lia. split.
    + replace (d_ncols d) with (d_ncols d - 1 + 1) at 1 by ring. apply axis_file. lia.
    + replace (d_nrows d) with (d_nrows d - 1 + 1) at 1 by ring. apply axis_file. lia.
  - intros m Hm X Y. rewrite (FK2 m Hm), (FK m Hm). now apply BH.
Qed.

(** Transient runs of [N] slots of [L] steps: the text of the file of each point
    reads as one record per step, per slot, or one; the axes are there; other
    files are not touched. *)
Theorem C69_run : forall {M PS} solve plugin openable where_ d (s : sim M PS) qs o N,
    in_place solve plugin ->
    (forall m b, fst (solve m b) = TDICE_SUCCESS) -> (forall ps t v, fst (fst (plugin ps t v)) = false) ->
    good_sim d s -> an_time (s_an s) = 0 -> queued (s_pg s) qs ->
    0 <= N -> Forall (fun l => N <= Z.of_nat (Datatypes.length l)) qs -> Exists (fun l => Z.of_nat (Datatypes.length l) = N) qs ->
    N * an_slot_length (s_an s) < two32 ->
    Forall (fun p => good_point d p /\ openable (ip_file p) = true) (all_points o) -> NoDup (map ip_file (all_points o)) ->
    Forall good_names (all_points o) -> ~ In xaxis_name (map ip_file (all_points o)) -> ~ In yaxis_name (map ip_file (all_points o)) ->
    let L := an_slot_length (s_an s) in let dt := an_step (s_an s) in
    exists at_ : Z -> sim M PS, at_ 0 = s /\
      (forall k, 0 <= k < N * L -> exists r, (r = TDICE_STEP_DONE \/ r = TDICE_SLOT_DONE) /\ emulate_step solve plugin d (at_ k) = Ok (r, at_ (k + 1))) /\
      forall k0, exists fuel s' k', t_emulator openable where_ (emulate_step solve plugin) fuel o d s k0 = Ok (Some (s', k')) /\
        s_temps s' = s_temps (at_ (N * L)) /\
        (forall p, In p (o_step o) -> exists text, k' (ip_file p) = Some text /\ file_says d dt p (zrange 1 (N * L)) at_ text) /\
        (forall p, In p (o_slot o) -> exists text, k' (ip_file p) = Some text /\ file_says d dt p (map (fun j => j * L) (zrange 1 N)) at_ text) /\
        (forall p, In p (o_final o) -> exists text, k' (ip_file p) = Some text /\ file_says d dt p [N * L] (fun _ => s') text) /\
        ((exists p, In p (all_points o) /\ is_map (ip_type p)) -> openable xaxis_name = true -> openable yaxis_name = true ->
           exists tx ty, k' xaxis_name = Some tx /\ k' yaxis_name = Some ty /\
             axis_says (get_cell_center_x d) (d_ncols d) tx /\ axis_says (get_cell_center_y d) (d_nrows d) ty) /\
        (forall m, ~ In m (map ip_file (all_points o)) -> m <> xaxis_name -> m <> yaxis_name -> k' m = k0 m).
Proof.
  intros M PS solve plugin openable where_ d s qs o N IP SO PO GS T0 QU HN FA EX Hb U ND GN NX NY L dt.
  destruct (C50_output_instants solve plugin openable d s qs o N IP SO PO GS T0 QU HN FA EX Hb U ND) as (at_ & A0 & AS & RUN). fold L in AS, RUN. fold dt in RUN.
  exists at_. split; [exact A0|]. split; [exact AS|]. intro k0.
  destruct (RUN (fun _ => None)) as (fuel & s' & f' & E & TE & PS1 & PS2 & PS3 & _).
  pose proof GS as (GP & _). destruct (pgrid_lengths d _ GP) as (G & _).
  destruct (text_run openable where_ (emulate_step solve plugin) fuel o d s s' f' dt k0 G U ND GN NX NY E) as (k2 & EK & FILE & AXES & REST).
  exists fuel, s', k2. split; [exact EK|]. split; [exact TE|].
  assert (IN : forall p, In p (o_step o) \/ In p (o_slot o) \/ In p (o_final o) -> In p (all_points o)) by (intros; unfold all_points; rewrite !in_app_iff; tauto).
  split; [|split; [|split; [|split]]].
  - intros p Hp. destruct (PS1 p Hp) as (rows & EP & F). apply (FILE p _ at_ rows); auto.
  - intros p Hp. destruct (PS2 p Hp) as (rows & EP & F). apply (FILE p _ at_ rows); auto.
    clear -F. induction F; cbn [map]; constructor; auto.
  - intros p Hp. destruct (PS3 p Hp) as (l & EP & F). apply (FILE p _ (fun _ => s') [l]); auto.
  - exact AXES.
  - exact REST.
Qed.
Print Assumptions C69_run.

(** Runs that stop before the end of the powers (a failure of the solver) after
    the states [tr]: the files read as records of these states only. *)
Theorem C69_interrupted : forall {M PS} solve plugin openable where_ d (s : sim M PS) qs o tr r s1,
    in_place solve plugin -> good_sim d s -> an_time (s_an s) = 0 -> queued (s_pg s) qs -> Z.of_nat (Datatypes.length tr) < two32 ->
    Forall (fun p => good_point d p /\ openable (ip_file p) = true) (all_points o) -> NoDup (map ip_file (all_points o)) ->
    Forall good_names (all_points o) -> ~ In xaxis_name (map ip_file (all_points o)) -> ~ In yaxis_name (map ip_file (all_points o)) ->
    steps_from (emulate_step solve plugin) d s tr -> emulate_step solve plugin d (last tr s) = Ok (r, s1) ->
    r = TDICE_END_OF_SIMULATION \/ r = TDICE_SOLVER_ERROR ->
    let L := an_slot_length (s_an s) in let dt := an_step (s_an s) in let n := Z.of_nat (Datatypes.length tr) in
    let at_ := fun k => nth (Z.to_nat (k - 1)) tr s in
    forall k0 fuel, (Datatypes.length tr < fuel)%nat ->
    exists k', t_emulator openable where_ (emulate_step solve plugin) fuel o d s k0 = Ok (Some (s1, k')) /\
      (forall p, In p (o_step o) -> exists text, k' (ip_file p) = Some text /\ file_says d dt p (zrange 1 n) at_ text) /\
      (forall p, In p (o_slot o) -> exists text, k' (ip_file p) = Some text /\ file_says d dt p (filter (fun k => k mod L =? 0) (zrange 1 n)) at_ text) /\
      (forall p, In p (o_final o) -> exists text, k' (ip_file p) = Some text /\ file_says d dt p [n] (fun _ => s1) text).
Proof.
  intros M PS solve plugin openable where_ d s qs o tr r s1 IP GS T0 QU Hb U ND GN NX NY ST EL ER L dt n at_ k0 fuel Hf.
  destruct (C50_interrupted solve plugin openable d s qs o tr r s1 IP GS T0 QU Hb U ND ST EL ER (fun _ => None) fuel Hf) as (f' & E & PS1 & PS2 & PS3).
  pose proof GS as (GP & _). destruct (pgrid_lengths d _ GP) as (G & _).
  destruct (text_run openable where_ (emulate_step solve plugin) fuel o d s s1 f' dt k0 G U ND GN NX NY E) as (k2 & EK & FILE & _ & _).
  exists k2. split; [exact EK|].
  assert (IN : forall p, In p (o_step o) \/ In p (o_slot o) \/ In p (o_final o) -> In p (all_points o)) by (intros; unfold all_points; rewrite !in_app_iff; tauto).
  assert (NU : number 1 tr = map (fun i => (i, at_ i)) (zrange 1 n)).
  { rewrite (number_nth tr 1 s). unfold n, at_. f_equal. f_equal. lia. }
  split; [|split].
  - intros p Hp. destruct (PS1 p Hp) as (rows & EP & F). apply (FILE p _ at_ rows); auto. rewrite NU in F. apply Forall2_map_l in F. exact F.
  - intros p Hp. destruct (PS2 p Hp) as (rows & EP & F). apply (FILE p _ at_ rows); auto. rewrite NU, filter_map in F. apply Forall2_map_l in F. exact F.
  - intros p Hp. destruct (PS3 p Hp) as (l & EP & F). apply (FILE p _ (fun _ => s1) [l]); auto.
Qed.
Print Assumptions C69_interrupted.

(** Steady state: one record in the files of the final points, none in the others. *)
Theorem C69_steady : forall {M PS} solve (plugin : PS -> list Q -> list Q -> bool * list Q * PS) openable where_ d (s : sim M PS) qs o,
    in_place solve plugin -> good_pgrid d (s_pg s) -> Z.of_nat (Datatypes.length (s_temps s)) = pg_ncells (s_pg s) ->
    an_type (s_an s) = AT_STEADY -> queued (s_pg s) qs ->
    Forall (fun p => good_point d p /\ openable (ip_file p) = true) (all_points o) -> NoDup (map ip_file (all_points o)) ->
    Forall good_names (all_points o) -> ~ In xaxis_name (map ip_file (all_points o)) -> ~ In yaxis_name (map ip_file (all_points o)) ->
    forall k0 fuel, (0 < fuel)%nat ->
    exists r s1 k', emulate_steady solve d s = Ok (r, s1) /\
      t_emulator openable where_ (emulate_steady solve) fuel o d s k0 = Ok (Some (s1, k')) /\
      (forall p, In p (o_step o) \/ In p (o_slot o) -> exists text, k' (ip_file p) = Some text /\ file_says d (an_step (s_an s)) p [] (fun _ => s1) text) /\
      (forall p, In p (o_final o) -> exists text, k' (ip_file p) = Some text /\
         file_says d (an_step (s_an s)) p [an_time (s_an s)] (fun _ => s1) text).
Proof.
  intros M PS solve plugin openable where_ d s qs o IP GP LT TY QU U ND GN NX NY k0 fuel Hf.
  destruct (C50_steady solve plugin openable d s qs o IP GP LT TY QU U ND (fun _ => None) fuel Hf) as (r & s1 & f' & E1 & E & PS1 & PS2).
  destruct (pgrid_lengths d _ GP) as (G & _).
  destruct (text_run openable where_ (emulate_steady solve) fuel o d s s1 f' (an_step (s_an s)) k0 G U ND GN NX NY E) as (k2 & EK & FILE & _ & _).
  exists r, s1, k2. split; [exact E1|]. split; [exact EK|].
  assert (IN : forall p, In p (o_step o) \/ In p (o_slot o) \/ In p (o_final o) -> In p (all_points o)) by (intros; unfold all_points; rewrite !in_app_iff; tauto).
  split.
  - intros p Hp. apply (FILE p [] (fun _ => s1) []); [apply IN; tauto|exact (PS1 p Hp)|constructor].
  - intros p Hp. destruct (PS2 p Hp) as (l & EP & F). apply (FILE p _ (fun _ => s1) [l]); auto.
Qed.
Print Assumptions C69_steady.

(** ** The columns of time *)

(** Steps of more than a millisecond are told apart, in the order of the run. *)
Theorem C69_times : forall t dt v1 v2 row1 row2 k1 k2, (1 # 1000 < dt)%Q -> k1 < k2 ->
    row_says t (qz k1 * dt) v1 row1 -> row_says t (qz k2 * dt) v2 row2 ->
    exists t1 t2, hd_error row1 = Some t1 /\ hd_error row2 = Some t2 /\ (t1 < t2)%Q.
Proof.
  intros t dt v1 v2 row1 row2 k1 k2 HD HK (a & ra & -> & NA & _) (b & rb & -> & NB & _). exists a, b. split; [reflexivity|]. split; [reflexivity|].
  assert (TE : (time_error t <= 1 # 2000)%Q) by (destruct t; discriminate).
  unfold near in *. apply Qabs_Qle_condition in NA. apply Qabs_Qle_condition in NB.
  assert (HZ : (1 <= qz k2 - qz k1)%Q).
  { assert (H1 : (qz (k1 + 1) <= qz k2)%Q) by (unfold qz; rewrite <- Zle_Qle; lia). unfold qz in *. rewrite inject_Z_plus in H1. change (inject_Z 1) with 1%Q in H1. lra. }
  assert (HM : (1 * dt <= (qz k2 - qz k1) * dt)%Q) by (apply Qmult_le_compat_r; lra). lra.
Qed.
Print Assumptions C69_times.

(** Shorter steps are not, except for Tcell: with steps of 0.1 ms the rows of the
    first four steps say that the time is 0. *)
Theorem C69_times_refuted : forall d p v k, ip_type p = OT_TFLP -> 0 <= k <= 4 ->
    row_text d p (qz k * (1 # 10000)) v = row_text d p 0 v.
Proof.
  intros d p v k Y K. unfold row_text. rewrite Y.
  assert (E : fixed 3 (qz k * (1 # 10000)) = fixed 3 0).
  { assert (H : k = 0 \/ k = 1 \/ k = 2 \/ k = 3 \/ k = 4) by lia. destruct H as [->|[->|[->|[->| ->]]]]; reflexivity. }
  now rewrite E.
Qed.
Print Assumptions C69_times_refuted.

(** A power map says that nothing is dissipated when every cell dissipates less
    than half a milliwatt, whatever the total. *)
Theorem C69_power_map_refuted : forall d p time vs, ip_type p = OT_PMAP -> Forall (fun v => 0 <= v < 1 # 2000)%Q vs ->
    row_text d p time (Some vs) = row_text d p time (Some (map (fun _ => 0%Q) vs)).
Proof.
  intros d p time vs Y F. unfold row_text. rewrite Y. f_equal.
  assert (C : forall v, (0 <= v < 1 # 2000)%Q -> cell_text v = cell_text 0).
  { intros v (V0 & V1). unfold cell_text, fixed. pose proof (Qabs_pos v V0) as AV.
    assert (R : round_even (Qabs v * inject_Z (10 ^ Z.of_nat 3)) = 0).
    { assert (B : (0 <= Qabs v * inject_Z (10 ^ Z.of_nat 3) < 1 # 2)%Q) by (change (inject_Z (10 ^ Z.of_nat 3)) with 1000%Q; lra).
      unfold round_even. set (x := (Qabs v * inject_Z (10 ^ Z.of_nat 3))%Q) in *.
      assert (FX : Qround.Qfloor x = 0).
      { pose proof (Qround.Qfloor_le x) as A1. pose proof (Qround.Qlt_floor x) as A2.
        assert (inject_Z (Qround.Qfloor x) < inject_Z 1)%Q by (change (inject_Z 1) with 1%Q; lra).
        assert (inject_Z 0 < inject_Z (Qround.Qfloor x + 1))%Q by (change (inject_Z 0) with 0%Q; lra).
        rewrite <- Zlt_Qlt in *. lia. }
      rewrite FX. assert (CX : (x - inject_Z 0 < 1 # 2)%Q) by (change (inject_Z 0) with 0%Q; lra).
      destruct (x - inject_Z 0 ?= 1 # 2)%Q eqn:CQ; [apply Qeq_alt in CQ; lra|reflexivity|apply Qgt_alt in CQ; lra]. }
    rewrite R. replace (Qle_bool 0 v) with true by (symmetry; now apply Qle_bool_iff). reflexivity. }
  generalize (Z.to_nat (d_ncols d)). intro cols. revert vs F. induction (Z.to_nat (d_nrows d)) as [|n IH]; intros vs F; [reflexivity|].
  cbn [map_text]. rewrite firstn_map, skipn_map.
  rewrite <- (firstn_skipn cols vs) in F. apply Forall_app in F. destruct F as (F1 & F2). rewrite <- (IH (skipn cols vs) F2). f_equal.
  clear -F1 C. induction F1 as [|v l V F IH]; [reflexivity|]. unfold concat_map in *. cbn [map fold_right]. rewrite (C v V), IH. reflexivity.
Qed.
Print Assumptions C69_power_map_refuted.

(** ** Maps on the non-uniform grid *)

(** The map is one row, the file of the cells has one row per cell of the layer
    of the element: the k-th number of the map is the value of the k-th cell of
    the file, whose corner and sizes are on its line. *)
Definition layer_cells (cs : list cell) (layer : Z) : list (Z * cell) := filter (fun ic => c_layer (snd ic) =? layer) (number 0 cs).
Theorem C69_nu_map : forall id cs layer v, Z.of_nat (Datatypes.length cs) < two32 -> (Datatypes.length cs <= Datatypes.length v)%nat ->
    (String.length id <= 38)%nat ->
    exists text cells row xy, nu_map_output id cs layer v = Ok (text, ("xyaxis_" ++ id ++ ".txt", cells)) /\
      data text = Some [row; []] /\ data cells = Some xy /\
      Forall2 (fun x ic => near (1 # 2000) x (nth (Z.to_nat (fst ic)) v 0%Q)) row (layer_cells cs layer) /\
      Forall2 (fun l ic => Forall2 (near (1 # 200)) l [r_x0 (c_rect (snd ic)); r_y0 (c_rect (snd ic)); c_length (snd ic); c_width (snd ic)]) xy (layer_cells cs layer).
Proof.
  intros id cs layer v HC HV HI.
  assert (G : forall cs k, 0 <= k -> k + Z.of_nat (Datatypes.length cs) < two32 -> k + Z.of_nat (Datatypes.length cs) <= Z.of_nat (Datatypes.length v) ->
    exists ta tb xy, nu_map_text cs layer k v = Ok (ta, tb) /\ data tb = Some xy /\
      ta = concat_map cell_text (map (fun ic => nth (Z.to_nat (fst ic)) v 0%Q) (filter (fun ic => c_layer (snd ic) =? layer) (number k cs))) /\
      Forall2 (fun l ic => Forall2 (near (1 # 200)) l [r_x0 (c_rect (snd ic)); r_y0 (c_rect (snd ic)); c_length (snd ic); c_width (snd ic)])
        xy (filter (fun ic => c_layer (snd ic) =? layer) (number k cs))).
  { clear cs HC HV. induction cs as [|c cs IH]; intros k K0 K1 K2.
    - exists "", "", []. split; [reflexivity|]. split; [reflexivity|]. split; [reflexivity|constructor].
    - cbn [Datatypes.length] in K1, K2. cbn [nu_map_text number filter snd]. rewrite u32_id by lia.
      destruct (IH (k + 1)) as (ta & tb & xy & E & D & TA & F); [lia|lia|lia|].
      destruct (c_layer c =? layer).
      + rewrite (arr_get_ok v k 0%Q) by lia. cbn [bind]. rewrite E. cbn [bind fst snd].
        assert (X : exists l, reads_as (pad_left 5 (fixed 2 (r_x0 (c_rect c))) ++ tab ++ pad_left 5 (fixed 2 (r_y0 (c_rect c))) ++ tab ++ pad_left 5 (fixed 2 (c_length c)) ++ tab ++ pad_left 5 (fixed 2 (c_width c))) l
          /\ Forall2 (near (1 # 200)) l [r_x0 (c_rect c); r_y0 (c_rect c); c_length c; c_width c]).
        { destruct (numbers_fixed 2 (1 # 200) [r_x0 (c_rect c); r_y0 (c_rect c); c_length c; c_width c] eq_refl) as (l & NL & FL). exists l. split; [|exact FL].
          split; [|split].
          - rewrite !one_line_app, !pad_one_line, !fixed_one_line. reflexivity.
          - apply pad_app_comment.
          - rewrite <- NL. f_equal. unfold tab. cbn [map]. rewrite !app_sp' , !words_fixed by reflexivity. now rewrite words_fixed_end. }
        destruct X as (l & (O & C & N) & FL).
        eexists _, _, (l :: xy). split; [reflexivity|]. split; [|split].
        * unfold xy_text. rewrite !app_ass.
          replace (pad_left 5 (fixed 2 (r_x0 (c_rect c))) ++ tab ++ pad_left 5 (fixed 2 (r_y0 (c_rect c))) ++ tab ++ pad_left 5 (fixed 2 (c_length c)) ++ tab ++ pad_left 5 (fixed 2 (c_width c)) ++ endl ++ tb)
            with ((pad_left 5 (fixed 2 (r_x0 (c_rect c))) ++ tab ++ pad_left 5 (fixed 2 (r_y0 (c_rect c))) ++ tab ++ pad_left 5 (fixed 2 (c_length c)) ++ tab ++ pad_left 5 (fixed 2 (c_width c))) ++ endl ++ tb) by (rewrite !app_ass; reflexivity).
          now apply data_row.
        * cbn [map fst]. unfold concat_map. cbn [fold_right]. f_equal. exact TA.
        * constructor; [exact FL|exact F].
      + exists ta, tb, xy. auto. }
  destruct (G cs 0) as (ta & tb & xy & E & D & TA & F); [lia|lia|lia|].
  destruct (cell_row (map (fun ic => nth (Z.to_nat (fst ic)) v 0%Q) (layer_cells cs layer))) as (row & NR & FR).
  exists (ta ++ endl ++ endl), tb, row, xy. split.
  { unfold nu_map_output, xy_name, in_array. assert (L : (String.length ("xyaxis_" ++ id ++ ".txt") <? 50)%nat = true).
    { rewrite !length_app. cbn [String.length]. apply Nat.ltb_lt. lia. }
    rewrite L. cbn [bind]. rewrite E. reflexivity. }
  split; [|split; [exact D|split; [|exact F]]].
  - rewrite TA. fold (layer_cells cs layer). apply data_row.
    + now apply (cells_one_line 7 "  ").
    + destruct (map _ _) as [|x l]; [reflexivity|]. unfold concat_map. cbn [fold_right]. unfold cell_text at 1. rewrite !app_ass. apply pad_app_comment.
    + exact NR.
    + reflexivity.
  - clear -FR. generalize dependent row. induction (layer_cells cs layer) as [|ic l IH]; intros row FR; inversion FR; subst; constructor; auto.
Qed.
Print Assumptions C69_nu_map.

(** Names of 39 characters or more overflow the array of 50. *)
Theorem C69_long_id_refuted : forall id cs layer v, (39 <= String.length id)%nat -> nu_map_output id cs layer v = UB.
Proof.
  intros id cs layer v H. unfold nu_map_output, xy_name, in_array.
  assert (L : (String.length ("xyaxis_" ++ id ++ ".txt") <? 50)%nat = false).
  { rewrite !length_app. cbn [String.length]. apply Nat.ltb_ge. lia. }
  rewrite L. reflexivity.
Qed.
Print Assumptions C69_long_id_refuted.

(** The hypotheses of C69_run hold for two slots of two steps with a Tcell point
    at every step, a thermal map at every slot and a final Tcell point. *)
Definition wtp (i : output_instant) (f : string) (t : output_type) : ipoint :=
  mkIpoint t OQ_MAXIMUM i (text_code f) (mkStkel (text_code "BOTTOM") (SKLayer layer0) 1 1) 0 1 None.
Definition wtout : output := fold_left add_inspection_point [wtp OI_STEP "cell.txt" OT_TCELL; wtp OI_SLOT "map.txt" OT_TMAP; wtp OI_FINAL "end.txt" OT_TCELL] output_init.
Example C69_witness : exists (s : sim unit unit) qs,
    good_sim wd s /\ an_time (s_an s) = 0 /\ queued (s_pg s) qs /\
    Forall (fun l => 2 <= Z.of_nat (Datatypes.length l)) qs /\ Exists (fun l => Z.of_nat (Datatypes.length l) = 2) qs /\
    2 * an_slot_length (s_an s) < two32 /\ an_slot_length (s_an s) = 2 /\
    Forall (fun p => good_point wd p /\ true = true) (all_points wtout) /\ NoDup (map ip_file (all_points wtout)) /\
    Forall good_names (all_points wtout) /\ ~ In xaxis_name (map ip_file (all_points wtout)) /\ ~ In yaxis_name (map ip_file (all_points wtout)) /\
    exists p, In p (all_points wtout) /\ is_map (ip_type p).
Proof.
  exists (wsim (wq 4 6) (wq 8 10) (repeat 0%Q 8) (repeat 300%Q 8) 2 0), [[4; 6]; [8; 10]]%Q.
  split; [apply wsim_good; try reflexivity; unfold two32; lia|]. split; [reflexivity|]. split; [apply wpg_queued; apply wq_rep|].
  split; [repeat constructor; cbn; lia|]. split; [left; reflexivity|]. split; [reflexivity|]. split; [reflexivity|].
  split.
  { cbn. repeat constructor; cbn; lia. }
  split.
  { vm_compute. repeat (apply NoDup_cons; [cbn; intuition congruence|]). apply NoDup_nil. }
  split.
  { assert (V : visible (text_code "BOTTOM")) by (split; [discriminate|vm_compute; repeat (constructor; [split; [discriminate|reflexivity]|]); constructor]).
    assert (W : forall i f t, good_names (wtp i f t)) by (intros; split; [exact V|split; exact I]).
    constructor; [apply W|constructor; [apply W|constructor; [apply W|constructor]]]. }
  split; [vm_compute; intuition congruence|]. split; [vm_compute; intuition congruence|].
  exists (wtp OI_SLOT "map.txt" OT_TMAP). split; [cbn; tauto|left; reflexivity].
Qed.
(** A row as the code prints it. *)
Example C69_example_row : forall d, row_text d (wtp OI_STEP "cell.txt" OT_TCELL) (1 # 5) (Some [(61 # 2) * 10]%Q) =
  "0.200000 " ++ tab ++ " 305.000000000000" ++ endl.
Proof. intro d. vm_compute. reflexivity. Qed.
