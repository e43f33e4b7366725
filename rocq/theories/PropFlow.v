(** * C54, C55: cell temperatures, resetting, changing the coolant flow rate *)
From Coq Require Import ZArith List Bool QArith Lia Lqa.
From Verif Require Import Base QSum Dims DimsSpec DimsProofs Queue QueueProofs Floorplan FloorplanSpec FloorplanProofs FlpMatrixProofs TempProofs Stack StackSpec StackProofs PowerGrid Emulate EmulateSpec.
From Verif Require Import SourceProofs LayerProofs SourceVectorProofs EmulateProofs HistoryProofs.
From Verif Require Import Conduct Matrix NetProofs MatrixSpec CellProofs NodeProofs LinkProofs SignProofs CscProofs EnumProofs BalanceSpec BalanceProofs VectorProofs StepProofs EnergyProofs.
From Verif Require Import PropStack SimWitness MatrixWitness PropMatrix Flow FlowProofs.
Import ListNotations.
Local Open Scope Z_scope.

(** ** C54 *)
(** Inside the grid, the temperature of the cell; whatever the indices, an
    answer and no read outside of the vector. *)
Theorem C54_inside : forall {M PS} d (s : sim M PS) l r c, accepted d -> Z.of_nat (length (s_temps s)) = d_ncells d ->
    0 <= l < d_nlayers d -> 0 <= r < d_nrows d -> 0 <= c < d_ncols d ->
    get_cell_temperature d s l r c = Ok (at_cell d (s_temps s) l r c).
Proof.
  intros M PS d s l r c AC LT L R C. unfold get_cell_temperature. cbv zeta.
  destruct (offset_pure d l r c AC (conj L (conj R C))) as (_ & E & B). destruct AC as [_ _ _ A1 A2].
  destruct (Z.leb_spec (d_ncells d) (offset_in_stack d l r c)); [lia|].
  rewrite (arr_get_ok (s_temps s) _ 0%Q) by lia. unfold at_cell. do 3 f_equal. rewrite E. ring.
Qed.
Theorem C54_always_answers : forall {M PS} d (s : sim M PS) l r c, Z.of_nat (length (s_temps s)) = d_ncells d ->
    exists x, get_cell_temperature d s l r c = Ok x.
Proof.
  intros M PS d s l r c LT. unfold get_cell_temperature. cbv zeta. destruct (Z.leb_spec (d_ncells d) (offset_in_stack d l r c)); [eauto|].
  rewrite (arr_get_ok (s_temps s) _ 0%Q); [eauto|]. split; [|lia]. unfold offset_in_stack, u32. apply Z.mod_pos_bound. reflexivity.
Qed.
(** Layers above the last one give 0 (no spreader: the cells are those of the
    layers), as long as the products stay below 2^32. *)
Theorem C54_above_partial : forall {M PS} d (s : sim M PS) l r c, accepted d -> d_ncells d = d_nlayers d * d_nrows d * d_ncols d ->
    d_nlayers d <= l -> 0 <= r < d_nrows d -> 0 <= c < d_ncols d -> (l + 1) * (d_nrows d * d_ncols d) < two32 ->
    get_cell_temperature d s l r c = Ok 0%Q.
Proof.
  intros M PS d s l r c AC NC L R C B. unfold get_cell_temperature. cbv zeta.
  destruct AC as [A1 A2 A3 A4 A5].
  assert (0 <= d_nrows d * d_ncols d) as AP by (apply Z.mul_nonneg_nonneg; lia).
  assert (r * d_ncols d + c < d_nrows d * d_ncols d) as RC by nia. assert (0 <= r * d_ncols d) as R0 by (apply Z.mul_nonneg_nonneg; lia).
  assert (0 <= l * (d_nrows d * d_ncols d)) as L0 by (apply Z.mul_nonneg_nonneg; lia).
  assert (d_nrows d * d_ncols d < two32) as AB by nia.
  assert (EO : offset_in_stack d l r c = l * (d_nrows d * d_ncols d) + (r * d_ncols d + c)).
  { unfold offset_in_stack, offset_in_layer, get_layer_area. rewrite (u32_id (r * d_ncols d)) by lia. rewrite (u32_id (r * d_ncols d + c)) by lia.
    rewrite (u32_id (d_nrows d * d_ncols d)) by lia. rewrite (u32_id (l * _)) by lia. apply u32_id. lia. }
  rewrite EO. destruct (Z.leb_spec (d_ncells d) (l * (d_nrows d * d_ncols d) + (r * d_ncols d + c))); [reflexivity|].
  exfalso. rewrite NC in *. assert (d_nlayers d * (d_nrows d * d_ncols d) <= l * (d_nrows d * d_ncols d)) by (apply Z.mul_le_mono_nonneg_r; lia). lia.
Qed.
(** A column outside of the grid reads a cell of the next row. *)
Theorem C54_outside_refuted : exists d (s : sim unit unit) l r c, accepted d /\ Z.of_nat (length (s_temps s)) = d_ncells d /\
    ~ (c < d_ncols d) /\ exists x, get_cell_temperature d s l r c = Ok x /\ (0 < x)%Q.
Proof.
  exists wd, (mkSim (repeat 300%Q 8) (wpgm q_empty q_empty []) tt (wan 1 0) tt), 0, 0, 2. split; [apply wd_accepted|]. split; [reflexivity|].
  split; [cbn; lia|]. exists 300%Q. split; [vm_compute; reflexivity|reflexivity].
Qed.
Example C54_witness : exists d (s : sim unit unit), accepted d /\ Z.of_nat (length (s_temps s)) = d_ncells d /\
    d_ncells d = d_nlayers d * d_nrows d * d_ncols d /\ (d_nlayers d + 1) * (d_nrows d * d_ncols d) < two32 /\ get_cell_temperature d s 1 1 0 = Ok 307%Q.
Proof.
  exists wd, (mkSim [301; 302; 303; 304; 305; 306; 307; 308]%Q (wpgm q_empty q_empty []) tt (wan 1 0) tt). split; [apply wd_accepted|]. repeat split; vm_compute; reflexivity.
Qed.
Print Assumptions C54_inside. Print Assumptions C54_always_answers. Print Assumptions C54_above_partial. Print Assumptions C54_outside_refuted.

(** ** C22: what a reset does at any time *)
Theorem C22_reset_temperatures : forall {M PS} (s : sim M PS),
    length (s_temps (reset_thermal_state s)) = length (s_temps s) /\
    (forall x, In x (s_temps (reset_thermal_state s)) -> x = an_initial (s_an s)) /\
    s_pg (reset_thermal_state s) = s_pg s /\ s_an (reset_thermal_state s) = s_an s /\
    s_matrix (reset_thermal_state s) = s_matrix s /\ s_plugin (reset_thermal_state s) = s_plugin s.
Proof.
  intros M PS s. unfold reset_thermal_state. cbn. rewrite map_length. split; [reflexivity|]. split; [|auto].
  intros x H. apply in_map_iff in H. destruct H as (y & <- & _). reflexivity.
Qed.
Print Assumptions C22_reset_temperatures.

(** ** C55 *)
(** Calls: a step, an insertion of power values, a change of the flow rate
    (ml/min), with their answers. *)
Inductive action := Step (r : simresult) | Insert (vs : list Q) (e : error_t) | Flow (fr : Q) (e : error_t).
Section Course.
  Context {PS : Type}.
  Variable solve : sysmatrix -> list Q -> error_t * list Q.
  Variable plugin : PS -> list Q -> list Q -> bool * list Q * PS.
  Variable factor : sysmatrix -> error_t.
  Variable d : dims.
  (** [course g s t g' s']: the calls [t] lead from the stack [g] in state [s] to
      the stack [g'] in state [s']. *)
  Inductive course : tgrid -> sim sysmatrix PS -> list action -> tgrid -> sim sysmatrix PS -> Prop :=
  | K_nil : forall g s, course g s [] g s
  | K_step : forall g s r s1 t g2 s2, emulate_step solve plugin d s = Ok (r, s1) -> course g s1 t g2 s2 -> course g s (Step r :: t) g2 s2
  | K_insert : forall g s pv vs e pg' pv' t g2 s2, qrep pv vs -> insert_power_values (s_pg s) pv = Ok (e, pg', pv') ->
      course g (with_pg s pg') t g2 s2 -> course g s (Insert vs e :: t) g2 s2
  | K_flow : forall g s fr e g1 s1 t g2 s2, update_coolant_flow_rate factor d g s fr = Ok (e, g1, s1) ->
      course g1 s1 t g2 s2 -> course g s (Flow fr e :: t) g2 s2.
End Course.
Definition accepted_call (a : action) : Prop :=
  match a with Step r => done r | Insert _ e => e = TDICE_SUCCESS | Flow _ e => e = TDICE_SUCCESS end.
(** The steps and insertions of a course; the flow rate in force at its end. *)
Definition powered (t : list action) : list event :=
  flat_map (fun a => match a with Step r => [Stepped r] | Insert vs e => [Inserted vs e] | Flow _ _ => [] end) t.
Definition last_flow (ch : channel) (t : list action) : channel :=
  fold_left (fun c a => match a with Flow fr _ => set_flow c (flow_rate_um3sec fr) | _ => c end) t ch.

Lemma last_flow_last : forall t ch, last_flow ch t = set_flow ch (co_flow_rate (last_flow ch t)).
Proof.
  intros t. induction t as [|a t IH] using rev_ind; intro ch.
  - cbn. destruct ch. reflexivity.
  - unfold last_flow in *. rewrite fold_left_app. cbn [fold_left]. destruct a as [r|vs e|fr e]; try apply IH. rewrite IH. reflexivity.
Qed.

Lemma course_at : forall {PS} solve plugin factor d g (s : sim sysmatrix PS) t g' s', in_place solve plugin ->
    course solve plugin factor d g s t g' s' -> forall ch L n tot, tg_channel g = Some ch -> at_step d L n tot s -> assembled g d s ->
    Forall accepted_call t -> n + Z.of_nat (steps_of (powered t)) < two32 -> small_queues (given tot (powered t)) ->
    at_step d L (n + Z.of_nat (steps_of (powered t))) (given tot (powered t)) s' /\ assembled g' d s' /\ an_step (s_an s') = an_step (s_an s) /\
    tg_channel g' = Some (last_flow ch t) /\ g' = set_channel_tgrid g (last_flow ch t).
Proof.
  intros PS solve plugin factor d g s t g' s' IP H.
  assert (HIST : forall L n tot s e s1, at_step d L n tot s -> history solve plugin d s [e] s1 -> went_well e -> n + Z.of_nat (steps_of [e]) < two32 -> small_queues (given tot [e]) ->
     forall g, assembled g d s -> at_step d L (n + Z.of_nat (steps_of [e])) (given tot [e]) s1 /\ assembled g d s1 /\ an_step (s_an s1) = an_step (s_an s)).
  { intros L n tot s0 e s1 AT HI W B SM g0 A. destruct (history_at solve plugin IP d s0 [e] s1 HI L n tot AT (Forall_cons _ W (Forall_nil _)) B SM) as (AT1 & (K1 & K2 & K3 & K4 & K5) & _).
    split; [exact AT1|]. split; [|exact K4]. apply (assembled_same g0 d s0 s1 A K1 K2); [|assumption].
    destruct (at_good _ _ _ _ _ AT1) as (_ & _ & Z1 & _). destruct (at_good _ _ _ _ _ AT) as (_ & _ & Z2 & _). congruence. }
  induction H as [g s|g s r s1 t g2 s2 E H IH|g s pv vs e pg' pv' t g2 s2 V E H IH|g s fr e g1 s1 t g2 s2 E H IH]; intros ch L n tot TC AT A W B SM.
  - cbn [powered flat_map steps_of filter length given last_flow fold_left]. replace (n + Z.of_nat 0) with n by lia.
    split; [exact AT|]. split; [exact A|]. split; [reflexivity|]. split; [exact TC|]. destruct g. cbn in TC. subst. reflexivity.
  - inversion W as [|? ? W1 W2]; subst. change (powered (Step r :: t)) with (Stepped r :: powered t) in *.
    assert (S1 : Z.of_nat (steps_of (Stepped r :: powered t)) = 1 + Z.of_nat (steps_of (powered t))) by (unfold steps_of; cbn [filter is_step length]; lia).
    rewrite S1 in *. cbn [given] in *.
    destruct (step_at solve plugin IP d L n tot s r s1 AT E W1 ltac:(lia)) as (AT1 & (K1 & K2 & K3 & K4 & K5) & _).
    assert (A1 : assembled g d s1).
    { apply (assembled_same g d s s1 A K1 K2); [|assumption]. destruct (at_good _ _ _ _ _ AT1) as (_ & _ & Z1 & _). destruct (at_good _ _ _ _ _ AT) as (_ & _ & Z2 & _). congruence. }
    destruct (IH ch L (n + 1) tot TC AT1 A1 W2 ltac:(lia) SM) as (R1 & R2 & R3 & R4). replace (n + (1 + Z.of_nat (steps_of (powered t)))) with (n + 1 + Z.of_nat (steps_of (powered t))) by lia.
    split; [exact R1|]. split; [exact R2|]. split; [congruence|exact R4].
  - inversion W as [|? ? W1 W2]; subst. cbn [accepted_call] in W1. subst e. change (powered (Insert vs TDICE_SUCCESS :: t)) with (Inserted vs TDICE_SUCCESS :: powered t) in *.
    assert (S1 : steps_of (Inserted vs TDICE_SUCCESS :: powered t) = steps_of (powered t)) by reflexivity. rewrite S1 in *. cbn [given] in *.
    destruct (HIST L n tot s (Inserted vs TDICE_SUCCESS) (with_pg s pg') AT (H_insert _ _ _ _ _ _ _ _ _ _ _ V E (H_nil _ _ _ _)) eq_refl) with (g := g) as (AT1 & A1 & K4).
    + cbn. pose proof (at_n _ _ _ _ _ AT). lia.
    + cbn [given]. apply (small_given _ _ SM).
    + exact A.
    + cbn [given] in AT1. change (Z.of_nat (steps_of [Inserted vs TDICE_SUCCESS])) with 0 in AT1. rewrite Z.add_0_r in AT1.
      destruct (IH ch L n (give tot vs) TC AT1 A1 W2 B SM) as (R1 & R2 & R3 & R4). auto.
  - inversion W as [|? ? W1 W2]; subst. cbn [accepted_call] in W1. subst e. change (powered (Flow fr TDICE_SUCCESS :: t)) with (powered t) in *.
    destruct (update_at factor d g s fr L n tot AT A ltac:(congruence)) as (e' & g1' & s1' & E' & X1 & X2 & X3 & X4 & X5 & (ch0 & X6 & X7) & X8 & X9).
    rewrite E in E'. assert (e' = TDICE_SUCCESS /\ g1' = g1 /\ s1' = s1) as (-> & -> & ->) by (repeat split; congruence).
    destruct (X9 eq_refl) as (AT1 & A1). assert (ch0 = ch) as -> by congruence. subst g1.
    destruct (IH (set_flow ch (flow_rate_um3sec fr)) L n tot eq_refl AT1 A1 W2 B SM) as (R1 & R2 & R3 & R4 & R5).
    split; [exact R1|]. split; [exact R2|]. split; [congruence|]. split; [exact R4|]. rewrite R5. reflexivity.
Qed.

(** After any sequence of accepted calls the call answers what the
    factorisation of the new matrix answers; the temperatures, the time, the
    plugin and the powers waiting stay. *)
Theorem C55_update : forall {PS} solve plugin factor g d (s s1 : sim sysmatrix PS) g1 qs t ch fr,
    in_place solve plugin -> assembled g d s -> good_sim d s -> an_time (s_an s) = 0 -> queued (s_pg s) qs -> tg_channel g = Some ch ->
    course solve plugin factor d g s t g1 s1 -> Forall accepted_call t -> small_queues (given qs (powered t)) -> Z.of_nat (steps_of (powered t)) < two32 ->
    exists e g2 s2, update_coolant_flow_rate factor d g1 s1 fr = Ok (e, g2, s2) /\ e = factor (s_matrix s2) /\
      s_temps s2 = s_temps s1 /\ s_an s2 = s_an s1 /\ s_plugin s2 = s_plugin s1 /\ pg_flps (s_pg s2) = pg_flps (s_pg s1).
Proof.
  intros PS solve plugin factor g d s s1 g1 qs t ch fr IP A GS T0 Q TC H W SM B.
  destruct (course_at solve plugin factor d g s t g1 s1 IP H ch _ 0 qs TC (at_start d s qs GS T0 Q) A W ltac:(lia) SM) as (AT & A1 & _ & TC1 & _).
  destruct (update_at factor d g1 s1 fr _ _ _ AT A1 ltac:(congruence)) as (e & g2 & s2 & E & X1 & X2 & X3 & X4 & X5 & _).
  exists e, g2, s2. auto 10.
Qed.

(** The microchannel declared with another flow rate (ml/min). *)
Definition with_flow (cd : channel_decl) (fr : Q) : channel_decl :=
  match cd with
  | Decl4RM h w _ hs ht hb vhc tin => Decl4RM h w fr hs ht hb vhc tin
  | Decl2RM h len wl w _ hs ht hb vhc tin => Decl2RM h len wl w fr hs ht hb vhc tin
  | DeclPF st h por pin darcy vhc tin htc => DeclPF st h por pin darcy vhc tin htc
  end.
Definition pin_fins (cd : channel_decl) : bool := match cd with DeclPF _ _ _ _ _ _ _ _ => true | _ => false end.

Lemma with_flow_declared : forall cd fr L n ch ch', pin_fins cd = false -> declare_channel cd L n = Ok ch -> declare_channel (with_flow cd fr) L n = Ok ch' ->
    ch' = set_flow ch (flow_rate_um3sec fr).
Proof.
  intros cd fr L n ch ch' P E E'. destruct cd; try discriminate P; cbn [with_flow declare_channel] in *.
  - assert (EI : forall (a b c : channel), Ok a = Ok b -> a = b) by (intros; congruence). rewrite <- (EI _ _ ch E), <- (EI _ _ ch E'). reflexivity.
  - destruct (to_u32 _) as [k| |]; cbn [bind] in *; try discriminate.
    assert (EI : forall (a b c : channel), Ok a = Ok b -> a = b) by (intros; congruence). rewrite <- (EI _ _ ch E), <- (EI _ _ ch E'). reflexivity.
Qed.

Lemma filled_coefficients : forall g d an an' m m', good_tgrid d g -> an_type an = an_type an' -> an_step an = an_step an' -> filled g d an m -> filled g d an' m' ->
    forall i j, 0 <= i < unknowns g d -> 0 <= j < unknowns g d -> coefficient m i j = coefficient m' i j.
Proof.
  intros g d an an' m m' G E1 E2 (m0 & L1 & L2 & F) (m0' & L1' & L2' & F') i j I J.
  destruct (fill_stored g d an m0 m G L1 L2 F) as (rt & vt & -> & _). destruct (fill_stored g d an' m0' m' G L1' L2' F') as (rt' & vt' & -> & _).
  destruct (node_of g d G i I) as (a & VA & <-). destruct (node_of g d G j J) as (b & VB & <-).
  rewrite (coeff_col g d an G rt vt a b VB), (coeff_col g d an' G rt' vt' a b VB).
  assert (col g d an = col g d an') as ->; [|reflexivity].
  unfold col. destruct an, an'. cbn in E1, E2. subst. reflexivity.
Qed.

(** The last flow rate asked for in a sequence of calls. *)
Definition asked (fr0 : Q) (t : list action) : Q := fold_left (fun fr a => match a with Flow fr' _ => fr' | _ => fr end) t fr0.
Definition declared_flow (cd : channel_decl) : Q := match cd with Decl4RM _ _ fr _ _ _ _ _ => fr | Decl2RM _ _ _ _ fr _ _ _ _ _ => fr | DeclPF _ _ _ _ _ _ _ _ => 0%Q end.

Lemma set_flow_twice : forall ch a b, set_flow (set_flow ch a) b = set_flow ch b.
Proof. intros [] a b. reflexivity. Qed.
Lemma last_flow_asked : forall t cd L n ch, pin_fins cd = false -> declare_channel cd L n = Ok ch ->
    declare_channel (with_flow cd (asked (declared_flow cd) t)) L n = Ok (last_flow ch t).
Proof.
  intros t cd L n ch P E.
  assert (OK : forall fr, declare_channel (with_flow cd fr) L n = Ok (set_flow ch (flow_rate_um3sec fr))).
  { intro fr. assert (exists c, declare_channel (with_flow cd fr) L n = Ok c) as (c & E').
    { destruct cd; try discriminate P; cbn [with_flow declare_channel] in *; [eauto|]. destruct (to_u32 _) as [k| |]; cbn [bind] in *; try discriminate. eauto. }
    rewrite E'. f_equal. apply (with_flow_declared cd fr L n ch c P E E'). }
  rewrite OK. f_equal. assert (I : set_flow ch (flow_rate_um3sec (declared_flow cd)) = ch).
  { symmetry. apply (with_flow_declared cd (declared_flow cd) L n ch ch P E). destruct cd; try discriminate P; exact E. }
  unfold last_flow, asked. induction t as [|a t IH] using rev_ind; [exact I|]. rewrite !fold_left_app. cbn [fold_left].
  destruct a as [r|vs e|fr e]; try exact IH. rewrite <- IH. rewrite set_flow_twice. reflexivity.
Qed.

(** After any sequence of accepted calls the matrix in use has the coefficients
    of the matrix of the stack declared with the last flow rate asked for, the
    rest of the stack is the one described, and every cell dissipates the powers
    of the slot and the inlet source of that flow rate. *)
Theorem C55_same_as_declared : forall {PS} solve plugin factor g d (s s1 : sim sysmatrix PS) g1 qs t ch cd L,
    in_place solve plugin -> assembled g d s -> good_sim d s -> an_time (s_an s) = 0 -> queued (s_pg s) qs ->
    tg_channel g = Some ch -> pin_fins cd = false -> declare_channel cd L (d_ncols d) = Ok ch ->
    course solve plugin factor d g s t g1 s1 -> Forall accepted_call t -> small_queues (given qs (powered t)) -> Z.of_nat (steps_of (powered t)) < two32 ->
    exists ch', declare_channel (with_flow cd (asked (declared_flow cd) t)) L (d_ncols d) = Ok ch' /\
      let g' := mkTgrid (tg_types g) (tg_layers g) (Some ch') (tg_top g) (tg_bottom g) in
      g1 = g' /\
      (forall m', filled g' d (s_an s) m' -> forall i j, 0 <= i < unknowns g d -> 0 <= j < unknowns g d -> coefficient (s_matrix s1) i j = coefficient m' i j) /\
      pg_channel (s_pg s1) = Some ch' /\
      (0 < Z.of_nat (steps_of (powered t)) ->
       dissipates (s_pg s1) d (map (fun l => nth (Z.to_nat (slots_begun (an_slot_length (s_an s)) (Z.of_nat (steps_of (powered t))) - 1)) l 0%Q) (given qs (powered t)))).
Proof.
  intros PS solve plugin factor g d s s1 g1 qs t ch cd L IP A GS T0 Q TC P DC H W SM B.
  destruct (course_at solve plugin factor d g s t g1 s1 IP H ch _ 0 qs TC (at_start d s qs GS T0 Q) A W ltac:(lia) SM) as (AT & A1 & K & TC1 & EG).
  exists (last_flow ch t). split; [apply last_flow_asked; assumption|]. cbv zeta. split; [exact EG|].
  split; [|split].
  - intros m' F i j I J. fold (set_channel_tgrid g (last_flow ch t)) in F. rewrite <- EG in F.
    apply (filled_coefficients g1 d (s_an s1) (s_an s)); try assumption.
    + apply (as_grid _ _ _ A1).
    + destruct (at_good _ _ _ _ _ AT) as (_ & _ & Z1 & _). destruct GS as (_ & _ & Z2 & _). congruence.
    + apply (as_matrix _ _ _ A1).
    + rewrite EG. rewrite (last_flow_last t ch). rewrite flow_unknowns; assumption.
    + rewrite EG. rewrite (last_flow_last t ch). rewrite flow_unknowns; assumption.
  - rewrite (go_channel _ _ _ (as_power _ _ _ A1)). exact TC1.
  - intro N. pose proof (at_power _ _ _ _ _ AT) as R. cbn [Z.add] in R. apply R. exact N.
Qed.

(** Energy: the step after any sequence of accepted calls, with the enthalpies
    of the flow rate in force. *)
Theorem C55_energy : forall {PS} solve plugin factor g d (s s1 s2 : sim sysmatrix PS) g1 qs t ch r,
    in_place solve plugin -> exact solve -> assembled g d s -> good_sim d s -> an_time (s_an s) = 0 -> queued (s_pg s) qs ->
    tg_channel g = Some ch -> 2 <= d_nrows d ->
    course solve plugin factor d g s t g1 s1 -> Forall accepted_call t -> small_queues (given qs (powered t)) -> Z.of_nat (steps_of (powered t)) + 1 < two32 ->
    emulate_step solve plugin d s1 = Ok (r, s2) -> done r ->
    let k := Z.to_nat (slots_begun (an_slot_length (s_an s)) (Z.of_nat (steps_of (powered t)) + 1)) in
    (heat_content s2 - heat_content s1 ==
     an_step (s_an s) * (qsum (map (fun l => nth (k - 1) l 0) (given qs (powered t))) + from_plugin d s2
                         + enthalpy_in d s2 - enthalpy_out d s2 - lost_top d s2 - lost_bottom d s2))%Q /\
    pg_channel (s_pg s2) = Some (last_flow ch t).
Proof.
  intros PS solve plugin factor g d s s1 s2 g1 qs t ch r IP EX A GS T0 Q TC NSR H W SM B E D k.
  destruct (course_at solve plugin factor d g s t g1 s1 IP H ch _ 0 qs TC (at_start d s qs GS T0 Q) A W ltac:(lia) SM) as (AT & A1 & K4 & TC1 & EG).
  destruct (step_at solve plugin IP d _ _ _ s1 r s2 AT E D ltac:(lia)) as (AT2 & (K1 & _) & _).
  pose proof (at_power _ _ _ _ _ AT2 ltac:(lia)) as DP. cbn [Z.add] in *.
  pose proof (energy_step solve plugin IP EX g1 d (as_grid _ _ _ A1) s1 s2 _ _ r A1 (at_good _ _ _ _ _ AT) (at_queues _ _ _ _ _ AT) (or_introl NSR) E D DP) as R.
  rewrite map_length in R. pose proof (at_queues _ _ _ _ _ AT2) as Q2. apply Forall2_len in Q2. rewrite map_length in Q2.
  specialize (R (eq_sym Q2)). rewrite K4 in R. split.
  - rewrite R. replace (Z.to_nat (slots_begun (an_slot_length (s_an s)) (Z.of_nat (steps_of (powered t)) + 1) - 1)) with (k - 1)%nat by (unfold k; lia). reflexivity.
  - destruct K1 as (_ & _ & _ & _ & _ & _ & K & _). rewrite K, (go_channel _ _ _ (as_power _ _ _ A1)). exact TC1.
Qed.

(** The heat carried is proportional to the flow rate (microchannels); with pin
    fins it does not depend on it, and the call has no effect. *)
Theorem C55_flow_carried : forall cd L n ch d fr a l c, pin_fins cd = false -> declare_channel cd L n = Ok ch ->
    (convection (set_flow ch (flow_rate_um3sec (a * fr))) d l c == a * convection (set_flow ch (flow_rate_um3sec fr)) d l c)%Q.
Proof.
  intros cd L n ch d fr a l c P E. unfold convection, get_convective_term.
  assert (ch_model ch = CM_MC_4RM \/ ch_model ch = CM_MC_2RM) as M.
  { destruct cd; try discriminate P; cbn [declare_channel] in E; [|destruct (to_u32 _); cbn [bind] in E; try discriminate E];
      assert (EI : forall (a b : channel), Ok a = Ok b -> a = b) by (intros; congruence); rewrite <- (EI _ _ E); auto. }
  cbn [ch_model set_flow co_flow_rate co_vhc ch_nchannels ch_porosity ch_length]. unfold flow_rate_um3sec, Qdiv.
  destruct M as [-> | ->]; ring.
Qed.
Theorem C55_pin_fins : forall cd L n ch fr, pin_fins cd = true -> declare_channel cd L n = Ok ch ->
    forall d l c, convection (set_flow ch fr) d l c = convection ch d l c.
Proof.
  intros cd L n ch fr P E d l c. destruct cd; try discriminate P. cbn [declare_channel] in E.
  assert (EI : forall (a b : channel), Ok a = Ok b -> a = b) by (intros; congruence). rewrite <- (EI _ _ E). destruct staggered; reflexivity.
Qed.
Print Assumptions C55_update. Print Assumptions C55_same_as_declared. Print Assumptions C55_energy. Print Assumptions C55_flow_carried. Print Assumptions C55_pin_fins.

(** Witness: flow changed, a step, flow changed again, then a step: the first
    step as in C33_witness with twice the flow, the coolant inlet at 300. *)
Definition cd_cool : channel_decl := Decl4RM 3 wmat (3 # 1000000000000) 1 2 3 4 300.
Definition wflow (g : tgrid) (fr : Q) (s : sim sysmatrix unit) : sim sysmatrix unit :=
  match update_coolant_flow_rate (fun _ => TDICE_SUCCESS) (dcool 2) g s fr with Ok (_, _, s') => s' | _ => s end.
Definition gflow (fr : Q) : tgrid := set_channel_tgrid gcool (set_flow chcool (flow_rate_um3sec fr)).
Definition c55 : list Q :=
  [310; 313; 310; 310; 1556 # 5; 310; 935 # 3; 6393091 # 21000; 935 # 3; 32716 # 105; 2156157 # 7000; 32716 # 105;
   322571 # 1050; 138107 # 450; 322571 # 1050; 322571 # 1050; 275539 # 900; 322571 # 1050]%Q.
Example C55_witness : exists solve s s1 s2 s3 t,
    exact solve /\ in_place solve wplugin /\ assembled gcool (dcool 2) s /\ good_sim (dcool 2) s /\ an_time (s_an s) = 0 /\ queued (s_pg s) [] /\
    tg_channel gcool = Some chcool /\ pin_fins cd_cool = false /\ declare_channel cd_cool 30 (d_ncols (dcool 2)) = Ok chcool /\ 2 <= d_nrows (dcool 2) /\
    course solve wplugin (fun _ => TDICE_SUCCESS) (dcool 2) gcool s t (gflow (6 # 1000000000000)) s1 /\ Forall accepted_call t /\
    t = [Flow (6 # 1000000000000) TDICE_SUCCESS] /\
    emulate_step solve wplugin (dcool 2) s1 = Ok (TDICE_SLOT_DONE, s2) /\
    ~ (enthalpy_out (dcool 2) s2 - enthalpy_in (dcool 2) s2 == 0)%Q /\ ~ (heat_content s2 - heat_content s1 == 0)%Q /\
    course solve wplugin (fun _ => TDICE_SUCCESS) (dcool 2) gcool s (t ++ [Step TDICE_SLOT_DONE; Flow (9 # 1000000000000) TDICE_SUCCESS]) (gflow (9 # 1000000000000)) s3.
Proof.
  set (s0 := scool 2 (repeat 0%Q 18) c55). set (sv := guess [c1]). set (s1 := wflow gcool (6 # 1000000000000) s0).
  set (s2 := next sv (dcool 2) s1).
  assert (E1 : update_coolant_flow_rate (fun _ => TDICE_SUCCESS) (dcool 2) gcool s0 (6 # 1000000000000) = Ok (TDICE_SUCCESS, gflow (6 # 1000000000000), s1)) by (vm_compute; reflexivity).
  assert (E2 : emulate_step sv wplugin (dcool 2) s1 = Ok (TDICE_SLOT_DONE, s2)) by (apply next_ok; vm_compute; reflexivity).
  set (s3 := wflow (gflow (6 # 1000000000000)) (9 # 1000000000000) s2).
  exists sv, s0, s1, s2, s3, [Flow (6 # 1000000000000) TDICE_SUCCESS].
  split; [apply guess_exact|]. split; [apply guess_in_place|]. split; [apply scool_assembled; auto|]. split; [apply scool_good; auto|]. split; [reflexivity|]. split; [constructor|].
  split; [reflexivity|]. split; [reflexivity|]. split; [vm_compute; reflexivity|]. split; [vm_compute; discriminate|].
  split; [eapply K_flow; [exact E1|constructor]|].
  split; [repeat constructor|]. split; [reflexivity|]. split; [exact E2|].
  split; [vm_compute; discriminate|]. split; [vm_compute; discriminate|].
  cbn [app]. eapply K_flow; [exact E1|]. eapply K_step; [exact E2|]. eapply K_flow; [|constructor].
  vm_compute. reflexivity.
Qed.
Print Assumptions C55_witness.
