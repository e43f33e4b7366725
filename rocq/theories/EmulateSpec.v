(** * Specification vocabulary: powers, sources and slots *)
From Coq Require Import ZArith List Bool QArith.
From Verif Require Import Base QSum Dims Queue QueueProofs Floorplan FloorplanSpec Stack StackSpec PowerGrid Emulate.
Import ListNotations.
Local Open Scope Z_scope.

(** All floorplan elements of the stack: dies from the bottom, elements in file
    order; [located_elements] adds the number of their layer. *)
Definition layer_elements (o : option floorplan) : list flpel :=
  match o with Some f => f_elements f | None => [] end.
Definition elements (pg : pgrid) : list flpel := flat_map layer_elements (pg_flps pg).
Fixpoint located_from (l : Z) (fs : list (option floorplan)) : list (Z * flpel) :=
  match fs with
  | [] => []
  | o :: fs' => map (pair l) (layer_elements o) ++ located_from (l + 1) fs'
  end.
Definition located_elements (pg : pgrid) : list (Z * flpel) := located_from 0 (pg_flps pg).

(** The queues of the elements hold the values [qs], oldest first. *)
Definition queued (pg : pgrid) (qs : list (list Q)) : Prop :=
  Forall2 (fun e l => qrep (fe_powers e) l) (elements pg) qs.

(** A floorplan as fill_floorplan leaves it, whatever its queues now hold. *)
Definition good_floorplan (d : dims) (f : floorplan) : Prop :=
  exists els f0, Forall (good_element d) els /\ coefficients els < two32 /\ fill_floorplan els d = Ok f0 /\
    f_matrix f = f_matrix f0 /\ map fe_ics (f_elements f) = map fe_ics els /\ length (f_bpowers f) = length els.

Definition is_coolant (t : layer_type) : bool :=
  match t with LT_CHANNEL_4RM | LT_CHANNEL_2RM | LT_PINFINS_INLINE | LT_PINFINS_STAGGERED => true | _ => false end.

(** What C24 establishes about one layer of the power grid. *)
Definition good_layer (d : dims) (pg : pgrid) (t : layer_type) (fo : option floorplan) : Prop :=
  t <> LT_NONE /\ (is_source t = true <-> fo <> None) /\ (forall f, fo = Some f -> good_floorplan d f) /\
  (to_ambient t = true -> has_ambient (pg_top pg)) /\ (to_pcb t = true -> pg_bottom pg <> None) /\
  (is_coolant t = true -> pg_channel pg <> None).

(** A power grid that fits the dimensions. *)
Definition good_pgrid (d : dims) (pg : pgrid) : Prop :=
  good_grid d /\ 1 <= d_nlayers d /\ Z.of_nat (length (d_heights d)) = d_nlayers d /\
  pg_ncells pg = chip_cells d + spreader_cells (pg_top pg) /\ pg_ncells pg < two32 /\
  (forall s h m, pg_top pg = Some (SinkPluggable s h m) -> 0 < s_nrows s /\ 0 < s_ncols s) /\
  pg_ncells_layer pg = d_nrows d * d_ncols d /\
  Z.of_nat (length (pg_sources pg)) = pg_ncells pg /\ Z.of_nat (length (pg_caps pg)) = pg_ncells pg /\
  Z.of_nat (length (pg_top_tcs pg)) = d_nrows d * d_ncols d /\
  Z.of_nat (length (pg_bottom_tcs pg)) = d_nrows d * d_ncols d /\
  Z.of_nat (length (pg_types pg)) = d_nlayers d /\
  Forall2 (good_layer d pg) (pg_types pg) (pg_flps pg).

(** Heat entering cell (l,r,c) from outside the chip per unit of time, at zero
    temperature of the cell: ambient and incoming coolant. *)
Definition convection (ch : channel) (d : dims) (l c : Z) : Q :=
  match get_convective_term ch d l 0 c with Ok x => x | _ => 0%Q end.
Definition boundary_source (pg : pgrid) (d : dims) (l r c : Z) : Q :=
  let t := nth (Z.to_nat l) (pg_types pg) LT_NONE in
  let i := Z.to_nat (r * d_ncols d + c) in
  ((if to_ambient t then match pg_top pg with Some k => top_ambient k | None => 0 end * nth i (pg_top_tcs pg) 0 else 0) +
   (if to_pcb t then match pg_bottom pg with Some k => bs_ambient k | None => 0 end * nth i (pg_bottom_tcs pg) 0 else 0) +
   (if is_coolant t && (r =? 0)%Z then
      match pg_channel pg with
      | Some ch => if is_channel_column (ch_model ch) c then 2 * convection ch d l c * co_tin ch else 0
      | None => 0
      end else 0))%Q.

(** Source of cell (l,r,c) when element number k dissipates [powers_k]: each
    element of layer [l] gives the cell the share of its area. *)
Definition expected_source (pg : pgrid) (d : dims) (powers : list Q) (l r c : Z) : Q :=
  (boundary_source pg d l r c +
   qsum (map (fun x => if Z.eqb (fst (fst x)) l
                       then snd x * covered_by d (snd (fst x)) r c / area_of (snd (fst x)) else 0)
             (combine (located_elements pg) powers)))%Q.

(** Cell (l,r,c) of a vector over the stack. *)
Definition at_cell (d : dims) (v : list Q) (l r c : Z) : Q :=
  nth (Z.to_nat (l * (d_nrows d * d_ncols d) + r * d_ncols d + c)) v 0%Q.

(** The sources of the chip cells are those of [powers]. *)
Definition dissipates (pg : pgrid) (d : dims) (powers : list Q) : Prop :=
  forall l r c, 0 <= l < d_nlayers d -> 0 <= r < d_nrows d -> 0 <= c < d_ncols d ->
    (at_cell d (pg_sources pg) l r c == expected_source pg d powers l r c)%Q.

(** Everything but sources and queues is unchanged. *)
Definition same_fields (pg pg' : pgrid) : Prop :=
  pg_nlayers pg' = pg_nlayers pg /\ pg_ncells pg' = pg_ncells pg /\ pg_ncells_layer pg' = pg_ncells_layer pg /\
  pg_types pg' = pg_types pg /\ pg_top pg' = pg_top pg /\ pg_bottom pg' = pg_bottom pg /\
  pg_channel pg' = pg_channel pg /\ pg_caps pg' = pg_caps pg /\
  pg_top_tcs pg' = pg_top_tcs pg /\ pg_bottom_tcs pg' = pg_bottom_tcs pg /\
  map (fun x => (fst x, fe_id (snd x), fe_ics (snd x))) (located_elements pg') =
  map (fun x => (fst x, fe_id (snd x), fe_ics (snd x))) (located_elements pg).

(** Taking the next value of every queue, in order, until one is empty. *)
Fixpoint take_heads (qs : list (list Q)) : bool * list (list Q) * list Q :=
  match qs with
  | [] => (true, [], [])
  | [] :: r => (false, [] :: r, [])
  | (x :: l) :: r => let '(b, r', h) := take_heads r in (b, l :: r', x :: h)
  end.

(** Appending value k of [vs] to queue k, until there are no more values. *)
Fixpoint give (qs : list (list Q)) (vs : list Q) : list (list Q) :=
  match qs, vs with
  | l :: r, v :: vs' => (l ++ [v]) :: give r vs'
  | _, _ => qs
  end.

(** ** Simulations *)
Section SimSpec.
  Context {M PS : Type}.
  Variable solve : M -> list Q -> error_t * list Q.
  Variable plugin : PS -> list Q -> list Q -> bool * list Q * PS.

  (** The solver and the plugin overwrite vectors in place: they keep their
      length. *)
  Definition in_place : Prop :=
    (forall m b e x, solve m b = (e, x) -> length x = length b) /\
    (forall ps t v bad w ps', plugin ps t v = (bad, w, ps') -> length w = length v).

  (** A transient simulation ready to run. *)
  Definition good_sim (d : dims) (s : sim M PS) : Prop :=
    good_pgrid d (s_pg s) /\ Z.of_nat (length (s_temps s)) = pg_ncells (s_pg s) /\
    an_type (s_an s) = AT_TRANSIENT /\ 0 < an_slot_length (s_an s) < two32 /\ 0 <= an_time (s_an s) < two32.

  (** A slot starts at the next step. *)
  Definition on_boundary (s : sim M PS) : Prop := an_time (s_an s) mod an_slot_length (s_an s) = 0.

  (** Calls of the library, with the values passed and the answer. *)
  Inductive event := Stepped (r : simresult) | Inserted (vs : list Q) (e : error_t).

  Definition with_pg (s : sim M PS) (pg : pgrid) : sim M PS := mkSim (s_temps s) pg (s_matrix s) (s_an s) (s_plugin s).

  (** [history d s t s']: the calls [t] lead from [s] to [s']. *)
  Inductive history (d : dims) : sim M PS -> list event -> sim M PS -> Prop :=
  | H_nil : forall s, history d s [] s
  | H_step : forall s r s1 t s2, emulate_step solve plugin d s = Ok (r, s1) -> history d s1 t s2 ->
      history d s (Stepped r :: t) s2
  | H_insert : forall s pv vs e pg' pv' t s2, qrep pv vs -> insert_power_values (s_pg s) pv = Ok (e, pg', pv') ->
      history d (with_pg s pg') t s2 -> history d s (Inserted vs e :: t) s2.
End SimSpec.

(** Every step of the history was performed, every insertion accepted. *)
Definition went_well (e : event) : Prop :=
  match e with Stepped r => r = TDICE_STEP_DONE \/ r = TDICE_SLOT_DONE | Inserted _ x => x = TDICE_SUCCESS end.
(** Number of steps performed, their answers, and all the values given to each
    element, those of [qs] first. *)
Definition is_step (e : event) : bool := match e with Stepped _ => true | _ => false end.
Definition steps_of (t : list event) : nat := length (filter is_step t).
Definition answers (t : list event) : list simresult :=
  flat_map (fun e => match e with Stepped r => [r] | _ => [] end) t.
Fixpoint given (qs : list (list Q)) (t : list event) : list (list Q) :=
  match t with
  | [] => qs
  | Stepped _ :: t' => given qs t'
  | Inserted vs _ :: t' => given (give qs vs) t'
  end.
(** Number of slots begun after [n] steps of slots of [L] steps. *)
Definition slots_begun (L : Z) (n : Z) : Z := (n + L - 1) / L.
(** Queues that fit a 32-bit capacity when doubled. *)
Definition small_queues (qs : list (list Q)) : Prop := Forall (fun l => 2 * Z.of_nat (length l) < two32) qs.
