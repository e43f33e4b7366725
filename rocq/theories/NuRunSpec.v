(** * Specification vocabulary: simulations on the non-uniform grid *)
From Coq Require Import ZArith List Bool QArith.
From Verif Require Import Base QSum Dims Queue Floorplan Stack StackSpec PowerGrid Emulate Conduct Matrix MatrixSpec NonUniform NuSpec NuMatrix NuMatrixSpec NuSource NuSourceSpec NuEmulate PropNuMatrix.
Import ListNotations.
Local Open Scope Z_scope.

(** The spreader of a pluggable sink has the cells of the grid. *)
Definition spreader_fits (g : tgrid) (d : dims) (G : list nlayer) : Prop :=
  forall s h m, tg_top g = Some (SinkPluggable s h m) ->
    length G = S (length (tg_types g)) /\ Z.of_nat (length (layer_block G (length (tg_types g)))) = s_ncols s * s_nrows s.

(** A transient simulation before the first step: the power grid, the matrix and
    the capacities built for the grid [G], with the power values [qs l] waiting for
    each source layer [l]. *)
Record nu_start {PS} (g : tgrid) (d : dims) (hs : list Q) (G : list nlayer) (cs : list conn) (qs : nat -> list (list Q)) (s : nsim PS) : Prop := {
  st_grid : np_grid (n_pg s) = g;
  st_ready : ready (n_pg s) d hs G qs;
  st_network : network g d (n_an s) (np_cells (n_pg s)) cs (n_matrix s);
  st_caps : nu_caps g d (np_cells (n_pg s)) (Z.of_nat (length (np_cells (n_pg s)))) = Ok (np_caps (n_pg s));
  st_temps : length (n_temps s) = length (np_cells (n_pg s));
  st_type : an_type (n_an s) = AT_TRANSIENT;
  st_step : (0 < an_step (n_an s))%Q;
  st_slot : 0 < an_slot_length (n_an s) < two32;
  st_time : an_time (n_an s) = 0;
  st_sink : tg_top g <> None;
  st_spreader : spreader_fits g d G
}.

(** [n] steps that went well. *)
Definition went_on (r : simresult) : Prop := r = TDICE_STEP_DONE \/ r = TDICE_SLOT_DONE.
Inductive nu_steps {PS} solve (plugin : PS -> list Q -> list Q -> bool * list Q * PS) (d : dims) : nat -> nsim PS -> nsim PS -> Prop :=
| NS_nil : forall s, nu_steps solve plugin d 0 s s
| NS_step : forall n s r s1 s2, nu_steps solve plugin d n s s1 -> nu_emulate_step solve plugin d s1 = Ok (r, s2) -> went_on r ->
    nu_steps solve plugin d (S n) s s2.

(** Power values of the slot of step [n] (from 0), for a source layer. *)
Definition slot_powers (slot : Z) (n : nat) (vs : list (list Q)) : list Q := map (fun q => nth (n / Z.to_nat slot) q 0%Q) vs.

(** Sum over the cells, with their number. *)
Definition over_cells (cells : list cell) (f : Z -> cell -> Q) : Q :=
  qsum (map (fun i => f i (at_cell cells i)) (zrange 0 (Z.of_nat (length cells) - 1))).
(** Sum over the source layers. *)
Definition over_sources (g : tgrid) (f : nat -> Q) : Q :=
  qsum (map (fun l => if is_source (type_of g (Z.of_nat l)) then f l else 0%Q) (seq 0 (length (tg_types g)))).

(** Heat content; heat given to the air; carried out and brought in by the
    coolant; received from the board and from the plugin of a spreader. *)
Definition heat_content (g : tgrid) (d : dims) (cells : list cell) (x : list Q) : Q := over_cells cells (fun i c => heat_capacity g d c * qat x i)%Q.
Definition given_to_air (g : tgrid) (d : dims) (cells : list cell) (x : list Q) : Q :=
  match tg_top g with Some (SinkTop _ a) => over_cells cells (fun i c => to_air g d c * (qat x i - a))%Q | _ => 0%Q end.
Definition enthalpy_out (g : tgrid) (d : dims) (cells : list cell) (x : list Q) : Q := over_cells cells (fun i c => carried_out g d c * qat x i)%Q.
Definition enthalpy_in (g : tgrid) (d : dims) (G : list nlayer) : Q :=
  qsum (map (fun l => qsum (map (from_inlet g d l) (seq 0 (length (layer_block G l))))) (seq 0 (length (tg_types g)))).
Definition received_from_board (g : tgrid) (d : dims) (cells : list cell) : Q := over_cells cells (fun _ c => from_board g d c).
Definition received_from_plugin {PS} (d : dims) (s : nsim PS) : Q :=
  over_cells (np_cells (n_pg s)) (fun i c => if d_nlayers d <=? c_layer c then qat (np_sources (n_pg s)) i else 0%Q).

(** Values at the cells of the spreader of a pluggable sink: those above all the
    layers. *)
Definition spreader_values (g : tgrid) (G : list nlayer) (x : list Q) : list Q :=
  map (fun i => qat x (first_cell G (length (tg_types g)) + Z.of_nat i)) (seq 0 (length (layer_block G (length (tg_types g))))).
