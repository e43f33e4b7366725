(** * What the life of a simulation should leave in memory *)
From Coq Require Import ZArith List Bool QArith Permutation.
From Verif Require Import Base Own OwnSpec Life.
Import ListNotations.
Local Open Scope Z_scope.

(** An allocator that may fail, at any call, whatever the block: null, or an
    address not in use. *)
Definition faulty (try : block -> heap -> addr) : Prop := forall b h, try b h = 0 \/ get h (try b h) = None.

(** ** What the stack says about the layers of the grid
    The elements own blocks of the stack description; what they say is a list of
    pairs: number of a layer, contents of the layer. *)
Fixpoint numbered {A} (i : nat) (l : list A) : list (nat * A) := match l with [] => [] | x :: r => (i, x) :: numbered (S i) r end.
Definition owns_element (e : element) (says : list (nat * tree)) (L : heap) : Prop :=
  match e with
  | EDie i ys => exists cs, fields (map owns_layer ys) cs L /\ says = numbered i cs
  | ELayer i y => exists c, owns_layer y c L /\ says = [(i, c)]
  | EChannel i n height wall id => exists cw ci L1 L2, owns_material wall cw L1 /\ owns_text id ci L2 /\ L = L1 ++ L2 /\
      says = numbered i (repeat (TRec [ci; TNull; TNum height; cw; TRec []; TInt 0; TInt 0]) n)
  end.
Fixpoint owns_elements (es : list element) (says : list (nat * tree)) (L : heap) : Prop :=
  match es with
  | [] => says = [] /\ L = []
  | e :: r => exists s1 s2 L1 L2, says = s1 ++ s2 /\ L = L1 ++ L2 /\ owns_element e s1 L1 /\ owns_elements r s2 L2
  end.
(** Every number is that of a layer of the grid. *)
Definition inside (n : nat) (says : list (nat * tree)) : Prop := Forall (fun p => (fst p < n)%nat) says.
(** The contents of the layers: the last word on each of them. *)
Definition told (cs : list tree) (says : list (nat * tree)) : list tree := fold_left (fun cs p => upd cs (fst p) (snd p)) says cs.
Definition empty_layer : tree := TRec [TNull; TNull; TNum 0; TRec [TNull; TNum 0; TNum 0; TNum 0; TNum 0]; TRec []; TInt 0; TInt 0].

(** ** The blocks of a simulation *)
(** Arrays at given addresses. *)
Inductive arrays : list addr -> heap -> Prop :=
| arrays_nil : arrays [] []
| arrays_cons : forall a n l L, a <> 0 -> arrays l L -> arrays (a :: l) ((a, BRaw n) :: L).
Definition owns_grid (g : tg_v) (cs : list tree) (L : heap) : Prop :=
  exists n ls L1, tg_types g <> 0 /\ tg_layers g <> 0 /\ length ls = tg_n g /\ fields (map owns_layer ls) cs L1 /\
  L = (tg_types g, BRaw n) :: (tg_layers g, BLayers ls) :: L1.
Definition owns_powers (p : pg_v) (L : heap) : Prop := arrays [pg_types p; pg_flps p; pg_sources p; pg_top p; pg_bottom p; pg_caps p] L.
(** The matrix, the arrays given to SuperLU, and the stores; [ll] and [lu] are the
    arrays the stores of L and U point to. *)
Definition owns_matrix (s : sm_v) (L : heap) : Prop :=
  exists L1 L2 L3 L4 L5 ll lu, let l := sm_la s in let u := sm_ua s in let o := sm_opt s in let g := sm_stat s in
  arrays [sm_cols s; sm_rows s; sm_vals s] L1 /\
  arrays [la_nz l; la_ncb l; la_nce l; la_ri l; la_rcb l; la_rce l; la_cts l; la_scb l; la_sce l] L2 /\
  arrays [ua_nz u; ua_ri u; ua_cb u; ua_ce u] L3 /\
  arrays [gs_histo g; gs_utime g; gs_ops g; gs_proc g] L4 /\
  arrays [so_pr o; so_pc o; so_et o; so_cc o; so_ps o] L5 /\
  sm_l s <> 0 /\ sm_u s <> 0 /\ sm_a s <> 0 /\
  L = L1 ++ L2 ++ L3 ++ L4 ++ L5 ++ [(sm_l s, BPointers ll)] ++ [(sm_u s, BPointers lu)] ++ [(sm_a s, BPointers [sm_vals s; sm_rows s; sm_cols s])].
(** A_Permuted, after the first factorization *)
Definition owns_permuted (s : sm_v) (L : heap) : Prop :=
  exists p q L1, arrays [p; q] L1 /\ sm_ap s <> 0 /\ L = (sm_ap s, BPointers [sm_vals s; sm_rows s; p; q]) :: L1.
(** A built simulation whose layers hold [cs] *)
Definition owns_simulation (t : td_v) (cs : list tree) (L : heap) : Prop :=
  exists n L1 L2 L3 L4, td_temps t <> 0 /\ td_b t <> 0 /\ sm_fact (td_sm t) = true /\
  owns_grid (td_tg t) cs L1 /\ owns_powers (td_pg t) L2 /\ owns_matrix (td_sm t) L3 /\ owns_permuted (td_sm t) L4 /\
  L = (td_temps t, BRaw n) :: (td_b t, BPointers [td_temps t]) :: L1 ++ L2 ++ L3 ++ L4.
(** The factors of one factorization: the arrays of L and U that SuperLU allocates. *)
Definition factors (L : heap) : Prop := exists l, length l = 13%nat /\ arrays l L.

(** The allocator fails at some time. *)
Definition exhausted (try : block -> heap -> addr) : Prop := exists b h, try b h = 0.
(** What a failed build leaves in memory: nothing, when there was no memory for an
    array; the grid, when the sinks or the channel were refused; A_Permuted and the
    factors, when the matrix has no factors. *)
Definition left_over (try : block -> heap -> addr) (k : case) (t : td_v) (cs : list tree) (Lost : heap) : Prop :=
  (exhausted try /\ Lost = []) \/ (k_refused k = true /\ owns_grid (td_tg t) cs Lost) \/
  (k_refused k = false /\ k_singular k = true /\ exists Lp Lf, length Lp = 3%nat /\ factors Lf /\ Lost = Lp ++ Lf).

(** ** The life of a simulation: it is built, the flow rate changes a number of
    times ([true]: the new matrix has no factors), it is destroyed. *)
Fixpoint updates (pick : heap -> addr) (t : td_v) (us : list bool) : M td_v :=
  match us with [] => ret t | u :: r => x <~ td_update pick t u ;; updates pick (snd x) r end.
Definition life (try : block -> heap -> addr) (pick : heap -> addr) (t : td_v) (k : case) (us : list bool) : M bool :=
  x <~ td_build_rest try pick t k ;;
  if fst x then t' <~ updates pick (snd x) us ;; _ <~ td_destroy t' ;; ret true else ret false.
