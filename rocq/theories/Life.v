(** * The life of a simulation in memory

    Model of these functions of /repo/sources, over the heap of Own.v:
    thermal_grid.c (init, build, fill, destroy), power_grid.c (init, build,
    destroy), system_matrix.c (init, build, allocate_L_Matrix, allocate_U_Matrix,
    do_factorization, destroy) and thermal_data.c (init, build, destroy,
    update_coolant_flow_rate), as far as they allocate and free memory; and of
    the memory used by the functions of SuperLU_MT 4.0 they call
    (superlu_mt-4.0.0.zip in /repo, SRC/pdutil.c, util.c, sp_colorder.c,
    pdmemory.c, pdgstrf_thread_finalize.c).

    An array of numbers is a block [BRaw n] with [n] entries, whose values are not
    modelled (C55, C58, C63 ... are about the values). A structure of pointers
    that SuperLU allocates ("Store") is a block [BPointers]. The malloc and calloc
    calls that 3D-ICE checks may fail: then [try] gives the null pointer. SuperLU
    stops the program when it has no memory, and the copies of layers do not
    check: these allocations succeed in the model.
    Not modelled: the lists of cells and connections of a non-uniform grid, the
    memory SuperLU allocates and frees during one call, and lack of memory in
    pdgstrf. *)
From Coq Require Import ZArith List Bool QArith.
From Verif Require Import Base Own.
Import ListNotations.
Local Open Scope Z_scope.

(** ThermalGrid_t: NLayers, LayersTypeProfile, LayersProfile; the pointers to
    the channel and the sinks belong to the stack description. *)
Record tg_v := mkTg { tg_n : nat; tg_types : addr; tg_layers : addr }.
(** PowerGrid_t: LayersTypeProfile, FloorplansProfile, Sources, HeatSinkTopTcs,
    HeatSinkBottomTcs, CellsCapacities *)
Record pg_v := mkPg { pg_types : addr; pg_flps : addr; pg_sources : addr; pg_top : addr; pg_bottom : addr; pg_caps : addr }.
(** The arrays for L: Nzval_L, Nzval_colbeg, Nzval_colend, Rowind_L, Rowind_colbeg,
    Rowind_colend, Col_to_sup, Sup_to_colbeg, Sup_to_colend; and for U: Nzval_U,
    Colbeg, Colend, Rowind_U (system_matrix.h 96-120) *)
Record la_v := mkLa { la_nz : addr; la_ncb : addr; la_nce : addr; la_ri : addr; la_rcb : addr; la_rce : addr; la_cts : addr; la_scb : addr; la_sce : addr }.
Record ua_v := mkUa { ua_nz : addr; ua_cb : addr; ua_ce : addr; ua_ri : addr }.
(** SLU_MT_Gstat: panel_histo, utime, ops, procstat; SLU_Options: perm_r, perm_c,
    etree, colcnt_h, part_super_h *)
Record gs_v := mkGs { gs_histo : addr; gs_utime : addr; gs_ops : addr; gs_proc : addr }.
Record so_v := mkSo { so_pr : addr; so_pc : addr; so_et : addr; so_cc : addr; so_ps : addr }.
(** SystemMatrix_t: RowIndices, ColumnPointers, Values, the stores of A, A_Permuted,
    L and U, and whether SLU_Options.fact is FACTORED *)
Record sm_v := mkSm {
  sm_rows : addr; sm_cols : addr; sm_vals : addr; sm_a : addr; sm_ap : addr; sm_l : addr; sm_u : addr;
  sm_stat : gs_v; sm_opt : so_v; sm_la : la_v; sm_ua : ua_v; sm_fact : bool }.
(** ThermalData_t: Temperatures, ThermalGrid, PowerGrid, SM_A, the store of B *)
Record td_v := mkTd { td_temps : addr; td_tg : tg_v; td_pg : pg_v; td_sm : sm_v; td_b : addr }.

Section Programs.
(** The allocator that may fail, and the one that does not. *)
Variable try : block -> heap -> addr.
Variable pick : heap -> addr.
(** malloc with a check: the null pointer, or a new block. *)
Definition try_malloc (b : block) : M addr := fun h => if try b h =? 0 then Ok (h, 0) else Ok ((try b h, b) :: h, try b h).
Fixpoint frees (l : list addr) : M unit := match l with [] => ret tt | a :: r => _ <~ free a ;; frees r end.
(** if (p != NULL) free (p) *)
Definition free_if (a : addr) : M unit := if a =? 0 then ret tt else free a.
Definition raw (n : nat) : block := BRaw (Z.of_nat n).

(** ** thermal_grid.c *)
(** 48-56 *)
Definition tg_init : tg_v := mkTg 0 0 0.
(** thermal_grid_build, 60-93; layer_init of all layers *)
Definition tg_build (g : tg_v) (layers : nat) : M (bool * tg_v) :=
  t <~ try_malloc (raw layers) ;;
  if t =? 0 then ret (false, mkTg layers 0 (tg_layers g))
  else y <~ try_malloc (BLayers (repeat layer_init layers)) ;;
       if y =? 0 then _ <~ free t ;; ret (false, mkTg layers t 0)
       else ret (true, mkTg layers t y).
Definition load_layers (a : addr) : M (list layer_v) := b <~ load a ;; match b with BLayers l => ret l | _ => bad end.
Fixpoint set_nth {A} (l : list A) (i : nat) (x : A) : list A :=
  match l, i with [], _ => [] | _ :: r, O => x :: r | y :: r, S i => y :: set_nth r i x end.
(** thermal_grid_destroy, 97-114: [k] layers from number [i] on *)
Fixpoint layers_destroy (a : addr) (i k : nat) : M unit :=
  match k with
  | O => ret tt
  | S k => l <~ load_layers a ;;
           match nth_error l i with
           | None => bad
           | Some y => x <~ layer_destroy y ;; _ <~ store a (BLayers (set_nth l i x)) ;; layers_destroy a (S i) k
           end
  end.
Definition tg_destroy (g : tg_v) : M tg_v :=
  _ <~ free_if (tg_types g) ;;
  _ <~ (if tg_layers g =? 0 then ret tt else _ <~ layers_destroy (tg_layers g) 0 (tg_n g) ;; free (tg_layers g)) ;;
  ret tg_init.
(** thermal_grid_fill, 118-321: one stack element with its offset. The layers of
    a die are given bottom layer first, as the loop visits them. *)
Inductive element :=
| EDie (offset : nat) (layers : list layer_v)
| ELayer (offset : nat) (y : layer_v)
| EChannel (offset layers : nat) (height : Q) (wall : mat_v) (id : addr).
(** layer_copy (LayersProfile + i, &y) *)
Definition set_layer (a : addr) (i : nat) (y : layer_v) : M unit :=
  l <~ load_layers a ;;
  match nth_error l i with
  | None => bad
  | Some d => x <~ layer_copy pick d y ;; store a (BLayers (set_nth l i x))
  end.
(** 138-147 *)
Fixpoint set_layers (a : addr) (i : nat) (ys : list layer_v) : M unit :=
  match ys with [] => ret tt | y :: r => _ <~ set_layer a i y ;; set_layers a (S i) r end.
(** 129-246 without the types *)
Definition fill_element (a : addr) (e : element) : M unit :=
  match e with
  | EDie i ys => set_layers a i ys
  | ELayer i y => set_layer a i y
  | EChannel i n height wall id =>
    m <~ material_copy pick material_init wall ;; s <~ string_copy pick 0 id ;;
    let tmp := mkLayerV s 0 height m list_init 0 0 in
    _ <~ set_layers a i (repeat tmp n) ;; _ <~ layer_destroy tmp ;; ret tt
  end.
Fixpoint fill_elements (a : addr) (es : list element) : M unit :=
  match es with [] => ret tt | e :: r => _ <~ fill_element a e ;; fill_elements a r end.
(** [refused]: a pluggable sink on top of a stack with four-resistor channels,
    269-278, or both sinks on the same layer, 308-317. *)
Definition tg_fill (g : tg_v) (es : list element) (refused : bool) : M bool :=
  _ <~ fill_elements (tg_layers g) es ;; ret (negb refused).

(** ** power_grid.c *)
(** 46-60 *)
Definition pg_init : pg_v := mkPg 0 0 0 0 0 0.
(** power_grid_build, 64-198, with the numbers of layers, cells, cells of the top
    layer and of the bottom layer *)
Definition pg_build (p : pg_v) (layers cells top bottom : nat) : M (bool * pg_v) :=
  a <~ try_malloc (raw layers) ;;
  if a =? 0 then ret (false, mkPg 0 (pg_flps p) (pg_sources p) (pg_top p) (pg_bottom p) (pg_caps p)) else
  b <~ try_malloc (raw layers) ;;
  if b =? 0 then _ <~ frees [a] ;; ret (false, mkPg a 0 (pg_sources p) (pg_top p) (pg_bottom p) (pg_caps p)) else
  c <~ try_malloc (raw cells) ;;
  if c =? 0 then _ <~ frees [a; b] ;; ret (false, mkPg a b 0 (pg_top p) (pg_bottom p) (pg_caps p)) else
  d <~ try_malloc (raw top) ;;
  if d =? 0 then _ <~ frees [a; b; c] ;; ret (false, mkPg a b c 0 (pg_bottom p) (pg_caps p)) else
  e <~ try_malloc (raw bottom) ;;
  if e =? 0 then _ <~ frees [a; b; c; d] ;; ret (false, mkPg a b c d 0 (pg_caps p)) else
  f <~ try_malloc (raw cells) ;;
  if f =? 0 then _ <~ frees [a; b; c; d; e] ;; ret (false, mkPg a b c d e 0) else
  ret (true, mkPg a b c d e f).
(** power_grid_destroy, 202-217 *)
Definition pg_destroy (p : pg_v) : M pg_v :=
  _ <~ free_if (pg_types p) ;; _ <~ free_if (pg_flps p) ;; _ <~ free_if (pg_sources p) ;;
  _ <~ free_if (pg_top p) ;; _ <~ free_if (pg_bottom p) ;; _ <~ free_if (pg_caps p) ;; ret pg_init.

(** ** SuperLU *)
(** dCreate_CompCol_Matrix, dCreate_Dense_Matrix: a new store. *)
Definition create_store (arrays : list addr) : M addr := malloc pick (BPointers arrays).
(** dCreate_CompCol_Permuted, dCreate_SuperNode_Permuted, pdutil.c 63-85 and
    268-300, as changed for 3D-ICE: an old store is freed. *)
Definition renew_store (old : addr) (arrays : list addr) : M addr :=
  _ <~ free_if old ;; malloc pick (BPointers arrays).
Definition load_store (a : addr) : M (list addr) := b <~ load a ;; match b with BPointers l => ret l | _ => bad end.
(** Destroy_CompCol_NCP, util.c 84-94: the arrays nzval, rowind, colbeg, colend and
    the store *)
Definition destroy_ncp (a : addr) : M unit := l <~ load_store a ;; _ <~ frees l ;; free a.
(** Destroy_CompCol_Permuted, util.c 72-80: colbeg, colend and the store *)
Definition destroy_permuted (a : addr) : M unit :=
  l <~ load_store a ;; match l with [_; _; cb; ce] => _ <~ frees [cb; ce] ;; free a | _ => bad end.
(** StatAlloc and StatFree, util.c 335-372, 446-470 *)
Definition stat_alloc : M gs_v :=
  a <~ malloc pick (BRaw 0) ;; b <~ malloc pick (BRaw 0) ;; c <~ malloc pick (BRaw 0) ;; d <~ malloc pick (BRaw 0) ;; ret (mkGs a b c d).
Definition stat_free (g : gs_v) : M unit := frees [gs_histo g; gs_utime g; gs_ops g; gs_proc g].
(** What pdgstrf leaves in memory: pdgstrf_MemInit with refact == NO (pdmemory.c
    282-331) allocates the nine arrays of L and the four arrays of U, and
    pdgstrf_thread_finalize.c 88-96 makes the stores of L and U point to them. *)
Definition slu_arrays (n : nat) : M (list addr) :=
  (fix go (n : nat) : M (list addr) := match n with O => ret [] | S n => a <~ malloc pick (BRaw 0) ;; r <~ go n ;; ret (a :: r) end) n.
Definition pdgstrf (l u : addr) : M (addr * addr) :=
  al <~ slu_arrays 9 ;; au <~ slu_arrays 4 ;; l' <~ renew_store l al ;; u' <~ renew_store u au ;; ret (l', u').

(** ** system_matrix.c *)
Definition gs_init : gs_v := mkGs 0 0 0 0.
Definition so_init : so_v := mkSo 0 0 0 0 0.
(** system_matrix_init, 46-102: the arrays for L and U keep what they held. *)
Definition sm_init (s : sm_v) : sm_v := mkSm 0 0 0 0 0 0 0 gs_init so_init (sm_la s) (sm_ua s) false.
(** allocate_U_Matrix, 375-423; the first component of the result says whether it
    succeeded, the second is U's store, the third the arrays *)
Definition alloc_u (size nnz : nat) (u : addr) (x : ua_v) : M (bool * addr * ua_v) :=
  a <~ try_malloc (raw nnz) ;;
  if a =? 0 then ret (false, u, mkUa 0 (ua_cb x) (ua_ce x) (ua_ri x)) else
  b <~ try_malloc (raw (size + 1)) ;;
  if b =? 0 then _ <~ frees [a] ;; ret (false, u, mkUa a 0 (ua_ce x) (ua_ri x)) else
  c <~ try_malloc (raw (size + 1)) ;;
  if c =? 0 then _ <~ frees [b; a] ;; ret (false, u, mkUa a b 0 (ua_ri x)) else
  d <~ try_malloc (raw nnz) ;;
  if d =? 0 then _ <~ frees [c; b; a] ;; ret (false, u, mkUa a b c 0) else
  u' <~ renew_store u [a; d; b; c] ;; ret (true, u', mkUa a b c d).
(** allocate_L_Matrix, 259-371; [super] is sp_ienv(3) *)
Definition alloc_l (size nnz super : nat) (l : addr) (x : la_v) : M (bool * addr * la_v) :=
  a <~ try_malloc (raw nnz) ;;
  if a =? 0 then ret (false, l, mkLa 0 (la_ncb x) (la_nce x) (la_ri x) (la_rcb x) (la_rce x) (la_cts x) (la_scb x) (la_sce x)) else
  b <~ try_malloc (raw (size + 1)) ;;
  if b =? 0 then _ <~ frees [a] ;; ret (false, l, mkLa a 0 (la_nce x) (la_ri x) (la_rcb x) (la_rce x) (la_cts x) (la_scb x) (la_sce x)) else
  c <~ try_malloc (raw (size + 1)) ;;
  if c =? 0 then _ <~ frees [b; a] ;; ret (false, l, mkLa a b 0 (la_ri x) (la_rcb x) (la_rce x) (la_cts x) (la_scb x) (la_sce x)) else
  d <~ try_malloc (raw nnz) ;;
  if d =? 0 then _ <~ frees [c; b; a] ;; ret (false, l, mkLa a b c 0 (la_rcb x) (la_rce x) (la_cts x) (la_scb x) (la_sce x)) else
  e <~ try_malloc (raw (size + 1)) ;;
  if e =? 0 then _ <~ frees [d; c; b; a] ;; ret (false, l, mkLa a b c d 0 (la_rce x) (la_cts x) (la_scb x) (la_sce x)) else
  f <~ try_malloc (raw (size + 1)) ;;
  if f =? 0 then _ <~ frees [e; d; c; b; a] ;; ret (false, l, mkLa a b c d e 0 (la_cts x) (la_scb x) (la_sce x)) else
  g <~ try_malloc (raw (size + 1)) ;;
  if g =? 0 then _ <~ frees [f; e; d; c; b; a] ;; ret (false, l, mkLa a b c d e f 0 (la_scb x) (la_sce x)) else
  i <~ try_malloc (raw (super + 1)) ;;
  if i =? 0 then _ <~ frees [g; f; e; d; c; b; a] ;; ret (false, l, mkLa a b c d e f g 0 (la_sce x)) else
  j <~ try_malloc (raw (super + 1)) ;;
  if j =? 0 then _ <~ frees [i; g; f; e; d; c; b; a] ;; ret (false, l, mkLa a b c d e f g i 0) else
  l' <~ renew_store l [a; b; c; d; e; f; g; i; j] ;; ret (true, l', mkLa a b c d e f g i j).
(** system_matrix_build, 106-255; [nnz], [nnzl], [nnzu] the numbers of
    coefficients of A, L and U *)
Definition sm_build (s : sm_v) (size nnz nnzl nnzu super : nat) : M (bool * sm_v) :=
  r <~ try_malloc (raw nnz) ;;
  if r =? 0 then ret (false, mkSm 0 (sm_cols s) (sm_vals s) (sm_a s) (sm_ap s) (sm_l s) (sm_u s) (sm_stat s) (sm_opt s) (sm_la s) (sm_ua s) (sm_fact s)) else
  c <~ try_malloc (raw (size + 1)) ;;
  if c =? 0 then _ <~ frees [r] ;; ret (false, mkSm r 0 (sm_vals s) (sm_a s) (sm_ap s) (sm_l s) (sm_u s) (sm_stat s) (sm_opt s) (sm_la s) (sm_ua s) (sm_fact s)) else
  v <~ try_malloc (raw nnz) ;;
  if v =? 0 then _ <~ frees [c; r] ;; ret (false, mkSm r c 0 (sm_a s) (sm_ap s) (sm_l s) (sm_u s) (sm_stat s) (sm_opt s) (sm_la s) (sm_ua s) (sm_fact s)) else
  a <~ create_store [v; r; c] ;;
  let sm o st u l ua la := mkSm r c v a (sm_ap s) l u st o la ua (sm_fact s) in
  let o := sm_opt s in
  pr <~ try_malloc (raw size) ;;
  if pr =? 0 then _ <~ frees [c; r; v] ;; _ <~ free a ;;
    ret (false, sm (mkSo 0 (so_pc o) (so_et o) (so_cc o) (so_ps o)) (sm_stat s) (sm_u s) (sm_l s) (sm_ua s) (sm_la s)) else
  pc <~ try_malloc (raw size) ;;
  if pc =? 0 then _ <~ frees [c; r; v] ;; _ <~ free a ;; _ <~ frees [pr] ;;
    ret (false, sm (mkSo pr 0 (so_et o) (so_cc o) (so_ps o)) (sm_stat s) (sm_u s) (sm_l s) (sm_ua s) (sm_la s)) else
  et <~ try_malloc (raw size) ;;
  if et =? 0 then _ <~ frees [c; r; v] ;; _ <~ free a ;; _ <~ frees [pr; pc] ;;
    ret (false, sm (mkSo pr pc 0 (so_cc o) (so_ps o)) (sm_stat s) (sm_u s) (sm_l s) (sm_ua s) (sm_la s)) else
  cc <~ try_malloc (raw size) ;;
  if cc =? 0 then _ <~ frees [c; r; v] ;; _ <~ free a ;; _ <~ frees [pr; pc; et] ;;
    ret (false, sm (mkSo pr pc et 0 (so_ps o)) (sm_stat s) (sm_u s) (sm_l s) (sm_ua s) (sm_la s)) else
  ps <~ try_malloc (raw size) ;;
  if ps =? 0 then _ <~ frees [c; r; v] ;; _ <~ free a ;; _ <~ frees [pr; pc; et; cc] ;;
    ret (false, sm (mkSo pr pc et cc 0) (sm_stat s) (sm_u s) (sm_l s) (sm_ua s) (sm_la s)) else
  st <~ stat_alloc ;;
  let o := mkSo pr pc et cc ps in
  u <~ alloc_u size nnzu (sm_u s) (sm_ua s) ;;
  if negb (fst (fst u)) then _ <~ frees [c; r; v] ;; _ <~ free a ;; _ <~ frees [pr; pc; et; cc; ps] ;; _ <~ stat_free st ;;
    ret (false, sm o st (snd (fst u)) (sm_l s) (snd u) (sm_la s)) else
  l <~ alloc_l size nnzl super (sm_l s) (sm_la s) ;;
  if negb (fst (fst l)) then _ <~ frees [c; r; v] ;; _ <~ free a ;; _ <~ frees [pr; pc; et; cc; ps] ;; _ <~ stat_free st ;; _ <~ destroy_ncp (snd (fst u)) ;;
    ret (false, sm o st (snd (fst u)) (snd (fst l)) (snd u) (snd l)) else
  ret (true, sm o st (snd (fst u)) (snd (fst l)) (snd u) (snd l)).
(** do_factorization, 427-471; [singular]: pdgstrf reports a matrix without
    factors. sp_colorder (sp_colorder.c 88-94) makes the store of A_Permuted, which
    shares the values and the row indices of A. *)
Definition do_factorization (s : sm_v) (singular : bool) : M (bool * sm_v) :=
  ap <~ (if sm_fact s then ret (sm_ap s)
         else l <~ load_store (sm_a s) ;;
              match l with
              | v :: r :: _ => p <~ malloc pick (BRaw 0) ;; q <~ malloc pick (BRaw 0) ;; create_store [v; r; p; q]
              | _ => bad
              end) ;;
  lu <~ pdgstrf (sm_l s) (sm_u s) ;;
  ret (negb singular, mkSm (sm_rows s) (sm_cols s) (sm_vals s) (sm_a s) ap (fst lu) (snd lu) (sm_stat s) (sm_opt s) (sm_la s) (sm_ua s)
                        (sm_fact s || negb singular)).
(** system_matrix_destroy, 475-519 *)
Definition sm_destroy (s : sm_v) : M sm_v :=
  let l := sm_la s in let u := sm_ua s in let o := sm_opt s in
  _ <~ frees [sm_cols s; sm_rows s; sm_vals s] ;;
  _ <~ frees [la_nz l; la_ncb l; la_nce l; la_ri l; la_rcb l; la_rce l; la_cts l; la_scb l; la_sce l] ;; _ <~ free (sm_l s) ;;
  _ <~ frees [ua_nz u; ua_ri u; ua_cb u; ua_ce u] ;; _ <~ free (sm_u s) ;;
  _ <~ free (sm_a s) ;; _ <~ stat_free (sm_stat s) ;;
  _ <~ frees [so_pr o; so_pc o; so_et o; so_cc o; so_ps o] ;;
  _ <~ (if sm_fact s then destroy_permuted (sm_ap s) else ret tt) ;;
  ret (sm_init s).

(** ** thermal_data.c *)
(** 55-65 *)
Definition td_init (t : td_v) : td_v := mkTd 0 tg_init pg_init (sm_init (td_sm t)) 0.
(** 1252-1264 *)
Definition td_destroy (t : td_v) : M td_v :=
  _ <~ free (td_temps t) ;; g <~ tg_destroy (td_tg t) ;; p <~ pg_destroy (td_pg t) ;; s <~ sm_destroy (td_sm t) ;; _ <~ free (td_b t) ;;
  ret (td_init (mkTd (td_temps t) g p s (td_b t))).
(** What the size of everything depends on, and the two ways to refuse an input. *)
Record case := mkCase {
  k_layers : nat; k_cells : nat; k_top : nat; k_bottom : nat; k_nnz : nat; k_nnzl : nat; k_nnzu : nat; k_super : nat;
  k_elements : list element; k_refused : bool; k_singular : bool }.
(** thermal_data_build, 1098-1231: from Temperatures on *)
Definition td_build_rest (t : td_v) (k : case) : M (bool * td_v) :=
  temps <~ try_malloc (raw (k_cells k)) ;;
  if temps =? 0 then ret (false, mkTd 0 (td_tg t) (td_pg t) (td_sm t) (td_b t)) else
  b <~ create_store [temps] ;;
  g <~ tg_build (td_tg t) (k_layers k) ;;
  if negb (fst g) then _ <~ free b ;; _ <~ free temps ;; ret (false, mkTd temps (snd g) (td_pg t) (td_sm t) b) else
  ok <~ tg_fill (snd g) (k_elements k) (k_refused k) ;;
  if negb ok then _ <~ free b ;; _ <~ free temps ;; ret (false, mkTd temps (snd g) (td_pg t) (td_sm t) b) else
  p <~ pg_build (td_pg t) (k_layers k) (k_cells k) (k_top k) (k_bottom k) ;;
  if negb (fst p) then _ <~ free b ;; _ <~ free temps ;; g' <~ tg_destroy (snd g) ;; ret (false, mkTd temps g' (snd p) (td_sm t) b) else
  s <~ sm_build (td_sm t) (k_cells k) (k_nnz k) (k_nnzl k) (k_nnzu k) (k_super k) ;;
  if negb (fst s) then _ <~ free b ;; _ <~ free temps ;; g' <~ tg_destroy (snd g) ;; p' <~ pg_destroy (snd p) ;; ret (false, mkTd temps g' p' (snd s) b) else
  f <~ do_factorization (snd s) (k_singular k) ;;
  let t' := mkTd temps (snd g) (snd p) (snd f) b in
  if negb (fst f) then t'' <~ td_destroy t' ;; ret (false, t'') else ret (true, t').
(** 1052-1096: for a non-uniform grid the positions of the cells and the table of
    cells, which belongs to the dimensions. The positions are written without a
    check that there is memory for them. The third component of the result is
    Dimensions_t.Cell_pointer. *)
Definition td_build (t : td_v) (k : case) (nonuniform : bool) (table : addr) : M (bool * td_v * addr) :=
  if nonuniform then
    pos <~ try_malloc (raw (k_cells k)) ;;
    tab <~ try_malloc (BPointers (repeat 0 (k_cells k))) ;;
    if tab =? 0 then ret (false, t, 0) else
    _ <~ (if pos =? 0 then bad else ret tt) ;;
    _ <~ free pos ;;
    r <~ td_build_rest t k ;; ret (r, tab)
  else r <~ td_build_rest t k ;; ret (r, table).
(** update_coolant_flow_rate, 1561-1584: the matrix is factorized again *)
Definition td_update (t : td_v) (singular : bool) : M (bool * td_v) :=
  f <~ do_factorization (td_sm t) singular ;;
  ret (fst f, mkTd (td_temps t) (td_tg t) (td_pg t) (snd f) (td_b t)).
End Programs.
