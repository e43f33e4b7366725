(** * What a structure holds, and which blocks are its own

    [tree]: the contents of a structure without addresses. [owns_x v c L]: the
    structure [v] holds the contents [c] and [L] is the list of blocks it owns,
    those that have to be freed with it; a block in [L] twice would be owned
    twice. *)
From Coq Require Import ZArith List Bool QArith Permutation.
From Verif Require Import Base Queue QueueProofs Own.
Import ListNotations.
Local Open Scope Z_scope.

Inductive tree :=
| TNull | TText (t : text) | TNum (q : Q) | TInt (z : Z) | TNums (l : list Q) | TInts (l : list Z) | TQueue (l : list power) | TRec (l : list tree).
Definition holds : Type := tree -> heap -> Prop.

(** A number: no blocks. *)
Definition num (q : Q) : holds := fun c L => c = TNum q /\ L = [].
Definition int (z : Z) : holds := fun c L => c = TInt z /\ L = [].
(** A string in a block of its own, or a null pointer; the same for arrays of
    [n] numbers. *)
Definition owns_text (a : addr) : holds := fun c L =>
  (a = 0 /\ c = TNull /\ L = []) \/ (exists t, a <> 0 /\ c = TText t /\ L = [(a, BText t)]).
Definition owns_nums (a : addr) (n : Z) : holds := fun c L =>
  (a = 0 /\ c = TNull /\ L = []) \/ (exists l, a <> 0 /\ Z.of_nat (length l) = n /\ c = TNums l /\ L = [(a, BNums l)]).
Definition owns_ints (a : addr) (n : Z) : holds := fun c L =>
  exists l, a <> 0 /\ Z.of_nat (length l) = n /\ c = TInts l /\ L = [(a, BInts l)].
(** The fields of a structure: disjoint blocks. *)
Fixpoint fields (ps : list holds) (cs : list tree) (L : heap) : Prop :=
  match ps, cs with
  | [], [] => L = []
  | p :: ps, c :: cs => exists L1 L2, L = L1 ++ L2 /\ p c L1 /\ fields ps cs L2
  | _, _ => False
  end.
Definition struct (ps : list holds) : holds := fun c L => exists cs, c = TRec cs /\ fields ps cs L.
(** A structure in a block of its own, or a null pointer. *)
Definition owns_box {V} (inj : V -> block) (owns : V -> holds) (p : addr) : holds := fun c L =>
  (p = 0 /\ c = TNull /\ L = []) \/ (exists v L', p <> 0 /\ owns v c L' /\ L = (p, inj v) :: L').
(** A doubly linked list from [p] to [last], before which comes [prev] and after
    which [next]. *)
Fixpoint chain {V} (inj : lnode V -> block) (owns : V -> holds) (prev p : addr) (cs : list tree) (last next : addr) (L : heap) : Prop :=
  match cs with
  | [] => p = next /\ last = prev /\ L = []
  | c :: r => exists v n Lv Lr, p <> 0 /\ owns v c Lv /\ L = (p, inj (mkLnode v prev n)) :: Lv ++ Lr /\ chain inj owns p n r last next Lr
  end.
Definition owns_list {V} (inj : lnode V -> block) (owns : V -> holds) (l : lst) : holds := fun c L =>
  exists cs, c = TRec cs /\ ls_size l = u32 (Z.of_nat (length cs)) /\ chain inj owns 0 (ls_first l) cs (ls_last l) 0 L.

(** ** The structures *)
Definition owns_material (m : mat_v) : holds := struct [owns_text (mv_id m); num (mv_vhc m); num (mv_x m); num (mv_y m); num (mv_z m)].
Definition owns_ic (i : ic_v) : holds := struct
  [num (iv_sw_x i); num (iv_sw_y i); num (iv_length i); num (iv_width i); num (iv_discr_x i); num (iv_discr_y i);
   int (iv_sw_row i); int (iv_sw_col i); int (iv_ne_row i); int (iv_ne_col i); int (iv_start i); int (iv_end i); owns_material (iv_material i)].
Definition owns_mel (m : mel_v) : holds := struct [owns_material (ev_material m); int (ev_n m); owns_list BIcNode owns_ic (ev_elements m)].
Definition owns_layer (y : layer_v) : holds := struct
  [owns_text (yv_id y); owns_text (yv_file y); num (yv_height y); owns_material (yv_material y); owns_list BMelNode owns_mel (yv_layout y);
   int (yv_discr_x y); int (yv_discr_y y)].
(** The queue and its memory; [qrep]: the values from the next one on (C01). *)
Definition owns_queue (p : addr) : holds := fun c L =>
  (p = 0 /\ c = TNull /\ L = []) \/
  (exists q m l, p <> 0 /\ qv_mem q <> 0 /\ qrep (mkQueue (Some m) (qv_cap q) (qv_size q) (qv_start q) (qv_end q)) l /\ c = TQueue l /\
                 L = [(p, BQueue q); (qv_mem q, BPowers m)]).
Definition owns_fel (g : fel_v) : holds := struct
  [owns_text (gv_id g); int (gv_n g); owns_list BIcNode owns_ic (gv_elements g); num (gv_area g); owns_queue (gv_powers g)].
(** A matrix that has not been built, or one with at least one coefficient. *)
Definition owns_fm (x : fm_v) : holds := fun c L =>
  (x = fm_init /\ c = TNull /\ L = []) \/
  (0 < xv_nrows x /\ 0 < xv_ncols x < two32 - 1 /\ 0 < xv_nnz x /\
   struct [int (xv_nrows x); int (xv_ncols x); int (xv_nnz x);
           owns_ints (xv_cols x) (xv_ncols x + 1); owns_ints (xv_rows x) (xv_nnz x);
           fun c L => c <> TNull /\ owns_nums (xv_vals x) (xv_nnz x) c L] c L).
Definition owns_flp (f : flp_v) : holds := struct
  [owns_text (fv_file f); int (fv_n f); owns_list BFelNode owns_fel (fv_elements f); owns_fm (fv_matrix f); owns_nums (fv_bpowers f) (fv_n f)].
Definition owns_die (d : die_v) : holds := struct
  [owns_text (dv_id d); int (dv_n d); int (dv_source d); owns_list BLayerNode owns_layer (dv_layers d); owns_flp (dv_floorplan d);
   int (dv_discr_x d); int (dv_discr_y d)].
(** All but PluggableHeatsinkInit. *)
Definition owns_sink (s : sink_v) : holds := struct
  [int (hv_model s); num (hv_htc s); num (hv_temperature s); num (hv_length s); num (hv_width s); num (hv_height s);
   owns_material (hv_material s); owns_text (hv_plugin s); owns_text (hv_args s); num (hv_cell_length s); num (hv_cell_width s);
   int (hv_rows s); int (hv_cols s); int (hv_row_border s); int (hv_col_border s); int (hv_code s)].
Definition owns_chan (x : chan_v) : holds := struct
  [int (cv_model x); num (cv_height x); num (cv_length x); num (cv_pitch x); num (cv_porosity x); int (cv_channels x); int (cv_n x); int (cv_source x);
   num (ov_side (cv_coolant x)); num (ov_top (cv_coolant x)); num (ov_bottom (cv_coolant x)); num (ov_vhc (cv_coolant x)); num (ov_flow (cv_coolant x));
   num (ov_darcy (cv_coolant x)); num (ov_tin (cv_coolant x)); owns_material (cv_material x)].
Definition owns_conn (n : conn_v) : holds := struct
  [int (nv_node1 n); int (nv_layer1 n); int (nv_node2 n); int (nv_layer2 n); int (nv_direction n); num (nv_value n)].
Definition owns_cell (u : cell_v) : holds := struct
  [int (uv_layer u); num (uv_x u); num (uv_y u); num (uv_z u); num (uv_length u); num (uv_width u); num (uv_height u); int (uv_channel u);
   owns_material (uv_material u)].
(** [pointers]: who owns the table of the cells of a non-uniform grid. *)
Definition owns_dim_with (pointers : addr -> holds) (z : dim_v) : holds := struct
  [num (kv_first (zv_cell z)); num (kv_wall (zv_cell z)); num (kv_channel (zv_cell z)); num (kv_last (zv_cell z)); num (kv_width (zv_cell z));
   int (kv_n (zv_cell z)); owns_nums (kv_heights (zv_cell z)) (kv_n (zv_cell z));
   int (jv_layers (zv_grid z)); int (jv_rows (zv_grid z)); int (jv_cols (zv_grid z)); int (jv_cells (zv_grid z)); int (jv_conns (zv_grid z));
   num (fst (zv_chip z)); num (snd (zv_chip z)); int (zv_nonuniform z); int (zv_discr_x z); int (zv_discr_y z);
   pointers (zv_pointer z); owns_list BCellNode owns_cell (zv_cells z); owns_list BConnNode owns_conn (zv_conns z)].
(** Before the table is allocated (thermal_data.c 1059). *)
Definition no_table (a : addr) : holds := fun c L => a = 0 /\ c = TNull /\ L = [].
(** After that. *)
Definition owns_table (a : addr) : holds := fun c L => exists l, a <> 0 /\ c = TInts l /\ L = [(a, BPointers l)].
Definition owns_dim : dim_v -> holds := owns_dim_with no_table.
Definition owns_dim_built : dim_v -> holds := owns_dim_with owns_table.
(** The layer or the die of a stack element is its own; a channel is not. *)
Definition owns_pointer (t : se_type) (p : addr) : holds :=
  match t with SeLayer => owns_box BLayer owns_layer p | SeDie => owns_box BDie owns_die p | _ => int p end.
Definition type_code (t : se_type) : Z := match t with SeNone => 0 | SeLayer => 1 | SeDie => 2 | SeChannel => 3 end.
Definition owns_se (w : se_v) : holds := struct
  [owns_text (wv_id w); int (type_code (wv_type w)); owns_pointer (wv_type w) (wv_pointer w);
   owns_box BSink owns_sink (wv_top w); owns_box BSink owns_sink (wv_bottom w); int (wv_n w); int (wv_offset w)].
Definition owns_ip (t : ip_v) : holds := struct
  [owns_text (tv_file t); int (tv_instant t); int (tv_type t); int (tv_quantity t); num (tv_x t); num (tv_ax t); num (tv_y t); num (tv_ay t);
   int (tv_row t); int (tv_col t); int (tv_element t); int (tv_flpel t)].
Definition owns_out (o : out_v) : holds := struct
  [owns_list BIpNode owns_ip (av_final o); owns_list BIpNode owns_ip (av_slot o); owns_list BIpNode owns_ip (av_step o)].
Definition owns_sd (r : sd_v) : holds := struct
  [owns_text (rv_file r); owns_box BSink owns_sink (rv_top r); owns_box BSink owns_sink (rv_bottom r); owns_box BChannel owns_chan (rv_channel r);
   owns_box BDims (fun z c L => owns_dim z c L \/ owns_dim_built z c L) (rv_dims r);
   owns_list BMaterialNode owns_material (rv_materials r); owns_list BLayerNode owns_layer (rv_layers r);
   owns_list BDieNode owns_die (rv_dies r); owns_list BSeNode owns_se (rv_elements r)].

(** ** Claims about copy and destroy *)
(** Exactly the blocks [L] are in use. *)
Definition in_use (h : heap) (L : heap) : Prop := NoDup (map fst h) /\ Permutation h L.
(** malloc returns an address that is not null and not in use. *)
Definition allocator (pick : heap -> addr) : Prop := forall h, pick h <> 0 /\ get h (pick h) = None.
(** [init] holds the blank contents and owns nothing. *)
Definition blank_init {V} (owns : V -> holds) (blank : tree) (init : V) : Prop := owns init blank [].
(** Destroying frees all blocks of the structure, no others, and each once;
    what remains is blank. *)
Definition destroys {V} (owns : V -> holds) (blank : tree) (destroy : V -> M V) : Prop :=
  forall v c L R h, owns v c L -> in_use h (L ++ R) ->
  exists h' x, destroy v h = Ok (h', x) /\ owns x blank [] /\ in_use h' R.
(** Copying gives the destination the contents of the source in blocks of its
    own, frees what the destination had and leaves everything else as it was. *)
Definition copies {V} (owns : V -> holds) (copy : V -> V -> M V) : Prop :=
  forall d s cd cs Ld Ls R h, owns d cd Ld -> owns s cs Ls -> in_use h (Ld ++ Ls ++ R) ->
  exists h' x Lx, copy d s h = Ok (h', x) /\ owns x cs Lx /\ in_use h' (Lx ++ Ls ++ R).
(** Copying a structure onto itself: the source is destroyed before it is read. *)
Definition erases {V} (owns : V -> holds) (blank : tree) (destroy : V -> M V) (assign : V -> V -> M V) : Prop :=
  forall v c L R h, owns v c L -> in_use h (L ++ R) ->
  exists h' x, bnd (destroy v) (fun d => assign d d) h = Ok (h', x) /\ owns x blank [] /\ in_use h' R.
Definition managed {V} (owns : V -> holds) (blank : tree) (init : V) (destroy : V -> M V) (assign copy : V -> V -> M V) : Prop :=
  blank_init owns blank init /\ destroys owns blank destroy /\ copies owns copy /\ erases owns blank destroy assign.
(** x_clone and x_free. *)
Definition clones {V} (inj : V -> block) (owns : V -> holds) (clone : addr -> M addr) : Prop :=
  forall p c L R h, owns_box inj owns p c L -> in_use h (L ++ R) ->
  exists h' a L', clone p h = Ok (h', a) /\ owns_box inj owns a c L' /\ in_use h' (L' ++ L ++ R).
Definition frees {V} (inj : V -> block) (owns : V -> holds) (fr : addr -> M unit) : Prop :=
  forall p c L R h, owns_box inj owns p c L -> in_use h (L ++ R) -> exists h', fr p h = Ok (h', tt) /\ in_use h' R.

(** ** Histories of calls
    A client with variables of one type and lists of them, all initialised. *)
Inductive op :=
| OCopy (i j : nat) (** x_copy (&v[i], &v[j]) *)
| ODestroy (i : nat) (** x_destroy (&v[i]) *)
| OAppend (k i : nat) (** x_list_insert_end (&l[k], &v[i]) *)
| OPrepend (k i : nat) (** x_list_insert_begin (&l[k], &v[i]) *)
| OListCopy (k m : nat) | OListDestroy (k : nat)
| OMerge (k m : nat) (** x_list_merge (&l[k], &l[m]) *).
Fixpoint upd {A} (l : list A) (i : nat) (x : A) : list A :=
  match l, i with [], _ => [] | _ :: r, O => x :: r | y :: r, S i => y :: upd r i x end.
(** With values instead of memory: [cs] the contents of the variables, [ks] of
    the lists. *)
Definition meant (blank : tree) (st : list tree * list (list tree)) (o : op) : list tree * list (list tree) :=
  let (cs, ks) := st in
  match o with
  | OCopy i j => match nth_error cs i, nth_error cs j with
                 | Some _, Some c => (upd cs i (if Nat.eqb i j then blank else c), ks) | _, _ => st end
  | ODestroy i => (upd cs i blank, ks)
  | OAppend k i => match nth_error ks k, nth_error cs i with Some l, Some c => (cs, upd ks k (l ++ [c])) | _, _ => st end
  | OPrepend k i => match nth_error ks k, nth_error cs i with Some l, Some c => (cs, upd ks k (c :: l)) | _, _ => st end
  | OListCopy k m => match nth_error ks k, nth_error ks m with
                     | Some _, Some l => (cs, upd ks k (if Nat.eqb k m then [] else l)) | _, _ => st end
  | OListDestroy k => (cs, upd ks k [])
  | OMerge k m => match nth_error ks k, nth_error ks m with Some a, Some b => (cs, upd (upd ks k (a ++ b)) m []) | _, _ => st end
  end.
Section Clients.
Variable pick : heap -> addr.
Context {V : Type} (inj : lnode V -> block) (prj : block -> option (lnode V)) (owns : V -> holds) (blank : tree).
Variables (init : V) (destroy : V -> M V) (assign copy : V -> V -> M V).
(** With memory; a copy of a variable onto itself reads what the destruction has left. *)
Definition perform (st : list V * list lst) (o : op) : M (list V * list lst) :=
  let (vs, ls) := st in
  match o with
  | OCopy i j => match nth_error vs i, nth_error vs j with
                 | Some d, Some s => x <~ (if Nat.eqb i j then d <~ destroy d ;; assign d d else copy d s) ;; ret (upd vs i x, ls)
                 | _, _ => ret st end
  | ODestroy i => match nth_error vs i with Some v => x <~ destroy v ;; ret (upd vs i x, ls) | None => ret st end
  | OAppend k i => match nth_error ls k, nth_error vs i with
                   | Some l, Some v => x <~ list_insert_end pick inj prj init copy l v ;; ret (vs, upd ls k x) | _, _ => ret st end
  | OPrepend k i => match nth_error ls k, nth_error vs i with
                    | Some l, Some v => x <~ list_insert_begin pick inj prj init copy l v ;; ret (vs, upd ls k x) | _, _ => ret st end
  | OListCopy k m => match nth_error ls k, nth_error ls m with
                     | Some d, Some s =>
                       x <~ (if Nat.eqb k m then d <~ list_destroy prj destroy d ;; list_assign pick inj prj init copy d d
                             else list_copy pick inj prj init copy destroy d s) ;; ret (vs, upd ls k x)
                     | _, _ => ret st end
  | OListDestroy k => match nth_error ls k with Some l => x <~ list_destroy prj destroy l ;; ret (vs, upd ls k x) | None => ret st end
  | OMerge k m => match nth_error ls k, nth_error ls m with
                  | Some a, Some b => x <~ list_merge inj prj a b ;; ret (vs, upd (upd ls k (fst x)) m (snd x)) | _, _ => ret st end
  end.
(** A list must not be merged with itself. *)
Definition no_self_merge (o : op) : Prop := match o with OMerge k m => k <> m | _ => True end.
Fixpoint run (ops : list op) (st : list V * list lst) : M (list V * list lst) :=
  match ops with [] => ret st | o :: r => st <~ perform st o ;; run r st end.
Definition destroy_all (n m : nat) : list op := map ODestroy (seq 0 n) ++ map OListDestroy (seq 0 m).
(** Every history: no call is undefined, the variables hold what the calls mean,
    all in blocks of their own, and when all variables are destroyed the memory
    in use is what it was at the beginning. *)
Definition safe_histories : Prop := forall n m ops h R, Forall no_self_merge ops -> in_use h R ->
  let (cs, ks) := fold_left (meant blank) ops (repeat blank n, repeat [] m) in
  exists h1 vs ls L1 L2, run ops (repeat init n, repeat list_init m) h = Ok (h1, (vs, ls)) /\
    fields (map owns vs) cs L1 /\ fields (map (owns_list inj owns) ls) (map TRec ks) L2 /\ in_use h1 (L1 ++ L2 ++ R) /\
    exists h2 st, run (destroy_all n m) (vs, ls) h1 = Ok (h2, st) /\ in_use h2 R.
End Clients.
