(** * Memory of the descriptions: init, copy, destroy, calloc, clone and free

    Model of these functions of /repo/sources: string_t.c, material.c,
    ic_element.c, material_element.c, layer.c, powers_queue.c,
    floorplan_element.c, floorplan_matrix.c, floorplan.c, die.c, heat_sink.c,
    coolant.c, channel.c, connection.c, non_uniform_cell.c, dimensions.c,
    stack_element.c, inspection_point.c, output.c, stack_description.c, and of
    list_template.c for all of them.

    The heap is a list of blocks with their addresses; a structure is a value
    that holds addresses. [x_destroy] and [x_assign] give the structure back as
    the C function leaves it. Simplifications: malloc does not fail; it returns
    any address [pick h] that is not 0 and not in use (it may have been used
    before); numbers are rationals; a structure in a block is loaded and stored
    as a whole. *)
From Coq Require Import ZArith List Bool QArith.
From Verif Require Import Base Queue.
Import ListNotations.
Local Open Scope Z_scope.

Definition addr : Type := Z.
Definition text : Type := list Z.

(** ** The structures, include/*.h *)
(** LIST_NODE and LIST, include/list_template.h 54-100 *)
Record lnode V := mkLnode { ln_data : V; ln_prev : addr; ln_next : addr }.
Arguments mkLnode {V}. Arguments ln_data {V}. Arguments ln_prev {V}. Arguments ln_next {V}.
Record lst := mkLst { ls_size : Z; ls_first : addr; ls_last : addr }.
(** Material_t *)
Record mat_v := mkMatV { mv_id : addr; mv_vhc : Q; mv_x : Q; mv_y : Q; mv_z : Q }.
(** ICElement_t: coordinates, discretization, and indices *)
Record ic_v := mkIcV {
  iv_sw_x : Q; iv_sw_y : Q; iv_length : Q; iv_width : Q; iv_discr_x : Q; iv_discr_y : Q;
  iv_sw_row : Z; iv_sw_col : Z; iv_ne_row : Z; iv_ne_col : Z; iv_start : Z; iv_end : Z; iv_material : mat_v }.
(** MaterialElement_t *)
Record mel_v := mkMelV { ev_material : mat_v; ev_n : Z; ev_elements : lst }.
(** Layer_t *)
Record layer_v := mkLayerV {
  yv_id : addr; yv_file : addr; yv_height : Q; yv_material : mat_v; yv_layout : lst; yv_discr_x : Z; yv_discr_y : Z }.
(** PowersQueue_t *)
Record pq_v := mkPqV { qv_cap : Z; qv_mem : addr; qv_size : Z; qv_end : Z; qv_start : Z }.
(** FloorplanElement_t *)
Record fel_v := mkFelV { gv_id : addr; gv_n : Z; gv_elements : lst; gv_area : Q; gv_powers : addr }.
(** FloorplanMatrix_t *)
Record fm_v := mkFmV { xv_cols : addr; xv_rows : addr; xv_vals : addr; xv_nrows : Z; xv_ncols : Z; xv_nnz : Z }.
(** Floorplan_t *)
Record flp_v := mkFlpV { fv_file : addr; fv_n : Z; fv_elements : lst; fv_matrix : fm_v; fv_bpowers : addr }.
(** Die_t *)
Record die_v := mkDieV { dv_id : addr; dv_n : Z; dv_source : Z; dv_layers : lst; dv_floorplan : flp_v; dv_discr_x : Z; dv_discr_y : Z }.
(** HeatSink_t; the two functions of the plugin are addresses of code *)
Record sink_v := mkSinkV {
  hv_model : Z; hv_htc : Q; hv_temperature : Q; hv_length : Q; hv_width : Q; hv_height : Q;
  hv_material : mat_v; hv_plugin : addr; hv_args : addr; hv_cell_length : Q; hv_cell_width : Q;
  hv_rows : Z; hv_cols : Z; hv_row_border : Z; hv_col_border : Z; hv_code_init : Z; hv_code : Z }.
(** Coolant_t *)
Record cool_v := mkCoolV { ov_side : Q; ov_top : Q; ov_bottom : Q; ov_vhc : Q; ov_flow : Q; ov_darcy : Q; ov_tin : Q }.
(** Channel_t *)
Record chan_v := mkChanV {
  cv_model : Z; cv_height : Q; cv_length : Q; cv_pitch : Q; cv_porosity : Q; cv_channels : Z; cv_n : Z; cv_source : Z;
  cv_coolant : cool_v; cv_material : mat_v }.
(** Connection_t *)
Record conn_v := mkConnV { nv_node1 : Z; nv_layer1 : Z; nv_node2 : Z; nv_layer2 : Z; nv_direction : Z; nv_value : Q }.
(** Non_uniform_cell_t *)
Record cell_v := mkCellV {
  uv_layer : Z; uv_x : Q; uv_y : Q; uv_z : Q; uv_length : Q; uv_width : Q; uv_height : Q; uv_channel : Z; uv_material : mat_v }.
(** CellDimensions_t, GridDimensions_t, ChipDimensions_t, Dimensions_t *)
Record cdim_v := mkCdimV { kv_first : Q; kv_wall : Q; kv_channel : Q; kv_last : Q; kv_width : Q; kv_n : Z; kv_heights : addr }.
Record gdim_v := mkGdimV { jv_layers : Z; jv_rows : Z; jv_cols : Z; jv_cells : Z; jv_conns : Z }.
Record dim_v := mkDimV {
  zv_cell : cdim_v; zv_grid : gdim_v; zv_chip : Q * Q; zv_nonuniform : Z; zv_discr_x : Z; zv_discr_y : Z;
  zv_pointer : addr; zv_cells : lst; zv_conns : lst }.
(** StackElement_t: the type and the pointer of the union *)
Inductive se_type := SeNone | SeLayer | SeDie | SeChannel.
Record se_v := mkSeV { wv_id : addr; wv_type : se_type; wv_pointer : addr; wv_top : addr; wv_bottom : addr; wv_n : Z; wv_offset : Z }.
(** InspectionPoint_t: instant, type, quantity, coordinates asked and actual,
    indices, and the two pointers *)
Record ip_v := mkIpV {
  tv_file : addr; tv_instant : Z; tv_type : Z; tv_quantity : Z; tv_x : Q; tv_ax : Q; tv_y : Q; tv_ay : Q; tv_row : Z; tv_col : Z;
  tv_element : addr; tv_flpel : addr }.
(** Output_t *)
Record out_v := mkOutV { av_final : lst; av_slot : lst; av_step : lst }.
(** StackDescription_t *)
Record sd_v := mkSdV {
  rv_file : addr; rv_materials : lst; rv_top : addr; rv_bottom : addr; rv_channel : addr; rv_layers : lst; rv_dies : lst;
  rv_dims : addr; rv_elements : lst }.

(** ** The heap *)
Inductive block :=
| BText (t : text) | BPowers (l : list power) | BInts (l : list Z) | BNums (l : list Q) | BPointers (l : list addr)
| BMaterialNode (n : lnode mat_v) | BIcNode (n : lnode ic_v) | BMelNode (n : lnode mel_v) | BLayerNode (n : lnode layer_v)
| BFelNode (n : lnode fel_v) | BDieNode (n : lnode die_v) | BSeNode (n : lnode se_v) | BIpNode (n : lnode ip_v)
| BCellNode (n : lnode cell_v) | BConnNode (n : lnode conn_v)
| BRaw (n : Z) | BLayers (l : list layer_v) | BQueue (q : pq_v) | BLayer (l : layer_v) | BDie (d : die_v) | BSink (s : sink_v) | BChannel (c : chan_v) | BDims (d : dim_v).
Definition heap : Type := list (addr * block).
Fixpoint get (h : heap) (a : addr) : option block :=
  match h with [] => None | (x, b) :: r => if x =? a then Some b else get r a end.
Fixpoint del (h : heap) (a : addr) : heap :=
  match h with [] => [] | (x, b) :: r => if x =? a then r else (x, b) :: del r a end.
Fixpoint put (h : heap) (a : addr) (b' : block) : heap :=
  match h with [] => [] | (x, b) :: r => if x =? a then (x, b') :: r else (x, b) :: put r a b' end.

(** Programs. *)
Definition M (A : Type) : Type := heap -> outcome (heap * A).
Definition ret {A} (x : A) : M A := fun h => Ok (h, x).
Definition bnd {A B} (m : M A) (f : A -> M B) : M B :=
  fun h => match m h with Ok (h', x) => f x h' | UB => UB | NoFuel => NoFuel end.
Notation "x <~ m ;; k" := (bnd m (fun x => k)) (at level 100, m at next level, right associativity).
Definition bad {A} : M A := fun _ => UB.
Definition load (a : addr) : M block := fun h => match get h a with Some b => Ok (h, b) | None => UB end.
Definition store (a : addr) (b : block) : M unit := fun h => match get h a with Some _ => Ok (put h a b, tt) | None => UB end.
(** free: of a block in use, once; of a null pointer nothing. *)
Definition free (a : addr) : M unit :=
  fun h => if a =? 0 then Ok (h, tt) else match get h a with Some _ => Ok (del h a, tt) | None => UB end.

Section Alloc.
Variable pick : heap -> addr.
(** What a freshly allocated HeatSink_t holds where heat_sink_init writes nothing. *)
Variable junk : Z.

Definition malloc (b : block) : M addr := fun h => Ok ((pick h, b) :: h, pick h).

(** ** Strings, string_t.c 45-84 *)
Definition string_destroy (s : addr) : M addr :=
  if s =? 0 then ret 0 else _ <~ free s ;; ret 0.
Definition load_text (s : addr) : M text := b <~ load s ;; match b with BText t => ret t | _ => bad end.
Definition string_copy (dst src : addr) : M addr :=
  _ <~ string_destroy dst ;; if src =? 0 then ret 0 else t <~ load_text src ;; malloc (BText t).

(** ** Lists of structures, list_template.c 63-326 *)
Section Lists.
Context {V : Type}.
Variables (inj : lnode V -> block) (prj : block -> option (lnode V)).
Variables (init : V) (copy : V -> V -> M V) (destroy : V -> M V).
Definition load_node (a : addr) : M (lnode V) := b <~ load a ;; match prj b with Some n => ret n | None => bad end.
(** TTT_list_init, 63-70 *)
Definition list_init : lst := mkLst 0 0 0.
(** TTT_list_destroy, 90-107 *)
Fixpoint list_destroy_f (fuel : nat) (first : addr) : M unit :=
  match fuel with
  | O => fun _ => NoFuel
  | S f =>
    if first =? 0 then ret tt
    else n <~ load_node first ;; _ <~ destroy (ln_data n) ;; _ <~ free first ;; list_destroy_f f (ln_next n)
  end.
Definition list_destroy (l : lst) : M lst :=
  fun h => bnd (list_destroy_f (S (length h)) (ls_first l)) (fun _ => ret list_init) h.
(** TTT_list_insert_end, 244-286 *)
Definition list_insert_end (l : lst) (data : V) : M lst :=
  new <~ malloc (inj (mkLnode init 0 0)) ;; v <~ copy init data ;;
  if (ls_first l =? 0) && (ls_last l =? 0)
  then _ <~ store new (inj (mkLnode v 0 0)) ;; ret (mkLst (u32 (ls_size l + 1)) new new)
  else _ <~ store new (inj (mkLnode v (ls_last l) 0)) ;;
       n <~ load_node (ls_last l) ;; _ <~ store (ls_last l) (inj (mkLnode (ln_data n) (ln_prev n) new)) ;;
       ret (mkLst (u32 (ls_size l + 1)) (ls_first l) new).
(** TTT_list_insert_begin, 158-199; the message about a bad list loses the node. *)
Definition list_insert_begin (l : lst) (data : V) : M lst :=
  new <~ malloc (inj (mkLnode init 0 0)) ;; v <~ copy init data ;;
  if (ls_first l =? 0) && (ls_last l =? 0)
  then _ <~ store new (inj (mkLnode v 0 0)) ;; ret (mkLst (u32 (ls_size l + 1)) new new)
  else if (ls_first l =? 0) || (ls_last l =? 0)
  then _ <~ store new (inj (mkLnode v 0 0)) ;; ret l
  else _ <~ store new (inj (mkLnode v 0 (ls_first l))) ;;
       n <~ load_node (ls_first l) ;; _ <~ store (ls_first l) (inj (mkLnode (ln_data n) new (ln_next n))) ;;
       ret (mkLst (u32 (ls_size l + 1)) new (ls_last l)).
(** TTT_list_merge, 204-240: the nodes of the second list are linked behind the
    first list and the second list becomes empty. *)
Definition list_merge (l1 l2 : lst) : M (lst * lst) :=
  if ls_first l1 =? 0 then ret (mkLst (ls_size l2) (ls_first l2) (ls_last l2), list_init)
  else if ls_first l2 =? 0 then ret (l1, l2)
  else a <~ load_node (ls_last l1) ;; _ <~ store (ls_last l1) (inj (mkLnode (ln_data a) (ln_prev a) (ls_first l2))) ;;
       b <~ load_node (ls_first l2) ;; _ <~ store (ls_first l2) (inj (mkLnode (ln_data b) (ls_last l1) (ln_next b))) ;;
       ret (mkLst (u32 (ls_size l1 + ls_size l2)) (ls_first l1) (ls_last l2), list_init).
(** TTT_list_copy, 74-86, without its first line *)
Fixpoint list_assign_f (fuel : nat) (dst : lst) (node : addr) : M lst :=
  match fuel with
  | O => fun _ => NoFuel
  | S f =>
    if node =? 0 then ret dst
    else n <~ load_node node ;; dst' <~ list_insert_end dst (ln_data n) ;; list_assign_f f dst' (ln_next n)
  end.
Definition list_assign (dst src : lst) : M lst := fun h => list_assign_f (S (length h)) dst (ls_first src) h.
Definition list_copy (dst src : lst) : M lst := d <~ list_destroy dst ;; list_assign d src.
End Lists.

(** ** Structures in blocks of their own: the functions x_calloc, x_clone and
       x_free have the same text for all types, e.g. material.c 79-119 *)
Section Boxes.
Context {V : Type}.
Variables (inj : V -> block) (prj : block -> option V).
Variables (init : V) (copy : V -> V -> M V) (destroy : V -> M V).
Definition load_box (p : addr) : M V := b <~ load p ;; match prj b with Some v => ret v | None => bad end.
Definition box_clone (p : addr) : M addr :=
  if p =? 0 then ret 0
  else a <~ malloc (inj init) ;; s <~ load_box p ;; v <~ copy init s ;; _ <~ store a (inj v) ;; ret a.
Definition box_free (p : addr) : M unit :=
  if p =? 0 then ret tt else v <~ load_box p ;; _ <~ destroy v ;; free p.
End Boxes.

(** ** Materials, material.c 45-75 *)
Definition material_init : mat_v := mkMatV 0 0 0 0 0.
Definition material_destroy (m : mat_v) : M mat_v := _ <~ string_destroy (mv_id m) ;; ret material_init.
Definition material_assign (d s : mat_v) : M mat_v :=
  i <~ string_copy (mv_id d) (mv_id s) ;; ret (mkMatV i (mv_vhc s) (mv_x s) (mv_y s) (mv_z s)).
Definition material_copy (d s : mat_v) : M mat_v := d <~ material_destroy d ;; material_assign d s.
Definition prj_material (b : block) := match b with BMaterialNode n => Some n | _ => None end.

(** ** Rectangles, ic_element.c 46-91 *)
Definition ic_init : ic_v := mkIcV 0 0 0 0 0 0 0 0 0 0 0 0 material_init.
Definition ic_destroy (i : ic_v) : M ic_v := _ <~ material_destroy (iv_material i) ;; ret ic_init.
Definition ic_assign (d s : ic_v) : M ic_v :=
  m <~ material_copy (iv_material d) (iv_material s) ;;
  ret (mkIcV (iv_sw_x s) (iv_sw_y s) (iv_length s) (iv_width s) (iv_discr_x s) (iv_discr_y s)
             (iv_sw_row s) (iv_sw_col s) (iv_ne_row s) (iv_ne_col s) (iv_start s) (iv_end s) m).
Definition ic_copy (d s : ic_v) : M ic_v := d <~ ic_destroy d ;; ic_assign d s.
Definition prj_ic (b : block) := match b with BIcNode n => Some n | _ => None end.
Definition ic_list_destroy := list_destroy prj_ic ic_destroy.
Definition ic_list_copy := list_copy BIcNode prj_ic ic_init ic_copy ic_destroy.

(** ** Regions of a layout, material_element.c 46-81 *)
Definition mel_init : mel_v := mkMelV material_init 0 list_init.
Definition mel_destroy (m : mel_v) : M mel_v :=
  _ <~ material_destroy (ev_material m) ;; _ <~ ic_list_destroy (ev_elements m) ;; ret mel_init.
Definition mel_assign (d s : mel_v) : M mel_v :=
  m <~ material_copy (ev_material d) (ev_material s) ;; l <~ ic_list_copy (ev_elements d) (ev_elements s) ;; ret (mkMelV m (ev_n s) l).
Definition mel_copy (d s : mel_v) : M mel_v := d <~ mel_destroy d ;; mel_assign d s.
Definition prj_mel (b : block) := match b with BMelNode n => Some n | _ => None end.
Definition mel_list_destroy := list_destroy prj_mel mel_destroy.
Definition mel_list_copy := list_copy BMelNode prj_mel mel_init mel_copy mel_destroy.

(** ** Layers, layer.c 46-90 *)
Definition layer_init : layer_v := mkLayerV 0 0 0 material_init list_init 0 0.
Definition layer_destroy (y : layer_v) : M layer_v :=
  _ <~ string_destroy (yv_id y) ;; _ <~ string_destroy (yv_file y) ;; _ <~ material_destroy (yv_material y) ;;
  _ <~ mel_list_destroy (yv_layout y) ;; ret layer_init.
Definition layer_assign (d s : layer_v) : M layer_v :=
  i <~ string_copy (yv_id d) (yv_id s) ;; f <~ string_copy (yv_file d) (yv_file s) ;; m <~ material_copy (yv_material d) (yv_material s) ;;
  l <~ mel_list_copy (yv_layout d) (yv_layout s) ;; ret (mkLayerV i f (yv_height s) m l (yv_discr_x s) (yv_discr_y s)).
Definition layer_copy (d s : layer_v) : M layer_v := d <~ layer_destroy d ;; layer_assign d s.
Definition prj_layer (b : block) := match b with BLayerNode n => Some n | _ => None end.
Definition layer_list_destroy := list_destroy prj_layer layer_destroy.
Definition layer_list_copy := list_copy BLayerNode prj_layer layer_init layer_copy layer_destroy.
Definition box_layer (b : block) := match b with BLayer v => Some v | _ => None end.
Definition layer_clone := box_clone BLayer box_layer layer_init layer_copy.
Definition layer_free := box_free box_layer layer_destroy.

(** ** Queues, powers_queue.c 45-158: the values are moved as in Queue.v *)
Definition load_powers (a : addr) : M (list power) := b <~ load a ;; match b with BPowers l => ret l | _ => bad end.
Definition load_queue (p : addr) : M queue :=
  b <~ load p ;;
  match b with
  | BQueue q => if qv_mem q =? 0 then ret (mkQueue None (qv_cap q) (qv_size q) (qv_start q) (qv_end q))
                else m <~ load_powers (qv_mem q) ;; ret (mkQueue (Some m) (qv_cap q) (qv_size q) (qv_start q) (qv_end q))
  | _ => bad
  end.
Definition lift {A} (o : outcome A) : M A := fun h => do x <- o ; Ok (h, x).
(** powers_queue_clone, 132-145: the copy is a new queue, whose memory is
    allocated once, as it has room for all values. *)
Definition queue_clone (p : addr) : M addr :=
  if p =? 0 then ret 0
  else a <~ malloc (BQueue (mkPqV 0 0 0 0 0)) ;; s <~ load_queue p ;; q <~ lift (Queue.queue_clone s) ;;
       match q_mem q with
       | None => bad
       | Some m => w <~ malloc (BPowers m) ;; _ <~ store a (BQueue (mkPqV (q_cap q) w (q_size q) (q_end q) (q_start q))) ;; ret a
       end.
(** powers_queue_free, 149-158 *)
Definition queue_free (p : addr) : M unit :=
  if p =? 0 then ret tt
  else b <~ load p ;; match b with BQueue q => _ <~ free (qv_mem q) ;; free p | _ => bad end.

(** ** Floorplan elements, floorplan_element.c 46-89 *)
Definition fel_init : fel_v := mkFelV 0 0 list_init 0 0.
Definition fel_destroy (g : fel_v) : M fel_v :=
  _ <~ string_destroy (gv_id g) ;; _ <~ ic_list_destroy (gv_elements g) ;; _ <~ queue_free (gv_powers g) ;; ret fel_init.
Definition fel_assign (d s : fel_v) : M fel_v :=
  i <~ string_copy (gv_id d) (gv_id s) ;; l <~ ic_list_copy (gv_elements d) (gv_elements s) ;; q <~ queue_clone (gv_powers s) ;;
  ret (mkFelV i (gv_n s) l (gv_area s) q).
Definition fel_copy (d s : fel_v) : M fel_v := d <~ fel_destroy d ;; fel_assign d s.
Definition prj_fel (b : block) := match b with BFelNode n => Some n | _ => None end.
Definition fel_list_destroy := list_destroy prj_fel fel_destroy.
Definition fel_list_copy := list_copy BFelNode prj_fel fel_init fel_copy fel_destroy.

(** ** Matrices of a floorplan, floorplan_matrix.c 46-141 *)
Definition fm_init : fm_v := mkFmV 0 0 0 0 0 0.
Definition fm_destroy (x : fm_v) : M fm_v := _ <~ free (xv_cols x) ;; _ <~ free (xv_rows x) ;; _ <~ free (xv_vals x) ;; ret fm_init.
Definition load_ints (a : addr) : M (list Z) := b <~ load a ;; match b with BInts l => ret l | _ => bad end.
Definition load_nums (a : addr) : M (list Q) := b <~ load a ;; match b with BNums l => ret l | _ => bad end.
(** memcpy of [n] words from a block with fewer is undefined. *)
Definition memcpy_ints (dst src : addr) (n : Z) : M unit :=
  if src =? 0 then ret tt
  else l <~ load_ints src ;; if Z.of_nat (length l) <? n then bad else store dst (BInts (firstn (Z.to_nat n) l)).
Definition memcpy_nums (dst src : addr) (n : Z) : M unit :=
  if src =? 0 then ret tt
  else l <~ load_nums src ;; if Z.of_nat (length l) <? n then bad else store dst (BNums (firstn (Z.to_nat n) l)).
Definition fm_assign (d s : fm_v) : M fm_v :=
  if (xv_nrows s =? 0) || (xv_ncols s =? 0) || (xv_nnz s =? 0) then ret d
  else r <~ malloc (BInts (repeat 0 (Z.to_nat (xv_nnz s)))) ;; c <~ malloc (BInts (repeat 0 (Z.to_nat (u32 (xv_ncols s + 1))))) ;;
       v <~ malloc (BNums (repeat 0%Q (Z.to_nat (xv_nnz s)))) ;;
       _ <~ memcpy_ints c (xv_cols s) (u32 (xv_ncols s + 1)) ;; _ <~ memcpy_ints r (xv_rows s) (xv_nnz s) ;; _ <~ memcpy_nums v (xv_vals s) (xv_nnz s) ;;
       ret (mkFmV c r v (xv_nrows s) (xv_ncols s) (xv_nnz s)).
Definition fm_copy (d s : fm_v) : M fm_v := d <~ fm_destroy d ;; fm_assign d s.

(** ** Floorplans, floorplan.c 47-105 *)
Definition flp_init : flp_v := mkFlpV 0 0 list_init fm_init 0.
Definition flp_destroy (f : flp_v) : M flp_v :=
  _ <~ string_destroy (fv_file f) ;; _ <~ free (fv_bpowers f) ;; _ <~ fel_list_destroy (fv_elements f) ;; _ <~ fm_destroy (fv_matrix f) ;; ret flp_init.
Definition flp_assign (d s : flp_v) : M flp_v :=
  i <~ string_copy (fv_file d) (fv_file s) ;; l <~ fel_list_copy (fv_elements d) (fv_elements s) ;; x <~ fm_copy (fv_matrix d) (fv_matrix s) ;;
  if fv_bpowers s =? 0 then ret (mkFlpV i (fv_n s) l x 0)
  else b <~ malloc (BNums (repeat 0%Q (Z.to_nat (fv_n s)))) ;; _ <~ memcpy_nums b (fv_bpowers s) (fv_n s) ;; ret (mkFlpV i (fv_n s) l x b).
Definition flp_copy (d s : flp_v) : M flp_v := d <~ flp_destroy d ;; flp_assign d s.

(** ** Dies, die.c 45-129 *)
Definition die_init : die_v := mkDieV 0 0 0 list_init flp_init 0 0.
Definition die_destroy (d : die_v) : M die_v :=
  _ <~ string_destroy (dv_id d) ;; _ <~ layer_list_destroy (dv_layers d) ;; _ <~ flp_destroy (dv_floorplan d) ;; ret die_init.
Definition die_assign (d s : die_v) : M die_v :=
  i <~ string_copy (dv_id d) (dv_id s) ;; l <~ layer_list_copy (dv_layers d) (dv_layers s) ;; f <~ flp_copy (dv_floorplan d) (dv_floorplan s) ;;
  ret (mkDieV i (dv_n s) (dv_source s) l f (dv_discr_x s) (dv_discr_y s)).
Definition die_copy (d s : die_v) : M die_v := d <~ die_destroy d ;; die_assign d s.
Definition prj_die (b : block) := match b with BDieNode n => Some n | _ => None end.
Definition box_die (b : block) := match b with BDie v => Some v | _ => None end.
Definition die_clone := box_clone BDie box_die die_init die_copy.
Definition die_free := box_free box_die die_destroy.

(** ** Heat sinks, heat_sink.c 51-168: PluggableHeatsinkInit is neither set by
       heat_sink_init nor copied. *)
Definition sink_init_of (code : Z) : sink_v := mkSinkV 0 0 0 0 0 0 material_init 0 0 0 0 0 0 0 0 code 0.
Definition sink_init : sink_v := sink_init_of junk.
Definition sink_destroy (s : sink_v) : M sink_v :=
  _ <~ material_destroy (hv_material s) ;; _ <~ string_destroy (hv_plugin s) ;; _ <~ string_destroy (hv_args s) ;; ret (sink_init_of (hv_code_init s)).
Definition sink_assign (d s : sink_v) : M sink_v :=
  m <~ material_copy (hv_material d) (hv_material s) ;; p <~ string_copy (hv_plugin d) (hv_plugin s) ;; a <~ string_copy (hv_args d) (hv_args s) ;;
  ret (mkSinkV (hv_model s) (hv_htc s) (hv_temperature s) (hv_length s) (hv_width s) (hv_height s) m p a (hv_cell_length s) (hv_cell_width s)
               (hv_rows s) (hv_cols s) (hv_row_border s) (hv_col_border s) (hv_code_init d) (hv_code s)).
Definition sink_copy (d s : sink_v) : M sink_v := d <~ sink_destroy d ;; sink_assign d s.
Definition box_sink (b : block) := match b with BSink v => Some v | _ => None end.
Definition sink_clone := box_clone BSink box_sink sink_init sink_copy.
Definition sink_free := box_free box_sink sink_destroy.

(** ** Channels, coolant.c 43-76, channel.c 46-130 *)
Definition cool_init : cool_v := mkCoolV 0 0 0 0 0 0 0.
Definition cool_copy (s : cool_v) : cool_v := mkCoolV (ov_side s) (ov_top s) (ov_bottom s) (ov_vhc s) (ov_flow s) (ov_darcy s) (ov_tin s).
Definition chan_init : chan_v := mkChanV 0 0 0 0 0 0 0 0 cool_init material_init.
Definition chan_destroy (c : chan_v) : M chan_v := _ <~ material_destroy (cv_material c) ;; ret chan_init.
Definition chan_assign (d s : chan_v) : M chan_v :=
  m <~ material_copy (cv_material d) (cv_material s) ;;
  ret (mkChanV (cv_model s) (cv_height s) (cv_length s) (cv_pitch s) (cv_porosity s) (cv_channels s) (cv_n s) (cv_source s) (cool_copy (cv_coolant s)) m).
Definition chan_copy (d s : chan_v) : M chan_v := d <~ chan_destroy d ;; chan_assign d s.
Definition box_chan (b : block) := match b with BChannel v => Some v | _ => None end.
Definition chan_free := box_free box_chan chan_destroy.

(** ** Connections and cells of the non-uniform grid, connection.c 43-79,
       non_uniform_cell.c 44-87 *)
Definition conn_init : conn_v := mkConnV 0 0 0 0 0 0.
Definition conn_destroy (n : conn_v) : M conn_v := ret conn_init.
Definition conn_assign (d s : conn_v) : M conn_v := ret (mkConnV (nv_node1 s) (nv_layer1 s) (nv_node2 s) (nv_layer2 s) (nv_direction s) (nv_value s)).
Definition conn_copy (d s : conn_v) : M conn_v := d <~ conn_destroy d ;; conn_assign d s.
Definition prj_conn (b : block) := match b with BConnNode n => Some n | _ => None end.
Definition cell_init : cell_v := mkCellV 0 0 0 0 0 0 0 0 material_init.
Definition cell_destroy (u : cell_v) : M cell_v := _ <~ material_destroy (uv_material u) ;; ret cell_init.
Definition cell_assign (d s : cell_v) : M cell_v :=
  m <~ material_copy (uv_material d) (uv_material s) ;;
  ret (mkCellV (uv_layer s) (uv_x s) (uv_y s) (uv_z s) (uv_length s) (uv_width s) (uv_height s) (uv_channel s) m).
Definition cell_copy (d s : cell_v) : M cell_v := d <~ cell_destroy d ;; cell_assign d s.
Definition prj_cell (b : block) := match b with BCellNode n => Some n | _ => None end.

(** ** Dimensions, dimensions.c 48-261 *)
Definition cdim_init : cdim_v := mkCdimV 0 0 0 0 0 0 0.
Definition cdim_destroy (k : cdim_v) : M cdim_v := _ <~ free (kv_heights k) ;; ret cdim_init.
Definition cdim_assign (d s : cdim_v) : M cdim_v :=
  if kv_heights s =? 0 then ret (mkCdimV (kv_first s) (kv_wall s) (kv_channel s) (kv_last s) (kv_width s) (kv_n s) 0)
  else a <~ malloc (BNums (repeat 0%Q (Z.to_nat (kv_n s)))) ;; _ <~ memcpy_nums a (kv_heights s) (kv_n s) ;;
       ret (mkCdimV (kv_first s) (kv_wall s) (kv_channel s) (kv_last s) (kv_width s) (kv_n s) a).
Definition cdim_copy (d s : cdim_v) : M cdim_v := d <~ cdim_destroy d ;; cdim_assign d s.
Definition gdim_init : gdim_v := mkGdimV 0 0 0 0 0.
Definition gdim_copy (s : gdim_v) : gdim_v := mkGdimV (jv_layers s) (jv_rows s) (jv_cols s) (jv_cells s) (jv_conns s).
Definition dim_init : dim_v := mkDimV cdim_init gdim_init (0, 0)%Q 0 0 0 0 list_init list_init.
Definition cell_list_destroy := list_destroy prj_cell cell_destroy.
Definition conn_list_destroy := list_destroy prj_conn conn_destroy.
Definition dim_destroy (z : dim_v) : M dim_v :=
  _ <~ cdim_destroy (zv_cell z) ;; _ <~ free (zv_pointer z) ;; _ <~ cell_list_destroy (zv_cells z) ;; _ <~ conn_list_destroy (zv_conns z) ;; ret dim_init.
Definition dim_assign (d s : dim_v) : M dim_v :=
  c <~ cdim_copy (zv_cell d) (zv_cell s) ;;
  l <~ list_copy BCellNode prj_cell cell_init cell_copy cell_destroy (zv_cells d) (zv_cells s) ;;
  n <~ list_copy BConnNode prj_conn conn_init conn_copy conn_destroy (zv_conns d) (zv_conns s) ;;
  ret (mkDimV c (gdim_copy (zv_grid s)) (zv_chip s) (zv_nonuniform s) (zv_discr_x s) (zv_discr_y s) (zv_pointer s) l n).
Definition dim_copy (d s : dim_v) : M dim_v := d <~ dim_destroy d ;; dim_assign d s.
Definition box_dim (b : block) := match b with BDims v => Some v | _ => None end.
Definition dim_free := box_free box_dim dim_destroy.

(** ** Stack elements, stack_element.c 45-152 *)
Definition se_init : se_v := mkSeV 0 SeNone 0 0 0 0 0.
Definition se_destroy (w : se_v) : M se_v :=
  _ <~ string_destroy (wv_id w) ;;
  _ <~ match wv_type w with SeDie => die_free (wv_pointer w) | SeLayer => layer_free (wv_pointer w) | _ => ret tt end ;;
  _ <~ (if wv_top w =? 0 then ret tt else sink_free (wv_top w)) ;; _ <~ (if wv_bottom w =? 0 then ret tt else sink_free (wv_bottom w)) ;; ret se_init.
Definition se_assign (d s : se_v) : M se_v :=
  i <~ string_copy (wv_id d) (wv_id s) ;;
  p <~ match wv_type s with SeLayer => layer_clone (wv_pointer s) | SeDie => die_clone (wv_pointer s) | _ => ret (wv_pointer s) end ;;
  t <~ (if wv_top s =? 0 then ret (wv_top d) else sink_clone (wv_top s)) ;; b <~ (if wv_bottom s =? 0 then ret (wv_bottom d) else sink_clone (wv_bottom s)) ;;
  ret (mkSeV i (wv_type s) p t b (wv_n s) (wv_offset s)).
Definition se_copy (d s : se_v) : M se_v := d <~ se_destroy d ;; se_assign d s.
Definition prj_se (b : block) := match b with BSeNode n => Some n | _ => None end.

(** ** Outputs, inspection_point.c 46-91, output.c 46-81 *)
Definition ip_init : ip_v := mkIpV 0 0 0 0 0 0 0 0 0 0 0 0.
Definition ip_destroy (t : ip_v) : M ip_v := _ <~ string_destroy (tv_file t) ;; ret ip_init.
Definition ip_assign (d s : ip_v) : M ip_v :=
  f <~ string_copy (tv_file d) (tv_file s) ;;
  ret (mkIpV f (tv_instant s) (tv_type s) (tv_quantity s) (tv_x s) (tv_ax s) (tv_y s) (tv_ay s) (tv_row s) (tv_col s) (tv_element s) (tv_flpel s)).
Definition ip_copy (d s : ip_v) : M ip_v := d <~ ip_destroy d ;; ip_assign d s.
Definition prj_ip (b : block) := match b with BIpNode n => Some n | _ => None end.
Definition ip_list_destroy := list_destroy prj_ip ip_destroy.
Definition ip_list_copy := list_copy BIpNode prj_ip ip_init ip_copy ip_destroy.
Definition out_init : out_v := mkOutV list_init list_init list_init.
Definition out_destroy (o : out_v) : M out_v :=
  _ <~ ip_list_destroy (av_final o) ;; _ <~ ip_list_destroy (av_slot o) ;; _ <~ ip_list_destroy (av_step o) ;; ret out_init.
Definition out_assign (d s : out_v) : M out_v :=
  a <~ ip_list_copy (av_final d) (av_final s) ;; b <~ ip_list_copy (av_slot d) (av_slot s) ;; c <~ ip_list_copy (av_step d) (av_step s) ;; ret (mkOutV a b c).
Definition out_copy (d s : out_v) : M out_v := d <~ out_destroy d ;; out_assign d s.

(** ** Stack descriptions, stack_description.c 43-75 *)
Definition sd_init : sd_v := mkSdV 0 list_init 0 0 0 list_init list_init 0 list_init.
Definition sd_destroy (r : sd_v) : M sd_v :=
  _ <~ string_destroy (rv_file r) ;; _ <~ sink_free (rv_top r) ;; _ <~ sink_free (rv_bottom r) ;; _ <~ chan_free (rv_channel r) ;; _ <~ dim_free (rv_dims r) ;;
  _ <~ list_destroy prj_material material_destroy (rv_materials r) ;; _ <~ layer_list_destroy (rv_layers r) ;;
  _ <~ list_destroy prj_die die_destroy (rv_dies r) ;; _ <~ list_destroy prj_se se_destroy (rv_elements r) ;; ret sd_init.
End Alloc.
