(** * Model of the system matrix of the non-uniform grid: get_capacity_non_uniform
      and get_conductance_non_uniform* (/repo/sources/thermal_grid.c 326-430,
      533-960), get_convective_term_nonuniform (channel.c 284-335),
      add_solid_column_non_uniform and compare (system_matrix.c 524-737).

    Exact rationals; a division by zero is 0 (the code gets NaN or infinity). *)
From Coq Require Import ZArith List Bool QArith Permutation Sorted.
From Verif Require Import Base Dims Floorplan Stack PowerGrid Emulate Conduct Matrix NonUniform.
Import ListNotations.
Local Open Scope Z_scope.

(** LayersTypeProfile, LayersProfile and get_cell_height at the layer of a cell. *)
Definition nu_layer (g : tgrid) (d : dims) (l : Z) (k : layer_type -> material -> Q -> outcome Q) : outcome Q :=
  do t <- arr_get (tg_types g) l ;
  do ly <- arr_get (tg_layers g) l ;
  do h <- get_cell_height d l ;
  k t (material_at d ly 0 0) h.

(** The assert of the get_spreader_* functions, heat_sink.c 377-421. *)
Definition with_spreader (g : tgrid) (k : spreader -> Q -> material -> outcome Q) : outcome Q :=
  match tg_top g with Some (SinkPluggable s h m) => k s h m | _ => UB end.

(** get_capacity_non_uniform, thermal_grid.c 326-430: layers of solids use the
    material of the layer at row 0 and column 0, sources that of the cell. *)
Definition nu_capacity (g : tgrid) (d : dims) (c : cell) : outcome Q :=
  if Z.of_nat (length (tg_types g)) <=? c_layer c then with_spreader g (fun s h m => Ok (spreader_capacity s h m))
  else nu_layer g d (c_layer c) (fun t m h =>
    let vol := (c_length c * c_width c * h)%Q in
    match t with
    | LT_SOLID | LT_SOLID_AMBIENT | LT_SOLID_SPREADER | LT_SOLID_PCB => Ok (mt_vhc m * vol)%Q
    | LT_SOURCE | LT_SOURCE_AMBIENT | LT_SOURCE_SPREADER | LT_SOURCE_PCB => Ok (mt_vhc (c_mat c) * vol)%Q
    | LT_CHANNEL_4RM => if c_channel c then with_channel g (fun ch => Ok (co_vhc ch * vol)%Q) else Ok (mt_vhc m * vol)%Q
    | LT_CHANNEL_2RM | LT_PINFINS_INLINE | LT_PINFINS_STAGGERED => with_channel g (fun ch => Ok (co_vhc ch * ch_porosity ch * vol)%Q)
    | LT_VWALL_CHANNEL | LT_VWALL_PINFINS => with_channel g (fun ch => Ok (mt_vhc m * (1 - ch_porosity ch) * vol)%Q)
    | LT_TOP_WALL | LT_BOTTOM_WALL | LT_NONE => Ok 0%Q
    end).

(** get_convective_term_nonuniform, channel.c 284-335. *)
Definition nu_convective (ch : channel) (d : dims) (l : Z) (len : Q) : outcome Q :=
  match ch_model ch with
  | CM_MC_4RM => Ok (co_vhc ch * co_flow_rate ch / (qz (ch_nchannels ch) * 2))%Q
  | CM_MC_2RM => Ok (co_vhc ch * co_flow_rate ch * ch_porosity ch * len / (qz (ch_nchannels ch) * 2 * ch_length ch))%Q
  | CM_PF_INLINE | CM_PF_STAGGERED => do h <- get_cell_height d l ; Ok (co_vhc ch * co_darcy ch * len * h / 2)%Q
  | CM_NONE => Ok 0%Q
  end.

(** get_conductance_non_uniform_z, thermal_grid.c 533-655: [v] is the area of the
    connection, [up] tells whether the other cell is above. *)
Definition nu_z (g : tgrid) (d : dims) (v : Q) (c : cell) (up : bool) : outcome Q :=
  let l := c_layer c in
  if d_nlayers d <=? l then with_spreader g (fun s h m => Ok (mt_kz m * v / (h / 2))%Q)
  else nu_layer g d l (fun t m h =>
    let outer := (l =? 0) || (l =? u32 (d_nlayers d - 1)) in
    let half := (h / 2)%Q in
    match t with
    | LT_SOLID => Ok (mt_kz m * v / (if outer then h else half))%Q
    | LT_SOURCE => Ok (mt_kz (c_mat c) * v / (if outer then h else half))%Q
    | LT_SOLID_SPREADER =>
      if negb (l =? last_layer d) then UB else Ok (mt_kz m * v / (if l =? 0 then h else half))%Q
    | LT_SOURCE_SPREADER =>
      if negb (l =? last_layer d) then UB else Ok (mt_kz (c_mat c) * v / (if l =? 0 then h else half))%Q
    | LT_SOLID_AMBIENT | LT_SOLID_PCB => Ok (mt_kz m * v / half)%Q
    | LT_SOURCE_AMBIENT | LT_SOURCE_PCB => Ok (mt_kz (c_mat c) * v / half)%Q
    | LT_CHANNEL_4RM =>
      if c_channel c then with_channel g (fun ch => Ok ((if up then co_htc_top ch else co_htc_bottom ch) * v)%Q)
      else Ok (mt_kz m * v / half)%Q
    | LT_CHANNEL_2RM => with_channel g (fun ch => Ok ((if up then co_htc_top ch else co_htc_bottom ch) * v)%Q)
    | LT_PINFINS_INLINE | LT_PINFINS_STAGGERED => with_channel g (fun ch => Ok (ch_htc_pf ch * v)%Q)
    | LT_VWALL_CHANNEL | LT_VWALL_PINFINS => with_channel g (fun ch => Ok (mt_kz m * v / half * (1 - ch_porosity ch))%Q)
    | LT_TOP_WALL | LT_BOTTOM_WALL | LT_NONE => Ok 0%Q
    end).

(** get_conductance_non_uniform_y, thermal_grid.c 659-755: [len] is the contact
    length, [sign] the direction of the coolant. *)
Definition nu_y (g : tgrid) (d : dims) (len : Q) (c : cell) (sign : Q) : outcome Q :=
  let l := c_layer c in
  if d_nlayers d <=? l then with_spreader g (fun s h m => Ok (spreader_north_south s h m))
  else nu_layer g d l (fun t m h =>
    let solid k := Ok (k * len * h / (c_width c / 2))%Q in
    match t with
    | LT_SOLID | LT_SOLID_AMBIENT | LT_SOLID_SPREADER | LT_SOLID_PCB => solid (mt_ky m)
    | LT_SOURCE | LT_SOURCE_AMBIENT | LT_SOURCE_SPREADER | LT_SOURCE_PCB => solid (mt_ky (c_mat c))
    | LT_CHANNEL_4RM =>
      if c_channel c then with_channel g (fun ch => do x <- get_convective_term ch d l 0 0 ; Ok (sign * x)%Q)
      else solid (mt_ky m)
    | LT_CHANNEL_2RM | LT_PINFINS_INLINE | LT_PINFINS_STAGGERED =>
      with_channel g (fun ch => do x <- nu_convective ch d l len ; Ok (sign * x)%Q)
    | LT_VWALL_CHANNEL => with_channel g (fun ch => Ok (mt_ky m * len * h / (len / 2) * (1 - ch_porosity ch))%Q)
    | LT_VWALL_PINFINS | LT_TOP_WALL | LT_BOTTOM_WALL | LT_NONE => Ok 0%Q
    end).

(** get_conductance_non_uniform_x, thermal_grid.c 759-845. *)
Definition nu_x (g : tgrid) (d : dims) (len : Q) (c : cell) : outcome Q :=
  let l := c_layer c in
  if d_nlayers d <=? l then with_spreader g (fun s h m => Ok (spreader_east_west s h m))
  else nu_layer g d l (fun t m h =>
    let solid k := Ok (k * len * h / (c_length c / 2))%Q in
    match t with
    | LT_SOLID | LT_SOLID_AMBIENT | LT_SOLID_SPREADER | LT_SOLID_PCB => solid (mt_kx m)
    | LT_SOURCE | LT_SOURCE_AMBIENT | LT_SOURCE_SPREADER | LT_SOURCE_PCB => solid (mt_kx (c_mat c))
    | LT_CHANNEL_4RM =>
      if c_channel c then with_channel g (fun ch => Ok (co_htc_side ch * len * h)%Q) else solid (mt_kx m)
    | LT_CHANNEL_2RM | LT_PINFINS_INLINE | LT_PINFINS_STAGGERED | LT_VWALL_CHANNEL | LT_VWALL_PINFINS
    | LT_TOP_WALL | LT_BOTTOM_WALL | LT_NONE => Ok 0%Q
    end).

(** PARALLEL, include/macros.h 88. *)
Definition parallel_of (x y : Q) : Q := (x * y / (x + y))%Q.

(** get_conductance_non_uniform, thermal_grid.c 849-960: the value and sign_note;
    [a] and [b] are its node1 and node2. *)
Definition nu_conductance (g : tgrid) (d : dims) (k : conn) (a b : cell) : outcome (Q * Q) :=
  let v := k_value k in
  if k_dir k =? 0 then
    let up := c_layer a <? c_layer b in
    do g1 <- nu_z g d v a up ;
    do g2 <- nu_z g d v b (negb up) ;
    Ok (if Qeq_bool g1 0 then - g2 else if Qeq_bool g2 0 then - g1 else - parallel_of g1 g2, 1)%Q
  else if k_dir k =? 1 then
    do g1 <- nu_x g d v a ;
    do g2 <- nu_x g d v b ;
    Ok (- parallel_of g1 g2, 1)%Q
  else if k_dir k =? 2 then
    let sign := if Qlt_bool (r_y0 (c_rect a)) (r_y0 (c_rect b)) then 1%Q else (-1)%Q in
    if c_channel b then
      do x <- nu_y g d v b sign ;
      Ok (x, -1)%Q
    else
      do g1 <- nu_y g d v a sign ;
      do g2 <- nu_y g d v b (- sign)%Q ;
      Ok (- parallel_of g1 g2, 1)%Q
  else Ok (0, 1)%Q.

(** A row of matrix_tmp: row, column, value. *)
Record entry := mkEntry { e_row : Z; e_col : Z; e_val : Q }.

(** The two entries of a connection, system_matrix.c 565-582: Cell_pointer is the
    array of the cells. *)
Definition nu_entries (g : tgrid) (d : dims) (cells : list cell) (k : conn) : outcome (list entry) :=
  do b <- arr_get cells (k_node2 k) ;
  do a <- arr_get cells (k_node1 k) ;
  do r <- nu_conductance g d k b a ;
  Ok [mkEntry (k_node2 k) (k_node1 k) (fst r); mkEntry (k_node1 k) (k_node2 k) (snd r * fst r)%Q].

(** The initial value of the diagonal entry of a cell, 595-672. The top sink of a
    layer connected to the ambient is dereferenced. *)
Definition nu_diagonal (g : tgrid) (d : dims) (an : analysis) (c : cell) : outcome Q :=
  do base <- (match an_type an with
              | AT_TRANSIENT => do x <- nu_capacity g d c ; Ok (x / an_step an)%Q
              | _ => Ok 0%Q end) ;
  let l := c_layer c in
  if l <? d_nlayers d then
    let outlet := Qeq_bool (r_y0 (c_rect c) + c_width c) (d_chip_width d) in
    do t <- arr_get (tg_types g) l ;
    match t with
    | LT_SOLID_AMBIENT =>
      nu_layer g d l (fun _ m h => with_top g (fun htc =>
        Ok (base + 2 * mt_kz m * htc * c_length c * c_width c / (h * htc + 2 * mt_kz m))%Q))
    | LT_SOURCE_AMBIENT =>
      nu_layer g d l (fun _ _ h => with_top g (fun htc =>
        Ok (base + 2 * mt_kz (c_mat c) * htc * c_length c * c_width c / (h * htc + 2 * mt_kz (c_mat c)))%Q))
    | LT_CHANNEL_4RM =>
      if c_channel c && outlet then do x <- nu_y g d 0 c 1 ; Ok (base + 2 * x)%Q else Ok base
    | LT_CHANNEL_2RM | LT_PINFINS_INLINE | LT_PINFINS_STAGGERED =>
      if c_channel c && outlet then do x <- nu_y g d (c_length c) c 1 ; Ok (base + 2 * x)%Q else Ok base
    | _ => Ok base
    end
  else Ok base.

(** The loop of 680-686: for every entry, from the last one, its opposite is added
    to the diagonal of its column. *)
Fixpoint add_to_diagonal (diag : list Q) (es : list entry) : outcome (list Q) :=
  match es with
  | [] => Ok diag
  | e :: t =>
    do x <- arr_get diag (e_col e) ;
    do diag' <- arr_set diag (e_col e) (x + - e_val e)%Q ;
    add_to_diagonal diag' t
  end.

(** matrix_tmp before qsort, 560-686: NConnections entries, of which the last
    NConnections - 2 * |list| are diagonal. *)
Definition nu_table (g : tgrid) (d : dims) (an : analysis) (cells : list cell) (cs : list conn) (nconn : Z) : outcome (list entry) :=
  do es <- map_out (nu_entries g d cells) cs ;
  let off := concat es in
  let n := nconn - Z.of_nat (length off) in
  if n <? 0 then UB
  else
    do diag <- map_out (fun i => do c <- arr_get cells i ; nu_diagonal g d an c) (zrange 0 (n - 1)) ;
    do diag' <- add_to_diagonal diag (rev off) ;
    Ok (off ++ map (fun i => mkEntry i i (nth (Z.to_nat i) diag' 0%Q)) (zrange 0 (n - 1))).

(** compare, system_matrix.c 524-540, asks for increasing columns and, in a column,
    for increasing rows. *)
Definition before (a b : entry) : Prop := e_col a < e_col b \/ e_col a = e_col b /\ e_row a < e_row b.

(** qsort, 693: any sorted arrangement of the entries. *)
Definition qsorted (es out : list entry) : Prop := Permutation es out /\ StronglySorted before out.

(** The loop of 702-718 that fills the vectors: [i] is the position, [k] the index
    of the current column pointer, [col] is layer_tmp. *)
Fixpoint nu_fill (m : sysmatrix) (i k col : Z) (es : list entry) : outcome sysmatrix :=
  match es with
  | [] => Ok m
  | e :: t =>
    do rows <- arr_set (sm_rows m) i (e_row e) ;
    do vals <- arr_set (sm_vals m) i (e_val e) ;
    do next <- (if col =? e_col e then Ok (k, sm_ptr m)
                else do p <- arr_get (sm_ptr m) k ; do ptr <- arr_set (sm_ptr m) (k + 1) p ; Ok (k + 1, ptr)) ;
    do p <- arr_get (snd next) (fst next) ;
    do ptr <- arr_set (snd next) (fst next) (p + 1) ;
    nu_fill (mkSysmatrix ptr rows vals) (i + 1) (fst next) (e_col e) t
  end.

(** fill_system_matrix, system_matrix.c 2125-2155, and 697-720: matrix_tmp[0] is
    read first. *)
Definition nu_vectors (m : sysmatrix) (es : list entry) : outcome sysmatrix :=
  do ptr0 <- arr_set (sm_ptr m) 0 0 ;
  do p <- arr_get ptr0 0 ;
  do ptr1 <- arr_set ptr0 1 p ;
  match es with
  | [] => UB
  | e :: _ => nu_fill (mkSysmatrix ptr1 (sm_rows m) (sm_vals m)) 0 1 (e_col e) es
  end.

(** system_matrix_build and fill_system_matrix in thermal_data_build,
    thermal_data.c 1093 and 1165-1190: a matrix the program can end up with. *)
Definition nu_matrix (g : tgrid) (d : dims) (an : analysis) (cells : list cell) (cs : list conn) (m : sysmatrix) : Prop :=
  let nconn := nu_connections (Z.of_nat (length cs)) (Z.of_nat (length cells)) in
  exists table sorted, nu_table g d an cells cs nconn = Ok table /\ qsorted table sorted /\
    nu_vectors (system_matrix_build (Z.of_nat (length cells)) nconn) sorted = Ok m.
