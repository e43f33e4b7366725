(** * Model of /repo/sources/system_matrix.c (uniform grid): assembly of the
      compressed-column matrix.

    A column is described by the coefficients written before and after its
    diagonal, in order; each also carries what it adds to the local variable
    diagonal_value.  The factorisation and the solver (SuperLU) are not
    modelled. *)
From Coq Require Import ZArith List Bool QArith.
From Verif Require Import Base QSum Dims Floorplan Stack PowerGrid Emulate Conduct.
Import ListNotations.
Local Open Scope Z_scope.

(** PARALLEL, include/macros.h 88. *)
Definition parallel (x y : Q) : Q := (x * y / (x + y))%Q.

(** One coefficient: row index, value, contribution to diagonal_value. *)
Record item := mkItem { it_row : Z; it_val : Q; it_diag : Q }.
(** [Values++ = -conductance ; diagonal_value += conductance]. *)
Definition conduct (i : Z) (g : Q) : item := mkItem i (- g)%Q g.
(** [Values++ = C]. *)
Definition convect (i : Z) (v : Q) : item := mkItem i v 0%Q.

(** [c_base]: what is written at the diagonal first; [c_extra]: what is added to
    it at the end besides diagonal_value. *)
Record column := mkColumn {
  c_before : list item; c_self : Z; c_base : Q; c_extra : Q; c_after : list item
}.
Definition items (k : column) : list item := c_before k ++ c_after k.
Definition diagonal (k : column) : Q := (c_base k + qsum (map it_diag (items k)) + c_extra k)%Q.
Definition entries (k : column) : list (Z * Q) :=
  map (fun i => (it_row i, it_val i)) (c_before k) ++ (c_self k, diagonal k) ::
  map (fun i => (it_row i, it_val i)) (c_after k).

(** An optional coefficient ("if (...) goto skip" / "if (...) {...}"). *)
Definition when (b : bool) (m : outcome item) : outcome (list item) :=
  if b then do x <- m ; Ok [x] else Ok [].

Definition conduct_at (i : Z) (m : outcome Q) : outcome item := do g <- m ; Ok (conduct i g).
Definition convect_at (i : Z) (m : outcome Q) : outcome item := do v <- m ; Ok (convect i v).

(** Conductance of two half cells in series; [_guarded]: add_solid_column
    790-796 and 989-995, where a null second conductance is ignored. *)
Definition series (a b : outcome Q) : outcome Q := do x <- a ; do y <- b ; Ok (parallel x y).
Definition series_guarded (a b : outcome Q) : outcome Q :=
  do x <- a ; do y <- b ; Ok (if Qeq_bool y 0 then x else parallel x y).

(** The capacitive part of the diagonal, 878-886 and alike. *)
Definition capacitive (an : analysis) (m : outcome Q) : outcome Q :=
  match an_type an with
  | AT_TRANSIENT => do x <- m ; Ok (x / an_step an)%Q
  | _ => Ok 0%Q
  end.

Section Columns.
  Variables (g : tgrid) (d : dims) (an : analysis).
  Notation off := (offset_in_stack d).
  Notation top := (get_conductance_top g d).
  Notation bottom := (get_conductance_bottom g d).
  Notation north := (get_conductance_north g d).
  Notation south := (get_conductance_south g d).
  Notation east := (get_conductance_east g d).
  Notation west := (get_conductance_west g d).

  (** Sink part of the diagonal, 888-901. *)
  Definition sink_term (t : layer_type) (l r c : Z) : outcome Q :=
    match t with
    | LT_SOLID_AMBIENT | LT_SOURCE_AMBIENT => top l r c
    | LT_SOLID_PCB | LT_SOURCE_PCB => bottom l r c
    | _ => Ok 0%Q
    end.

  (** Coefficient towards the spreader, 1012-1033. *)
  Definition spreader_link (t : layer_type) (l r c : Z) : outcome (list item) :=
    match t with
    | LT_SOLID_SPREADER | LT_SOURCE_SPREADER =>
      match tg_top g with
      | Some (SinkPluggable s h m) =>
        do i <- conduct_at (spreader_offset_from_layer d s r c)
                           (series (Ok (spreader_top_bottom s h m)) (top l r c)) ;
        Ok [i]
      | _ => UB
      end
    | _ => Ok []
    end.

  (** add_solid_column, 743-1058. *)
  Definition add_solid_column (l r c : Z) : outcome column :=
    do t <- arr_get (tg_types g) l ;
    do b <- when (negb (l =? 0)) (conduct_at (off (l - 1) r c) (series_guarded (bottom l r c) (top (l - 1) r c))) ;
    do s <- when (negb (r =? 0)) (conduct_at (off l (r - 1) c) (series (south l r c) (north l (r - 1) c))) ;
    do w <- when (negb (c =? 0)) (conduct_at (off l r (c - 1)) (series (west l r c) (east l r (c - 1)))) ;
    do cap <- capacitive an (get_capacity g d l r c) ;
    do sk <- sink_term t l r c ;
    do e <- when (negb (c =? last_column d)) (conduct_at (off l r (c + 1)) (series (east l r c) (west l r (c + 1)))) ;
    do n <- when (negb (r =? last_row d)) (conduct_at (off l (r + 1) c) (series (north l r c) (south l (r + 1) c))) ;
    do u <- when (negb (l =? last_layer d)) (conduct_at (off (l + 1) r c) (series_guarded (top l r c) (bottom (l + 1) r c))) ;
    do k <- spreader_link t l r c ;
    Ok (mkColumn (b ++ s ++ w) (off l r c) (cap + sk)%Q 0 (e ++ n ++ u ++ k)).

  (** The last lines of the two liquid columns, 1279-1284 and 1449-1454. *)
  Definition inlet_outlet (l r c : Z) : outcome Q :=
    if (r =? 0) || (r =? last_row d) then north l r c else Ok 0%Q.

  (** add_liquid_column_4rm, 1061-1290. *)
  Definition add_liquid_column_4rm (l r c : Z) : outcome column :=
    do b <- when (negb (l =? 0)) (conduct_at (off (l - 1) r c) (series (bottom l r c) (top (l - 1) r c))) ;
    do s <- when (negb (r =? 0)) (convect_at (off l (r - 1) c) (north l r c)) ;
    do w <- when (negb (c =? 0)) (conduct_at (off l r (c - 1)) (series (west l r c) (east l r (c - 1)))) ;
    do cap <- capacitive an (get_capacity g d l r c) ;
    do e <- when (negb (c =? last_column d)) (conduct_at (off l r (c + 1)) (series (east l r c) (west l r (c + 1)))) ;
    do n <- when (negb (r =? last_row d)) (convect_at (off l (r + 1) c) (south l r c)) ;
    do u <- when (negb (l =? last_layer d)) (conduct_at (off (l + 1) r c) (series (top l r c) (bottom (l + 1) r c))) ;
    do x <- inlet_outlet l r c ;
    Ok (mkColumn (b ++ s ++ w) (off l r c) cap x (e ++ n ++ u)).

  (** add_liquid_column_2rm, 1293-1458. *)
  Definition add_liquid_column_2rm (l r c : Z) : outcome column :=
    do b <- when (negb (l =? 0)) (conduct_at (off (u32 (l - 2)) r c) (bottom l r c)) ;
    do s <- when (negb (r =? 0)) (convect_at (off l (r - 1) c) (north l r c)) ;
    do cap <- capacitive an (get_capacity g d l r c) ;
    do n <- when (negb (r =? last_row d)) (convect_at (off l (r + 1) c) (south l r c)) ;
    do u <- when (negb (l =? last_layer d)) (conduct_at (off (l + 1) r c) (top l r c)) ;
    do x <- inlet_outlet l r c ;
    Ok (mkColumn (b ++ s) (off l r c) cap x (n ++ u)).

  (** add_bottom_wall_column_2rm, 1461-1602. *)
  Definition add_bottom_wall_column_2rm (l r c : Z) : outcome column :=
    do b <- when (negb (l =? 0)) (conduct_at (off (l - 1) r c) (top (l - 1) r c)) ;
    do cap <- capacitive an (get_capacity g d l r c) ;
    do v <- when (negb (l =? last_layer d)) (conduct_at (off (l + 1) r c) (top (l + 1) r c)) ;
    do k <- when (negb (l =? last_layer d)) (conduct_at (off (u32 (l + 2)) r c) (bottom (u32 (l + 2)) r c)) ;
    Ok (mkColumn b (off l r c) cap 0 (v ++ k)).

  (** add_top_wall_column_2rm, 1605-1747. *)
  Definition add_top_wall_column_2rm (l r c : Z) : outcome column :=
    do v <- when (negb (l =? 0)) (conduct_at (off (u32 (l - 2)) r c) (top (u32 (l - 2)) r c)) ;
    do k <- when (negb (l =? 0)) (conduct_at (off (l - 1) r c) (top (l - 1) r c)) ;
    do cap <- capacitive an (get_capacity g d l r c) ;
    do u <- when (negb (l =? last_layer d)) (conduct_at (off (l + 1) r c) (bottom (l + 1) r c)) ;
    Ok (mkColumn (v ++ k) (off l r c) cap 0 u).

  Definition is_2rm (m : channel_model) : bool := match m with CM_MC_2RM => true | _ => false end.

  (** add_virtual_wall_column_2rm, 1750-1919. *)
  Definition add_virtual_wall_column_2rm (m : channel_model) (l r c : Z) : outcome column :=
    do b <- when (negb (l =? 0)) (conduct_at (off (l - 1) r c) (bottom l r c)) ;
    do s <- when (is_2rm m && negb (r =? 0)) (conduct_at (off l (r - 1) c) (series (south l r c) (north l r c))) ;
    do cap <- capacitive an (get_capacity g d l r c) ;
    do n <- when (is_2rm m && negb (r =? last_row d)) (conduct_at (off l (r + 1) c) (series (north l r c) (south l r c))) ;
    do u <- when (negb (l =? last_layer d)) (conduct_at (off (u32 (l + 2)) r c) (top l r c)) ;
    Ok (mkColumn (b ++ s) (off l r c) cap 0 (n ++ u)).

  (** add_spreader_column, 1922-2122. *)
  Definition add_spreader_column (s : spreader) (h : Q) (m : material) (r c : Z) : outcome column :=
    do b <- when (has_layer_underneath d s r c)
                 (do i <- layer_offset_from_spreader d s (last_layer d) r c ;
                  conduct_at i (series (Ok (spreader_top_bottom s h m))
                                       (top (last_layer d) (u32 (r - s_border_rows s)) (u32 (c - s_border_cols s))))) ;
    let ns := Ok (parallel (spreader_north_south s h m) (spreader_north_south s h m)) in
    let ew := Ok (parallel (spreader_east_west s h m) (spreader_east_west s h m)) in
    do so <- when (negb (r =? 0)) (conduct_at (spreader_offset d s (r - 1) c) ns) ;
    do w <- when (negb (c =? 0)) (conduct_at (spreader_offset d s r (c - 1)) ew) ;
    do cap <- capacitive an (Ok (spreader_capacity s h m)) ;
    do e <- when (negb (c =? u32 (s_ncols s - 1))) (conduct_at (spreader_offset d s r (c + 1)) ew) ;
    do n <- when (negb (r =? u32 (s_nrows s - 1))) (conduct_at (spreader_offset d s (r + 1) c) ns) ;
    Ok (mkColumn (b ++ so ++ w) (spreader_offset d s r c) cap 0 (e ++ n)).

  (** The switch of fill_system_matrix for one cell, 2160-2300. *)
  Definition add_column (t : layer_type) (l r c : Z) : outcome column :=
    match t with
    | LT_CHANNEL_4RM =>
      match tg_channel g with
      | Some ch => if is_channel_column (ch_model ch) c then add_liquid_column_4rm l r c else add_solid_column l r c
      | None => UB
      end
    | LT_CHANNEL_2RM | LT_PINFINS_INLINE | LT_PINFINS_STAGGERED => add_liquid_column_2rm l r c
    | LT_VWALL_CHANNEL | LT_VWALL_PINFINS =>
      match tg_channel g with Some ch => add_virtual_wall_column_2rm (ch_model ch) l r c | None => UB end
    | LT_TOP_WALL => add_top_wall_column_2rm l r c
    | LT_BOTTOM_WALL => add_bottom_wall_column_2rm l r c
    | _ => add_solid_column l r c
    end.

  (** The columns of one layer; a layer without type writes none (2302-2306). *)
  Definition layer_columns (l : Z) : outcome (list column) :=
    do t <- arr_get (tg_types g) l ;
    match t with
    | LT_NONE => Ok []
    | _ => over_layer d (fun r c => add_column t l r c)
    end.

  (** The columns of the spreader, 2312-2321. *)
  Definition spreader_columns : outcome (list column) :=
    match tg_top g with
    | Some (SinkPluggable s h m) =>
      map_out (fun rc => add_spreader_column s h m (fst rc) (snd rc))
              (list_prod (zrange 0 (s_nrows s - 1)) (zrange 0 (s_ncols s - 1)))
    | _ => Ok []
    end.

  (** All the columns in the order in which fill_system_matrix writes them,
      2125-2325 (uniform grid). *)
  Definition matrix_columns : outcome (list column) :=
    do ls <- map_out layer_columns (zrange 0 (Z.of_nat (length (tg_types g)) - 1)) ;
    do sp <- spreader_columns ;
    Ok (concat ls ++ sp).
End Columns.

(** SystemMatrix_t, include/system_matrix.h: the three vectors. *)
Record sysmatrix := mkSysmatrix { sm_ptr : list Z; sm_rows : list Z; sm_vals : list Q }.

(** system_matrix_build, 100-180 (the contents of malloc'ed memory are taken to
    be 0). *)
Definition system_matrix_build (size nnz : Z) : sysmatrix :=
  mkSysmatrix (repeat 0 (Z.to_nat (size + 1))) (repeat 0 (Z.to_nat nnz)) (repeat 0%Q (Z.to_nat nnz)).

(** Writing the columns: column [k-1] starts at position [e]; its pointer is the
    previous one plus one per coefficient. *)
Fixpoint write_columns (m : sysmatrix) (k e : Z) (cs : list column) : outcome sysmatrix :=
  match cs with
  | [] => Ok m
  | c :: cs' =>
    let es := entries c in
    do rows <- arr_set_all (sm_rows m) e (map fst es) ;
    do vals <- arr_set_all (sm_vals m) e (map snd es) ;
    do p <- arr_get (sm_ptr m) (k - 1) ;
    do ptr <- arr_set (sm_ptr m) k (p + Z.of_nat (length es)) ;
    write_columns (mkSysmatrix ptr rows vals) (k + 1) (e + Z.of_nat (length es)) cs'
  end.

(** fill_system_matrix, 2125-2325. *)
Definition fill_system_matrix (m : sysmatrix) (g : tgrid) (an : analysis) (d : dims) : outcome sysmatrix :=
  do ptr <- arr_set (sm_ptr m) 0 0 ;
  do cs <- matrix_columns g d an ;
  write_columns (mkSysmatrix ptr (sm_rows m) (sm_vals m)) 1 0 cs.
