(** * Model of /repo/sources/ic_element.c, floorplan_element.c,
      floorplan_matrix.c, floorplan.c and of the semantic actions of
      /repo/bison/floorplan_parser.y (uniform grid).

    Lengths, powers and temperatures are exact rationals. *)
From Coq Require Import ZArith List Bool QArith Qabs.
From Verif Require Import Base QSum Dims Queue.
Import ListNotations.
Local Open Scope Z_scope.

(** EPSILON, include/macros.h 60 ff ([#define EPSILON 1e-6]). *)
Definition EPSILON : Q := 1 # 1000000.

(** Strict comparison of doubles. *)
Definition Qlt_bool (a b : Q) : bool := negb (Qle_bool b a).

(** struct ICElement, include/ic_element.h 55-120 (material, discretisation and
    the index range of the non-uniform grid left out here). *)
Record icel := mkIcel {
  ic_x : Q; ic_y : Q; ic_len : Q; ic_wid : Q;
  ic_sw_row : Z; ic_sw_col : Z; ic_ne_row : Z; ic_ne_col : Z
}.

(** check_intersection, ic_element.c 170-192, for two distinct elements (the
    first test of the function compares the two pointers). *)
Definition check_intersection (a b : icel) : bool :=
  let x1 := (ic_x a - ic_x b - ic_len b)%Q in
  let y1 := (ic_y a - ic_y b - ic_wid b)%Q in
  let x2 := (ic_x a + ic_len a - ic_x b)%Q in
  let y2 := (ic_y a + ic_wid a - ic_y b)%Q in
  Qlt_bool EPSILON (Qabs (x1 * x2)) && Qlt_bool EPSILON (Qabs (y1 * y2)) &&
  (Qlt_bool (x1 * x2) 0 && Qlt_bool (y1 * y2) 0).

(** check_location, ic_element.c 212-222: true when the element is outside. *)
Definition check_location (a : icel) (d : dims) : bool :=
  Qlt_bool (ic_x a) 0 ||
  Qlt_bool EPSILON (ic_x a + ic_len a - d_chip_length d)%Q ||
  Qlt_bool (ic_y a) 0 ||
  Qlt_bool EPSILON (ic_y a + ic_wid a - d_chip_width d)%Q.

(** [while (location (index + 1) <= x) index++], ic_element.c 235-237, 253-255. *)
Fixpoint search_le (fuel : nat) (loc : Z -> Q) (x : Q) (i : Z) : outcome Z :=
  match fuel with
  | O => NoFuel
  | S f => if Qle_bool (loc (u32 (i + 1))) x then search_le f loc x (u32 (i + 1)) else Ok i
  end.

(** [while (location (index + 1) < x) index++], ic_element.c 243-245, 261-263. *)
Fixpoint search_lt (fuel : nat) (loc : Z -> Q) (x : Q) (i : Z) : outcome Z :=
  match fuel with
  | O => NoFuel
  | S f => if Qlt_bool (loc (u32 (i + 1))) x then search_lt f loc x (u32 (i + 1)) else Ok i
  end.

(** align_to_grid, ic_element.c 226-266; [fuel] bounds the number of iterations
    of each loop ([NoFuel]: more iterations needed). *)
Definition align_to_grid (fuel : nat) (a : icel) (d : dims) : outcome icel :=
  do swc <- search_le fuel (get_cell_location_x d) (ic_x a) 0 ;
  do nec <- search_lt fuel (get_cell_location_x d) (ic_x a + ic_len a)%Q (u32 (swc - 1)) ;
  do swr <- search_le fuel (get_cell_location_y d) (ic_y a) 0 ;
  do ner <- search_lt fuel (get_cell_location_y d) (ic_y a + ic_wid a)%Q (u32 (swr - 1)) ;
  Ok (mkIcel (ic_x a) (ic_y a) (ic_len a) (ic_wid a) swr swc ner nec).

(** The integers from [a] to [b] included: the values a loop
    [for (i = a ; i <= b ; i++)] takes (b < 2^32 - 1). *)
Definition zrange (a b : Z) : list Z :=
  map (fun i => a + Z.of_nat i) (seq 0 (Z.to_nat (b - a + 1))).

(** struct FloorplanElement, include/floorplan_element.h 60-90. *)
Record flpel := mkFlpel {
  fe_id : list Z; fe_nic : Z; fe_area : Q; fe_ics : list icel; fe_powers : queue
}.

(** floorplan_parser.y 425-452 (and 267-290): one rectangle: aligned, then
    checked.  [None]: the parser reports an error and the parse fails. *)
Definition parse_rectangle (fuel : nat) (d : dims) (x y len wid : Q) : outcome (option icel) :=
  do a <- align_to_grid fuel (mkIcel x y len wid 0 0 0 0) d ;
  Ok (if check_location a d then None else Some a).

(** floorplan_parser.y 177-213: area accumulated over the rectangles. The
    intersection test between rectangles is commented out in the source. *)
Definition make_element (id : list Z) (ics : list icel) (q : queue) : flpel :=
  mkFlpel id (Z.of_nat (length ics))
          (fold_left (fun s a => (s + ic_len a * ic_wid a)%Q) ics 0%Q) ics q.

(** The rectangles of one floorplan element, floorplan_parser.y 177-300, 395-452. *)
Fixpoint parse_rectangles (fuel : nat) (d : dims) (rs : list (Q * Q * Q * Q)) : outcome (option (list icel)) :=
  match rs with
  | [] => Ok (Some [])
  | (x, y, l, w) :: rs' =>
    do a <- parse_rectangle fuel d x y l w ;
    do t <- parse_rectangles fuel d rs' ;
    Ok (match a, t with Some a, Some t => Some (a :: t) | _, _ => None end)
  end.

(** One floorplan element; [None]: the file is rejected. *)
Definition parse_element (fuel : nat) (d : dims) (id : list Z) (rs : list (Q * Q * Q * Q)) (q : queue)
  : outcome (option flpel) :=
  do t <- parse_rectangles fuel d rs ;
  Ok (match t with Some ics => Some (make_element id ics q) | None => None end).

(** ** Floorplan matrix (compressed sparse columns), floorplan_matrix.c *)
Record flpmatrix := mkFlpMatrix {
  fm_nrows : Z; fm_ncols : Z; fm_nnz : Z;
  fm_colptr : list Z; fm_rows : list Z; fm_vals : list Q
}.

(** Coefficients of one row of cells of one rectangle, floorplan_matrix.c
    189-210: [x] is the running abscissa. *)
Fixpoint fill_columns (d : dims) (a : icel) (area width : Q) (row : Z)
         (cols : list Z) (x : Q) : list (Z * Q) :=
  match cols with
  | [] => []
  | c :: cs =>
    let length := if c <? ic_ne_col a then (get_cell_location_x d (u32 (c + 1)) - x)%Q
                  else (ic_x a + ic_len a - x)%Q in
    (offset_in_layer d row c, (length * width / area)%Q)
      :: fill_columns d a area width row cs (x + length)%Q
  end.

(** All rows of one rectangle, floorplan_matrix.c 174-213. *)
Fixpoint fill_rows (d : dims) (a : icel) (area : Q) (rows : list Z) (y : Q) : list (Z * Q) :=
  match rows with
  | [] => []
  | r :: rs =>
    let width := if r <? ic_ne_row a then (get_cell_location_y d (u32 (r + 1)) - y)%Q
                 else (ic_y a + ic_wid a - y)%Q in
    fill_columns d a area width r (zrange (ic_sw_col a) (ic_ne_col a)) (ic_x a)
      ++ fill_rows d a area rs (y + width)%Q
  end.

Definition fill_icel (d : dims) (area : Q) (a : icel) : list (Z * Q) :=
  fill_rows d a area (zrange (ic_sw_row a) (ic_ne_row a)) (ic_y a).

(** One column of the matrix: all rectangles of one floorplan element, 161-214. *)
Definition fill_element (d : dims) (e : flpel) : list (Z * Q) :=
  flat_map (fill_icel d (fe_area e)) (fe_ics e).

(** The column pointers written, 155-159, 207, 216. *)
Fixpoint column_pointers (last : Z) (cols : list (list (Z * Q))) : list Z :=
  match cols with
  | [] => []
  | c :: cs => let p := u32 (last + Z.of_nat (length c)) in p :: column_pointers p cs
  end.

(** Number of coefficients allocated, floorplan.c 196-217. *)
Definition count_nnz (els : list flpel) : Z :=
  fold_left (fun n e =>
    fold_left (fun n a =>
      u32 (n + u32 (u32 (ic_ne_row a - ic_sw_row a + 1) * u32 (ic_ne_col a - ic_sw_col a + 1))))
      (fe_ics e) n) els 0.

(** floorplan_matrix_build, floorplan_matrix.c 84-117 (malloc succeeds). *)
Definition flpmatrix_build (nrows ncols nnz : Z) : flpmatrix :=
  mkFlpMatrix nrows ncols nnz [] [] [].

(** floorplan_matrix_fill, floorplan_matrix.c 141-218.  The three arrays are
    written sequentially; writing more than was allocated is undefined. *)
Definition flpmatrix_fill (m : flpmatrix) (els : list flpel) (d : dims) : outcome flpmatrix :=
  let cols := map (fill_element d) els in
  let entries := concat cols in
  if (Z.of_nat (length entries) <=? fm_nnz m) && (Z.of_nat (length els) <=? fm_ncols m)
  then Ok (mkFlpMatrix (fm_nrows m) (fm_ncols m) (fm_nnz m)
                       (0 :: column_pointers 0 cols) (map fst entries) (map snd entries))
  else UB.

(** Inner loop of floorplan_matrix_multiply, floorplan_matrix.c 243-248:
    [for (i = i0 ; i < i1 ; ++i) x[RowIndices[i]] += b * Values[i]]. *)
Fixpoint axpy_loop (fuel : nat) (m : flpmatrix) (b : Q) (i i1 : Z) (x : list Q) : outcome (list Q) :=
  match fuel with
  | O => Ok x
  | S f =>
    if i <? i1 then
      do r <- arr_get (fm_rows m) i ;
      do v <- arr_get (fm_vals m) i ;
      do xr <- arr_get x r ;
      do x' <- arr_set x r (xr + b * v)%Q ;
      axpy_loop f m b (i + 1) i1 x'
    else Ok x
  end.

(** Outer loop, 238-248: columns with a zero power are skipped. *)
Fixpoint multiply_loop (m : flpmatrix) (b : list Q) (js : list Z) (x : list Q) : outcome (list Q) :=
  match js with
  | [] => Ok x
  | j :: js' =>
    do bj <- arr_get b j ;
    if Qeq_bool bj 0 then multiply_loop m b js' x
    else
      do i0 <- arr_get (fm_colptr m) j ;
      do i1 <- arr_get (fm_colptr m) (j + 1) ;
      do x' <- axpy_loop (Z.to_nat (i1 - i0)) m bj i0 i1 x ;
      multiply_loop m b js' x'
  end.

(** floorplan_matrix_multiply, floorplan_matrix.c 222-252. *)
Definition flpmatrix_multiply (m : flpmatrix) (x b : list Q) : outcome (list Q) :=
  if (fm_nrows m =? 0) || (fm_ncols m =? 0) || (fm_nnz m =? 0) then Ok x
  else multiply_loop m b (zrange 0 (fm_ncols m - 1)) x.

(** ** Floorplan, floorplan.c *)
Record floorplan := mkFlp {
  f_nelements : Z; f_elements : list flpel; f_bpowers : list Q; f_matrix : flpmatrix
}.

(** fill_floorplan, floorplan.c 172-233, after the file has been parsed into
    the list of elements (malloc succeeds; Bpowers is uninitialised: zeros). *)
Definition fill_floorplan (els : list flpel) (d : dims) : outcome floorplan :=
  let n := Z.of_nat (length els) in
  do m <- flpmatrix_fill (flpmatrix_build (get_layer_area d) n (count_nnz els)) els d ;
  Ok (mkFlp n els (repeat 0%Q (Z.to_nat n)) m).

(** fill_sources_floorplan, floorplan.c 268-295.  The element list, the Bpowers
    vector and the sources are returned whatever the result: on failure the
    values already taken are lost. *)
Fixpoint take_powers (els : list flpel) (index : Z) (bp : list Q)
  : outcome (error_t * list flpel * list Q) :=
  match els with
  | [] => Ok (TDICE_SUCCESS, [], bp)
  | e :: es =>
    if queue_is_empty (fe_powers e) then Ok (TDICE_FAILURE, e :: es, bp)
    else
      do vq <- queue_get (fe_powers e) ;
      do bp' <- arr_set bp index (fst vq) ;
      do r <- take_powers es (index + 1) bp' ;
      let '(err, es', bp'') := r in
      Ok (err, mkFlpel (fe_id e) (fe_nic e) (fe_area e) (fe_ics e) (snd vq) :: es', bp'')
  end.

Definition fill_sources_floorplan (f : floorplan) (sources : list Q)
  : outcome (error_t * floorplan * list Q) :=
  do r <- take_powers (f_elements f) 0 (f_bpowers f) ;
  let '(err, els, bp) := r in
  let f' := mkFlp (f_nelements f) els bp (f_matrix f) in
  match err with
  | TDICE_FAILURE => Ok (TDICE_FAILURE, f', sources)
  | TDICE_SUCCESS =>
    do s' <- flpmatrix_multiply (f_matrix f) sources bp ;
    Ok (TDICE_SUCCESS, f', s')
  end.

(** insert_power_values_floorplan_element, floorplan_element.c 176-188, and the
    loop of insert_power_values_floorplan, floorplan.c 299-324. *)
Fixpoint insert_loop (els : list flpel) (pv : queue) : outcome (error_t * list flpel * queue) :=
  match els with
  | [] => Ok (TDICE_SUCCESS, [], pv)
  | e :: es =>
    if queue_is_empty pv then Ok (TDICE_FAILURE, e :: es, pv)
    else
      do vq <- queue_get pv ;
      do q' <- queue_put (fe_powers e) (fst vq) ;
      do r <- insert_loop es (snd vq) ;
      let '(err, es', pv') := r in
      Ok (err, mkFlpel (fe_id e) (fe_nic e) (fe_area e) (fe_ics e) q' :: es', pv')
  end.

Definition insert_power_values_floorplan (f : floorplan) (pv : queue)
  : outcome (error_t * floorplan * queue) :=
  do r <- insert_loop (f_elements f) pv ;
  let '(err, els, pv') := r in
  Ok (err, mkFlp (f_nelements f) els (f_bpowers f) (f_matrix f), pv').

(** ** Temperatures of floorplan elements (uniform grid).  [t] is the slice of
    the temperatures of the source layer. *)
(** MAX / MIN, include/macros.h. *)
Definition qmax (a b : Q) : Q := if Qlt_bool b a then a else b.
Definition qmin (a b : Q) : Q := if Qlt_bool a b then a else b.

(** The cells visited by the two nested loops, ic_element.c 300-311. *)
Definition icel_cells (d : dims) (a : icel) : list Z :=
  flat_map (fun r => map (fun c => offset_in_layer d r c) (zrange (ic_sw_col a) (ic_ne_col a)))
           (zrange (ic_sw_row a) (ic_ne_row a)).

Fixpoint read_all (t : list Q) (cells : list Z) : outcome (list Q) :=
  match cells with
  | [] => Ok []
  | c :: cs => do v <- arr_get t c ; do vs <- read_all t cs ; Ok (v :: vs)
  end.

(** get_max_temperature_ic_element, ic_element.c 270-316. *)
Definition icel_max (d : dims) (a : icel) (t : list Q) : outcome Q :=
  do v0 <- arr_get t (offset_in_layer d (ic_sw_row a) (ic_sw_col a)) ;
  do vs <- read_all t (icel_cells d a) ;
  Ok (fold_left qmax vs v0).

(** get_min_temperature_ic_element, ic_element.c 320-370. *)
Definition icel_min (d : dims) (a : icel) (t : list Q) : outcome Q :=
  do v0 <- arr_get t (offset_in_layer d (ic_sw_row a) (ic_sw_col a)) ;
  do vs <- read_all t (icel_cells d a) ;
  Ok (fold_left qmin vs v0).

(** get_avg_temperature_ic_element, ic_element.c 374-415. *)
Definition icel_avg (d : dims) (a : icel) (t : list Q) : outcome Q :=
  do vs <- read_all t (icel_cells d a) ;
  Ok (fold_left Qplus vs 0 / qz (Z.of_nat (length vs)))%Q.

Fixpoint map_out {A B} (f : A -> outcome B) (l : list A) : outcome (list B) :=
  match l with
  | [] => Ok []
  | x :: t => do y <- f x ; do ys <- map_out f t ; Ok (y :: ys)
  end.

(** get_max_temperature_floorplan_element, floorplan_element.c 192-226. *)
Definition flpel_max (d : dims) (e : flpel) (t : list Q) : outcome Q :=
  match fe_ics e with
  | [] => Ok 0%Q
  | a :: rest =>
    do m <- icel_max d a t ;
    do ms <- map_out (fun a => icel_max d a t) rest ;
    Ok (fold_left (fun max tmp => if Qlt_bool max tmp then tmp else max) ms m)
  end.

(** get_min_temperature_floorplan_element, floorplan_element.c 230-264. *)
Definition flpel_min (d : dims) (e : flpel) (t : list Q) : outcome Q :=
  match fe_ics e with
  | [] => Ok 0%Q
  | a :: rest =>
    do m <- icel_min d a t ;
    do ms <- map_out (fun a => icel_min d a t) rest ;
    Ok (fold_left (fun min tmp => if Qlt_bool tmp min then tmp else min) ms m)
  end.

(** get_avg_temperature_floorplan_element, floorplan_element.c 268-290: the
    mean of the averages of the rectangles. *)
Definition flpel_avg (d : dims) (e : flpel) (t : list Q) : outcome Q :=
  do ms <- map_out (fun a => icel_avg d a t) (fe_ics e) ;
  Ok (fold_left Qplus ms 0 / qz (fe_nic e))%Q.

(** get_gradient_temperature_floorplan_element, floorplan_element.c 294-331. *)
Definition flpel_gradient (d : dims) (e : flpel) (t : list Q) : outcome Q :=
  match fe_ics e with
  | [] => Ok 0%Q
  | a :: rest =>
    do mi <- icel_min d a t ;
    do ma <- icel_max d a t ;
    do mis <- map_out (fun a => icel_min d a t) rest ;
    do mas <- map_out (fun a => icel_max d a t) rest ;
    Ok (fold_left qmax mas ma - fold_left qmin mis mi)%Q
  end.

(** get_all_max/min/avg/gradient_temperatures_floorplan, floorplan.c 328-484. *)
Definition flp_all (g : dims -> flpel -> list Q -> outcome Q) (f : floorplan) (d : dims) (t : list Q)
  : outcome (list Q) := map_out (fun e => g d e t) (f_elements f).
