(** * Model of the drawing of temperature maps, /repo/utils/plot/draw_temp_map.py.

    Modelled: the cells of a uniform grid from the two axes (lines 112-121), the
    temperatures from the lines of the map file (lines 123-135) and the rectangles with
    their colours (lines 143-149 and 173-181). [float] is Q. Parameters: the numbers of the
    files. The outlines and the names of the floorplan and the colour bar are left out. *)
From Coq Require Import ZArith QArith Qminmax Qround Bool List.
From Verif Require Import Base.
Import ListNotations.
Local Open Scope list_scope.
Local Open Scope Z_scope.

(** left, bottom, length, width *)
Record rect := mk_rect { x_left : Q; y_left : Q; dim_x : Q; dim_y : Q }.
(** get_xyaxis_data_uniform, draw_temp_map.py 112-121; fewer than two numbers: IndexError
    (lines 113-114). *)
Definition uniform_cells (data_x data_y : list Q) : option (list rect) :=
  match data_x, data_y with
  | x0 :: x1 :: _, y0 :: y1 :: _ =>
      let cell_length := (x1 - x0)%Q in
      let cell_width := (y1 - y0)%Q in
      Some (flat_map (fun x_i => map (fun y_i => mk_rect (y_i - cell_length / 2) (x_i - cell_width / 2) cell_length cell_width) data_x) data_y)
  | _, _ => None
  end.
(** get_temp_data_uniform, draw_temp_map.py 123-135, from the numbers of the lines after
    the first; an empty line has none. *)
Definition temperatures (rows : list (list Q)) : list Q := concat rows.

(** int() of a float. *)
Definition truncate (x : Q) : Z := if Qle_bool 0 x then Qfloor x else Qceiling x.
(** colors[i] of numpy (line 181): a negative index counts from the end. *)
Definition item (n i : Z) : option Z :=
  if (0 <=? i) && (i <? n) then Some i else if (- n <=? i) && (i <? 0) then Some (n + i) else None.
(** The loop, draw_temp_map.py 173-181: the rectangles in mm with the number of the
    colour, from blue (0) to red. [i] is the position in the axes: xyaxis[i] fails beyond
    its end. Division by zero gives inf or nan, which int() refuses. *)
Fixpoint draw (color_length : Z) (temp_min temp_max : Q) (cells : list rect) (temp : list Q) {struct temp} : option (list (rect * Z)) :=
  match temp, cells with
  | [], _ => Some []
  | t :: ts, c :: cs =>
      if Qeq_bool (temp_max - temp_min) 0 then None
      else
        let color_index := truncate ((t - temp_min) / (temp_max - temp_min) * inject_Z color_length) in
        match item color_length color_index, draw color_length temp_min temp_max cs ts with
        | Some k, Some l => Some ((mk_rect (x_left c / 1000) (y_left c / 1000) (dim_x c / 1000) (dim_y c / 1000), k) :: l)
        | _, _ => None
        end
  | _ :: _, [] => None
  end.
Definition least (t : Q) (ts : list Q) : Q := fold_left Qmin ts t.
Definition greatest (t : Q) (ts : list Q) : Q := fold_left Qmax ts t.
(** plot_tmap, draw_temp_map.py 137-181: the limits (lines 143-146; np.min of nothing is a
    ValueError), the colours (line 149; linspace refuses a negative number). *)
Definition plot_tmap (cells : list rect) (temp : list Q) (color_length : Z) (temp_min temp_max : option Q) : option (list (rect * Z)) :=
  if color_length <? 0 then None
  else
    let lo := match temp_min, temp with
              | Some m, _ => Some m
              | None, t :: ts => Some (least t ts - (1 # 1000) * least t ts)%Q
              | None, [] => None
              end in
    let hi := match temp_max, temp with
              | Some m, _ => Some m
              | None, t :: ts => Some (greatest t ts + (1 # 1000) * least t ts)%Q
              | None, [] => None
              end in
    match lo, hi with
    | Some lo, Some hi => draw color_length lo hi cells temp
    | _, _ => None
    end.
(** main for a uniform grid, draw_temp_map.py 236-246. *)
Definition draw_uniform (xs ys : list Q) (rows : list (list Q)) (color_length : Z) (temp_min temp_max : option Q) : option (list (rect * Z)) :=
  match uniform_cells xs ys with
  | Some cells => plot_tmap cells (temperatures rows) color_length temp_min temp_max
  | None => None
  end.
(** main for a non-uniform grid, draw_temp_map.py 229-235: the cells from the lines of the
    xyaxis file (get_xyaxis_data_nonuniform, 76-85), of the map only the second line
    (get_temp_data_nonuniform, 87-94); [rows] are the lines after the first. *)
Definition draw_nonuniform (cells : list rect) (rows : list (list Q)) (color_length : Z) (temp_min temp_max : option Q) : option (list (rect * Z)) :=
  plot_tmap cells (match rows with r :: _ => r | [] => [] end) color_length temp_min temp_max.
