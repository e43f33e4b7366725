(** * Model of the refinement of a floorplan by temperature gradients,
      /repo/utils/thermal_non_uniform_grids/thermal_gradient_grids.py.

    Modelled: the average gradient of each element, the sizes and numbers of its cells and
    the floorplan that is written (lines 344-416 and 465-488). [float] is Q, a NaN is
    [None]. Parameters: the cells of the first simulation, in any order, with the gradient
    of each (the central differences and the square root of lines 169-184), and the
    elements the tool has read from the floorplan (lines 238-341). The plots are left out. *)
From Coq Require Import ZArith QArith Qminmax Qround Bool List String Ascii.
From Verif Require Import Base Flex Vtk FlpText.
Import ListNotations.
Local Open Scope string_scope.
Local Open Scope list_scope.
Local Open Scope Z_scope.

(** A cell: LLX_matrix, LLY_matrix, grad_mag (lines 349, 358-359). *)
Record cell := mk_cell { llx : Q; lly : Q; gradient : Q }.
(** An element: name, position, dimension, material, power (lines 238-247). *)
Record part := mk_part { p_name : chars; p_x : Q; p_y : Q; p_length : Q; p_width : Q;
                         p_material : option chars; p_power : option (list Q) }.

(** compute_avg_gradient_per_element, thermal_gradient_grids.py 344-368: the mask (lines
    350-356), the average (lines 358-362). *)
Definition inside (e : part) (c : cell) : bool :=
  let x_max := (p_x e + p_length e)%Q in
  let y_max := (p_y e + p_width e)%Q in
  Qle_bool (p_x e) (llx c) && Qle_bool (llx c) x_max && (Qle_bool (p_y e) (lly c) && Qle_bool (lly c) y_max).
Definition average (cells : list cell) (e : part) : option Q :=
  match filter (inside e) cells with
  | [] => None
  | l => Some (fold_left (fun t c => t + gradient c)%Q l 0%Q / inject_Z (Z.of_nat (List.length l)))%Q
  end.
(** The numbers among the values: what the nan functions of numpy work on. *)
Fixpoint numbers (l : list (option Q)) : list Q :=
  match l with [] => [] | Some x :: r => x :: numbers r | None :: r => numbers r end.
(** np.finfo(float).eps. *)
Definition float_eps : Q := 1 # 4503599627370496.
(** Lines 364-368; with NaN only, np.nanmin gives NaN. *)
Definition normalise (avg : list (option Q)) : list (option Q) :=
  match numbers avg with
  | [] => map (fun _ => None) avg
  | x :: r =>
      let min_grad := fold_left Qmin r x in
      let max_grad := fold_left Qmax r x in
      map (option_map (fun a => (a - min_grad) / (max_grad - min_grad + float_eps))%Q) avg
  end.

(** np.nanpercentile (line 376): the sorted numbers, linear interpolation between two
    neighbours. *)
Fixpoint put (x : Q) (l : list Q) : list Q :=
  match l with [] => [x] | y :: r => if Qle_bool x y then x :: y :: r else y :: put x r end.
Definition sorted (l : list Q) : list Q := fold_right put [] l.
Definition percentile (l : list (option Q)) (percentage : Q) : option Q :=
  match sorted (numbers l) with
  | [] => None
  | s =>
      let h := (inject_Z (Z.of_nat (List.length s) - 1) * (percentage / 100))%Q in
      let k := Z.to_nat (Qfloor h) in
      let a := nth k s 0%Q in
      let b := nth (Nat.min (S k) (List.length s - 1)) s 0%Q in
      Some (a + (h - inject_Z (Qfloor h)) * (b - a))%Q
  end.

(** The arguments of the tool (lines 47-56). *)
Record settings := mk_settings { percentage : Q; min_x : Q; min_y : Q; max_x : Q; max_y : Q }.
(** parse_args, thermal_gradient_grids.py 63-72. *)
Definition valid (a : settings) : bool :=
  Qle_bool 0 (percentage a) && Qle_bool (percentage a) 100 &&
  negb (Qle_bool (min_x a) 0 || Qle_bool (min_y a) 0) && negb (Qle_bool (max_x a) 0 || Qle_bool (max_y a) 0) &&
  Qle_bool (min_x a) (max_x a) && Qle_bool (min_y a) (max_y a).

(** refine_discretization, thermal_gradient_grids.py 371-406: eps (line 377), target,
    refined (lines 386-390; alpha is 1, line 524), counts (lines 396-401). *)
Definition small : Q := 1 # 1000000.
Definition refined (target least most : Q) : Q := Qmin (Qmax target least) most.
Definition count (a : settings) (p_ref : Q) (e : part) (metric : Q) : Z :=
  let h0_x := p_length e in
  let h0_y := p_width e in
  let target_x := (h0_x * (p_ref / (metric + small)))%Q in
  let target_y := (h0_y * (p_ref / (metric + small)))%Q in
  let refined_x := refined target_x (min_x a) (max_x a) in
  let refined_y := refined target_y (min_y a) (max_y a) in
  let nx := Qceiling (h0_x / refined_x) in
  let ny := Qceiling (h0_y / refined_y) in
  Z.max nx ny.
(** The loop over the elements. An element without a gradient stops it: max and min pass
    the NaN on, and int(math.ceil(nan)) raises ValueError (line 396). *)
Fixpoint counts (a : settings) (p_ref : option Q) (es : list (part * option Q)) : option (list Z) :=
  match es with
  | [] => Some []
  | (e, Some m) :: r =>
      match p_ref, counts a p_ref r with
      | Some p, Some ns => Some (count a p e m :: ns)
      | _, _ => None
      end
  | (_, None) :: _ => None
  end.
Definition refine (a : settings) (cells : list cell) (es : list part) : option (list Z) :=
  let norm := normalise (map (average cells) es) in
  counts a (percentile norm (percentage a)) (combine es norm).

(** write_floorplan_output, thermal_gradient_grids.py 465-488. *)
Definition int_text (n : Z) : string := if n <? 0 then ("-" ++ dec (- n))%string else dec n.
Definition line_end : chars := [Vtk.newline].
Definition f6 (x : Q) : chars := str (fixed 6 x).
(** ", ".join (line 485) *)
Fixpoint joined (l : list Q) : chars :=
  match l with [] => [] | [x] => str (fixed 12 x) | x :: r => str (fixed 12 x) ++ str ", " ++ joined r end.
Definition element_text (e : part) (n : Z) : chars :=
  let powers := match p_power e with None | Some [] => [0%Q] | Some l => l end in
  p_name e ++ str " :" ++ line_end ++ line_end
  ++ str "  position    " ++ f6 (p_x e) ++ str ", " ++ f6 (p_y e) ++ str " ;" ++ line_end
  ++ str "  dimension   " ++ f6 (p_length e) ++ str ", " ++ f6 (p_width e) ++ str " ;" ++ line_end
  ++ match p_material e with Some m => str "  material " ++ m ++ str " ;" ++ line_end | None => [] end
  ++ str "  discretization " ++ str (int_text n) ++ str ", " ++ str (int_text n) ++ str " ;" ++ line_end
  ++ str "  power values  " ++ joined powers ++ str " ;" ++ line_end ++ line_end.
Definition written (es : list part) (ns : list Z) : chars := flat_map (fun p => element_text (fst p) (snd p)) (combine es ns).

(** main, thermal_gradient_grids.py 491-537, from the data: the floorplan, or None when
    the tool ends with an error. parse_floorplan refuses a file without elements (lines
    331-335). *)
Definition tool (a : settings) (cells : list cell) (es : list part) : option chars :=
  if negb (valid a) then None
  else match es with
       | [] => None
       | _ => match refine a cells es with Some ns => Some (written es ns) | None => None end
       end.
