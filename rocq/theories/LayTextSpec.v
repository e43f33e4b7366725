(** * Layout files as the user guide gives them: syntax and meaning. *)
From Coq Require Import ZArith List Bool QArith String Ascii.
From Verif Require Import Base Flex FlpText FlpTextSpec Dims Floorplan FloorplanProofs Stack StkScan StkText StkTextSpec LayText.
Import ListNotations.
Local Open Scope string_scope.
Local Open Scope list_scope.

(** ** Syntax *)
Section Lexemes.
  Context {N I P : Type}.
  Notation sym := (sym N I P).
  Definition rect_syntax (r : rectd N) : list sym :=
    let '(x, y, l, w) := r in
    [SK "rectangle"; SM "("; SN x; SM ","; SN y; SM ","; SN l; SM ","; SN w; SM ")"; SM ";"].
  Definition shape_syntax (s : shaped_ N) : list sym :=
    match s with
    | Position (x, y, l, w) => [SK "position"; SN x; SM ","; SN y; SM ";"; SK "dimension"; SN l; SM ","; SN w; SM ";"]
    | Rectangles r l => several rect_syntax (r, l)
    end.
  Definition layout_syntax (o : layoutd N I) : list sym := [SI (o_material o); SM ":"] ++ shape_syntax (o_shape o).
  Definition layfile_syntax (f : layfile N I) : list sym :=
    listed material_syntax (a_materials f) ++ several layout_syntax (a_layouts f).
End Lexemes.
Section Map.
  Context {N I N' I' : Type}.
  Variables (f : N -> N') (g : I -> I').
  Definition map_rect (r : rectd N) : rectd N' := let '(x, y, l, w) := r in (f x, f y, f l, f w).
  Definition map_shape (s : shaped_ N) : shaped_ N' :=
    match s with Position r => Position (map_rect r) | Rectangles r l => Rectangles (map_rect r) (map map_rect l) end.
  Definition map_layout (o : layoutd N I) : layoutd N' I' := mkLayoutd (g (o_material o)) (map_shape (o_shape o)).
  Definition map_layfile (s : layfile N I) : layfile N' I' :=
    mkLayfile (map (map_mat f g) (a_materials s)) (map_pair map_layout (map map_layout) (a_layouts s)).
End Map.
Definition layfile_value : layfile numeral chars -> qlayfile := map_layfile numeral_value name_codes.
(** The reserved words of layout files. *)
Definition lay_reserved : list string :=
  ["material"; "thermal"; "conductivity"; "volumetric"; "heat"; "capacity"; "position"; "dimension"; "rectangle"].
Record describes_layout (f : layfile numeral chars) (text : chars) : Prop := {
  dl_lexemes : Forall (lexm_ok lay_reserved) (layfile_syntax f);
  dl_text : written (layfile_syntax f) text
}.

(** ** Meaning *)
(** Materials declared in the file hide those of the stack description. *)
Definition resolves (local globals : materials) (id : list Z) (m : material) : Prop :=
  In (id, m) local \/ (~ In id (map fst local) /\ In (id, m) globals).
(** The layouts of a file, in order. *)
Definition layouts (f : qlayfile) : list qlayoutd := fst (a_layouts f) :: snd (a_layouts f).
Definition all_rects (f : qlayfile) : list (Q * Q * Q * Q) := flat_map (fun o => rects_of (o_shape o)) (layouts f).
Definition local_materials (f : qlayfile) : materials := map material_of (a_materials f).
(** No point is inside of both. *)
Definition side_by_side (p q : Q * Q * Q * Q) : Prop :=
  let '(x, y, l, w) := p in let '(x', y', l', w') := q in
  (x + l <= x' \/ x' + l' <= x \/ y + w <= y' \/ y' + w' <= y)%Q.
(** A square of more than a thousandth of a micrometre is inside of both. *)
Definition square_in (px py e : Q) (p : Q * Q * Q * Q) : Prop :=
  let '(x, y, l, w) := p in (x <= px /\ px + e <= x + l /\ y <= py /\ py + e <= y + w)%Q.
Definition overlapping (p q : Q * Q * Q * Q) : Prop :=
  exists px py e, (1 # 1000 < e)%Q /\ square_in px py e p /\ square_in px py e q.
(** What a layout makes: its rectangles, in order, of its material. *)
Definition laid (local globals : materials) (o : qlayoutd) (x : list icel * material) : Prop :=
  map rect_of (fst x) = rects_of (o_shape o) /\ resolves local globals (o_material o) (snd x).
