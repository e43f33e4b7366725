(** * Model of material.txt, /repo/utils/floorplan_gds/create_floorplan_material.py 112-114.
    The numbers are printed with "%.6e" (StkSave.scientific). *)
From Coq Require Import ZArith QArith Bool List String Ascii.
From Verif Require Import Base Flex Vtk FlpText Gradient StkSave Gds.
Import ListNotations.
Local Open Scope string_scope.
Local Open Scope list_scope.

Definition e6 (x : Q) : chars := str (scientific 6 x).
(** Lines 112-114. *)
Definition material_text (m : Gds.material) : chars :=
  str "material " ++ m_name m ++ str " :" ++ line_end
  ++ str "   thermal conductivity     " ++ e6 (m_kx m) ++ str ", " ++ e6 (m_ky m) ++ str ", " ++ e6 (m_kz m) ++ str ";" ++ line_end
  ++ str "   volumetric heat capacity " ++ e6 (Gds.m_vhc m) ++ str ";" ++ line_end ++ line_end.
(** write_materials, lines 94-114, from the definitions. *)
Definition materials_file (ms : list Gds.material) : chars := flat_map material_text ms.
