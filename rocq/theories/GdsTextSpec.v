(** * Specification for C81: what material.txt means at the head of a stack description. *)
From Coq Require Import ZArith QArith Qabs Bool List String.
From Verif Require Import Base FlpText FlpTextSpec StkText StkTextSpec Gds.
Import ListNotations.
Local Open Scope list_scope.

(** Seven significant digits. *)
Definition close6 (a b : Q) : Prop := (Qabs (a - b) * 2000000 <= Qabs b)%Q.
(** The definition of a stack description gives the material the same name and, up to the
    printed digits, the same values. *)
Definition defines (m : Gds.material) (d : mat Q (list Z)) : Prop :=
  m_id d = name_codes (m_name m) /\
  (exists x y z, m_k d = Directional x y z /\ close6 x (m_kx m) /\ close6 y (m_ky m) /\ close6 z (m_kz m)) /\
  close6 (StkText.m_vhc d) (Gds.m_vhc m).
(** The same file with more materials in front. *)
Definition with_materials (ds : list (mat Q (list Z))) (f : qfile) : qfile :=
  match ds with
  | [] => f
  | d :: r => mkStkfile (d, r ++ fst (s_materials f) :: snd (s_materials f)) (s_top f) (s_bottom f) (s_channel f) (s_dims f)
                        (s_layers f) (s_dies f) (s_stack f) (s_solver f) (s_output f)
  end.
