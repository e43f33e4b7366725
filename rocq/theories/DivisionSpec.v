(** * Specification for C79: what a division of layers into sublayers is, and which lines
      of the conductance file count. *)
From Coq Require Import ZArith QArith Bool List String.
From Verif Require Import Base Division.
Import ListNotations.
Local Open Scope Z_scope.

(** ** The file: a header with the conductances of the lines under it, up to the next
    header or unprofiled entry. Lines above the first header belong to none. *)
Fixpoint cells_then_blocks (ls : list line) : list (option Q) * list (string * list (option Q)) :=
  match ls with
  | [] => ([], [])
  | Blank :: r => cells_then_blocks r
  | Cells c :: r => (c :: fst (cells_then_blocks r), snd (cells_then_blocks r))
  | Unprofiled _ _ :: r => ([], snd (cells_then_blocks r))
  | Header h :: r => ([], (h, fst (cells_then_blocks r)) :: snd (cells_then_blocks r))
  end.
Definition blocks (ls : list line) : list (string * list (option Q)) := snd (cells_then_blocks ls).
(** A layer of several lines, wherever it is in the file, excludes its name. *)
Definition excluded (ls : list line) (h : string) : bool :=
  existsb (fun b => String.eqb h (fst b) && (2 <=? Z.of_nat (List.length (snd b)))) (blocks ls).
Definition accepted (ls : list line) : list (string * Q) :=
  flat_map (fun b => match snd b with
                     | [Some c] => if excluded ls (fst b) then [] else [(fst b, c)]
                     | _ => []
                     end) (blocks ls).

(** ** The layers *)
(** A layer of conductance [b] in [n] sublayers has conductance [b * n] per sublayer. *)
Definition divided (s : layer) : Prop := 1 <= sublayers s /\ (current s == base s * inject_Z (sublayers s))%Q.
Fixpoint Qsum (l : list Q) : Q := match l with [] => 0%Q | x :: r => (x + Qsum r)%Q end.
Definition mean (l : list Q) : Q := (Qsum l / inject_Z (Z.of_nat (List.length l)))%Q.
(** The sample variance of a list (VAR.S). *)
Definition sample_variance (l : list Q) : Q :=
  (Qsum (map (fun x => (x - mean l) * (x - mean l)) l) / inject_Z (Z.of_nat (List.length l) - 1))%Q.
(** The conductances of all sublayers that are not neglected. *)
Definition sublayer_conductances (st : list layer) : list Q :=
  flat_map (fun s => repeat (current s) (Z.to_nat (sublayers s))) (filter (fun s => negb (neglected s)) st).
(** The divisions that led to these layers. *)
Definition divisions (st : list layer) : Z := fold_right (fun s t => sublayers s - 1 + t) 0 st.
(** The layers that take part have the same conductance. *)
Definition levelled (st : list layer) : Prop :=
  forall s s', In s st -> In s' st -> neglected s = false -> neglected s' = false -> (current s == current s')%Q.
(** [m] is a multiple of the conductance [b]. *)
Definition multiple (m b : Q) : Prop := exists k, 1 <= k /\ (m == b * inject_Z k)%Q.
Definition common_multiple (m : Q) (bs : list Q) : Prop := Forall (multiple m) bs.
(** The conductances of the layers that take part: those not above three times the average. *)
Definition taking_part (cs : list Q) : list Q := filter (fun c => Qle_bool c (3 * mean cs)) cs.
(** One layer gets one more sublayer; its conductance per sublayer grows in proportion. *)
Definition one_division (st st' : list layer) : Prop :=
  exists before s after t,
    st = before ++ s :: after /\ st' = before ++ t :: after /\ neglected s = false /\ neglected t = false /\
    name t = name s /\ base t = base s /\ sublayers t = sublayers s + 1 /\
    (current t * inject_Z (sublayers s) == current s * inject_Z (sublayers s + 1))%Q.
Fixpoint history (st : list layer) (sts : list (list layer)) (st' : list layer) : Prop :=
  match sts with [] => st' = st | st1 :: r => one_division st st1 /\ history st1 r st' end.
(** What a variance stands for. *)
Definition is_variance (st : list layer) (v : variance) : Prop :=
  match v with
  | No_layers => sublayer_conductances st = []
  | Not_a_number => List.length (sublayer_conductances st) = 1%nat
  | Value q => (2 <= List.length (sublayer_conductances st))%nat /\ (q == sample_variance (sublayer_conductances st))%Q
  end.
