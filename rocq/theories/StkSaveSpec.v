(** * What a saved section should say: the declaration, to the digits that are
      printed. Written with the syntax of StkTextSpec.v, not with the printing
      functions. *)
From Coq Require Import ZArith List Bool QArith Qabs String Ascii.
From Verif Require Import Base Flex FlpText VtkSpec FlpTextSpec Inspect StkText StkTextSpec StkSave.
Import ListNotations.
Local Open Scope list_scope.

(** Five significant digits. *)
Definition close (a b : Q) : Prop := (Qabs (a - b) * 20000 <= Qabs b)%Q.
(** Names and paths that a file can contain. *)
Definition a_name_of (i : list Z) : Prop := exists w, i = name_codes w /\ a_name reserved w.
Definition a_path_of (p : list Z) : Prop := exists w, p = name_codes w /\ ~ In "034"%char w.

(** [near e]: to [e]; tenths are printed of lengths, hundredths of temperatures,
    flow rates (in ml per minute) and times. *)
Definition same_sink (htc t htc' t' : Q) : Prop := close htc' htc /\ near (1 # 200) t' t.
Definition same_channel (c : schan) (c' : chan Q (list Z)) : Prop :=
  match c, c' with
  | S4 height channel wall first last m flow side top bottom vhc tin, Chan4 height' channel' wall' (Some first') (Some last') m' flow' (Each4 side' top' bottom') vhc' tin' =>
    near (1 # 20) height' height /\ near (1 # 20) channel' channel /\ near (1 # 20) wall' wall /\ near (1 # 20) first' first /\ near (1 # 20) last' last /\ m' = m /\
    near (1 # 200) flow' (flow * 60 / 1000000000000) /\ close side' side /\ close top' top /\ close bottom' bottom /\ close vhc' vhc /\ near (1 # 200) tin' tin
  | S2 height length pitch m flow top bottom vhc tin, Chan2 height' channel' wall' m' flow' (Each2 top' bottom') vhc' tin' =>
    near (1 # 20) height' height /\ near (1 # 20) channel' length /\ near (1 # 20) wall' (pitch - length) /\ m' = m /\
    near (1 # 200) flow' (flow * 60 / 1000000000000) /\ close top' top /\ close bottom' bottom /\ close vhc' vhc /\ near (1 # 200) tin' tin
  | SPins staggered height diameter pitch m darcy vhc tin, Pins height' diameter' pitch' staggered' m' darcy' vhc' tin' =>
    staggered' = staggered /\ near (1 # 20) height' height /\ near (1 # 20) diameter' diameter /\ near (1 # 20) pitch' pitch /\ m' = m /\
    close darcy' darcy /\ close vhc' vhc /\ near (1 # 200) tin' tin
  | _, _ => False
  end%Q.
Definition same_layer (l : slayer) (l' : layd Q (list Z) (list Z)) : Prop :=
  y_id l' = sl_id l /\ near (1 # 20) (y_height l') (sl_height l) /\ y_material l' = sl_material l /\ y_layout l' = sl_layout l.
Definition same_content (l : Q * list Z) (c : content Q (list Z)) : Prop :=
  match c with Fresh h m => near (1 # 20) h (fst l) /\ m = snd l | Declared _ => False end.
(** The layers of a die, those above the source, the source, those below. *)
Definition same_die (d : sdie) (d' : died Q (list Z)) : Prop :=
  i_id d' = sd_id d /\ Forall2 same_content (sd_layers d) (i_above d' ++ i_source d' :: i_below d') /\
  Z.of_nat (List.length (i_below d')) = sd_source d.
Definition same_dims (d : sdims) (d' : dimd Q) : Prop :=
  near (1 # 20) (dd_length d') (sx_length d) /\ near (1 # 20) (dd_width d') (sx_width d) /\
  near (1 # 20) (dd_cell_length d') (sx_cell_length d) /\ near (1 # 20) (dd_cell_width d') (sx_cell_width d).
Definition same_element (e : selem) (e' : eld Q (list Z) (list Z)) : Prop :=
  e' = match e with SLayer i l => ELayer i l None | SChannel i => EChannel i | SDie i d p => EDie i d p None end.
Definition same_solver (a : sanalysis) (s : solverd Q) : Prop :=
  match sa_transient a, v_analysis s with
  | None, Steady => True
  | Some (step, slot), Transient step' slot' => near (1 # 200) step' step /\ near (1 # 200) slot' slot
  | _, _ => False
  end /\ near (1 # 200) (v_initial s) (sa_initial a).
Definition the_instant (w : option output_instant) : output_instant :=
  match w with Some i => i | None => OI_FINAL end.
Definition same_point (p p' : pointd Q (list Z) (list Z)) : Prop :=
  match p, p' with
  | PT i x y f w, PT i' x' y' f' w' => i' = i /\ near (1 # 20) x' x /\ near (1 # 20) y' y /\ f' = f /\ the_instant w' = the_instant w
  | PTflp i f q w, PTflp i' f' q' w' => i' = i /\ f' = f /\ q' = q /\ the_instant w' = the_instant w
  | PTflpel i e f q w, PTflpel i' e' f' q' w' => i' = i /\ e' = e /\ f' = f /\ q' = q /\ the_instant w' = the_instant w
  | PTmap i f w, PTmap i' f' w' => i' = i /\ f' = f /\ the_instant w' = the_instant w
  | PPmap i f w, PPmap i' f' w' => i' = i /\ f' = f /\ the_instant w' = the_instant w
  | PTcoolant i f q w, PTcoolant i' f' q' w' => i' = i /\ f' = f /\ q' = q /\ the_instant w' = the_instant w
  | _, _ => False
  end.
(** The names in a section are names, the paths paths. *)
Definition chan_name (c : schan) : list Z :=
  match c with S4 _ _ _ _ _ m _ _ _ _ _ _ | S2 _ _ _ m _ _ _ _ _ | SPins _ _ _ _ m _ _ _ => m end.
Definition elem_ok (e : selem) : Prop :=
  match e with SLayer i l => a_name_of i /\ a_name_of l | SChannel i => a_name_of i | SDie i d p => a_name_of i /\ a_name_of d /\ a_path_of p end.
Definition pt_ok (p : pointd Q (list Z) (list Z)) : Prop :=
  match p with
  | PT i _ _ f _ | PTflp i f _ _ | PTmap i f _ | PPmap i f _ | PTcoolant i f _ _ => a_name_of i /\ a_path_of f
  | PTflpel i e f _ _ => a_name_of i /\ a_name_of e /\ a_path_of f
  | PT3d f _ => a_path_of f
  end.
(** Quantities other than the gradient and the maps of the whole stack. *)
Definition plain_point (p : pointd Q (list Z) (list Z)) : Prop :=
  match p with
  | PTflp _ _ q _ | PTflpel _ _ _ q _ | PTcoolant _ _ q _ => q = OQ_MAXIMUM \/ q = OQ_MINIMUM \/ q = OQ_AVERAGE
  | PT3d _ _ => False
  | _ => True
  end.
Definition layer_names (l : slayer) : Prop := a_name_of (sl_id l) /\ a_name_of (sl_material l) /\ match sl_layout l with Some p => a_path_of p | None => False end.
Definition die_names (d : sdie) : Prop := a_name_of (sd_id d) /\ Forall (fun x : Q * list Z => a_name_of (snd x)) (sd_layers d).
