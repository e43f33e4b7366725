(** * Pointer-level model of /repo/sources/list_template.c

    The heap maps addresses to list nodes; a NULL pointer is [None].  Element
    data are values (node_data_init/copy are deep copies).  Simplifications:
    malloc never fails and never returns a previously freed address. *)
From Coq Require Import ZArith List Bool.
From Verif Require Import Base Queue.
Import ListNotations.
Local Open Scope Z_scope.

Section DList.
Context {A : Type}.

Definition ptr := option nat.

(** LIST_NODE, include/list_template.h 54-76. *)
Record node := mkNode { n_data : A; n_prev : ptr; n_next : ptr }.

(** LIST, include/list_template.h 78-100. *)
Record header := mkHeader { l_size : Z; l_first : ptr; l_last : ptr }.

(** [hp_next]: lowest address never allocated so far. *)
Record heap := mkHeap { hp_mem : nat -> option node; hp_next : nat }.

Definition heap_set (h : heap) (a : nat) (v : option node) : heap :=
  mkHeap (set_reg (hp_mem h) a v) (hp_next h).

(** C dereference of a node pointer. *)
Definition deref (h : heap) (p : ptr) : outcome node :=
  match p with
  | None => UB
  | Some a => match hp_mem h a with Some n => Ok n | None => UB end
  end.

Definition write_next (h : heap) (p : ptr) (v : ptr) : outcome heap :=
  match p with
  | None => UB
  | Some a => do n <- deref h p ;
              Ok (heap_set h a (Some (mkNode (n_data n) (n_prev n) v)))
  end.

Definition write_prev (h : heap) (p : ptr) (v : ptr) : outcome heap :=
  match p with
  | None => UB
  | Some a => do n <- deref h p ;
              Ok (heap_set h a (Some (mkNode (n_data n) v (n_next n))))
  end.

(** malloc + node_data_init/copy + Next = Prev = NULL
    (list_template.c 162-173 and 248-259). *)
Definition new_node (h : heap) (x : A) : nat * heap :=
  (hp_next h,
   mkHeap (set_reg (hp_mem h) (hp_next h) (Some (mkNode x None None))) (S (hp_next h))).

(** TTT_list_init, list_template.c 63-70. *)
Definition list_init : header := mkHeader 0 None None.

Definition is_null (p : ptr) : bool := match p with None => true | Some _ => false end.

(** TTT_list_insert_begin, list_template.c 158-199. *)
Definition list_insert_begin (h : heap) (l : header) (x : A) : outcome (heap * header) :=
  let (a, h1) := new_node h x in
  if is_null (l_first l) && is_null (l_last l)
  then Ok (h1, mkHeader (u32 (l_size l + 1)) (Some a) (Some a))
  else if is_null (l_first l) || is_null (l_last l)
  then Ok (h1, l)
  else
    do h2 <- write_next h1 (Some a) (l_first l) ;
    do h3 <- write_prev h2 (l_first l) (Some a) ;
    Ok (h3, mkHeader (u32 (l_size l + 1)) (Some a) (l_last l)).

(** TTT_list_insert_end, list_template.c 244-285.  The second test (271)
    repeats the first one, so it never fires; kept as in the code. *)
Definition list_insert_end (h : heap) (l : header) (x : A) : outcome (heap * header) :=
  let (a, h1) := new_node h x in
  if is_null (l_first l) && is_null (l_last l)
  then Ok (h1, mkHeader (u32 (l_size l + 1)) (Some a) (Some a))
  else if is_null (l_first l) && is_null (l_last l)
  then Ok (h1, l)
  else
    do h2 <- write_prev h1 (Some a) (l_last l) ;
    do h3 <- write_next h2 (l_last l) (Some a) ;
    Ok (h3, mkHeader (u32 (l_size l + 1)) (l_first l) (Some a)).

(** TTT_list_merge, list_template.c 204-241 (both arguments non-NULL, distinct
    list objects). Returns heap, list1, list2. *)
Definition list_merge (h : heap) (l1 l2 : header) : outcome (heap * header * header) :=
  match l_first l1 with
  | None => Ok (h, mkHeader (l_size l2) (l_first l2) (l_last l2), list_init)
  | Some _ =>
    match l_first l2 with
    | None => Ok (h, l1, l2)
    | Some _ =>
      do h1 <- write_next h (l_last l1) (l_first l2) ;
      do h2 <- write_prev h1 (l_first l2) (l_last l1) ;
      Ok (h2, mkHeader (u32 (l_size l1 + l_size l2)) (l_first l1) (l_last l2), list_init)
    end
  end.

(** while loop of TTT_list_destroy, list_template.c 97-106. *)
Fixpoint destroy_loop (fuel : nat) (h : heap) (first : ptr) : outcome heap :=
  match first with
  | None => Ok h
  | Some a =>
    match fuel with
    | O => NoFuel
    | S f => do n <- deref h first ;
             destroy_loop f (heap_set h a None) (n_next n)
    end
  end.

(** TTT_list_destroy, list_template.c 91-109. *)
Definition list_destroy (h : heap) (l : header) : outcome (heap * header) :=
  do h' <- destroy_loop (S (hp_next h)) h (l_first l) ;
  Ok (h', list_init).

(** for loop of TTT_list_copy, list_template.c 82-86. *)
Fixpoint copy_nodes (fuel : nat) (h : heap) (dst : header) (p : ptr) : outcome (heap * header) :=
  match p with
  | None => Ok (h, dst)
  | Some a =>
    match fuel with
    | O => NoFuel
    | S f => do n <- deref h p ;
             do hd <- list_insert_end h dst (n_data n) ;
             do n' <- deref (fst hd) p ;
             copy_nodes f (fst hd) (snd hd) (n_next n')
    end
  end.

(** TTT_list_copy, list_template.c 74-87 (dst and src distinct objects). *)
Definition list_copy (h : heap) (dst src : header) : outcome (heap * header) :=
  do hd <- list_destroy h dst ;
  copy_nodes (S (hp_next h)) (fst hd) (snd hd) (l_first src).

(** TTT_list_find, list_template.c 289-308: returns the data of the first
    node for which [eq data] holds, [None] for NULL. *)
Fixpoint find_loop (eq : A -> bool) (fuel : nat) (h : heap) (p : ptr) : outcome (option A) :=
  match p with
  | None => Ok None
  | Some a =>
    match fuel with
    | O => NoFuel
    | S f => do n <- deref h p ;
             if eq (n_data n) then Ok (Some (n_data n)) else find_loop eq f h (n_next n)
    end
  end.

Definition list_find (eq : A -> bool) (h : heap) (l : header) : outcome (option A) :=
  find_loop eq (S (hp_next h)) h (l_first l).

(** Traversals used everywhere in the code base:
    for (n = begin; n != NULL; n = next(n)) and for (n = end; n != NULL; n = prev(n)). *)
Fixpoint walk (fwd : bool) (fuel : nat) (h : heap) (p : ptr) : outcome (list A) :=
  match p with
  | None => Ok []
  | Some a =>
    match fuel with
    | O => NoFuel
    | S f => do n <- deref h p ;
             do r <- walk fwd f h (if fwd then n_next n else n_prev n) ;
             Ok (n_data n :: r)
    end
  end.

Definition walk_forward (h : heap) (l : header) := walk true (S (hp_next h)) h (l_first l).
Definition walk_backward (h : heap) (l : header) := walk false (S (hp_next h)) h (l_last l).

(** ** Programs over several list objects *)
Inductive lop :=
| LInsBegin (r : nat) (x : A)
| LInsEnd (r : nat) (x : A)
| LMerge (r1 r2 : nat)
| LCopy (dst src : nat)
| LDestroy (r : nat).

Record lstate := mkL { ls_heap : heap; ls_reg : nat -> header }.

Definition lstep (s : lstate) (o : lop) : outcome lstate :=
  let h := ls_heap s in
  match o with
  | LInsBegin r x => do hl <- list_insert_begin h (ls_reg s r) x ;
                     Ok (mkL (fst hl) (set_reg (ls_reg s) r (snd hl)))
  | LInsEnd r x => do hl <- list_insert_end h (ls_reg s r) x ;
                   Ok (mkL (fst hl) (set_reg (ls_reg s) r (snd hl)))
  | LMerge r1 r2 => do hll <- list_merge h (ls_reg s r1) (ls_reg s r2) ;
                    Ok (mkL (fst (fst hll))
                            (set_reg (set_reg (ls_reg s) r1 (snd (fst hll))) r2 (snd hll)))
  | LCopy d r => do hl <- list_copy h (ls_reg s d) (ls_reg s r) ;
                 Ok (mkL (fst hl) (set_reg (ls_reg s) d (snd hl)))
  | LDestroy r => do hl <- list_destroy h (ls_reg s r) ;
                  Ok (mkL (fst hl) (set_reg (ls_reg s) r (snd hl)))
  end.

Fixpoint lrun (s : lstate) (ops : list lop) : outcome lstate :=
  match ops with
  | [] => Ok s
  | o :: os => do s' <- lstep s o ; lrun s' os
  end.

Definition lstart : lstate := mkL (mkHeap (fun _ => None) 0) (fun _ => list_init).

(** ** Specification: registers holding plain lists *)
Definition slstep (s : nat -> list A) (o : lop) : nat -> list A :=
  match o with
  | LInsBegin r x => set_reg s r (x :: s r)
  | LInsEnd r x => set_reg s r (s r ++ [x])
  | LMerge r1 r2 => set_reg (set_reg s r1 (s r1 ++ s r2)) r2 []
  | LCopy d r => set_reg s d (s r)
  | LDestroy r => set_reg s r []
  end.

Definition slrun (ops : list lop) : nat -> list A := fold_left slstep ops (fun _ => []).

(** merge and copy are applied to two different list objects *)
Definition valid_lop (o : lop) : Prop :=
  match o with LMerge a b => a <> b | LCopy a b => a <> b | _ => True end.

End DList.
Arguments node : clear implicits.
Arguments heap : clear implicits.
Arguments lop : clear implicits.
Arguments lstate : clear implicits.
