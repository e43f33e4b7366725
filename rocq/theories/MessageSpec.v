(** * Specification vocabulary for network messages *)
From Coq Require Import ZArith List.
From Verif Require Import Base Message.
Import ListNotations.
Local Open Scope Z_scope.

Definition is_word (w : word) : Prop := 0 <= w < two32.

(** A usable message buffer: at least the two header words, all of the declared
    size. [message_init] is one. *)
Definition usable (m : message) : Prop :=
  m_max m = Z.of_nat (length (m_mem m)) /\ 2 <= m_max m < two32 /\ Forall is_word (m_mem m).

(** [carries m type ws]: the message is complete, of type [type] with content [ws]. *)
Definition carries (m : message) (type : word) (ws : list word) : Prop :=
  usable m /\
  firstn (2 + length ws) (m_mem m) = Z.of_nat (2 + length ws) :: type :: ws.

(** Byte stream of a message: length, type, content, each word as 4 bytes. *)
Definition encoding (type : word) (ws : list word) : list byte :=
  bytes_of_words (Z.of_nat (2 + length ws) :: type :: ws).

(** A message content: type and words; [good_content]: 32-bit words and at most
    2^30 words in all. *)
Definition content := (word * list word)%type.
Definition good_content (c : content) : Prop :=
  is_word (fst c) /\ Forall is_word (snd c) /\ Z.of_nat (2 + length (snd c)) <= 1073741824.
Definition carries_c (m : message) (c : content) : Prop := carries m (fst c) (snd c).
Definition encodings (cs : list content) : list byte :=
  flat_map (fun c => encoding (fst c) (snd c)) cs.

(** Number of read calls that completed (each returns at least one byte while
    the stream lasts). *)
Fixpoint reads (s : list io) : nat :=
  match s with [] => 0 | Moved _ :: t => S (reads t) | _ :: t => reads t end%nat.

(** Number of write calls that moved at least one byte. *)
Fixpoint moves (s : list io) : nat :=
  match s with
  | [] => 0
  | Moved (S _) :: t => S (moves t)
  | _ :: t => moves t
  end.
