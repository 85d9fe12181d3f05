(** Specification vocabulary for reading encodings back. *)
From Verif Require Import GoBase Strutils Vocab.
Import GoBase.
#[local] Open Scope Z_scope.

(** No two terms have the same ID. *)
Definition distinct_ids (v : vocab) : Prop := ∀ t t' i, get_id v t = Some i → get_id v t' = Some i → t = t'.

(** A text with a space in front, unless it is empty or starts with white space. *)
Definition spaced (rs : list Z) : list Z :=
  match rs with [] => [] | x :: _ => if white_space x then rs else 32 :: rs end.
