(** What the comments of /repo promise, where it differs from what the code does. *)
From Verif Require Import GoBase Strutils SplitPattern NormString.
Import GoBase.
#[local] Open Scope Z_scope.

(** metaspacepretokenizer.go:15-20: all white space becomes the meta character, and white space is put in front unless the
    text starts with white space. *)
Definition documented_metaspace (c : Z) (prefix : bool) (rs : list Z) : list Z :=
  map (λ x, if white_space x then c else x) (match rs with x :: _ => if prefix && negb (white_space x) then 32 :: rs else rs | [] => [] end).
