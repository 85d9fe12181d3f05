(** String literals as Go strings (lists of bytes), for tests and examples. *)
From Verif Require Import GoBase.
From Coq Require Import String Ascii.

Fixpoint bytes_of (s : string) : list Z :=
  match s with
  | EmptyString => []
  | String a s' => Z.of_N (N_of_ascii a) :: bytes_of s'
  end.
