(** Specification vocabulary for reading files. *)
From Verif Require Import GoBase.
Import GoBase.
#[local] Open Scope Z_scope.

(** No 101 reads in a row give nothing (an [os.File] that is not at its end always gives something). *)
Definition portions (ask : nat → Z) : Prop := ∀ i, ∃ j, (j <= 100)%nat ∧ 1 <= ask (i + j)%nat.
