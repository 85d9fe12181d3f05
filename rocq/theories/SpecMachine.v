(** Specification vocabulary for C108: Go's [int] of 32 or 64 bits; [h] is 2^31 or 2^63. *)
From Verif Require Import GoBase.
Import GoBase.
#[local] Open Scope Z_scope.

(** What fits. *)
Definition fits (h z : Z) : Prop := - h <= z < h.
