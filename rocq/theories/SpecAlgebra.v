(** Specifications for the laws between edits. *)
From Verif Require Import GoBase.
Import GoBase.
#[local] Open Scope Z_scope.

(** All characters before the first one that is kept are ASCII; all characters, if none is kept. *)
Definition ascii_front (keep : Z → bool) (rs : list Z) : Prop :=
  ∀ l r, rs = l ++ r → Forall (λ c, keep c = false) l → Forall (λ c, c < 128) l.
