(** Notions for the exact conditions of PropsExact.v. *)
From Verif Require Import GoBase.
#[local] Open Scope Z_scope.

(** The bytes of the known characters, given each character's ID and length. *)
Definition known_bytes (cs : list (option Z * Z)) : Z :=
  foldr (λ c n, match c.1 with Some _ => c.2 + n | None => n end) 0 cs.
