(** What C118 speaks of. *)
From stdpp Require Import relations.
From Verif Require Import GoBase Bpe Concurrent.
Import GoBase.

(** All the calls, before any of them has begun. *)
Definition beginning {ci} (texts : list (list Z)) (c : ca_state ci) : system ci :=
  System (map (λ s, Call s Begin []) texts) (Shared c 0).
(** Nothing is left to do. *)
Definition ended {ci} m source (y : system ci) : Prop := ∀ y', ¬ sys_step ci m source y y'.
(** What the calls have returned so far. *)
Definition answer (c : call) : option (result (list token)) := match cl_phase c with Answered r => Some r | _ => None end.
Definition answers {ci} (y : system ci) : list (option (result (list token))) := map answer (sy_calls y).
(** The random numbers were taken by one call after the other. *)
Definition in_turn {ci} (y : system ci) : Prop := Forall (λ c, ∃ a n, cl_taken c = seq a n) (sy_calls y).
