(** Specification vocabulary for C109: words with symbols of any length. *)
From Verif Require Import GoBase MergeMap SpecBpe.
Import GoBase.
#[local] Open Scope Z_scope.

(** Merging an adjacent pair that has a merge and whose left symbol is not empty. *)
Inductive full_step (mm : merge_map) : list sym → list sym → Prop :=
| full_step_intro l a la b lb r m :
    mm !! (a, b) = Some m → la ≠ 0 → full_step mm (l ++ (a, la) :: (b, lb) :: r) (l ++ (mv_id m, la + lb) :: r).
(** The symbols that are not empty. *)
Definition not_empty (ss : list sym) : list sym := base.filter (λ s, s.2 ≠ 0) ss.
(** The adjacent pairs that may be merged, by place. *)
Definition full_pair (mm : merge_map) (ss : list sym) (k : nat) (m : merge_value) : Prop :=
  ∃ l a la b lb r, ss = l ++ (a, la) :: (b, lb) :: r ∧ length l = k ∧ mm !! (a, b) = Some m ∧ la ≠ 0.
(** The textbook step among these: the leftmost of lowest rank. *)
Inductive first_step (mm : merge_map) : list sym → list sym → Prop :=
| first_step_intro l a la b lb r m :
    mm !! (a, b) = Some m → la ≠ 0 →
    (∀ k m', full_pair mm (l ++ (a, la) :: (b, lb) :: r) k m' →
       mv_rank m < mv_rank m' ∨ (mv_rank m = mv_rank m' ∧ (length l <= k)%nat)) →
    first_step mm (l ++ (a, la) :: (b, lb) :: r) (l ++ (mv_id m, la + lb) :: r).
