(** Specification of byte pair encoding by segmentations: lists of adjacent texts, of which pairs are joined. *)
From stdpp Require Import relations.
From Verif Require Import GoBase Strutils MergeMap Bpe SpecVocab SpecBpe SpecDrop.
#[local] Open Scope Z_scope.

(** One pass over symbols: from left to right, every [a] followed by [b] becomes [c]. *)
Fixpoint pass (a b c : Z) (ss : list (Z * Z)) : list (Z * Z) :=
  match ss with
  | x :: (y :: r) as t => if decide (x.1 = a ∧ y.1 = b) then (c, x.2 + y.2) :: pass a b c r else x :: pass a b c t
  | _ => ss
  end.
(** One pass for each rule, in this order. *)
Definition passes (rules : list (Z * Z * Z)) (ss : list (Z * Z)) : list (Z * Z) :=
  foldl (λ ss r, pass r.1.1 r.1.2 r.2 ss) ss rules.

(** The rules of a merge map by increasing rank; no two have the same. *)
Definition by_rank (mm : merge_map) (rules : list (Z * Z * merge_value)) : Prop :=
  (∀ p m, mm !! p = Some m ↔ (p, m) ∈ rules)
  ∧ ∀ i j x y, (i < j)%nat → rules !! i = Some x → rules !! j = Some y → mv_rank x.2 < mv_rank y.2.
(** No rule uses what itself or a rule of higher rank makes. *)
Definition trained (mm : merge_map) : Prop :=
  ∀ p m p' m', mm !! p = Some m → mm !! p' = Some m' → mv_rank m <= mv_rank m' → p.1 ≠ mv_id m' ∧ p.2 ≠ mv_id m'.

(** One pass over a segmentation: from left to right, every [a] followed by [b] is joined with it. *)
Fixpoint join_pass (a b : list Z) (ts : list (list Z)) : list (list Z) :=
  match ts with
  | x :: (y :: r) as t => if decide (x = a ∧ y = b) then (a ++ b) :: join_pass a b r else x :: join_pass a b t
  | _ => ts
  end.
Definition join_all (pairs : list (list Z * list Z)) (ts : list (list Z)) : list (list Z) :=
  foldl (λ ts p, join_pass p.1 p.2 ts) ts pairs.
(** Joining one listed pair, anywhere. *)
Inductive join_step (pairs : list (list Z * list Z)) : list (list Z) → list (list Z) → Prop :=
| join_step_intro l a b r : (a, b) ∈ pairs → join_step pairs (l ++ a :: b :: r) (l ++ (a ++ b) :: r).

(** The pairs that the lines of a merges file list. *)
Definition listed (ls : list (list Z)) (pairs : list (list Z * list Z)) : Prop :=
  Forall2 (λ l p, two_terms l p.1 p.2) (merge_lines ls) pairs.
(** No pair uses what itself or a later one makes: how training writes them. *)
Definition training_order (pairs : list (list Z * list Z)) : Prop :=
  ∀ i j p q, (i <= j)%nat → pairs !! i = Some p → pairs !! j = Some q → p.1 ≠ q.1 ++ q.2 ∧ p.2 ≠ q.1 ++ q.2.

(** All merges of [mm] are in [mm'], and come before those that are only there. *)
Definition extended (mm mm' : merge_map) : Prop :=
  (∀ p m, mm !! p = Some m → mm' !! p = Some m)
  ∧ ∀ p m p' m', mm !! p = Some m → mm' !! p' = Some m' → mm !! p' = None → mv_rank m < mv_rank m'.

(** The token [t] covers the tokens [g]: it spells what they spell, and starts and ends where they do. *)
Definition joined_from (t : token) (g : list token) : Prop :=
  ∃ a b, head g = Some a ∧ last g = Some b ∧ t_value t = concat (map t_value g)
    ∧ o_start (t_offsets t) = o_start (t_offsets a) ∧ o_end (t_offsets t) = o_end (t_offsets b).
(** Tokens joined to larger ones. *)
Definition coarser (small large : list token) : Prop := ∃ gs, concat gs = small ∧ Forall2 joined_from large gs.
