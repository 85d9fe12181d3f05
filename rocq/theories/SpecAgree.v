(** Specification vocabulary: models that differ only in what a text cannot reach. *)
From stdpp Require Import relations.
From Verif Require Import GoBase Strutils Vocab MergeMap Heap Bpe WordPiece SpecVocab SpecBpe.
#[local] Open Scope Z_scope.

(** The two maps say the same of all neighbours in [ss]. *)
Definition agree_on (mm mm' : merge_map) (ss : list (Z * Z)) : Prop :=
  ∀ k x y, ss !! k = Some x → ss !! S k = Some y → mm !! (x.1, y.1) = mm' !! (x.1, y.1).
(** And of all that merging can make of [ss]. *)
Definition agree_from (mm mm' : merge_map) (ss : list (Z * Z)) : Prop :=
  ∀ ss', rtc (merge_step mm) ss ss' → agree_on mm mm' ss'.

(** The same settings, but for vocabulary and merges. *)
Definition same_settings (m m' : bpe) : Prop :=
  b_dropout m = b_dropout m' ∧ b_unk m = b_unk m' ∧ b_prefix m = b_prefix m' ∧ b_suffix m = b_suffix m' ∧ b_fuse m = b_fuse m'.

(** A vocabulary with more terms. *)
Definition extends (v v' : vocab) : Prop := ∀ t i, get_id v t = Some i → get_id v' t = Some i.
(** A line for a merge of terms not all of which are in [v]. *)
Definition foreign_line (v : vocab) (l : list Z) : Prop :=
  ∃ t0 t1, two_terms l t0 t1 ∧ (get_id v t0 = None ∨ get_id v t1 = None).

(** A part of the text, with the prefix if it is not at the start. *)
Definition wp_term (pre s t : list Z) : Prop :=
  ∃ a x b, s = a ++ x ++ b ∧ x ≠ [] ∧ t = (if decide (a = []) then [] else pre) ++ x.
