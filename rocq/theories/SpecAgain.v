(** Specification vocabulary: what MergeAll leaves in a word. *)
From stdpp Require Import relations.
From Verif Require Import GoBase MergeMap Bpe SpecBpe.
#[local] Open Scope Z_scope.

(** Groups of symbols that have been merged into one symbol each. *)
Definition merged_groups (mm : merge_map) (gs : list (list (Z * Z))) (ts : list (Z * Z)) : Prop :=
  Forall2 (λ g t, g ≠ [] ∧ rtc (merge_step mm) g [t]) gs ts.

(** The place of the first symbol of group [k] among all symbols; -1 if there is no such group. *)
Definition place (gs : list (list (Z * Z))) (k : nat) : Z :=
  if decide (k < length gs)%nat then Z.of_nat (length (concat (take k gs))) else -1.

(** The symbols [ts], each of which says that its neighbours are where their groups were. *)
Definition left_by (gs : list (list (Z * Z))) (ts : list (Z * Z)) : word :=
  imap (λ k t, WSym t.1 t.2 (match k with O => -1 | S k' => place gs k' end) (place gs (S k))) ts.
