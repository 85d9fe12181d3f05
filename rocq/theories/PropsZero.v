(** Property theorems C109: MergeAll on words with symbols of any length. *)
From Coq Require Import ZifyBool QArith String.
From stdpp Require Import gmap relations.
From Verif Require Import GoBase MergeMap Heap Bpe SpecBpe SpecZero BpeFacts BpeTok ZeroFacts.
Import GoBase.
#[local] Open Scope Z_scope.

(** No panic, no endless loop, whatever the lengths, the merges and the draws: pairs are merged whose left symbol is not empty,
    the empty symbols are left out in the end, and the lengths add up to what they were. *)
Theorem C109_any :
  ∀ ss mm drop, ∃ w ts, merge_all_with (word_of ss) mm drop = Some (Ret w)
    ∧ rtc (full_step mm) ss ts ∧ word_syms w = not_empty ts ∧ sym_bytes (word_syms w) = sym_bytes ss.
Proof.
  intros ss mm drop. destruct (any_steps mm drop ss) as (w & ts & E & Hr & Ew). exists w, ts. split; [done|]. split; [done|]. split; [done|].
  rewrite Ew, not_empty_total. by eapply full_steps_total.
Qed.
Print Assumptions C109_any.

(** Without dropout all such pairs are merged. *)
Theorem C109_saturates :
  ∀ ss mm dropout draws, (dropout <= 0)%Q →
  ∃ w ts, merge_all (word_of ss) mm dropout draws = Some (Ret w) ∧ rtc (full_step mm) ss ts ∧ word_syms w = not_empty ts ∧ ∀ k m, ¬ full_pair mm ts k m.
Proof. intros ss mm dropout draws Hd. apply any_saturates. intros k. by apply dropped_none. Qed.
Print Assumptions C109_saturates.

(** And in the order of the textbook, for merges that concatenate. *)
Theorem C109_textbook :
  ∀ ss mm size dropout draws, Forall (λ s, 0 < size s.1) ss → additive mm size → (dropout <= 0)%Q →
  ∃ w ts, merge_all (word_of ss) mm dropout draws = Some (Ret w) ∧ rtc (first_step mm) ss ts ∧ (∀ k m, ¬ full_pair mm ts k m) ∧ word_syms w = not_empty ts.
Proof. intros ss mm size dropout draws Hz Ha Hd. apply (any_textbook mm size); [done| |done]. intros k. by apply dropped_none. Qed.
Print Assumptions C109_textbook.

(** False: that nothing is lost. An empty symbol is, merged with nothing; and so are two symbols of opposite lengths. *)
Theorem C109_nothing_lost_refuted :
  (∃ ss, Forall (λ s, 0 <= s.2) ss ∧ ∃ w, merge_all_with (word_of ss) ∅ (λ _, false) = Some (Ret w) ∧ length w ≠ length ss)
  ∧ ∃ ss mm, Forall (λ s, s.2 ≠ 0) ss ∧ ss ≠ [] ∧ merge_all_with (word_of ss) mm (λ _, false) = Some (Ret []).
Proof.
  split.
  - exists [(1, 2); (2, 0); (3, 1)]. split; [by repeat constructor|]. eexists. split; [vm_compute; reflexivity|done].
  - exists [(1, -1); (2, 1)], ({[ (1, 2) := MergeValue 0 3 ]} : merge_map). split; [by repeat constructor|]. split; [done|]. vm_compute. reflexivity.
Qed.
Print Assumptions C109_nothing_lost_refuted.

(** Exactly when, for lengths that are not negative. *)
Theorem C109_nothing_lost_iff :
  ∀ ss, Forall (λ s, 0 <= s.2) ss →
  (∀ mm drop w, merge_all_with (word_of ss) mm drop = Some (Ret w) → rtc (merge_step mm) ss (word_syms w)) ↔ Forall (λ s, 0 < s.2) ss.
Proof.
  intros ss H0. split.
  - intros H. destruct (any_steps ∅ (λ _, false) ss) as (w & ts & E & Hr & Ew). apply H in E.
    assert (E1 : ts = ss). { inversion Hr as [|? ? ? Hs]; [done|]. destruct Hs as [l a la b lb r m Hm _]. discriminate Hm. }
    assert (E2 : word_syms w = ss). { inversion E as [|? ? ? Hs]; [done|]. destruct Hs as [l a la b lb r m Hm]. discriminate Hm. }
    rewrite E2, E1 in Ew. rewrite Forall_forall in *. intros s Hs. specialize (H0 s Hs). rewrite Ew in Hs. apply elem_of_list_filter in Hs as [Hs _]. lia.
  - intros Hp mm drop w E. destruct (merge_all_steps mm drop ss Hp) as (w' & E' & Hr). rewrite E in E'. by injection E' as <-.
Qed.
Print Assumptions C109_nothing_lost_iff.

(** 1 2 has a merge, but 1 is empty in the first word; 2 3 has one and 3 is empty in the second; in the third an empty symbol keeps 1 and 2 apart.
    In the fourth, the merge of 1 and 2 has length 0 and is not merged any further. *)
Example C109_example :
  let mm := list_to_map [((1, 2), MergeValue 0 12); ((2, 3), MergeValue 1 23); ((12, 3), MergeValue 2 123)] : merge_map in
  let run ss := match merge_all_with (word_of ss) mm (λ _, false) with Some (Ret w) => Some (word_syms w) | _ => None end in
  run [(1, 0); (2, 5); (3, 1)] = Some [(23, 6)]
  ∧ run [(2, 5); (3, 0); (4, 1)] = Some [(23, 5); (4, 1)]
  ∧ run [(1, 1); (9, 0); (2, 1)] = Some [(1, 1); (2, 1)]
  ∧ run [(1, -2); (2, 2); (3, 7)] = Some [(3, 7)]
  ∧ run [(1, -2); (2, 1); (3, 7)] = Some [(123, 6)].
Proof. vm_compute. auto 12. Qed.
