(** Property theorems C107: how often the loop of MergeAll runs, and which random numbers matter. *)
From Coq Require Import ZifyBool QArith String.
From Verif Require Import GoBase Strutils Vocab MergeMap Heap Bpe SpecBpe SpecDrop SpecDraws Utf8Facts BpeTok DrawsFacts Lit.
Import GoBase.
#[local] Open Scope Z_scope.

(** Without dropout: at most 3n - 6 iterations for n > 2 symbols, whatever the merges. *)
Theorem C107_plain :
  ∀ mm ss, Forall (λ s, 0 < s.2) ss →
  ∃ k, iterations (word_of ss) mm (λ _, false) = Some (Ret k) ∧ (k <= most_plain (length ss))%nat.
Proof. exact plain_bound. Qed.
Print Assumptions C107_plain.

(** With dropout: at most (n - 2)(7n - 11)/2 random numbers, whatever the merges and the numbers; and later numbers do not matter. *)
Theorem C107_drawn :
  ∀ mm drop ss, Forall (λ s, 0 < s.2) ss →
  ∃ k, iterations (word_of ss) mm drop = Some (Ret k) ∧ (k <= most_drawn (length ss))%nat
    ∧ ∀ drop', (∀ i, (i < k)%nat → drop i = drop' i) →
        merge_all_with (word_of ss) mm drop = merge_all_with (word_of ss) mm drop' ∧ iterations (word_of ss) mm drop' = Some (Ret k).
Proof.
  intros mm drop ss Hpos. destruct (drawn_bound mm drop ss Hpos) as (k & E & Hk). exists k. split; [done|]. split; [done|].
  intros drop' Hd. by apply merge_all_agrees.
Qed.
Print Assumptions C107_drawn.

(** If every number is below the dropout: one for each pair that has a merge. *)
Theorem C107_all_dropped :
  ∀ mm ss, Forall (λ s, 0 < s.2) ss → iterations (word_of ss) mm (λ _, true) = Some (Ret (open_pairs mm ss)).
Proof. exact dropped_count. Qed.
Print Assumptions C107_all_dropped.

(** For Tokenize: a text of n characters depends on no more random numbers than that. *)
Theorem C107_tokenize :
  ∀ m s draws draws', (∀ k, (k < most_drawn (length (runes s)))%nat → draws k = draws' k) → bpe_tokenize m s draws = bpe_tokenize m s draws'.
Proof. exact tokenize_agrees. Qed.
Print Assumptions C107_tokenize.

(** The bounds are reached: four symbols, 17 numbers, if exactly those are not dropped that come when nothing else is left in the queue;
    6 iterations without dropout, 9 for five symbols. With the numbers late enough, one symbol is left; otherwise two. *)
Example C107_example :
  let mm := list_to_map [((1, 2), MergeValue 0 12); ((3, 4), MergeValue 1 34); ((2, 3), MergeValue 2 23); ((1, 23), MergeValue 3 123); ((23, 4), MergeValue 4 234); ((1, 234), MergeValue 5 1234)] : merge_map in
  let mm' := list_to_map [((2, 3), MergeValue 0 23); ((1, 2), MergeValue 8 12); ((3, 4), MergeValue 8 34); ((1, 23), MergeValue 8 123); ((23, 4), MergeValue 1 234); ((1, 234), MergeValue 8 1234); ((4, 5), MergeValue 8 45);
                          ((234, 5), MergeValue 2 2345); ((1, 2345), MergeValue 3 12345)] : merge_map in
  let ss n := map (λ i, (Z.of_nat i, 1)) (seq 1 n) in
  let late := [2; 6; 10; 13; 15; 16]%nat in
  let drop l k := bool_decide (k ∉ l) in
  most_drawn 4 = 17%nat ∧ iterations (word_of (ss 4%nat)) mm (drop late) = Some (Ret 17%nat)
  ∧ most_plain 4 = 6%nat ∧ iterations (word_of (ss 4%nat)) mm' (λ _, false) = Some (Ret 6%nat)
  ∧ most_plain 5 = 9%nat ∧ iterations (word_of (ss 5%nat)) mm' (λ _, false) = Some (Ret 9%nat)
  ∧ iterations (word_of (ss 4%nat)) mm (λ _, true) = Some (Ret 3%nat) ∧ open_pairs mm (ss 4%nat) = 3%nat
  ∧ match merge_all_with (word_of (ss 4%nat)) mm (drop late), merge_all_with (word_of (ss 4%nat)) mm (drop [2; 6; 11]%nat) with
    | Some (Ret w), Some (Ret w') => word_syms w = [(1234, 4)] ∧ word_syms w' = [(1, 1); (234, 3)]
    | _, _ => False
    end.
Proof. vm_compute. auto 12. Qed.
