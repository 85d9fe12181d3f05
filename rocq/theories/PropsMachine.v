(** Property theorems C108: integers of 32 or 64 bits instead of unbounded ones. [h] is 2^31 or 2^63; the proofs work for every
    size. *)
From Coq Require Import ZifyBool QArith String.
From Verif Require Import GoBase Utf8Facts Strutils Vocab MergeMap Heap Bpe NormString SpecBpe SpecVocab SpecMachine SpecInvalid Machine InvalidFacts MachineFacts Lit.
Import GoBase.
#[local] Open Scope Z_scope.

(** MergeAll on words a client made with Add: false if the lengths add up to [h] or more. Four symbols of length 2^62, or of
    2^30 on a 32-bit machine, merge into one of length 0, which is removed. *)
Theorem C108_merge_refuted :
  ∀ h, h = 2 ^ 31 ∨ h = 2 ^ 63 →
  ∃ ss mm, Forall (λ s, 0 < s.2 ∧ fits h s.2) ss
    ∧ (∃ s, merge_all_with (word_of ss) mm (λ _, false) = Some (Ret [s]) ∧ ws_len s = sym_bytes ss)
    ∧ merge_all_int h (word_of ss) mm (λ _, false) = Some (Ret []).
Proof.
  intros h [->| ->]; [exists (repeat (7, 2 ^ 30) 4)|exists (repeat (7, 2 ^ 62) 4)]; exists ({[ (7, 7) := MergeValue 0 7 ]} : merge_map);
    (split; [by repeat constructor|]; split; [|vm_compute; reflexivity]; eexists; split; vm_compute; reflexivity).
Qed.
Print Assumptions C108_merge_refuted.

(** Exactly then: the two agree for all merges and all draws iff the lengths together fit. *)
Theorem C108_merge_iff :
  ∀ h ss, 0 < h → Forall (λ s, 0 < s.2 ∧ fits h s.2) ss →
  (∀ mm drop, merge_all_int h (word_of ss) mm drop = merge_all_with (word_of ss) mm drop) ↔ sym_bytes ss < h.
Proof. intros h ss Hh. by apply merge_all_int_exact. Qed.
Print Assumptions C108_merge_iff.

(** Any word, however its symbols are linked, and any lengths. *)
Theorem C108_merge_any :
  ∀ h w mm drop, 0 < h → foldr (λ s a, Z.abs (ws_len s) + a) 0 w < h → merge_all_int h w mm drop = merge_all_with w mm drop.
Proof. intros h w mm drop Hh H. by apply merge_all_int_same. Qed.
Print Assumptions C108_merge_any.

(** Tokenize: a text is tokenized as it is without limits, by every model, if and only if its length fits where every byte
    that cannot be decoded counts three times. *)
Theorem C108_tokenize_iff :
  ∀ h s, 0 < h → (∀ m draws, bpe_tokenize_int h m s draws = bpe_tokenize m s draws) ↔ zlen s + 2 * bad_bytes s < h.
Proof. intros h s Hh. rewrite <- encode_runes_zlen. by apply tokenize_int_exact. Qed.
Print Assumptions C108_tokenize_iff.

(** So every valid text that fits into memory, on both kinds of machines, and every text at all on those of 64 bits (their
    memory is less than 2^61 bytes). *)
Theorem C108_tokenize :
  ∀ h m s draws, 0 < h → zlen s < h → valid_utf8 s = true ∨ 3 * zlen s < h → bpe_tokenize_int h m s draws = bpe_tokenize m s draws.
Proof.
  intros h m s draws Hh Hs [Hv|H]; apply C108_tokenize_iff; try done.
  - apply bad_valid in Hv. lia.
  - pose proof (encode_runes_most s). rewrite encode_runes_zlen in *. lia.
Qed.
Print Assumptions C108_tokenize.

(** On a machine of 32 bits 2^30 undecodable bytes are too many. *)
Theorem C108_tokenize_refuted :
  ¬ ∀ m s draws, zlen s < 2 ^ 31 → bpe_tokenize_int (2 ^ 31) m s draws = bpe_tokenize m s draws.
Proof.
  intros H. assert (∃ n, Z.of_nat n = 2 ^ 30) as [n Hn] by (exists (Z.to_nat (2 ^ 30)); by apply Z2Nat.id).
  set (s := replicate n 255).
  assert (zlen s = 2 ^ 30) as Hl by (unfold s, zlen; by rewrite replicate_length).
  assert (bad_bytes s = 2 ^ 30) as Hb by (unfold s; by rewrite bad_bytes_255).
  clearbody s. clear n Hn.
  assert (zlen s + 2 * bad_bytes s < 2 ^ 31); [|lia]. apply C108_tokenize_iff; [lia|]. intros m draws. apply H. lia.
Qed.
Print Assumptions C108_tokenize_refuted.

(** TransformRange: every range, every list of changes and every offset, for texts of less than a quarter of [h]. *)
Theorem C108_transform :
  ∀ h n r dest off, 0 < h → 4 * zlen (ns_norm n) < h → Forall (λ c, fits h c.2) dest → transform_range_int h n r dest off = transform_range n r dest off.
Proof. intros h n r dest off Hh. by apply transform_range_int_same. Qed.
Print Assumptions C108_transform.

(** Two symbols of length 2^62 merge into one of length -2^63, which stays; a third one makes it -2^62; and so on with
    32 bits. Fused unknown characters.
    A change by the lowest number there is panics as it does without a limit. *)
Example C108_example :
  let mm := {[ (7, 7) := MergeValue 0 7 ]} : merge_map in
  let run k := match merge_all_int (2 ^ 63) (word_of (repeat (7, 2 ^ 62) k)) mm (λ _, false) with Some (Ret w) => map ws_len w | _ => [1] end in
  run 1%nat = [2 ^ 62] ∧ run 2%nat = [- 2 ^ 63] ∧ run 3%nat = [- 2 ^ 62] ∧ run 4%nat = []
  ∧ match merge_all_int (2 ^ 31) (word_of (repeat (7, 2 ^ 30) 2)) mm (λ _, false) with Some (Ret w) => map ws_len w | _ => [1] end = [- 2 ^ 31]
  ∧ (match add_terms new_vocab [bytes_of "a"; bytes_of "b"; bytes_of "ab"; bytes_of "?"] with
     | Ret v => bpe_tokenize_int (2 ^ 63) (Bpe v {[ (0, 1) := MergeValue 0 2 ]} 0 (bytes_of "?") [] [] true) (bytes_of "abcéab") (λ _, 0%Q)
     | Panic => None
     end = Some (Ret (Ok [Token 2 (bytes_of "ab") (Offsets 0 2); Token 3 (bytes_of "?") (Offsets 2 5); Token 2 (bytes_of "ab") (Offsets 5 7)])))
  ∧ transform_range_int (2 ^ 63) (from_string (bytes_of "abc")) (NRange 1 3) [(120, 0); (121, 1); (122, 0)] 0 = Ret (NS (bytes_of "abc") (bytes_of "axyz") [(0, 1); (1, 2); (1, 2); (2, 3)] 0)
  ∧ transform_range_int (2 ^ 63) (from_string (bytes_of "abc")) (NRange 0 3) [(120, - 2 ^ 63)] 0 = Panic
  ∧ transform_range_int (2 ^ 63) (from_string (bytes_of "abc")) (NRange 0 3) [(120, -2)] 0 = Ret (NS (bytes_of "abc") (bytes_of "x") [(0, 1)] 0).
Proof. vm_compute. auto 12. Qed.
