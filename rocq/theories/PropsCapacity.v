(** C115: what the spare capacity of slices changes. *)
From Coq Require Import ZifyBool.
From Verif Require Import GoBase Strutils NormString Utf8Facts SliceFacts InvalidFacts Capacity CapacityFacts.
Import GoBase.
#[local] Open Scope Z_scope.

(** TransformRange gives the same whatever lies behind the alignments and behind the runes it replaces, and the slice it makes
    has no spare capacity. *)
Theorem C115_transform n spare rspare r dest k :
  match transform_range n r dest k with
  | Panic => transform_range_cap n spare rspare r dest k = Panic
  | Ret n' => ∃ c, transform_range_cap n spare rspare r dest k = Ret (n', c)
      ∧ (c = None ∧ n' = n ∨ c = Some (zlen (ns_al n')))
  end.
Proof. apply transform_range_cap_same. Qed.
Print Assumptions C115_transform.

(** Slice too, on what FromString, TransformRange and Slice make, of whatever bytes. *)
Theorem C115_slice n spare r : zlen (ns_norm n) <= zlen (ns_al n) → slice_cap n spare r = slice n r.
Proof. apply slice_cap_same. Qed.
Print Assumptions C115_slice.
Theorem C115_enough :
  (∀ s, zlen (ns_norm (from_string s)) <= zlen (ns_al (from_string s)))
  ∧ (∀ n r dest k n', zlen (ns_norm n) <= zlen (ns_al n) → transform_range n r dest k = Ret n' →
       zlen (ns_norm n') <= zlen (ns_al n'))
  ∧ (∀ n r n', slice n r = Ret (Some n') → zlen (ns_norm n') <= zlen (ns_al n')).
Proof.
  split; [|split; [intros *; apply transform_range_le|intros *; apply slice_le]].
  intros s. rewrite fresh_zlen. pose proof (bad_nonneg s). cbn [ns_norm from_string]. lia.
Qed.
Print Assumptions C115_enough.

(** FromString makes a slice for as many alignments as bytes: they suffice for valid UTF-8 and no other text, where [append]
    makes a new one, of a capacity that Go leaves open. *)
Theorem C115_fresh s :
  zlen s <= zlen (ns_al (from_string s)) ∧ (zlen (ns_al (from_string s)) = zlen s ↔ valid_utf8 s = true).
Proof.
  rewrite <- bad_valid, fresh_zlen. pose proof (bad_nonneg s). lia.
Qed.
Print Assumptions C115_fresh.

(** CoerceRangeToOriginal is not told apart but for a range that ends behind the alignments and within their capacity. There it
    returns instead of panicking. *)
Theorem C115_coerce n spare r :
  coerce_to_orig_cap n spare r ≠ coerce_to_orig n r
  ↔ ∃ s e, r = NRange s e ∧ 0 <= s < e ∧ zlen (ns_al n) < e <= zlen (ns_al n) + zlen spare.
Proof. apply coerce_cap_iff. Qed.
Print Assumptions C115_coerce.
Theorem C115_get_original n spare r :
  (¬ ∃ s e, r = NRange s e ∧ 0 <= s < e ∧ zlen (ns_al n) < e <= zlen (ns_al n) + zlen spare) →
  get_original_range_cap n spare r = get_original_range n r.
Proof.
  intros H. unfold get_original_range_cap, get_original_range.
  assert (coerce_to_orig_cap n spare r = coerce_to_orig n r) as ->; [|done].
  assert (EqDecision (outcome ((Z * Z) * bool))) by solve_decision.
  destruct (decide (coerce_to_orig_cap n spare r = coerce_to_orig n r)) as [|Hn]; [done|]. by apply coerce_cap_iff in Hn.
Qed.
Print Assumptions C115_get_original.

(** "\xff\xff": six alignments, in a slice that has grown to a capacity of eight. The range of the bytes 1 to 7, of which there
    are two, is said to come from the bytes 0 to 0 of the original; in the length there is nothing of the kind. The same for a
    range that starts behind the alignments. After a TransformRange both panic. *)
Example C115_example :
  let n := from_string [255; 255] in
  zlen (ns_al n) = 6
  ∧ coerce_to_orig n (NRange 1 7) = Panic
  ∧ coerce_to_orig_cap n [(0, 0); (0, 0)] (NRange 1 7) = Ret ((0, 0), true)
  ∧ coerce_to_orig_cap n [(0, 0); (0, 0)] (NRange 5 8) = Ret ((1, 0), true)
  ∧ coerce_to_orig_cap n [(0, 0); (0, 0)] (NRange 7 8) = Ret ((0, 0), true)
  ∧ coerce_to_orig_cap n [(0, 0); (0, 0)] (NRange 7 9) = Panic
  ∧ get_original_range_cap n [(0, 0); (0, 0)] (NRange 1 7) = Ret (Some [])
  ∧ transform_range_cap n [(0, 0); (0, 0)] [0; 0] (NRange 0 2) [(97, -1)] 0
    = Ret (NS [255; 255] [97] [(0, 3); (0, 3); (1, 4); (1, 4); (1, 4)] 0, Some 5)
  ∧ transform_range_cap n [(0, 0); (0, 0)] [0; 0] (NRange 0 2) [(97, -2)] 0 = Panic
  ∧ slice_cap n [(0, 0); (0, 0)] (NRange 1 2) = slice n (NRange 1 2).
Proof. vm_compute. repeat split; reflexivity. Qed.
