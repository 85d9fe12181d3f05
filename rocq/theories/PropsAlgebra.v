(** Property theorems C86 and C87: laws between edits and slices. *)
From Coq Require Import ZifyBool.
From Verif Require Import GoBase Utf8Facts Strutils SplitPattern NormString SpecText SpecNorm SpecNormalizers SpecAlgebra NormFacts NormSlice AlgebraFacts.
Import GoBase.
#[local] Open Scope Z_scope.

(** * C86 *)
Theorem C86_map_map :
  ∀ n f g, wf n → (∀ r, scalar r = true → scalar (f r) = true) → (n' ← map_runes n f; map_runes n' g) = map_runes n (λ r, g (f r)).
Proof. exact AlgebraFacts.map_map. Qed.
Print Assumptions C86_map_map.
Theorem C86_map_id : ∀ n, wf n → map_runes n (λ r, r) = Ret n.
Proof. exact AlgebraFacts.map_id. Qed.
Print Assumptions C86_map_id.

(** Prepending twice is prepending once. *)
Theorem C86_prepend :
  ∀ n p q, wf n → p ≠ [] → q ≠ [] → valid_utf8 p = true → valid_utf8 q = true → (n' ← prepend n p; prepend n' q) = prepend n (q ++ p).
Proof. exact prepend_prepend. Qed.
Print Assumptions C86_prepend.
(** Appending twice likewise, as far as Append is right (C11). *)
Theorem C86_append :
  ∀ n p q, wf n → Forall (λ c, c < 128) (runes (ns_norm n)) → Forall (λ c, 0 <= c < 128) p → valid_utf8 q = true →
  (n' ← append n p; append n' q) = append n (p ++ q).
Proof. exact append_append. Qed.
Print Assumptions C86_append.
(** Trimming both sides is trimming one side after the other, in either order, as far as Trim is right (C09). *)
Theorem C86_trim :
  ∀ n, wf n → ascii_lead (λ r, white_space r = true) (runes (ns_norm n)) →
  (n' ← trim_left_right n true false; trim_left_right n' false true) = trim_left_right n true true
  ∧ (n' ← trim_left_right n false true; trim_left_right n' true false) = trim_left_right n true true.
Proof. exact trim_both. Qed.
Print Assumptions C86_trim.

(** A slice of a slice is a slice. *)
Theorem C86_slice_slice :
  ∀ n u l m r w, wf n → runes (ns_norm n) = u ++ l ++ m ++ r ++ w → m ≠ [] →
  (p ← slice n (NRange (zlen (encode u)) (zlen (encode (u ++ l ++ m ++ r))));
   match p with Some p => slice p (NRange (zlen (encode l)) (zlen (encode (l ++ m)))) | None => Ret None end)
  = slice n (NRange (zlen (encode (u ++ l))) (zlen (encode (u ++ l ++ m)))).
Proof. exact slice_slice. Qed.
Print Assumptions C86_slice_slice.
(** Map and Slice commute. *)
Theorem C86_slice_map :
  ∀ n l m r f, wf n → (∀ c, scalar c = true → scalar (f c) = true) → runes (ns_norm n) = l ++ m ++ r → m ≠ [] →
  (p ← slice n (NRange (zlen (encode l)) (zlen (encode (l ++ m)))); match p with Some p => p' ← map_runes p f; Ret (Some p') | None => Ret None end)
  = (n' ← map_runes n f; slice n' (NRange (zlen (encode (map f l))) (zlen (encode (map f (l ++ m)))))).
Proof. exact slice_map. Qed.
Print Assumptions C86_slice_map.

(** " aé野b": é to e (one byte less), then 野b of aé野b of it, both ways; trimmed, and put behind "xy". *)
Example C86_example :
  let n := from_string (encode [32; 97; 0xE9; 0x91CE; 98]) in
  let f r := if r =? 0xE9 then 101 else r in
  let res := NS (encode [0x91CE; 98]) (encode [0x91CE; 98]) [(0, 3); (0, 3); (0, 3); (3, 4)] 4 in
  (p ← slice n (NRange 1 8); match p with Some p => slice p (NRange 3 7) | None => Ret None end) = Ret (Some res)
  ∧ slice n (NRange 4 8) = Ret (Some res)
  ∧ (n' ← map_runes n f; slice n' (NRange 3 7)) = Ret (Some res)
  ∧ (n' ← prepend n [121]; prepend n' [120]) = prepend n [120; 121]
  ∧ (n' ← prepend n [120; 121]; Ret (ns_al n')) = Ret [(0, 1); (0, 1); (0, 1); (1, 2); (2, 4); (2, 4); (4, 7); (4, 7); (4, 7); (7, 8)]
  ∧ (n' ← append (from_string [97; 98]) [120]; append n' (encode [0xE9])) = Ret (NS [97; 98] (encode [97; 98; 120; 0xE9]) [(0, 1); (1, 2); (1, 2); (1, 2); (1, 2)] 0).
Proof. vm_compute. auto 10. Qed.

(** * C87 *)
(** Two passes of Filter are not one: "aéb" without é, then without a, is "b"; both at once, é is removed at the front. *)
Theorem C87_filter_refuted :
  ¬ ∀ n p q, wf n → (n' ← filter_runes n p; filter_runes n' q) = filter_runes n (λ r, p r && q r).
Proof.
  intros H. specialize (H (from_string (encode [97; 0xE9; 98])) (λ r, negb (r =? 0xE9)) (λ r, negb (r =? 97))).
  assert (wf (from_string (encode [97; 0xE9; 98]))) as Hw by (eexists; apply from_string_wf; by repeat constructor). specialize (H Hw). vm_compute in H. discriminate.
Qed.
Print Assumptions C87_filter_refuted.
(** They are, if what the two remove in front of the first character that both keep is ASCII. *)
Theorem C87_filter_partial :
  ∀ n p q, wf n → ascii_front (λ r, p r && q r) (runes (ns_norm n)) → (n' ← filter_runes n p; filter_runes n' q) = filter_runes n (λ r, p r && q r).
Proof. exact filter_filter. Qed.
Print Assumptions C87_filter_partial.
(** Filter after Map is Map after Filter, under the same condition on both texts. *)
Theorem C87_map_filter_partial :
  ∀ n f keep, wf n → (∀ r, scalar r = true → scalar (f r) = true) →
  ascii_front (λ r, keep (f r)) (runes (ns_norm n)) → ascii_front keep (map f (runes (ns_norm n))) →
  (n' ← map_runes n f; filter_runes n' keep) = (n' ← filter_runes n (λ r, keep (f r)); map_runes n' f).
Proof. exact map_filter. Qed.
Print Assumptions C87_map_filter_partial.
(** The hypothesis on both texts is needed: "éab", é to e, and e removed. *)
Theorem C87_map_filter_refuted :
  ¬ ∀ n f keep, wf n → (∀ r, scalar r = true → scalar (f r) = true) →
    (n' ← map_runes n f; filter_runes n' keep) = (n' ← filter_runes n (λ r, keep (f r)); map_runes n' f).
Proof.
  intros H. specialize (H (from_string (encode [0xE9; 97; 98])) (λ r, if r =? 0xE9 then 101 else r) (λ r, negb (r =? 101))).
  assert (wf (from_string (encode [0xE9; 97; 98]))) as Hw by (eexists; apply from_string_wf; by repeat constructor). specialize (H Hw).
  assert (∀ r, scalar r = true → scalar (if r =? 0xE9 then 101 else r) = true) as Hs by (intros r Hr; by destruct (r =? 0xE9)). specialize (H Hs). vm_compute in H. discriminate.
Qed.
Print Assumptions C87_map_filter_refuted.
(** "-aé-b" without dashes and é, and with A for a, in one pass and in two. *)
Example C87_example :
  let n := from_string (encode [45; 97; 0xE9; 45; 98]) in
  let res := NS (encode [45; 97; 0xE9; 45; 98]) [97; 98] [(1, 2); (5, 6)] 0 in
  (n' ← filter_runes n (λ r, negb (r =? 45)); filter_runes n' (λ r, negb (r =? 0xE9))) = Ret res
  ∧ filter_runes n (λ r, negb (r =? 45) && negb (r =? 0xE9)) = Ret res
  ∧ (n' ← map_runes n (λ r, if r =? 97 then 65 else r); filter_runes n' (λ r, negb (r =? 45)))
    = Ret (NS (encode [45; 97; 0xE9; 45; 98]) (encode [65; 0xE9; 98]) [(1, 2); (2, 4); (2, 4); (5, 6)] 0).
Proof. vm_compute. auto. Qed.
