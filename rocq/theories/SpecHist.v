(** Histories of edits: what a caller can do to a NormalizedString. *)
From Coq Require Import Sorted.
From stdpp Require Import relations.
From Verif Require Import GoBase Strutils SplitPattern NormString SpecText SpecNorm.

(** One call that returned without panic. Side conditions:
    - Append only where the byte index it computes (number of runes - 1) is a character boundary;
    - Replace with a pattern that covers the text on character boundaries and with a valid content;
    - TransformRange on a range of character boundaries, the initial offset on one too unless the
      range reaches the end of the text. *)
Inductive edit (n : ns) : ns → Prop :=
| edit_map f n' : map_runes n f = Ret n' → edit n n'
| edit_filter keep n' : filter_runes n keep = Ret n' → edit n n'
| edit_trim left right n' : trim_left_right n left right = Ret n' → edit n n'
| edit_prepend p n' : prepend n p = Ret n' → edit n n'
| edit_append p n' :
    ns_norm n = [] ∨ boundary (ns_norm n) (zlen (runes (ns_norm n)) - 1) →
    append n p = Ret n' → edit n n'
| edit_replace (p : pattern) cs content n' :
    p (ns_norm n) = Ret (Ok cs) → boundary_cover (ns_norm n) cs → scalars content →
    replace n p (encode content) = Ret (Ok n') → edit n n'
| edit_transform dest off n' : transform n dest off = Ret n' → edit n n'
| edit_transform_range r dest off n' s e ok :
    coerce_to_norm n r = ((s, e), ok) →
    (ok = true → boundary (ns_norm n) s ∧ boundary (ns_norm n) e
               ∧ (e = zlen (ns_norm n) ∨ boundary (ns_norm n) (s + off))) →
    transform_range n r dest off = Ret n' → edit n n'
| edit_slice r n' : slice n r = Ret (Some n') → edit n n'.

(** [n] is what some history of calls made of a fresh string over valid UTF-8. *)
Definition reachable (n : ns) : Prop :=
  ∃ rs, scalars rs ∧ rtc edit (from_string (encode rs)) n.

(** The documented invariants, byte by byte. *)
Definition invariants (n : ns) : Prop :=
  valid_utf8 (ns_norm n) = true ∧ valid_utf8 (ns_orig n) = true
  ∧ zlen (ns_al n) = zlen (ns_norm n)
  ∧ (∀ i a, idx (ns_al n) i = Ret a →
       0 <= a.1 <= a.2 ∧ a.2 <= zlen (ns_orig n) ∧ boundary (ns_orig n) a.1 ∧ boundary (ns_orig n) a.2)
  ∧ (∀ i j a b, i <= j → idx (ns_al n) i = Ret a → idx (ns_al n) j = Ret b → a = b ∨ a.2 <= b.1)
  ∧ (∀ l r l' i, scalars (l ++ r :: l') → ns_norm n = encode (l ++ r :: l') → 0 <= i < rune_len r →
       idx (ns_al n) (zlen (encode l) + i) = idx (ns_al n) (zlen (encode l))).
