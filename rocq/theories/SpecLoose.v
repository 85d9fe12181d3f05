(** Specification vocabulary for C92: histories of calls with any arguments. *)
From Coq Require Import Sorted.
From stdpp Require Import relations.
From Verif Require Import GoBase Strutils SplitPattern NormString Bpe PreTokString SpecText SpecNorm.
#[local] Open Scope Z_scope.

(** One call that returned without panic, any arguments; only of TransformRange it is asked that the range reaches
    the end of the text or that the part of the range after the initial offset is valid UTF-8. *)
Inductive loose_edit (n : ns) : ns → Prop :=
| loose_map f n' : map_runes n f = Ret n' → loose_edit n n'
| loose_filter keep n' : filter_runes n keep = Ret n' → loose_edit n n'
| loose_trim left right n' : trim_left_right n left right = Ret n' → loose_edit n n'
| loose_prepend p n' : prepend n p = Ret n' → loose_edit n n'
| loose_append p n' : append n p = Ret n' → loose_edit n n'
| loose_replace (p : pattern) content n' : replace n p content = Ret (Ok n') → loose_edit n n'
| loose_transform dest off n' : transform n dest off = Ret n' → loose_edit n n'
| loose_transform_range r dest off n' s e ok :
    coerce_to_norm n r = ((s, e), ok) →
    (ok = true → e = zlen (ns_norm n) ∨ ∃ rs, text_at (ns_norm n) (s + off) e (encode rs)) →
    transform_range n r dest off = Ret n' → loose_edit n n'
| loose_slice r n' : slice n r = Ret (Some n') → loose_edit n n'
| loose_piece (p : pattern) b l n' : split n p b = Ret (Ok l) → n' ∈ l → loose_edit n n'.

(** [n] is what some history made of a fresh string over valid UTF-8. *)
Definition loosely_reachable (n : ns) : Prop := ∃ rs, scalars rs ∧ rtc loose_edit (from_string (encode rs)) n.

(** The documented invariants but for the ones about the characters of the normalized text, byte by byte. *)
Definition byte_invariants (n : ns) : Prop :=
  valid_utf8 (ns_orig n) = true
  ∧ zlen (ns_al n) = zlen (ns_norm n)
  ∧ (∀ i a, idx (ns_al n) i = Ret a → 0 <= a.1 <= a.2 ∧ a.2 <= zlen (ns_orig n) ∧ boundary (ns_orig n) a.1 ∧ boundary (ns_orig n) a.2)
  ∧ (∀ i j a b, i <= j → idx (ns_al n) i = Ret a → idx (ns_al n) j = Ret b → a = b ∨ a.2 <= b.1).

(** Pre-tokenized strings: functions that use any operations of NormalizedString on what they are given. *)
Definition loose_only {St A} (f : St → ns → outcome (St * ns * A)) : Prop :=
  ∀ st n st' n' r, byte_invariants n → f st n = Ret (st', n', r) → rtc loose_edit n n'.
Definition loose_splits {St} (f : split_func St) : Prop :=
  ∀ st i n st' n' r, byte_invariants n → f st i n = Ret (st', n', r) → rtc loose_edit n n' ∧ ∀ l, r = Ok l → Forall (λ x, rtc loose_edit n (sp_ns x)) l.
Inductive loose_step (p : pts) : pts → Prop :=
| loose_step_split St (f : split_func St) st st' p' e : loose_splits f → pts_split f st p = Ret (st', p', e) → loose_step p p'
| loose_step_normalize St (f : St → ns → outcome (St * ns * option err)) st st' p' e : loose_only f → pts_normalize f st p = Ret (st', p', e) → loose_step p p'
| loose_step_tokenize St (f : St → ns → outcome (St * ns * result (list token))) st st' p' e : loose_only f → pts_tokenize f st p = Ret (st', p', e) → loose_step p p'.
Definition loosely_reachable_pts (p : pts) : Prop := ∃ rs, scalars rs ∧ rtc loose_step (pts_from_string (encode rs)) p.
