(** Specification vocabulary for C110: calls that panic, and clients that recover. *)
From stdpp Require Import relations.
From Verif Require Import GoBase Strutils SplitPattern NormString Bpe PreTokString SpecText SpecNorm SpecLoose Recover.
#[local] Open Scope Z_scope.

(** [m] is [f] and, if that panics, nothing. *)
Definition all_or_nothing {A} (m : method ns A) (f : ns → outcome (ns * A)) : Prop :=
  ∀ n, m n = match f n with Ret (n', a) => (n', Ret a) | Panic => (n, Panic) end.
(** [m] is [f] as long as that does not panic. *)
Definition agrees {S A} (m : method S A) (f : S → outcome (S * A)) : Prop :=
  ∀ s, f s = (a ← (m s).2; Ret ((m s).1, a)).

(** One call on a string, whether it returns or panics. *)
Inductive recovered_edit (n : ns) : ns → Prop :=
| recovered_map f : recovered_edit n (m_map f n).1
| recovered_filter keep : recovered_edit n (m_filter keep n).1
| recovered_trim left right : recovered_edit n (m_trim left right n).1
| recovered_prepend p : recovered_edit n (m_prepend p n).1
| recovered_append p : recovered_edit n (m_append p n).1
| recovered_replace (p : pattern) content : recovered_edit n (m_replace p content n).1
| recovered_transform dest off : recovered_edit n (m_transform dest off n).1
| recovered_transform_range r dest off s e ok :
    coerce_to_norm n r = ((s, e), ok) →
    (ok = true → e = zlen (ns_norm n) ∨ ∃ rs, text_at (ns_norm n) (s + off) e (encode rs)) →
    recovered_edit n (m_transform_range r dest off n).1
| recovered_slice r n' : slice n r = Ret (Some n') → recovered_edit n n'
| recovered_piece (p : pattern) b l n' : split n p b = Ret (Ok l) → n' ∈ l → recovered_edit n n'.
Definition recovered (n : ns) : Prop := ∃ rs, scalars rs ∧ rtc recovered_edit (from_string (encode rs)) n.

(** An error in place of a panic. *)
Definition panic_as {St A} (e : A) (f : m_func St A) : St → ns → outcome (St * ns * A) :=
  λ st n, let '(st', n', o) := f st n in Ret (st', n', match o with Ret r => r | Panic => e end).

(** Functions that use any operations on the string they are given, and may panic. *)
Definition recovered_only {St A} (f : m_func St A) : Prop :=
  ∀ st n st' n' o, byte_invariants n → f st n = (st', n', o) → rtc recovered_edit n n'.
Definition recovered_splits {St} (f : St → Z → ns → St * ns * outcome (result (list psplit))) : Prop :=
  ∀ st i n st' n' o, byte_invariants n → f st i n = (st', n', o) →
  rtc recovered_edit n n' ∧ ∀ l, o = Ret (Ok l) → Forall (λ x, rtc recovered_edit n (sp_ns x)) l.
Inductive recovered_step (p : pts) : pts → Prop :=
| recovered_split St (f : St → Z → ns → St * ns * outcome (result (list psplit))) st : recovered_splits f → recovered_step p (m_pts_split f st p).1.2
| recovered_normalize St (f : m_func St (option err)) st : recovered_only f → recovered_step p (m_pts_normalize f st p).1.2
| recovered_tokenize St (f : m_func St (result (list token))) st : recovered_only f → recovered_step p (m_pts_tokenize f st p).1.2.
Definition recovered_pts (p : pts) : Prop := ∃ rs, scalars rs ∧ rtc recovered_step (pts_from_string (encode rs)) p.

(** Edits one after the other. *)
Fixpoint run_edits (l : list (ns → outcome ns)) (n : ns) : outcome ns :=
  match l with [] => Ret n | f :: l' => n' ← f n; run_edits l' n' end.
