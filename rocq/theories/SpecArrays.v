(** Spec for C116 and C117: patterns that behave like functions, and what the functions of a client may do. *)
From Verif Require Import GoBase Strutils SplitPattern NormString Bpe Encodings PreTokString Pointers Arrays.

(** A pattern that always finds the same as the function [p], in a slice of its own: at every moment, and
    without changing what other slices hold. *)
Definition behaves (p : pattern) (ap : a_pattern) : Prop := ∀ s κ,
  match p s with
  | Panic => ap s κ = Panic
  | Ret (Err e) => ∃ new, ap s κ = Ret (κ ++ new, Err e)
  | Ret (Ok cs) => ∃ new l, ap s κ = Ret (κ ++ new, Ok l) ∧ (length κ <= l)%nat ∧ (κ ++ new) !! l = Some cs
  end.

(** The patterns of the library, inverted any number of times. *)
Inductive lib_pattern : pattern → a_pattern → Prop :=
| lib_making p : lib_pattern p (a_making p)
| lib_invert p ap : lib_pattern p ap → lib_pattern (invert p) (a_invert ap).

(** A client's pattern that keeps its captures and returns them again and again. *)
Definition kept (l : nat) : a_pattern := λ _ κ, Ret (κ, Ok l).
(** [k] calls, one after the other. *)
Fixpoint calls (p : a_pattern) (s : list Z) (k : nat) (κ : list (list capture)) : outcome (list (list capture)) :=
  match k with O => Ret κ | S k' => x ← p s κ; calls p s k' x.1 end.

(** * Splits *)
(** What p.splits holds. *)
Definition contents {St} (w : world St) : option (list hsplit) := w_arrays w !! w_cur w.

(** Worlds with the same strings and variables in which array [a] holds the same. *)
Definition alike {St} (a : nat) (w w' : world St) : Prop :=
  w_strings w = w_strings w' ∧ w_client w = w_client w' ∧ w_arrays w !! a = w_arrays w' !! a.
(** Two functions that return the same splits and differ only in what they do to the PreTokenizedString. *)
Definition same_items {St} (a : nat) (f f' : Z → nat → act St (result (list hsplit))) : Prop := ∀ i l w w', alike a w w' →
  match f i l w, f' i l w' with
  | Ret (v, r), Ret (v', r') => r = r' ∧ alike a v v'
  | Panic, Panic => True
  | _, _ => False
  end.

(** A tokenizer that looks at the string only. *)
Definition reading {St} (g : ns → list token) (l : nat) : act St (result (list token)) :=
  on_strings (λ st σ, match σ !! l with Some n => Ret (σ, (st, Ok (g n))) | None => Panic end).
(** One that first has all splits tokenized by [g], with the method it is called by. *)
Definition nested {St} (g h : ns → list token) (l : nat) : act St (result (list token)) :=
  then_do (r_tokenize (reading g)) (λ e, match e with Some e => λ w, Ret (w, Err e) | None => reading h l end).
(** The splits that have no tokens get those of [g]. *)
Definition tokenized_by (g : ns → list token) (σ : list ns) (sp : hsplit) : hsplit :=
  match hs_tokens sp, σ !! hs_loc sp with None, Some n => HSplit (hs_loc sp) (Some (g n)) | _, _ => sp end.
(** One that first has all splits without tokens replaced by [items]. *)
Definition cutting {St} (items : list hsplit) (g : ns → list token) (l : nat) : act St (result (list token)) :=
  then_do (r_split (λ _ _ w, Ret (w, Ok items))) (λ _, reading g l).
