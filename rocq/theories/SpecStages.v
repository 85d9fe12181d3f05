(** Specification vocabulary for C77 and C78: histories made of the library's own normalizers,
    pre-tokenizers and models, in any order. *)
From Coq Require Import Sorted.
From stdpp Require Import relations.
From Verif Require Import GoBase Strutils SplitPattern NormString Bpe Encodings Normalizers PreTokString PreTokenizers SpecText SpecNorm SpecHist SpecPts SpecEnd SpecCommute.
#[local] Open Scope Z_scope.

(** The normalizers of the library; sequences of them can be nested. *)
Inductive lib_normalizer : normalizer → Prop :=
| lib_lowercase u : lib_normalizer (lowercase_normalizer u)
| lib_strip left right : lib_normalizer (strip_normalizer left right)
| lib_bert u o : lib_normalizer (bert_normalizer u o)
| lib_sequence l : Forall lib_normalizer l → lib_normalizer (sequence_normalizer l).

(** The pre-tokenizers of the library, with regular expression engines in [E]. *)
Inductive lib_pretokenizer (E : engine2 → Prop) : pretokenizer → Prop :=
| lib_whitespace_split : lib_pretokenizer E whitespace_split
| lib_rune_delimiter c : lib_pretokenizer E (rune_delimiter c)
| lib_whitespace engine : E engine → lib_pretokenizer E (whitespace_pretokenizer engine)
| lib_bert_pre u : lib_pretokenizer E (bert_pretokenizer u)
| lib_metaspace c prefix : lib_pretokenizer E (metaspace c prefix)
| lib_byte_level engine prefix : E engine → lib_pretokenizer E (byte_level engine prefix).

(** One call on a pre-tokenized string, successful or not: a pre-tokenizer, [Normalize] with a
    normalizer, [Tokenize] with a model in [M]. *)
Inductive lib_step (E : engine2 → Prop) (M : a_model → Prop) (p : pts) : pts → Prop :=
| lib_step_pre pre p' e : lib_pretokenizer E pre → pre p = Ret (p', e) → lib_step E M p p'
| lib_step_normalize nz p' e : lib_normalizer nz → normalize_with nz p = Ret (p', e) → lib_step E M p p'
| lib_step_tokenize model k k' p' e : M model → pts_tokenize (calling model) k p = Ret (k', p', e) → lib_step E M p p'.

(** What some history of such calls made of a text; its own normalization may come first. *)
Definition lib_made (E : engine2 → Prop) (M : a_model → Prop) (rs : list Z) (p : pts) : Prop :=
  rtc (lib_step E M) (pts_from_string (encode rs)) p
  ∨ ∃ nz n e, lib_normalizer nz ∧ nz (from_string (encode rs)) = Ret (n, e) ∧ rtc (lib_step E M) (pts_from_ns n) p.

(** Engines whose matches lie in the text, on characters, one after the other. *)
Definition sound_engine (engine : engine2) : Prop := ∀ rs, scalars rs → matches2_ok rs 0 (engine (encode rs)).1.

(** Models whose tokens are non-empty ranges of the text, one after the other. *)
Definition in_turn (s : list Z) (toks : list token) : Prop :=
  Forall (λ t, 0 <= o_start (t_offsets t) ∧ o_start (t_offsets t) < o_end (t_offsets t) ∧ o_end (t_offsets t) <= zlen s) toks
  ∧ StronglySorted (λ t u, o_end (t_offsets t) <= o_start (t_offsets u)) toks.
Definition orderly (model : a_model) : Prop :=
  ∀ k rs toks, scalars rs → model k (encode rs) = Ret (Ok toks) → in_turn (encode rs) toks.

(** The range [a] is one character of the text. *)
Definition one_char (rs : list Z) (a : Z * Z) : Prop :=
  ∃ l c r, rs = l ++ c :: r ∧ a = (zlen (encode l), zlen (encode l) + rune_len c).

(** The first range ends before the second one starts, or else what they share is one character, the last
    one of the first range and the first one of the second. *)
Definition in_turn_but_one (rs : list Z) (a b : Z * Z) : Prop :=
  a.2 <= b.1 ∨ a.1 <= b.1 ∧ a.2 <= b.2 ∧ one_char rs (b.1, a.2).
