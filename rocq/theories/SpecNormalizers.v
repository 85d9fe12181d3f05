(** Specification vocabulary for the normalizers. *)
From Verif Require Import GoBase Strutils SplitPattern NormString Normalizers SpecText SpecNorm.
#[local] Open Scope Z_scope.

(** * BERT *)
(** Characters that cleaning removes. *)
Definition cleaned_away (u : unicode) (r : Z) : Prop :=
  r = 0 ∨ r = 0xFFFD ∨ (u_other u r = true ∧ r ≠ 9 ∧ r ≠ 10 ∧ r ≠ 13).
#[global] Instance cleaned_away_dec u r : Decision (cleaned_away u r).
Proof. unfold cleaned_away. apply _. Defined.
Definition cleaned (u : unicode) (rs : list Z) : list Z :=
  map (λ r, if white_space r then 32 else r) (base.filter (λ r, ¬ cleaned_away u r) rs).
Definition spaced_out (chinese : Z → bool) (rs : list Z) : list Z :=
  flat_map (λ r, if chinese r then [32; r; 32] else [r]) rs.
Definition unmarked (u : unicode) (rs : list Z) : list Z := base.filter (λ r, u_mn u r ≠ true) rs.
Definition lowered (u : unicode) (rs : list Z) : list Z := map (λ r, sanitize (u_lower u r)) rs.
Definition when {A} (b : bool) (f : A → A) (x : A) : A := if b then f x else x.
Definition bert_text (u : unicode) (o : bert_options) (rs : list Z) : list Z :=
  when (bo_lower o) (lowered u) (when (bo_accents o) (unmarked u)
    (when (bo_chinese o) (spaced_out is_chinese) (when (bo_clean o) (cleaned u) rs))).

(** The same with spans: what is kept keeps its span, inserted spaces have the span of the character they
    surround. *)
Definition acleaned (u : unicode) (v : atext) : atext :=
  map (λ p, (if white_space p.1 then 32 else p.1, p.2)) (base.filter (λ p, ¬ cleaned_away u p.1) v).
Definition aspaced_out (chinese : Z → bool) (v : atext) : atext :=
  flat_map (λ p, if chinese p.1 then [(32, p.2); p; (32, p.2)] else [p]) v.
Definition aunmarked (u : unicode) (v : atext) : atext := base.filter (λ p, u_mn u p.1 ≠ true) v.
Definition alowered (u : unicode) (v : atext) : atext := map (λ p, (sanitize (u_lower u p.1), p.2)) v.
Definition bert_aligned (u : unicode) (o : bert_options) (v : atext) : atext :=
  when (bo_lower o) (alowered u) (when (bo_accents o) (aunmarked u)
    (when (bo_chinese o) (aspaced_out is_chinese) (when (bo_clean o) (acleaned u) v))).

(** The characters before the first one that is not [gone] are ASCII. *)
Definition ascii_lead (gone : Z → Prop) (rs : list Z) : Prop :=
  ∀ l c r, rs = l ++ c :: r → Forall gone l → ¬ gone c → Forall (λ x, x < 128) l.

(** CJK Unified Ideographs, their extensions A to E, CJK Compatibility Ideographs and their supplement
    (The Unicode Standard, Blocks.txt). *)
Definition cjk_ideograph (r : Z) : Prop :=
  0x4E00 <= r <= 0x9FFF ∨ 0x3400 <= r <= 0x4DBF ∨ 0x20000 <= r <= 0x2A6DF ∨ 0x2A700 <= r <= 0x2B73F
  ∨ 0x2B740 <= r <= 0x2B81F ∨ 0x2B820 <= r <= 0x2CEAF ∨ 0xF900 <= r <= 0xFAFF ∨ 0x2F800 <= r <= 0x2FA1F.

(** * Sequences *)
(** All normalizers of [l] succeed, one after the other, and make [n'] of [n]. *)
Inductive all_succeed : list normalizer → ns → ns → Prop :=
| succeed_nil n : all_succeed [] n n
| succeed_cons (f : normalizer) l n n1 n' : f n = Ret (n1, None) → all_succeed l n1 n' → all_succeed (f :: l) n n'.

(** * Normalizing twice *)
(** Neither cleaned away nor turned into a space, and not a mark, as far as these are asked for. *)
Definition kept_by (u : unicode) (o : bert_options) (r : Z) : Prop :=
  (bo_clean o = true → ¬ cleaned_away u r ∧ (white_space r = true → r = 32)) ∧ (bo_accents o = true → u_mn u r = false).
(** Lower-casing, if asked for, takes one step, and its results are kept. *)
Definition settles (u : unicode) (o : bert_options) : Prop :=
  (bo_clean o = true → u_other u 32 = false) ∧
  (bo_lower o = true → ∀ r, scalar r = true → kept_by u o r →
     let r' := sanitize (u_lower u r) in kept_by u o r' ∧ sanitize (u_lower u r') = r').
