(** Specification vocabulary for C76: normalizing before or after cutting. *)
From Verif Require Import GoBase Strutils SplitPattern NormString Bpe Encodings Normalizers PreTokString PreTokenizers.

(** [PreTokenizedString.Normalize] with a normalizer for all the splits. *)
Definition normalize_with (nz : normalizer) : pretokenizer := λ p,
  x ← pts_normalize (λ (_ : unit) n, y ← nz n; Ret (tt, y.1, y.2)) tt p;
  Ret (x.1.2, x.2).

(** Cutting and then normalizing the pieces, without an error on the way, gives the same as normalizing
    and then cutting. *)
Definition either_order (pre : pretokenizer) (nz : normalizer) (p : pts) : Prop :=
  ∃ p1 p2 q, pre p = Ret (p1, None) ∧ normalize_with nz p1 = Ret (q, None)
           ∧ normalize_with nz p = Ret (p2, None) ∧ pre p2 = Ret (q, None).

(** The pre-tokenizer that cuts and then normalizes. *)
Definition then_normalize (pre : pretokenizer) (nz : normalizer) : pretokenizer := λ p,
  x ← pre p;
  match x.2 with Some e => Ret x | None => normalize_with nz x.1 end.

(** Replacing characters does not change what a test says about them. *)
Definition keeps (g : Z → bool) (f : Z → Z) : Prop := ∀ c, scalar c = true → g (sanitize (f c)) = g c.
