(** Specification vocabulary for float64. *)
From Coq Require Import QArith SpecFloat.
From Verif Require Import GoBase Vocab MergeMap Bpe.
Import GoBase.
#[local] Open Scope Z_scope.

(** The values of type float64. *)
Definition float64 (f : spec_float) : Prop := valid_binary 53 1024 f = true.

(** The number that a finite float64 is: ± m * 2^e. *)
Definition power2 (e : Z) : Q := if 0 <=? e then inject_Z (2 ^ e) else 1 # Z.to_pos (2 ^ (- e)).
Definition number (f : spec_float) : option Q :=
  match f with
  | S754_zero _ => Some 0%Q
  | S754_finite s m e => Some (inject_Z (if s then Zneg m else Zpos m) * power2 e)%Q
  | S754_infinity _ | S754_nan => None
  end.

(** The dropout that a float64 amounts to: NaN is none, as 0 and all negative numbers are; +Inf is 1. *)
Definition amounts_to (f : spec_float) (q : Q) : Prop :=
  match number f with
  | Some x => q = x
  | None => match f with
            | S754_infinity false => q = 1%Q
            | _ => q = 0%Q
            end
  end.

(** What [rand.Float64] returns: a number, at least 0 and less than 1. *)
Definition draw (f : spec_float) (q : Q) : Prop := float64 f ∧ number f = Some q ∧ (0 <= q)%Q ∧ (q < 1)%Q.

(** The model with another dropout. *)
Definition with_dropout (m : bpe) (q : Q) : bpe := Bpe (b_vocab m) (b_merges m) q (b_unk m) (b_prefix m) (b_suffix m) (b_fuse m).
