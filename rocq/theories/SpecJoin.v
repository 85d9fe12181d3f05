(** Specification vocabulary for texts that are encoded in parts. *)
From Verif Require Import GoBase Strutils Encodings PreTokString Bpe SpecText SpecEnd.
#[local] Open Scope Z_scope.

(** The model that has been called [j] times before. *)
Definition called_before (j : nat) (model : a_model) : a_model := λ k, model (j + k)%nat.

(** The tokens it finds lie within the text. *)
Definition stays_inside (model : a_model) : Prop :=
  ∀ k w toks, scalars w → model k (encode w) = Ret (Ok toks) →
  Forall (λ t, 0 <= o_start (t_offsets t) ∧ o_start (t_offsets t) <= o_end (t_offsets t) <= zlen (encode w)) toks.

(** The encoding [e2] put behind [e1], where the second text starts [d] bytes after the first one and its words are
    counted from [j] on. *)
Definition behind (d j : Z) (e1 e2 : encoding) : encoding :=
  Encoding (e_ids e1 ++ e_ids e2) (e_type_ids e1 ++ e_type_ids e2) (e_tokens e1 ++ e_tokens e2)
    (e_words e1 ++ map (λ w, j + w) (e_words e2))
    (e_offsets e1 ++ map (λ o, Offsets (d + o_start o) (d + o_end o)) (e_offsets e2))
    (e_special e1 ++ e_special e2) (e_attention e1 ++ e_attention e2) (e_overflowing e1 ++ e_overflowing e2).

(** The answers for two texts in a row: the first one that fails is the answer. *)
Definition one_then_other (d j : Z) (r1 r2 : outcome (result encoding)) : outcome (result encoding) :=
  match r1, r2 with
  | Ret (Ok e1), Ret (Ok e2) => Ret (Ok (behind d j e1 e2))
  | Ret (Ok _), _ => r2
  | _, _ => r1
  end.
