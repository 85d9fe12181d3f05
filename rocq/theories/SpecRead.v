(** Specification vocabulary for what the IDs of byte pair encoding tell about a text. *)
From Verif Require Import GoBase Strutils Vocab MergeMap Bpe SpecBpe.
Import GoBase.
#[local] Open Scope Z_scope.

(** What is left of a text: its known characters, and for the others the unknown token, if there is one:
    once for each of them, or once for each run of them. [after] says whether the character before is unknown. *)
Fixpoint legible (m : bpe) (after : bool) (rs : list Z) : list (list Z) :=
  match rs with
  | [] => []
  | r :: rs' =>
    match get_id (b_vocab m) (encode_rune r) with
    | Some _ => encode_rune r :: legible m false rs'
    | None => (if decide (b_unk m = [] ∨ (b_fuse m = true ∧ after = true)) then [] else [b_unk m]) ++ legible m true rs'
    end
  end.

(** No merge makes the unknown token or takes it for a part; or it is a character like any other. *)
Definition unk_apart (m : bpe) : Prop :=
  (∃ c, scalar c = true ∧ b_unk m = encode_rune c)
  ∨ ∀ u a b mv, unk_id m = Some u → b_merges m !! (a, b) = Some mv → u ≠ a ∧ u ≠ b ∧ u ≠ mv_id mv.

(** Models that look up the same terms and treat unknown characters the same way. *)
Definition same_setup (m m' : bpe) : Prop := b_vocab m = b_vocab m' ∧ b_unk m = b_unk m' ∧ b_fuse m = b_fuse m'.
