(** Specification vocabulary for WordPiece. *)
From Verif Require Import GoBase Strutils Vocab Bpe WordPiece SpecText SpecBpe.
Import GoBase.

(** The vocabulary term for a piece of text. *)
Definition piece_term (pre : list Z) (first : bool) (x : list Z) : list Z := if first then x else pre ++ x.

(** Greedy longest-match-first segmentation of a text, over characters. *)
Inductive greedy (v : vocab) (pre : list Z) : bool → list Z → list (list Z) → Prop :=
| greedy_nil first : greedy v pre first [] []
| greedy_cons first a b segs :
    a ≠ [] → is_Some (get_id v (piece_term pre first (encode a))) →
    (∀ a' b', a ++ b = a' ++ b' → (length a < length a')%nat → get_id v (piece_term pre first (encode a')) = None) →
    greedy v pre false b segs →
    greedy v pre first (a ++ b) (a :: segs).

(** The tokens of a segmentation; [o] is the byte offset. *)
Inductive seg_toks (v : vocab) (pre : list Z) : Z → list (list Z) → list token → Prop :=
| st_nil o : seg_toks v pre o [] []
| st_cons o a segs i ts :
    get_id v (piece_term pre (o =? 0) (encode a)) = Some i →
    seg_toks v pre (o + zlen (encode a)) segs ts →
    seg_toks v pre o (a :: segs) (Token i (piece_term pre (o =? 0) (encode a)) (Offsets o (o + zlen (encode a))) :: ts).

(** One step back from byte [e]: two bytes if the byte before is not ASCII. *)
Definition back (s : list Z) (e : Z) : Z :=
  match s !! Z.to_nat (e - 1) with Some b => if 128 <=? b then e - 2 else e - 1 | None => e - 1 end.
(** The ends that are reached from the end of the string by such steps. *)
Definition tried (s : list Z) (e : Z) : Prop := ∃ n, e = Nat.iter n (back s) (zlen s).

(** Greedy longest-match-first segmentation over these ends, from byte [o]. *)
Inductive tried_toks (v : vocab) (pre s : list Z) : Z → list token → Prop :=
| tt_nil : tried_toks v pre s (zlen s) []
| tt_cons o e x i ts :
    o < e → tried s e → text_at s o e x → get_id v (piece_term pre (o =? 0) x) = Some i →
    (∀ e' x', e < e' → tried s e' → text_at s o e' x' → get_id v (piece_term pre (o =? 0) x') = None) →
    tried_toks v pre s e ts →
    tried_toks v pre s o (Token i (piece_term pre (o =? 0) x) (Offsets o e) :: ts).

(** All terms are valid UTF-8. *)
Definition valid_terms (v : vocab) : Prop := ∀ t i, get_id v t = Some i → valid_utf8 t = true.

(** The whole input as one unknown token, or the error if there is no such token. *)
Definition unknown_answer (m : wordpiece) (s : list Z) (res : result (list token)) : Prop :=
  (∃ i, get_id (w_vocab m) (w_unk m) = Some i ∧ res = Ok [Token i (w_unk m) (Offsets 0 (zlen s))])
  ∨ (get_id (w_vocab m) (w_unk m) = None ∧ res = Err EUnknownTokenOutOfVocabulary).

(** [res] is the greedy longest-match-first answer for the characters [rs]. *)
Definition greedy_answer (m : wordpiece) (rs : list Z) (res : result (list token)) : Prop :=
  (∃ segs toks, greedy (w_vocab m) (w_prefix m) true rs segs ∧ seg_toks (w_vocab m) (w_prefix m) 0 segs toks ∧ res = Ok toks)
  ∨ ((∀ segs, ¬ greedy (w_vocab m) (w_prefix m) true rs segs) ∧ unknown_answer m (encode rs) res).
