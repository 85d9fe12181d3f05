(** Specification vocabulary for the pre-tokenizers. *)
From Coq Require Import Sorted.
From stdpp Require Import list_numbers.
From Verif Require Import GoBase Strutils SplitPattern NormString Bpe Encodings PreTokString SpecText SpecNorm.
#[local] Open Scope Z_scope.

(** The untouched text [rs] found at byte [k] of the whole: same text and original, identity alignment. *)
Definition plain (k : Z) (rs : list Z) : ns := NS (encode rs) (encode rs) (spans_of (fresh 0 rs)) k.
Definition plain_split (x : Z * list Z) : psplit := PSplit (plain x.1 x.2) None.

(** The characters [x.2] occur in [rs] at byte [x.1], after [l] and before [r]. *)
Definition occurs (rs l r : list Z) (x : Z * list Z) : Prop := rs = l ++ x.2 ++ r ∧ x.1 = zlen (encode l).

(** A maximal non-empty run of characters that are not in [stop]. *)
Definition run_of (stop : Z → bool) (rs : list Z) (x : Z * list Z) : Prop :=
  ∃ l r, occurs rs l r x ∧ x.2 ≠ [] ∧ Forall (λ c, stop c = false) x.2
    ∧ (∀ c, last l = Some c → stop c = true) ∧ (∀ c, head r = Some c → stop c = true).

(** One character that is in [single] and not in [gone]. *)
Definition one_of (gone single : Z → bool) (rs : list Z) (x : Z * list Z) : Prop :=
  ∃ l c r, occurs rs l r x ∧ x.2 = [c] ∧ gone c = false ∧ single c = true.

(** In order, without overlaps. *)
Definition in_order (fs : list (Z * list Z)) : Prop :=
  StronglySorted (λ x y, x.1 + zlen (encode x.2) <= y.1) fs.

(** Text and offsets of the splits, as GetOriginalByteSplits reports them. *)
Definition reported (x : Z * list Z) : byte_split :=
  ByteSplit (encode x.2) (Offsets x.1 (x.1 + zlen (encode x.2))) None.

(** * BERT *)
(** A punctuation character on its own, or a maximal run of characters that are neither white space nor
    punctuation. *)
Definition bert_piece (white punct : Z → bool) (rs : list Z) (x : Z * list Z) : Prop :=
  one_of white punct rs x ∨ run_of (λ c, white c || punct c) rs x.

(** * Metaspace *)
(** The aligned text after the first step (the prefix takes the span of the first character; nothing is
    added to the empty text) and after the second. *)
Definition prefixed (skip : Z → bool) (c : Z) (v : atext) : atext :=
  match v with
  | [] => []
  | (x, a) :: _ => if skip x then v else (c, a) :: v
  end.
Definition spaces_to (c : Z) (v : atext) : atext := map (λ p, (if p.1 =? 32 then c else p.1, p.2)) v.

(** Cut before each [c]. *)
Definition cut_before (c : Z) (ts : list (list Z)) : Prop :=
  Forall (λ t, ∃ x r, t = x :: r ∧ c ∉ r) ts ∧ Forall (λ t, head t = Some c) (tail ts).

(** * Byte level *)
(** Bytes that stand for themselves: the graphic characters of Latin-1 but for the soft hyphen. *)
Definition shown (b : Z) : bool := (33 <=? b) && (b <=? 126) || (161 <=? b) && (b <=? 255) && negb (b =? 173).
(** The others are numbered from 256 on. *)
Definition byte_char (b : Z) : Z :=
  if shown b then b else 256 + zlen (base.filter (λ x, shown x = false) (seqZ 0 b)).
(** An aligned text spelled in bytes. *)
Definition byte_text (v : atext) : atext :=
  flat_map (λ p, map (λ b, (byte_char b, p.2)) (encode_rune p.1)) v.

(** * Default regexps *)
(** The kind of a character: word, neither word nor space, or ([None]) space. *)
Definition kind_of (word space : Z → bool) (c : Z) : option bool :=
  if word c then Some true else if space c then None else Some false.
(** A maximal non-empty run of characters of one kind, not space. *)
Definition kind_run (word space : Z → bool) (rs : list Z) (x : Z * list Z) : Prop :=
  ∃ l r k, occurs rs l r x ∧ x.2 ≠ [] ∧ Forall (λ c, kind_of word space c = Some k) x.2
    ∧ (∀ c, last l = Some c → kind_of word space c ≠ Some k) ∧ (∀ c, head r = Some c → kind_of word space c ≠ Some k).

(** The shapes of the pieces of the default splitting regexp: a contraction, a run of letters, numbers
    or other characters possibly after one ' ', or white space. *)
Definition contractions : list (list Z) := [[115]; [116]; [114; 101]; [118; 101]; [109]; [108; 108]; [100]].
Definition gpt2_shape (fold : Z → Z) (letter number space : Z → bool) (t : list Z) : Prop :=
  (∃ w, w ∈ contractions ∧ map fold t = map fold (39 :: w))
  ∨ (∃ pre x kind, t = pre ++ x ∧ (pre = [] ∨ pre = [32]) ∧ x ≠ [] ∧ Forall (λ c, kind c = true) x
      ∧ (kind = letter ∨ kind = number ∨ kind = λ c, negb (space c) && negb (letter c) && negb (number c)))
  ∨ (t ≠ [] ∧ Forall (λ c, space c = true) t).

(** What GetOriginalByteSplits reports for a piece with the characters [t] of the aligned text. *)
Definition report (t : atext) : byte_split := ByteSplit (encode t.*1) (Offsets (first_start t) (last_end t)) None.
