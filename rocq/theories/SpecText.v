(** Specification vocabulary: positions in UTF-8 text and capture lists.
    Nothing here refers to the functions of the model. *)
From Verif Require Import GoBase Strutils SplitPattern.

(** [i] is a character boundary of the valid UTF-8 string [s]. *)
Definition boundary (s : list Z) (i : Z) : Prop :=
  ∃ a b, scalars a ∧ scalars b ∧ s = encode a ++ encode b ∧ i = zlen (encode a).

(** [s[i:j] = x]. *)
Definition text_at (s : list Z) (i j : Z) (x : list Z) : Prop :=
  ∃ a b, s = a ++ x ++ b ∧ i = zlen a ∧ j = i + zlen x.

(** The captures follow each other without gaps from [i] to [len]. *)
Fixpoint covers (i : Z) (cs : list capture) (len : Z) : Prop :=
  match cs with
  | [] => i = len
  | c :: cs' => c_start c = i ∧ i <= c_end c ∧ covers (c_end c) cs' len
  end.

(** Captures covering a string, all ends on character boundaries. *)
Definition boundary_cover (s : list Z) (cs : list capture) : Prop :=
  covers 0 cs (zlen s) ∧ Forall (λ c, boundary s (c_start c) ∧ boundary s (c_end c)) cs.

(** The (start, end) ranges of the captures of one kind. *)
Definition ranges_of (kind : bool) (cs : list capture) : list (Z * Z) :=
  map (λ c, (c_start c, c_end c)) (base.filter (λ c, c_match c = kind) cs).

(** Ordered, disjoint ranges within [lo..hi]. *)
Fixpoint ordered_ranges (lo : Z) (ms : list (Z * Z)) (hi : Z) : Prop :=
  match ms with
  | [] => lo <= hi
  | (a, b) :: ms' => lo <= a ∧ a <= b ∧ ordered_ranges b ms' hi
  end.

(** A text cut into segments, each flagged as match or non-match, and the capture list that
    describes it. *)
Definition segments : Type := list (list Z * bool).
Fixpoint place (i : Z) (segs : segments) : list capture :=
  match segs with
  | [] => []
  | (t, m) :: segs' =>
    Capture i (i + zlen (encode t)) m :: place (i + zlen (encode t)) segs'
  end.

(** The segmentation of a text by single accepted characters and maximal runs of rejected ones:
    a match is one accepted character, a non-match is a non-empty run of rejected characters, no two
    non-matches are adjacent. *)
Fixpoint rune_segmented (f : Z → bool) (segs : segments) : Prop :=
  match segs with
  | [] => True
  | (t, m) :: segs' =>
    (if (m : bool) then ∃ r, t = [r] ∧ f r = true
     else t ≠ [] ∧ Forall (λ r, f r = false) t ∧ match segs' with (_, false) :: _ => False | _ => True end)
    ∧ rune_segmented f segs'
  end.

(** Leftmost non-overlapping occurrences of [p] in [s] from [lo] on: each range is an occurrence and
    no occurrence starts between the end of one and the start of the next. *)
Fixpoint leftmost_occurrences (p s : list Z) (lo : Z) (ms : list (Z * Z)) : Prop :=
  match ms with
  | [] => ∀ j, lo <= j → ¬ text_at s j (j + zlen p) p
  | (a, b) :: ms' =>
    lo <= a ∧ text_at s a b p ∧ (∀ j, lo <= j < a → ¬ text_at s j (j + zlen p) p)
    ∧ leftmost_occurrences p s b ms'
  end.

(** Answers of the regexp2 engine over a text: ordered, non-overlapping matches, each given by the
    rune index of its start and its text. *)
Fixpoint matches2_ok (rs : list Z) (lo : Z) (ms : list (Z * list Z)) : Prop :=
  match ms with
  | [] => True
  | (i, t) :: ms' =>
    ∃ a x b, rs = a ++ x ++ b ∧ i = zlen a ∧ lo <= i ∧ t = encode x ∧ matches2_ok rs (i + zlen x) ms'
  end.

(** The byte range of a match given by rune index and text. *)
Definition match2_range (rs : list Z) (m : Z * list Z) : Z * Z :=
  let start := zlen (encode (take (Z.to_nat m.1) rs)) in (start, start + zlen m.2).
