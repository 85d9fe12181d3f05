(** Specification of NormalizedString: aligned text. Of the model only the type [ns] of values is
    used here, none of its functions. *)
From Coq Require Import Sorted.
From Verif Require Import GoBase Strutils SplitPattern NormString SpecText.

(** A text whose characters carry the byte span of the original they stand for. *)
Notation atext := (list (Z * (Z * Z))) (only parsing).

(** One span per byte of the encoded text. *)
Definition spans_of (v : atext) : list (Z * Z) :=
  flat_map (λ p, repeat p.2 (length (encode_rune p.1))) v.

(** Byte length of an aligned text. *)
Definition alen (v : atext) : Z := zlen (encode v.*1).

(** The concrete value [n] holds the aligned text [v]: valid UTF-8, one alignment per byte, all bytes
    of a character with the same one. *)
Definition repr (n : ns) (v : atext) : Prop :=
  scalars v.*1 ∧ ns_norm n = encode v.*1 ∧ ns_al n = spans_of v.

(** Order of spans: equal, or one ends before the other starts. *)
Definition before (a b : Z * Z) : Prop := a = b ∨ a.2 <= b.1.

(** A span of whole characters of the original string. *)
Definition span_ok (orig : list Z) (a : Z * Z) : Prop :=
  a.1 <= a.2 ∧ boundary orig a.1 ∧ boundary orig a.2.

(** Spans of an aligned text over the original string [orig]: character ranges inside it, in order,
    without partial overlaps. *)
Definition aligned_over (orig : list Z) (v : atext) : Prop :=
  Forall (span_ok orig) v.*2 ∧ StronglySorted before v.*2.

(** Well-formed values. *)
Definition wf_as (n : ns) (v : atext) : Prop :=
  repr n v ∧ valid_utf8 (ns_orig n) = true ∧ aligned_over (ns_orig n) v.
Definition wf (n : ns) : Prop := ∃ v, wf_as n v.

(** The identity alignment of a text that starts at byte [i]. *)
Fixpoint fresh (i : Z) (rs : list Z) : atext :=
  match rs with
  | [] => []
  | r :: rs' => (r, (i, i + rune_len r)) :: fresh (i + rune_len r) rs'
  end.

(** Span of the last character; (0, 0) if there is none. *)
Definition last_span (v : atext) : Z * Z := default (0, 0) (last v.*2).

(** What a list of changes (rune, change) does to the characters [src]; [prev] is the span of the
    character just before the point reached so far. A change of 1 or more inserts, 0 replaces one
    character, -k replaces one and removes the k that follow. [None]: more characters are consumed
    than there are. *)
Fixpoint rewrite_chars (prev : Z * Z) (src : atext) (dest : list (Z * Z)) : option atext :=
  match dest with
  | [] => Some []
  | (r, c) :: dest' =>
    if 1 <=? c then
      w ← rewrite_chars prev src dest'; Some ((sanitize r, prev) :: w)
    else
      match src with
      | [] => None
      | (_, a) :: src' =>
        let k := Z.to_nat (- c) in
        if decide (k <= length src')%nat then
          w ← rewrite_chars (default a (last (take k src').*2)) (drop k src') dest';
          Some ((sanitize r, a) :: w)
        else None
      end
  end.

(** Shifting all spans by [d]. *)
Definition shift_spans (d : Z) (v : atext) : atext := map (λ p, (p.1, (p.2.1 + d, p.2.2 + d))) v.

(** Everything but the text and the alignments is as before. *)
Definition same_origin (n n' : ns) : Prop := ns_orig n' = ns_orig n ∧ ns_shift n' = ns_shift n.

(** A character that is white space. *)
Definition white (p : Z * (Z * Z)) : Prop := white_space p.1 = true.

(** [mid] is [lead ++ mid ++ trail] without its maximal runs of outer white space, on the sides asked
    for. *)
Definition trimmed (left right : bool) (lead mid trail : atext) : Prop :=
  Forall white lead ∧ Forall white trail
  ∧ (if left then ∀ p m, mid = p :: m → ¬ white p else lead = [])
  ∧ (if right then ∀ p m, mid = m ++ [p] → ¬ white p else trail = []).

(** An aligned text cut into segments flagged as match or non-match, and the segments' plain texts. *)
Notation asegments := (list (list (Z * (Z * Z)) * bool)) (only parsing).
Definition texts_of (segs : asegments) : segments := map (λ s, (s.1.*1, s.2)) segs.

(** [res] is [out] followed by the segments, each match replaced by the text [content]. What replaces
    a match carries one span: that of one of the characters it replaces (of the last one, if they are
    all ASCII) or, if the match is empty, that of the character before it. *)
Fixpoint replaced (content : list Z) (out : atext) (segs : asegments) (res : atext) : Prop :=
  match segs with
  | [] => res = out
  | (seg, false) :: segs' => replaced content (out ++ seg) segs' res
  | (seg, true) :: segs' =>
    ∃ a, (if decide (seg = []) then a = last_span out else a ∈ seg.*2)
       ∧ (Forall (λ p : Z * (Z * Z), p.1 < 128) seg → a = last_span (out ++ seg))
       ∧ replaced content (out ++ map (λ r, (r, a)) content) segs' res
  end.

(** Start of the first and end of the last span. *)
Definition first_start (v : atext) : Z := match v with [] => 0 | (_, a) :: _ => a.1 end.
Definition last_end (v : atext) : Z := (last_span v).2.

(** [n'] is the piece of [n] that holds the characters [v] of its aligned text: same characters, the
    original text is what they came from, and spans are relative to it, so that absolute positions
    (shift + span) stay what they were. *)
Definition piece_of (n : ns) (v : atext) (n' : ns) : Prop :=
  repr n' (shift_spans (- first_start v) v)
  ∧ (v ≠ [] → text_at (ns_orig n) (first_start v) (last_end v) (ns_orig n')
            ∧ ns_shift n' = ns_shift n + first_start v)
  ∧ (v = [] → ns_orig n' = []).

(** [v1 ++ v2] is the longest run of leading characters whose spans end by [b]; in it [v2] starts at
    the first character with a non-empty span that starts at [a] or later. *)
Definition within (a b : Z) (v1 v2 v3 : atext) : Prop :=
  Forall (λ p, p.2.2 <= b) (v1 ++ v2) ∧ (∀ p w, v3 = p :: w → b < p.2.2)
  ∧ Forall (λ p, p.2.1 < a ∨ p.2.1 = p.2.2) v1 ∧ (∀ p w, v2 = p :: w → a <= p.2.1 ∧ p.2.1 ≠ p.2.2).

(** The spans follow each other without gaps or overlaps from [i] to [len]. *)
Fixpoint tiles (i : Z) (v : atext) (len : Z) : Prop :=
  match v with
  | [] => i = len
  | p :: v' => p.2.1 = i ∧ i <= p.2.2 ∧ tiles p.2.2 v' len
  end.
