(** Specification vocabulary for byte strings that need not be valid UTF-8. Nothing here refers to
    the functions of the package's model; [decode] is Go's own reading of a string. *)
From Verif Require Import GoBase SplitPattern NormString SpecText.

(** The number of undecodable bytes. *)
Definition bad_bytes (s : list Z) : Z := zlen (base.filter (λ x, x = (rune_error, 1)) (decode s)).

(** The string starts / ends with an undecodable byte. *)
Definition bad_start (s : list Z) : Prop := head (decode s) = Some (rune_error, 1).
Definition bad_end (s : list Z) : Prop := last (decode s) = Some (rune_error, 1).

(** The contract of a NormalizedString's alignments: one per byte of the text. *)
Definition one_per_byte (n : ns) : Prop := zlen (ns_al n) = zlen (ns_norm n).

(** The characters as Go reads them, each with the bytes it takes; an undecodable byte takes one. *)
Fixpoint places (i : Z) (d : list (Z * Z)) : list (Z * (Z * Z)) :=
  match d with [] => [] | (r, w) :: d' => (r, (i, i + w)) :: places (i + w) d' end.

(** What the captures of a predicate should be: they cover the string, and the matches are the accepted characters. *)
Definition right_captures (f : Z → bool) (s : list Z) (cs : list capture) : Prop :=
  covers 0 cs (zlen s) ∧ ranges_of true cs = (base.filter (λ x, f x.1 = true) (places 0 (decode s))).*2.

(** The byte in front of the [k]-th character, and the bytes of a match given by rune index and text. *)
Definition byte_at (s : list Z) (k : Z) : Z := foldr Z.add 0 (take (Z.to_nat k) (decode s)).*2.
Definition match_place (s : list Z) (m : Z * list Z) : Z * Z := (byte_at s m.1, byte_at s (m.1 + zlen (runes m.2))).

(** [n0] has the text of [n] with U+FFFD for every undecodable byte and one alignment per byte; [n] has [k] alignments more than
    bytes, the first of them, up to [R], those of [n0]. *)
Definition like (R : Z * Z → Z * Z → Prop) (k : Z) (n n0 : ns) : Prop :=
  ns_norm n0 = encode (runes (ns_norm n)) ∧ one_per_byte n0 ∧ zlen (ns_al n) = zlen (ns_norm n) + k
  ∧ ∃ al rest, ns_al n = al ++ rest ∧ Forall2 R al (ns_al n0).
(** Both panic or both return like strings. *)
Definition both (R : Z * Z → Z * Z → Prop) (k : Z) (x y : outcome ns) : Prop :=
  match x, y with Ret n, Ret n0 => like R k n n0 | Panic, Panic => True | _, _ => False end.
(** The first [k] bytes are characters. *)
Definition characters_first (k : Z) (s : list Z) : Prop := ∃ a b, s = a ++ b ∧ valid_utf8 a = true ∧ zlen a = k.
(** The string as Go reads it. *)
Definition mended (s : list Z) : list Z := encode (runes s).
