(** Model of /repo/pretokenizers/*/*.go *)
From Verif Require Import GoBase Strutils SplitPattern NormString Bpe Encodings PreTokString Normalizers.

(** [PreTokenize] of a pre-tokenizer: the modified PreTokenizedString and the error, if any. *)
Definition pretokenizer : Type := pts → outcome (pts * option err).

(** A SplitFunc without state of its own. *)
Definition stateless (f : ns → outcome (ns * result (list psplit))) : split_func unit :=
  λ _ _ n, x ← f n; Ret (tt, x.1, x.2).

(** [pts.Split] with such a function. *)
Definition run_split (f : ns → outcome (ns * result (list psplit))) : pretokenizer := λ p,
  x ← pts_split (stateless f) tt p;
  let '(_, p', e) := x in Ret (p', e).

(** [nss, err := ns.Split(pattern, behaviour)] followed by [SplitsFromNormalizedStrings]: the body of
    most of the split functions below. *)
Definition split_by (p : pattern) (b : behaviour) (n : ns) : outcome (ns * result (list psplit)) :=
  r ← split n p b;
  Ret (n, match r with Ok l => Ok (splits_from_ns l) | Err e => Err e end).

(** whitespacesplitpretokenizer.go:27-40. *)
Definition whitespace_split : pretokenizer := run_split (split_by (func_pattern white_space) Removed).

(** runedelimiterpretokenizer.go:29-40. *)
Definition rune_delimiter (delimiter : Z) : pretokenizer :=
  run_split (split_by (rune_pattern delimiter) Removed).

(** whitespacepretokenizer.go:39-50. *)
Definition whitespace_pretokenizer (engine : engine2) : pretokenizer :=
  run_split (split_by (invert (regexp2_pattern engine)) Removed).

(** bertpretokenizer.go:33-62. *)
Definition bert_pretokenizer (u : unicode) : pretokenizer := λ p,
  x ← run_split (split_by (func_pattern white_space) Removed) p;
  let '(p1, e) := x in
  match e with
  | Some _ => Ret (p1, e)
  | None => run_split (split_by (func_pattern (u_punct u)) Isolated) p1
  end.

(** [strings.HasPrefix] (metaspacepretokenizer.go:61). *)
Definition starts_with (s p : list Z) : bool := bool_decide (take (length p) s = p).

(** metaspacepretokenizer.go:60-73: the split function. On an error the NormalizedString has already
    been modified. *)
Definition metaspace_split (replacement : Z) (prefixSpace : bool) (n : ns)
    : outcome (ns * result (list psplit)) :=
  let strReplacement := encode_rune replacement in
  n1 ← (if prefixSpace && negb (starts_with (ns_norm n) strReplacement)
        then prepend n strReplacement else Ret n);
  r ← replace n1 (rune_pattern 32) strReplacement;
  match r with
  | Err e => Ret (n1, Err e)
  | Ok n2 => split_by (rune_pattern replacement) MergedWithNext n2
  end.

(** metaspacepretokenizer.go:57-75. *)
Definition metaspace (replacement : Z) (prefixSpace : bool) : pretokenizer :=
  run_split (metaspace_split replacement prefixSpace).

(** bytelevelpretokenizer.go:118-128: filling [byteToRune], from index [i] on; [n] counts the bytes
    that have no printable rune of their own. *)
Definition printable_byte (i : Z) : bool :=
  byte_in 33 126 i || byte_in 0xA1 0xAC i || byte_in 0xAE 0xFF i.
Fixpoint byte_table (k : nat) (i n : Z) : list Z :=
  match k with
  | O => []
  | S k' =>
    if printable_byte i then i :: byte_table k' (i + 1) n
    else (0x100 + n) :: byte_table k' (i + 1) (n + 1)
  end.
Definition byte_to_rune_table : list Z := byte_table 256 0 0.
Definition byte_to_rune (b : Z) : outcome Z := idx byte_to_rune_table b.

(** bytelevelpretokenizer.go:112-114 [startsWithWhitespace]. *)
Definition starts_with_whitespace (s : list Z) : bool :=
  match runes s with r :: _ => white_space r | [] => false end.

(** bytelevelpretokenizer.go:96-105: the changes for the bytes of one rune. *)
Fixpoint byte_changes_of (byteIndex : Z) (bytes : list Z) : outcome (list (Z * Z)) :=
  match bytes with
  | [] => Ret []
  | b :: bytes' =>
    r ← byte_to_rune b;
    rest ← byte_changes_of (byteIndex + 1) bytes';
    Ret ((r, if 0 <? byteIndex then 1 else 0) :: rest)
  end.

(** bytelevelpretokenizer.go:91-106: the loop over the runes; the slice [s[i : i+size]]. *)
Fixpoint byte_changes (s : list Z) (rs : list Z) (i : Z) : outcome (list (Z * Z)) :=
  match rs with
  | [] => Ret []
  | r :: rs' =>
    let size := rune_len r in
    bytes ← sub s i (i + size);
    c ← byte_changes_of 0 bytes;
    rest ← byte_changes s rs' (i + size);
    Ret (c ++ rest)
  end.

(** bytelevelpretokenizer.go:87-109: the normalization function. *)
Definition byte_level_normalize (n : ns) : outcome ns :=
  changes ← byte_changes (ns_norm n) (runes (ns_norm n)) 0;
  transform n changes 0.

(** bytelevelpretokenizer.go:72-81: the split function. *)
Definition byte_level_split (engine : engine2) (prefixSpace : bool) (n : ns)
    : outcome (ns * result (list psplit)) :=
  n1 ← (if prefixSpace && negb (starts_with_whitespace (ns_norm n)) then prepend n [32] else Ret n);
  split_by (regexp2_pattern engine) Isolated n1.

(** bytelevelpretokenizer.go:67-110 (the field offsetsTrimmingEnabled is never read). *)
Definition byte_level (engine : engine2) (prefixSpace : bool) : pretokenizer := λ p,
  x ← run_split (byte_level_split engine prefixSpace) p;
  let '(p1, e) := x in
  match e with
  | Some _ => Ret (p1, e)
  | None =>
    y ← pts_normalize (λ (_ : unit) n, n' ← byte_level_normalize n; Ret (tt, n', None)) tt p1;
    let '(_, p2, e2) := y in Ret (p2, e2)
  end.
