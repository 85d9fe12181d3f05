(** Model of /repo/splitpattern/*.go *)
From Verif Require Import GoBase.

(** splitpattern.go:21-24 [Capture] (with its ByteOffsets flattened). *)
Record capture : Type := Capture { c_start : Z; c_end : Z; c_match : bool }.

(** splitpattern.go:11-17 [SplitPattern]: the method [FindMatches] of a pattern value. A pattern may
    panic or return an error. *)
Definition pattern : Type := list Z → outcome (result (list capture)).

(** func.go:34-56, the loop over the string; [items] is what [range s] yields. *)
Fixpoint func_loop (f : Z → bool) (items : list (Z * Z)) (lastOffset lastSeen : Z) : list capture :=
  match items with
  | [] =>
    (* func.go:58-62 *)
    if lastOffset <? lastSeen then [Capture lastOffset lastSeen false] else []
  | (i, r) :: items' =>
    let lastSeen' := i + rune_len r in
    if negb (f r) then func_loop f items' lastOffset lastSeen'
    else
      (if lastOffset <? i then [Capture lastOffset i false] else [])
      ++ Capture i lastSeen' true :: func_loop f items' lastSeen' lastSeen'
  end.

(** func.go:19-63 [FuncSplitPattern.FindMatches]. *)
Definition func_pattern (f : Z → bool) : pattern := λ s,
  if zlen s =? 0 then Ret (Ok [Capture 0 0 false])
  else Ret (Ok (func_loop f (range_str s) 0 0)).

(** rune.go:14-25 [RuneSplitPattern]. *)
Definition rune_pattern (r : Z) : pattern := func_pattern (λ other, other =? r).

(** regexp.go:34-57, the loop over the matches ([regexp2.go:41-66] has the same shape). *)
Fixpoint match_loop (len : Z) (matches : list (Z * Z)) (prev : Z) : list capture :=
  match matches with
  | [] => if negb (prev =? len) then [Capture prev len false] else []
  | (startByte, endByte) :: matches' =>
    (if negb (prev =? startByte) then [Capture prev startByte false] else [])
    ++ Capture startByte endByte true :: match_loop len matches' endByte
  end.

(** regexp.go:22-59 [RegexpSplitPattern.FindMatches]. [engine] stands for
    [r.FindAllStringIndex(s, -1)] of package regexp. *)
Definition regexp_pattern (engine : list Z → list (Z * Z)) : pattern := λ s,
  if zlen s =? 0 then Ret (Ok [Capture 0 0 false])
  else Ret (Ok (match_loop (zlen s) (engine s) 0)).

(** What the regexp2 engine yields over one string: the successive matches ([Index], [String()]),
    and possibly an error (e.g. a timeout) of the call that follows them. *)
Definition engine2 : Type := list Z → list (Z * list Z) * option err.

(** regexp2.go:42-43: byte offsets of a match, from its rune index. (A Go slice [runes[:i]] with
    [i] beyond the length but within the capacity would not panic; no regexp2 match has such an
    index.) *)
Definition match2_bytes (rs : list Z) (m : Z * list Z) : outcome (Z * Z) :=
  before ← sub rs 0 m.1;
  let startByte := zlen (encode before) in
  Ret (startByte, startByte + zlen m.2).

(** regexp2.go:41-61, the loop over the matches, then regexp2.go:63-68. *)
Fixpoint match2_loop (rs : list Z) (len : Z) (ms : list (Z * list Z)) (e : option err) (prev : Z)
    : outcome (result (list capture)) :=
  match ms with
  | [] =>
    match e with
    | Some er => Ret (Err er)
    | None => Ret (Ok (if negb (prev =? len) then [Capture prev len false] else []))
    end
  | m :: ms' =>
    b ← match2_bytes rs m;
    rest ← match2_loop rs len ms' e b.2;
    Ret (match rest with
         | Ok l => Ok ((if negb (prev =? b.1) then [Capture prev b.1 false] else [])
                       ++ Capture b.1 b.2 true :: l)
         | Err er => Err er
         end)
  end.

(** regexp2.go:22-69 [Regexp2SplitPattern.FindMatches]. *)
Definition regexp2_pattern (engine : engine2) : pattern := λ s,
  if zlen s =? 0 then Ret (Ok [Capture 0 0 false])
  else match2_loop (runes s) (zlen s) (engine s).1 (engine s).2 0.

(** What [regexp.MustCompile(regexp.QuoteMeta(p)).FindAllStringIndex(s, -1)] yields for a non-empty
    valid UTF-8 literal [p]: the leftmost non-overlapping occurrences (package regexp is not
    modelled; this is its documented behaviour on a literal, over valid UTF-8 input, and over any
    input when the literal has no U+FFFD, which the package also finds in an undecodable byte). [skip] is the
    number of bytes still inside the last match. *)
Fixpoint find_literal (p s : list Z) (i : Z) (skip : nat) : list (Z * Z) :=
  match s with
  | [] => []
  | b :: s' =>
    match skip with
    | S k => find_literal p s' (i + 1) k
    | O =>
      if bool_decide (take (length p) s = p)
      then (i, i + zlen p) :: find_literal p s' (i + 1) (length p - 1)
      else find_literal p s' (i + 1) O
    end
  end.

(** string.go:19-37 [StringSplitPattern]. For a literal that is no valid UTF-8
    [regexp.MustCompile] panics (in [FromString], string.go:22). *)
Definition string_pattern (p : list Z) : pattern := λ s,
  if zlen p =? 0 then Ret (Ok [Capture 0 (zlen (runes s)) false])
  else if valid_utf8 p then regexp_pattern (λ s, find_literal p s 0 O) s
  else Panic.

(** invertedpattern.go:17-26 [InvertedPattern.FindMatches]. *)
Definition invert (sp : pattern) : pattern := λ s,
  r ← sp s;
  Ret (match r with
       | Ok captures => Ok (map (λ c, Capture (c_start c) (c_end c) (negb (c_match c))) captures)
       | Err e => Err e
       end).
