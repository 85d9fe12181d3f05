(** Model of /repo/normalizedstring/{range,normalizedstring}.go.
    A method that modifies its receiver returns the new receiver. *)
From Verif Require Import GoBase Strutils SplitPattern.

(** range.go:12-69 [Range], [OriginalRange], [NormalizedRange]. (Other implementations of the
    interface, on which rangeIsValid panics, are not modelled.) *)
Inductive range : Type :=
| ORange (s e : Z)
| NRange (s e : Z).

(** range.go:34, 59 [Start]; range.go:38, 63 [End]; range.go:42, 67 [Len]. *)
Definition r_start (r : range) : Z := match r with ORange s _ | NRange s _ => s end.
Definition r_end (r : range) : Z := match r with ORange _ e | NRange _ e => e end.
Definition r_len (r : range) : Z := r_end r - r_start r.

(** normalizedstring.go:42-47 [AlignmentRange] (start, end). *)
Notation align := (Z * Z)%type (only parsing).

(** normalizedstring.go:25-38 [NormalizedString]; the record constructor is
    normalizedstring.go:50-62 [New]. *)
Record ns : Type := NS {
  ns_orig : list Z;
  ns_norm : list Z;
  ns_al : list (Z * Z);
  ns_shift : Z;
}.

(** normalizedstring.go:74-89 [alignmentsFromString]. *)
Definition alignments_from_string (s : list Z) : list (Z * Z) :=
  flat_map (λ '(i, r), repeat (i, i + rune_len r) (length (encode_rune r))) (range_str s).

(** normalizedstring.go:65-72 [FromString]. *)
Definition from_string (s : list Z) : ns := NS s s (alignments_from_string s) 0.

(** normalizedstring.go:92, 97 [Get], [GetOriginal] are the projections.
    normalizedstring.go:102 [Len], 107 [OriginalLen], 112 [IsEmpty]. *)
Definition ns_len (n : ns) : Z := zlen (ns_norm n).
Definition ns_orig_len (n : ns) : Z := zlen (ns_orig n).
Definition ns_is_empty (n : ns) : bool := zlen (ns_norm n) =? 0.

(** normalizedstring.go:117-122 [OriginalOffsets]. *)
Definition original_offsets (n : ns) : offsets :=
  Offsets (ns_shift n) (ns_shift n + ns_orig_len n).

(** normalizedstring.go:362-380: the loop of [CoerceRangeToNormalized] over the alignments;
    -1 is "not found". *)
Fixpoint ctn_loop (als : list (Z * Z)) (i s e start en : Z) : Z * Z :=
  match als with
  | [] => (start, en)
  | (a_start, a_end) :: als' =>
    if e <? a_end then (start, en)
    else
      let start' :=
        if (start =? -1) && (s <=? a_start) then
          if negb (a_start =? a_end) then i else start
        else start in
      let en' := if a_end <=? e then i + 1 else en in
      ctn_loop als' (i + 1) s e start' en'
  end.

(** normalizedstring.go:343-394 [CoerceRangeToNormalized]: (start, end) and the flag. *)
Definition coerce_to_norm (n : ns) (r : range) : (Z * Z) * bool :=
  match r with
  | NRange s e => ((s, e), true)
  | ORange s e =>
    if r_len r =? 0 then ((s, e), true)
    else if e <? s then ((0, 0), false)
    else if (zlen (ns_orig n) =? 0) && (s =? 0) && (e =? 0) then ((0, ns_len n), true)
    else
      let '(start, en) := ctn_loop (ns_al n) 0 s e (-1) (-1) in
      if negb (start =? -1) && negb (en =? -1) then ((start, en), true)
      else if negb (start =? -1) then ((start, start), true)
      else if negb (en =? -1) then ((en, en), true)
      else ((0, 0), false)
  end.

(** normalizedstring.go:402-427 [CoerceRangeToOriginal]. *)
Definition coerce_to_orig (n : ns) (r : range) : outcome ((Z * Z) * bool) :=
  match r with
  | ORange s e => Ret ((s, e), true)
  | NRange s e =>
    if r_len r =? 0 then Ret ((s, e), true)
    else if e <? s then Ret ((0, 0), false)
    else if (zlen (ns_norm n) =? 0) && (s =? 0) && (e =? 0) then Ret ((0, ns_orig_len n), true)
    else
      als ← sub (ns_al n) s e;
      first ← idx als 0;
      last ← idx als (zlen als - 1);
      Ret ((first.1, last.2), true)
  end.

(** normalizedstring.go:319-325 [GetRange]; [None] is the flag false. *)
Definition get_range (n : ns) (r : range) : outcome (option (list Z)) :=
  let '((s, e), ok) := coerce_to_norm n r in
  if negb ok then Ret None else x ← sub (ns_norm n) s e; Ret (Some x).

(** normalizedstring.go:329-335 [GetOriginalRange]. *)
Definition get_original_range (n : ns) (r : range) : outcome (option (list Z)) :=
  c ← coerce_to_orig n r;
  let '((s, e), ok) := c in
  if negb ok then Ret None else x ← sub (ns_orig n) s e; Ret (Some x).

(** normalizedstring.go:126-141 [RuneChange]: (Rune, Change).

    normalizedstring.go:174-212: the loop of [TransformRange] over [dest]. Result: the alignments and
    the bytes written so far. ([strings.Builder.WriteRune] writes the same bytes as [string(r)].) *)
Fixpoint tr_loop (al : list (Z * Z)) (dest : list (Z * Z)) (offset : Z) (rs : list Z)
    : outcome (list (Z * Z) * list Z) :=
  match dest with
  | [] => Ret ([], [])
  | (r, change) :: dest' =>
    a ← (if 1 <=? change
         then if offset <? 1 then Ret (0, 0) else idx al (offset - 1)
         else idx al offset);
    x ← (if change <=? 0
         then match rs with
              | [] => Panic
              | replaced :: rs' => Ret (rune_len replaced, rs')
              end
         else Ret (0, rs));
    let '(size, rs1) := x in
    y ← (if change <=? -1
         then removed ← sub rs1 0 (- change);
              rest ← sub rs1 (- change) (zlen rs1);
              Ret (zlen (encode removed), rest)
         else Ret (0, rs1));
    let '(total, rs2) := y in
    z ← tr_loop al dest' (offset + size + total) rs2;
    Ret (repeat a (length (encode_rune r)) ++ z.1, encode_rune r ++ z.2)
  end.

(** normalizedstring.go:152-229 [TransformRange]. *)
Definition transform_range (n : ns) (r : range) (dest : list (Z * Z)) (initialOffset : Z) : outcome ns :=
  let '((s, e), ok) := coerce_to_norm n r in
  if negb ok then Ret n else
  replaced ← sub (ns_norm n) s e;
  removed0 ← sub replaced 0 initialOffset;
  rest ← sub replaced initialOffset (zlen replaced);
  x ← tr_loop (ns_al n) dest (zlen removed0 + s) (runes rest);
  al_before ← sub (ns_al n) 0 s;
  al_after ← sub (ns_al n) e (zlen (ns_al n));
  norm_before ← sub (ns_norm n) 0 s;
  norm_after ← sub (ns_norm n) e (zlen (ns_norm n));
  Ret (NS (ns_orig n) (norm_before ++ x.2 ++ norm_after) (al_before ++ x.1 ++ al_after) (ns_shift n)).

(** normalizedstring.go:235-237 [Transform]. *)
Definition transform (n : ns) (dest : list (Z * Z)) (initialOffset : Z) : outcome ns :=
  transform_range n (NRange 0 (ns_len n)) dest initialOffset.

(** normalizedstring.go:261-292: the loop of [OriginalAlignments]; the result is what gets appended,
    plus the final [last], [offset], [length]. *)
Fixpoint oa_loop (als : list (Z * Z)) (last : Z * Z) (offset len : Z)
    : outcome (list (Z * Z) * ((Z * Z) * Z * Z)) :=
  match als with
  | [] => Ret ([], (last, offset, len))
  | a :: als' =>
    if bool_decide (last = a) then oa_loop als' a offset (len + 1)
    else if a.1 <? last.2 then Panic
    else
      let group := repeat (offset, offset + len) (Z.to_nat (last.2 - last.1)) in
      let offset' := offset + len in
      let gap := repeat (offset', offset') (Z.to_nat (a.1 - last.2)) in
      x ← oa_loop als' a offset' 1;
      Ret (group ++ gap ++ x.1, x.2)
  end.

(** normalizedstring.go:240-315 [OriginalAlignments]. *)
Definition original_alignments (n : ns) : outcome (list (Z * Z)) :=
  first ← idx (ns_al n) 0;
  let gap0 := repeat (0, 0) (Z.to_nat first.1) in
  x ← oa_loop (ns_al n) first 0 0;
  let '(body, (last, offset, len)) := x in
  let lastGroup := repeat (offset, offset + len) (Z.to_nat (last.2 - last.1)) in
  let acc := gap0 ++ body ++ lastGroup in
  let offset' := offset + len in
  Ret (acc ++ repeat (offset', offset') (Z.to_nat (zlen (ns_orig n) - zlen acc))).

(** normalizedstring.go:439-445: one RuneChange per rune of the prepended string. *)
Definition prepend_changes (s : list Z) : list (Z * Z) :=
  map (λ '(i, r), (r, if 0 <? i then 1 else 0)) (range_str s).

(** normalizedstring.go:432-452 [Prepend]. *)
Definition prepend (n : ns) (s : list Z) : outcome ns :=
  if zlen (ns_norm n) =? 0 then Ret n else
  firstRune ← idx (runes (ns_norm n)) 0;
  transform_range n (NRange 0 (rune_len firstRune)) (prepend_changes s ++ [(firstRune, 1)]) 0.

(** normalizedstring.go:457-476 [Append]. *)
Definition append (n : ns) (s : list Z) : outcome ns :=
  if zlen (ns_norm n) =? 0 then Ret n else
  let rs := runes (ns_norm n) in
  let lastRuneIndex := zlen rs - 1 in
  lastRune ← idx rs lastRuneIndex;
  transform_range n (NRange lastRuneIndex (ns_len n))
    ((lastRune, 0) :: map (λ r, (r, 1)) (runes s)) 0.

(** normalizedstring.go:819-833 [rangeIsValid]. *)
Definition range_is_valid (n : ns) (r : range) : outcome bool :=
  let s := match r with ORange _ _ => ns_orig n | NRange _ _ => ns_norm n end in
  b ← is_rune_boundary s (r_start r);
  if (b : bool) then is_rune_boundary s (r_end r) else Ret false.

(** normalizedstring.go:640-671 [Slice]; [None] is the flag false. *)
Definition slice (n : ns) (r : range) : outcome (option ns) :=
  valid ← range_is_valid n r;
  if negb valid then Ret None else
  let '((n_s, n_e), nrOk) := coerce_to_norm n r in
  if negb nrOk then Ret None else
  o ← coerce_to_orig n r;
  let '((o_s, o_e), orOk) := o in
  if negb orOk then Ret None else
  original ← get_original_range n r;
  normalized ← get_range n r;
  als ← sub (ns_al n) n_s n_e;
  Ret (Some (NS (default [] original) (default [] normalized)
                (map (λ a, (a.1 - o_s, a.2 - o_s)) als)
                (ns_shift n + o_s))).

(** normalizedstring.go:487-495 [SplitDelimiterBehavior] (another value of the uint8 type makes
    Split panic; not modelled). *)
Inductive behaviour : Type := Removed | Isolated | MergedWithPrevious | MergedWithNext | Contiguous.

(** normalizedstring.go:507-510 [SplitMatch]: offsets and ShouldRemove. *)
Definition split_match : Type := Z * Z * bool.

(** normalizedstring.go:529-541: [acc] is [splits] with the last element first. *)
Fixpoint mwp_loop (cs : list capture) (prev : bool) (acc : list split_match) : list split_match :=
  match cs with
  | [] => acc
  | c :: cs' =>
    mwp_loop cs' (c_match c)
      (match acc with
       | (s, e, rm) :: acc' =>
         if c_match c && negb prev then (s, c_end c, rm) :: acc'
         else (c_start c, c_end c, false) :: acc
       | [] => [(c_start c, c_end c, false)]
       end)
  end.

(** normalizedstring.go:543-557: runs over the captures from last to first; [acc] is [splits] with
    the last element first, that is, already in the order that lines 558-562 restore. *)
Fixpoint mwn_loop (rev_cs : list capture) (prev : bool) (acc : list split_match) : list split_match :=
  match rev_cs with
  | [] => acc
  | c :: cs' =>
    mwn_loop cs' (c_match c)
      (match acc with
       | (s, e, rm) :: acc' =>
         if c_match c && negb prev then (c_start c, e, rm) :: acc'
         else (c_start c, c_end c, false) :: acc
       | [] => [(c_start c, c_end c, false)]
       end)
  end.

(** normalizedstring.go:564-576. *)
Fixpoint contiguous_loop (cs : list capture) (prev : bool) (acc : list split_match) : list split_match :=
  match cs with
  | [] => acc
  | c :: cs' =>
    contiguous_loop cs' (c_match c)
      (match acc with
       | (s, e, rm) :: acc' =>
         if Bool.eqb (c_match c) prev then (s, c_end c, rm) :: acc'
         else (c_start c, c_end c, false) :: acc
       | [] => [(c_start c, c_end c, false)]
       end)
  end.

(** normalizedstring.go:512-579: what to cut, by behaviour. *)
Definition split_matches (b : behaviour) (cs : list capture) : list split_match :=
  match b with
  | Removed => map (λ c, (c_start c, c_end c, c_match c)) cs
  | Isolated => map (λ c, (c_start c, c_end c, false)) cs
  | MergedWithPrevious => rev (mwp_loop cs false [])
  | MergedWithNext => mwn_loop (rev cs) false []
  | Contiguous => rev (contiguous_loop cs false [])
  end.

(** normalizedstring.go:583-593. *)
Fixpoint cut (n : ns) (ms : list split_match) : outcome (result (list ns)) :=
  match ms with
  | [] => Ret (Ok [])
  | (s, e, shouldRemove) :: ms' =>
    if (shouldRemove : bool) then cut n ms' else
    sliced ← slice n (NRange s e);
    match sliced with
    | None => Ret (Err EBadSplit)
    | Some p =>
      rest ← cut n ms';
      Ret (match rest with Ok l => Ok (p :: l) | Err er => Err er end)
    end
  end.

(** normalizedstring.go:498-594 [Split]. *)
Definition split (n : ns) (p : pattern) (b : behaviour) : outcome (result (list ns)) :=
  captures ← p (ns_norm n);
  match captures with
  | Err er => Ret (Err er)
  | Ok cs => cut n (split_matches b cs)
  end.

(** normalizedstring.go:607-633: the loop of [Replace]. *)
Fixpoint replace_loop (n : ns) (cs : list capture) (content : list Z) (offset : Z) : outcome ns :=
  match cs with
  | [] => Ret n
  | c :: cs' =>
    if negb (c_match c) then replace_loop n cs' content offset else
    let rStart := Z.max 0 (c_start c + offset) in
    let rEnd := Z.max 0 (c_end c + offset) in
    let changes := map (λ r, (r, 1)) (runes content) in
    matched ← sub (ns_norm n) rStart rEnd;
    let removedRunes := zlen (runes matched) in
    n' ← transform_range n (NRange rStart rEnd) changes removedRunes;
    let newLen := zlen content in
    let oldLen := c_end c - c_start c in
    replace_loop n' cs' content (offset + (newLen - oldLen))
  end.

(** normalizedstring.go:597-636 [Replace]. *)
Definition replace (n : ns) (p : pattern) (content : list Z) : outcome (result ns) :=
  captures ← p (ns_norm n);
  match captures with
  | Err er => Ret (Err er)
  | Ok cs => n' ← replace_loop n cs content 0; Ret (Ok n')
  end.

(** normalizedstring.go:682-707: the loop of [Filter]. Result: the transforms and removedStart.
    [last] is lastRune, if hasLastRune. *)
Fixpoint filter_loop (keep : Z → bool) (rs : list Z) (last : option Z) (removed removedStart : Z)
    : list (Z * Z) * Z :=
  match rs with
  | [] => (match last with Some l => [(l, - removed)] | None => [] end, removedStart)
  | r :: rs' =>
    if negb (keep r) then filter_loop keep rs' last (removed + 1) removedStart
    else
      match last with
      | Some l =>
        let x := filter_loop keep rs' (Some r) 0 removedStart in
        ((l, - removed) :: x.1, x.2)
      | None => filter_loop keep rs' (Some r) 0 removed
      end
  end.

(** normalizedstring.go:674-709 [Filter]. *)
Definition filter_runes (n : ns) (keep : Z → bool) : outcome ns :=
  let x := filter_loop keep (runes (ns_norm n)) None 0 0 in
  transform n x.1 x.2.

(** normalizedstring.go:712-721 [Map]. 756 [ToUpper] and 763 [ToLower] are [map_runes] with the
    function of package unicode. *)
Definition map_runes (n : ns) (f : Z → Z) : outcome ns :=
  transform n (map (λ r, (f r, 0)) (runes (ns_norm n))) 0.

(** normalizedstring.go:837-844 [countLeadingSpaces]. *)
Fixpoint count_leading (rs : list Z) : Z :=
  match rs with
  | [] => 0
  | r :: rs' => if white_space r then 1 + count_leading rs' else 0
  end.

(** normalizedstring.go:848-864 [countTrailingSpaces]: the loop runs from the last rune down. *)
Definition count_trailing (rs : list Z) : Z := count_leading (rev rs).

(** normalizedstring.go:801-814: the transforms of [TrimLeftRight]; [i] is the index of the head. *)
Fixpoint trim_changes (rs : list Z) (i leadingSpaces lastIndex trailingSpaces : Z) : list (Z * Z) :=
  match rs with
  | [] => []
  | r :: rs' =>
    (if (leadingSpaces <=? i) && (i <=? lastIndex)
     then [(r, if i =? lastIndex then - trailingSpaces else 0)] else [])
    ++ trim_changes rs' (i + 1) leadingSpaces lastIndex trailingSpaces
  end.

(** normalizedstring.go:784-816 [TrimLeftRight]; 768-780 [Trim], [TrimLeft], [TrimRight] are its
    instances. *)
Definition trim_left_right (n : ns) (left right : bool) : outcome ns :=
  let rs := runes (ns_norm n) in
  let leadingSpaces := if left then count_leading rs else 0 in
  let trailingSpaces := if right && (leadingSpaces <? zlen rs) then count_trailing rs else 0 in
  if (leadingSpaces =? 0) && (trailingSpaces =? 0) then Ret n else
  let lastIndex := zlen rs - trailingSpaces - 1 in
  transform n (trim_changes rs 0 leadingSpaces lastIndex trailingSpaces) leadingSpaces.
