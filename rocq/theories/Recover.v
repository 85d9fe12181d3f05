(** Model of what a call that panics leaves behind, for clients that recover.

    The other files drop the receiver of a call that panics. Here a method gives the receiver as it is when the call
    ends, in either way, and the outcome. The assignments to fields stand in the order of the Go code. What is computed
    between them does not touch the receiver, and is taken from the other files. *)
From Verif Require Import GoBase Strutils SplitPattern NormString Normalizers Bpe Encodings PreTokString PreTokenizers.

(** A method with receiver [S]: the receiver at the end, and the result or a panic. *)
Definition method (S A : Type) : Type := S → S * outcome A.
Definition m_ret {S A} (a : A) : method S A := λ s, (s, Ret a).
Definition m_bind {S A B} (m : method S A) (k : A → method S B) : method S B := λ s,
  let '(s', o) := m s in match o with Ret a => k a s' | Panic => (s', Panic) end.
(** An expression that only reads the receiver. *)
Definition m_read {S A} (f : S → outcome A) : method S A := λ s, (s, f s).
(** An assignment to a field. *)
Definition m_write {S} (f : S → S) : method S unit := λ s, (f s, Ret tt).

(** ** normalizedstring.go *)
Definition set_al (al : list (Z * Z)) (n : ns) : ns := NS (ns_orig n) (ns_norm n) al (ns_shift n).
Definition set_norm (t : list Z) (n : ns) : ns := NS (ns_orig n) t (ns_al n) (ns_shift n).

(** 157-221: what TransformRange computes before line 222; [None] if the range is not valid. The range is kept. *)
Definition tr_before (r : range) (dest : list (Z * Z)) (off : Z) (n : ns) : outcome (option (Z * Z * list Z * list (Z * Z))) :=
  let '((s, e), ok) := coerce_to_norm n r in
  if negb ok then Ret None else
  replaced ← sub (ns_norm n) s e;
  removed0 ← sub replaced 0 off;
  rest ← sub replaced off (zlen replaced);
  x ← tr_loop (ns_al n) dest (zlen removed0 + s) (runes rest);
  al_before ← sub (ns_al n) 0 s;
  al_after ← sub (ns_al n) e (zlen (ns_al n));
  Ret (Some (s, e, x.2, al_before ++ x.1 ++ al_after)).
(** 152-229 [TransformRange]: line 222 assigns the alignments, line 224 the text. *)
Definition m_transform_range (r : range) (dest : list (Z * Z)) (off : Z) : method ns unit :=
  m_bind (m_read (tr_before r dest off)) (λ x,
  match x with
  | None => m_ret tt
  | Some (s, e, written, al) =>
    m_bind (m_write (set_al al)) (λ _,
    m_bind (m_read (λ n, a ← sub (ns_norm n) 0 s; b ← sub (ns_norm n) e (zlen (ns_norm n)); Ret (a ++ written ++ b))) (λ t,
    m_write (set_norm t)))
  end).
(** 235-237 [Transform]. *)
Definition m_transform (dest : list (Z * Z)) (off : Z) : method ns unit := λ n,
  m_transform_range (NRange 0 (ns_len n)) dest off n.
(** 432-452 [Prepend], 457-476 [Append]. *)
Definition m_prepend (s : list Z) : method ns unit := λ n,
  if zlen (ns_norm n) =? 0 then m_ret tt n else
  m_bind (m_read (λ n, idx (runes (ns_norm n)) 0)) (λ firstRune,
  m_transform_range (NRange 0 (rune_len firstRune)) (prepend_changes s ++ [(firstRune, 1)]) 0) n.
Definition m_append (s : list Z) : method ns unit := λ n,
  if zlen (ns_norm n) =? 0 then m_ret tt n else
  let rs := runes (ns_norm n) in
  m_bind (m_read (λ _, idx rs (zlen rs - 1))) (λ lastRune,
  m_transform_range (NRange (zlen rs - 1) (ns_len n)) ((lastRune, 0) :: map (λ r, (r, 1)) (runes s)) 0) n.
(** 674-709 [Filter], 712-721 [Map], 784-816 [TrimLeftRight]. *)
Definition m_filter (keep : Z → bool) : method ns unit := λ n,
  let x := filter_loop keep (runes (ns_norm n)) None 0 0 in m_transform x.1 x.2 n.
Definition m_map (f : Z → Z) : method ns unit := λ n, m_transform (map (λ r, (f r, 0)) (runes (ns_norm n))) 0 n.
Definition m_trim (left right : bool) : method ns unit := λ n,
  let rs := runes (ns_norm n) in
  let leadingSpaces := if left then count_leading rs else 0 in
  let trailingSpaces := if right && (leadingSpaces <? zlen rs) then count_trailing rs else 0 in
  if (leadingSpaces =? 0) && (trailingSpaces =? 0) then m_ret tt n else
  m_transform (trim_changes rs 0 leadingSpaces (zlen rs - trailingSpaces - 1) trailingSpaces) leadingSpaces n.
(** 607-633: the loop of [Replace]. *)
Fixpoint m_replace_loop (cs : list capture) (content : list Z) (offset : Z) : method ns unit :=
  match cs with
  | [] => m_ret tt
  | c :: cs' =>
    if negb (c_match c) then m_replace_loop cs' content offset else
    let rStart := Z.max 0 (c_start c + offset) in
    let rEnd := Z.max 0 (c_end c + offset) in
    m_bind (m_read (λ n, matched ← sub (ns_norm n) rStart rEnd; Ret (zlen (runes matched)))) (λ removedRunes,
    m_bind (m_transform_range (NRange rStart rEnd) (map (λ r, (r, 1)) (runes content)) removedRunes) (λ _,
    m_replace_loop cs' content (offset + (zlen content - (c_end c - c_start c)))))
  end.
(** 597-636 [Replace]. *)
Definition m_replace (p : pattern) (content : list Z) : method ns (option err) :=
  m_bind (m_read (λ n, p (ns_norm n))) (λ captures,
  match captures with
  | Err e => m_ret (Some e)
  | Ok cs => m_bind (m_replace_loop cs content 0) (λ _, m_ret None)
  end).

(** ** normalizers *)
Definition m_normalizer : Type := method ns (option err).
Definition m_no_error (m : method ns unit) : m_normalizer := m_bind m (λ _, m_ret None).
Definition m_lowercase (u : unicode) : m_normalizer := m_no_error (m_map (u_lower u)).
Definition m_strip (left right : bool) : m_normalizer := m_no_error (m_trim left right).
(** sequencenormalizer.go:29-37. *)
Fixpoint m_sequence (l : list m_normalizer) : m_normalizer :=
  match l with
  | [] => m_ret None
  | f :: l' => m_bind f (λ e, match e with Some er => m_ret (Some er) | None => m_sequence l' end)
  end.
(** bertnormalizer.go:49-63 [Normalize], 67-77, 128-143, 147-152. *)
Definition m_clean_text (u : unicode) : method ns unit :=
  m_bind (m_filter (λ r, negb ((r =? 0) || (r =? rune_error) || is_control u r))) (λ _,
  m_map (λ r, if is_whitespace r then 32 else r)).
Definition m_handle_chinese : method ns unit := λ n, m_transform (chinese_changes (runes (ns_norm n))) 0 n.
Definition m_bert (u : unicode) (o : bert_options) : m_normalizer :=
  m_bind (if bo_clean o then m_clean_text u else m_ret tt) (λ _,
  m_bind (if bo_chinese o then m_handle_chinese else m_ret tt) (λ _,
  m_bind (if bo_accents o then m_filter (λ r, negb (u_mn u r)) else m_ret tt) (λ _,
  m_bind (if bo_lower o then m_map (u_lower u) else m_ret tt) (λ _, m_ret None)))).

(** ** pretokenizedstring.go
    A function given to Split, Normalize or Tokenize also leaves its own state behind. *)
Definition m_func (St A : Type) : Type := St → ns → St * ns * outcome A.

(** 67-84: the loop of [Split]: the state, the old splits as they are now, the new ones. *)
Fixpoint m_split_loop {St} (f : St → Z → ns → St * ns * outcome (result (list psplit))) (st : St) (index : Z) (splits : list psplit)
    : St * list psplit * outcome (result (list psplit)) :=
  match splits with
  | [] => (st, [], Ret (Ok []))
  | sp :: splits' =>
    match sp_tokens sp with
    | Some _ =>
      let '(st', old, new) := m_split_loop f st (index + 1) splits' in
      (st', sp :: old, r ← new; Ret (match r with Ok l => Ok (sp :: l) | Err e => Err e end))
    | None =>
      let '(st1, n', r) := f st index (sp_ns sp) in
      let sp' := PSplit n' None in
      match r with
      | Panic => (st1, sp' :: splits', Panic)
      | Ret (Err e) => (st1, sp' :: splits', Ret (Err e))
      | Ret (Ok items) =>
        let '(st', old, new) := m_split_loop f st1 (index + 1) splits' in
        (st', sp' :: old,
         r ← new; Ret (match r with Ok l => Ok (filter (λ i, negb (ns_is_empty (sp_ns i))) items ++ l) | Err e => Err e end))
      end
    end
  end.
(** 63-88 [Split]: line 86 is the only assignment. *)
Definition m_pts_split {St} (f : St → Z → ns → St * ns * outcome (result (list psplit))) (st : St) (p : pts) : St * pts * outcome (option err) :=
  let '(st', old, new) := m_split_loop f st 0 (p_splits p) in
  match new with
  | Ret (Ok l) => (st', Pts (p_original p) l, Ret None)
  | Ret (Err e) => (st', Pts (p_original p) old, Ret (Some e))
  | Panic => (st', Pts (p_original p) old, Panic)
  end.

(** 92-105 [Normalize]. *)
Fixpoint m_normalize_loop {St} (f : m_func St (option err)) (st : St) (splits : list psplit) : St * list psplit * outcome (option err) :=
  match splits with
  | [] => (st, [], Ret None)
  | sp :: splits' =>
    match sp_tokens sp with
    | Some _ => let '(st', l, e) := m_normalize_loop f st splits' in (st', sp :: l, e)
    | None =>
      let '(st1, n', e) := f st (sp_ns sp) in
      match e with
      | Ret None => let '(st', l, e') := m_normalize_loop f st1 splits' in (st', PSplit n' None :: l, e')
      | _ => (st1, PSplit n' None :: splits', e)
      end
    end
  end.
Definition m_pts_normalize {St} (f : m_func St (option err)) (st : St) (p : pts) : St * pts * outcome (option err) :=
  let '(st', l, e) := m_normalize_loop f st (p_splits p) in (st', Pts (p_original p) l, e).

(** 109-123 [Tokenize]: line 120 assigns the tokens of one split. *)
Fixpoint m_tokenize_loop {St} (f : m_func St (result (list token))) (st : St) (splits : list psplit) : St * list psplit * outcome (option err) :=
  match splits with
  | [] => (st, [], Ret None)
  | sp :: splits' =>
    match sp_tokens sp with
    | Some _ => let '(st', l, e) := m_tokenize_loop f st splits' in (st', sp :: l, e)
    | None =>
      let '(st1, n', r) := f st (sp_ns sp) in
      match r with
      | Ret (Ok ts) => let '(st', l, e') := m_tokenize_loop f st1 splits' in (st', PSplit n' (Some ts) :: l, e')
      | Ret (Err e) => (st1, PSplit n' None :: splits', Ret (Some e))
      | Panic => (st1, PSplit n' None :: splits', Panic)
      end
    end
  end.
Definition m_pts_tokenize {St} (f : m_func St (result (list token))) (st : St) (p : pts) : St * pts * outcome (option err) :=
  let '(st', l, e) := m_tokenize_loop f st (p_splits p) in (st', Pts (p_original p) l, e).

(** ** pretokenizers: the split functions that change the string they are given.
    metaspacepretokenizer.go:60-73, bytelevelpretokenizer.go:72-81. *)
Definition m_split_by (p : pattern) (b : behaviour) : method ns (result (list psplit)) :=
  m_read (λ n, r ← split n p b; Ret (match r with Ok l => Ok (splits_from_ns l) | Err e => Err e end)).
Definition m_metaspace_split (replacement : Z) (prefixSpace : bool) : method ns (result (list psplit)) :=
  let strReplacement := encode_rune replacement in
  m_bind (λ n, (if prefixSpace && negb (starts_with (ns_norm n) strReplacement) then m_prepend strReplacement else m_ret tt) n) (λ _,
  m_bind (m_replace (rune_pattern 32) strReplacement) (λ e,
  match e with
  | Some er => m_ret (Err er)
  | None => m_split_by (rune_pattern replacement) MergedWithNext
  end)).
Definition m_byte_level_split (engine : engine2) (prefixSpace : bool) : method ns (result (list psplit)) :=
  m_bind (λ n, (if prefixSpace && negb (starts_with_whitespace (ns_norm n)) then m_prepend [32] else m_ret tt) n) (λ _,
  m_split_by (regexp2_pattern engine) Isolated).
(** bytelevelpretokenizer.go:87-109: the normalization function. *)
Definition m_byte_level_normalize : method ns unit :=
  m_bind (m_read (λ n, byte_changes (ns_norm n) (runes (ns_norm n)) 0)) (λ changes, m_transform changes 0).

(** [PreTokenize] of these two; the receiver is the pre-tokenized string.
    metaspacepretokenizer.go:57-75, bytelevelpretokenizer.go:67-110. *)
Definition m_pretokenizer : Type := method pts (option err).
Definition m_run_split (f : method ns (result (list psplit))) : m_pretokenizer := λ p,
  let '(_, p', e) := m_pts_split (λ (_ : unit) _ n, (tt, (f n).1, (f n).2)) tt p in (p', e).
Definition m_run_normalize (f : m_normalizer) : m_pretokenizer := λ p,
  let '(_, p', e) := m_pts_normalize (λ (_ : unit) n, (tt, (f n).1, (f n).2)) tt p in (p', e).
Definition m_metaspace (replacement : Z) (prefixSpace : bool) : m_pretokenizer := m_run_split (m_metaspace_split replacement prefixSpace).
Definition m_byte_level (engine : engine2) (prefixSpace : bool) : m_pretokenizer :=
  m_bind (m_run_split (m_byte_level_split engine prefixSpace)) (λ e,
  match e with
  | Some er => m_ret (Some er)
  | None => m_run_normalize (m_no_error m_byte_level_normalize)
  end).
