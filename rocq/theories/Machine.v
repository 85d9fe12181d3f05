(** Model of the same functions of /repo/models/bpemodel and of TransformRange with Go's [int] of 32 or 64 bits: every sum and
    every negation of numbers that are not bounded by the length of a slice wraps around. Indexes into slices are left as
    they are (a slice has no more elements than there are non-negative ints). Line numbers as in Bpe.v and NormString.v. *)
From Coq Require Import QArith.
From Verif Require Import GoBase Strutils Vocab MergeMap Heap Bpe NormString.
Import GoBase.
#[local] Open Scope Z_scope.

(** The result of an operation on [int]: two's complement. [h] is half the number of ints: 2^31 or 2^63. *)
Definition wrap (h z : Z) : Z := (z + h) `mod` (2 * h) - h.

(** word.go:33-37 and 129-137. *)
Definition do_merge_int (h : Z) (w : word) (pos nextPos : Z) (right : wsym) (newID : Z) : outcome word :=
  w1 ← upd w pos (λ s, WSym newID (wrap h (ws_len s + ws_len right)) (ws_prev s) (ws_next right));
  w2 ← upd w1 nextPos (λ s, WSym (ws_id s) 0 (ws_prev s) (ws_next s));
  if negb (ws_next right =? -1) && (ws_next right <? zlen w2)
  then upd w2 (ws_next right) (λ s, WSym (ws_id s) (ws_len s) pos (ws_next s))
  else Ret w2.

(** word.go:102-155. *)
Definition merge_iter_int (h : Z) (merges : merge_map) (dropped : bool) (st : mstate) : outcome mstate :=
  x ← heap_pop (m_q st);
  let '(top, q) := x in
  if dropped then Ret (MState (m_w st) q (m_skip st ++ [top]) (m_draws st + 1)%nat) else
  q1 ← heap_push_all q (m_skip st);
  let st1 := MState (m_w st) q1 [] (m_draws st + 1)%nat in
  cur ← idx (m_w st) (wm_pos top);
  if (ws_len cur =? 0) || negb (negb (ws_next cur =? -1)) then Ret st1 else
  let nextPos := ws_next cur in
  right ← idx (m_w st) nextPos;
  match mm_get merges (ws_id cur) (ws_id right) with
  | None => Ret st1
  | Some m =>
    if negb (mv_id m =? wm_id top) then Ret st1 else
    w' ← do_merge_int h (m_w st) (wm_pos top) nextPos right (wm_id top);
    q2 ← push_neighbours merges w' (wm_pos top) q1;
    Ret (MState w' q2 [] (m_draws st + 1)%nat)
  end.

Fixpoint merge_loop_int (h : Z) (fuel : nat) (merges : merge_map) (drop : nat → bool) (st : mstate)
    : option (outcome mstate) :=
  match m_q st with
  | [] => Some (Ret st)
  | _ =>
    match fuel with
    | O => None
    | S fuel' =>
      match merge_iter_int h merges (drop (m_draws st)) st with
      | Panic => Some Panic
      | Ret st' => merge_loop_int h fuel' merges drop st'
      end
    end
  end.

(** word.go:89-165 [MergeAll]; [None] is "out of fuel". *)
Definition merge_all_int (h : Z) (w : word) (merges : merge_map) (drop : nat → bool) : option (outcome word) :=
  match initial_queue merges 0 w [] with
  | Panic => Some Panic
  | Ret q =>
    match merge_loop_int h (merge_fuel w) merges drop (MState w q [] 0) with
    | None => None
    | Some Panic => Some Panic
    | Some (Ret st) => Some (Ret (remove_empty (m_w st)))
    end
  end.

(** bpemodel.go:138-178. *)
Fixpoint symbols_loop_int (h : Z) (m : bpe) (unkID : Z) (rs : list Z) (i last : Z) (unk : option (Z * Z)) (w : word)
    : word :=
  match rs with
  | [] => match unk with Some (uid, ulen) => word_add w uid ulen | None => w end
  | r :: rs' =>
    let byteLen := rune_len r in
    match get_id (b_vocab m) (symbol_term m i last r) with
    | Some id =>
      let w1 := match unk with Some (uid, ulen) => word_add w uid ulen | None => w end in
      symbols_loop_int h m unkID rs' (i + 1) last None (word_add w1 id byteLen)
    | None =>
      if has_unk m then
        match unk with
        | Some (uid, ulen) =>
          if b_fuse m then symbols_loop_int h m unkID rs' (i + 1) last (Some (uid, wrap h (ulen + byteLen))) w
          else symbols_loop_int h m unkID rs' (i + 1) last (Some (unkID, byteLen)) (word_add w uid ulen)
        | None => symbols_loop_int h m unkID rs' (i + 1) last (Some (unkID, byteLen)) w
        end
      else symbols_loop_int h m unkID rs' (i + 1) last unk w
    end
  end.

(** bpemodel.go:120-183 [mergeWord]. *)
Definition merge_word_int (h : Z) (m : bpe) (s : list Z) (draws : nat → Q) : option (outcome (result word)) :=
  let go unkID :=
    let rs := runes s in
    match merge_all_int h (symbols_loop_int h m unkID rs 0 (zlen rs - 1) None []) (b_merges m) (dropped_at (b_dropout m) draws) with
    | None => None
    | Some Panic => Some Panic
    | Some (Ret w) => Some (Ret (Ok w))
    end in
  if has_unk m then
    match get_id (b_vocab m) (b_unk m) with
    | None => Some (Ret (Err EUnknownTokenOutOfVocabulary))
    | Some unkID => go unkID
    end
  else go 0.

(** bpemodel.go:185-205 [wordToTokens]. *)
Fixpoint word_to_tokens_int (h : Z) (m : bpe) (w : word) (offsetStart : Z) : result (list token) :=
  match w with
  | [] => Ok []
  | s :: w' =>
    match get_string (b_vocab m) (ws_id s) with
    | None => Err (EIDNotFound (ws_id s))
    | Some value =>
      let offsetEnd := wrap h (offsetStart + ws_len s) in
      match word_to_tokens_int h m w' offsetEnd with
      | Ok l => Ok (Token (ws_id s) value (Offsets offsetStart offsetEnd) :: l)
      | Err e => Err e
      end
    end
  end.

(** bpemodel.go:85-118 [Tokenize]. *)
Definition bpe_tokenize_int (h : Z) (m : bpe) (s : list Z) (draws : nat → Q) : option (outcome (result (list token))) :=
  if zlen s =? 0 then Some (Ret (Ok []))
  else
    match merge_word_int h m s draws with
    | None => None
    | Some Panic => Some Panic
    | Some (Ret (Err e)) => Some (Ret (Err e))
    | Some (Ret (Ok w)) => Some (Ret (word_to_tokens_int h m w 0))
    end.

(** normalizedstring.go:174-212. *)
Fixpoint tr_loop_int (h : Z) (al : list (Z * Z)) (dest : list (Z * Z)) (offset : Z) (rs : list Z)
    : outcome (list (Z * Z) * list Z) :=
  match dest with
  | [] => Ret ([], [])
  | (r, change) :: dest' =>
    a ← (if 1 <=? change
         then if offset <? 1 then Ret (0, 0) else idx al (wrap h (offset - 1))
         else idx al offset);
    x ← (if change <=? 0
         then match rs with
              | [] => Panic
              | replaced :: rs' => Ret (rune_len replaced, rs')
              end
         else Ret (0, rs));
    let '(size, rs1) := x in
    y ← (if change <=? -1
         then removed ← sub rs1 0 (wrap h (- change));
              rest ← sub rs1 (wrap h (- change)) (zlen rs1);
              Ret (zlen (encode removed), rest)
         else Ret (0, rs1));
    let '(total, rs2) := y in
    z ← tr_loop_int h al dest' (wrap h (wrap h (offset + size) + total)) rs2;
    Ret (repeat a (length (encode_rune r)) ++ z.1, encode_rune r ++ z.2)
  end.

(** normalizedstring.go:152-229 [TransformRange]. *)
Definition transform_range_int (h : Z) (n : ns) (r : range) (dest : list (Z * Z)) (initialOffset : Z) : outcome ns :=
  let '((s, e), ok) := coerce_to_norm n r in
  if negb ok then Ret n else
  replaced ← sub (ns_norm n) s e;
  removed0 ← sub replaced 0 initialOffset;
  rest ← sub replaced initialOffset (zlen replaced);
  x ← tr_loop_int h (ns_al n) dest (wrap h (zlen removed0 + s)) (runes rest);
  al_before ← sub (ns_al n) 0 s;
  al_after ← sub (ns_al n) e (zlen (ns_al n));
  norm_before ← sub (ns_norm n) 0 s;
  norm_after ← sub (ns_norm n) e (zlen (ns_norm n));
  Ret (NS (ns_orig n) (norm_before ++ x.2 ++ norm_after) (al_before ++ x.1 ++ al_after) (ns_shift n)).
