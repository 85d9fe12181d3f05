(** Model of /repo/models/bpemodel/{word,bpemodel,wordcache}.go and /repo/models/models.go *)
From Verif Require Import GoBase Strutils Vocab MergeMap Heap.
From Coq Require Import QArith.
#[global] Open Scope Z_scope.

(** models.go:16-20 [Token]. *)
Record token : Type := Token { t_id : Z; t_value : list Z; t_offsets : offsets }.

(** word.go:13-31 [Symbol], [WordSymbol] (flattened). *)
Record wsym : Type := WSym { ws_id : Z; ws_len : Z; ws_prev : Z; ws_next : Z }.

(** word.go:51 [Word]. The elements are pointers in Go; a Word never holds a pointer twice, so
    updates through them are updates of the list. *)
Notation word := (list wsym).

(** word.go:74-87 [Add]. *)
Definition word_add (w : word) (symbolID byteLen : Z) : word :=
  let prev := zlen w - 1 in
  let w' := if negb (prev =? -1)
            then alter (λ s, WSym (ws_id s) (ws_len s) (ws_prev s) (zlen w)) (Z.to_nat prev) w
            else w in
  w' ++ [WSym symbolID byteLen prev (-1)].

(** Assignment to an element of the Word. *)
Definition upd (w : word) (i : Z) (f : wsym → wsym) : outcome word :=
  _x ← idx w i; Ret (alter f (Z.to_nat i) w).

(** word.go:94-99: the first fill of the queue; [i] is the index of the head of [syms]. *)
Fixpoint initial_queue (merges : merge_map) (i : Z) (syms : word) (q : list word_merge)
    : outcome (list word_merge) :=
  match syms with
  | a :: ((b :: _) as rest) =>
    q' ← (match mm_get merges (ws_id a) (ws_id b) with
          | Some m => heap_push q (WordMerge (mv_rank m) (mv_id m) i)
          | None => Ret q
          end);
    initial_queue merges (i + 1) rest q'
  | _ => Ret q
  end.

(** State of the main loop of [MergeAll]: the word, the queue, the skipped entries, and how many
    random numbers have been drawn. *)
Record mstate : Type := MState { m_w : word; m_q : list word_merge; m_skip : list word_merge; m_draws : nat }.

(** word.go:134-154: queue the pairs that the merged symbol at [pos] forms with its neighbours. *)
Definition push_neighbours (merges : merge_map) (w : word) (pos : Z) (q : list word_merge)
    : outcome (list word_merge) :=
  current ← idx w pos;
  q1 ← (if negb (ws_prev current =? -1) then
          prevSymbol ← idx w (ws_prev current);
          match mm_get merges (ws_id prevSymbol) (ws_id current) with
          | Some m => heap_push q (WordMerge (mv_rank m) (mv_id m) (ws_prev current))
          | None => Ret q
          end
        else Ret q);
  if negb (ws_next current =? -1) && (ws_next current <? zlen w) then
    nextSymbol ← idx w (ws_next current);
    match mm_get merges (ws_id current) (ws_id nextSymbol) with
    | Some m => heap_push q1 (WordMerge (mv_rank m) (mv_id m) pos)
    | None => Ret q1
    end
  else Ret q1.

(** word.go:129-137: merge the symbol at [pos] with its right neighbour at [nextPos]. *)
Definition do_merge (w : word) (pos nextPos : Z) (right : wsym) (newID : Z) : outcome word :=
  w1 ← upd w pos (λ s, WSym newID (ws_len s + ws_len right) (ws_prev s) (ws_next right));
  w2 ← upd w1 nextPos (λ s, WSym (ws_id s) 0 (ws_prev s) (ws_next s));
  if negb (ws_next right =? -1) && (ws_next right <? zlen w2)
  then upd w2 (ws_next right) (λ s, WSym (ws_id s) (ws_len s) pos (ws_next s))
  else Ret w2.

(** word.go:102-155: one iteration of the main loop, on a non-empty queue. [dropped] is the value of
    [hasDropout && rand.Float64() < dropout] in this iteration. *)
Definition merge_iter (merges : merge_map) (dropped : bool) (st : mstate) : outcome mstate :=
  x ← heap_pop (m_q st);
  let '(top, q) := x in
  if dropped then Ret (MState (m_w st) q (m_skip st ++ [top]) (m_draws st + 1)%nat) else
  q1 ← heap_push_all q (m_skip st);
  let st1 := MState (m_w st) q1 [] (m_draws st + 1)%nat in
  cur ← idx (m_w st) (wm_pos top);
  if (ws_len cur =? 0) || negb (negb (ws_next cur =? -1)) then Ret st1 else
  let nextPos := ws_next cur in
  right ← idx (m_w st) nextPos;
  match mm_get merges (ws_id cur) (ws_id right) with
  | None => Ret st1
  | Some m =>
    if negb (mv_id m =? wm_id top) then Ret st1 else
    w' ← do_merge (m_w st) (wm_pos top) nextPos right (wm_id top);
    q2 ← push_neighbours merges w' (wm_pos top) q1;
    Ret (MState w' q2 [] (m_draws st + 1)%nat)
  end.

(** word.go:102-155: the main loop. [drop k] is the outcome of the k-th drop decision. [None] is "out
    of fuel", which BpeFacts shows never to happen with the fuel of [merge_all]. *)
Fixpoint merge_loop (fuel : nat) (merges : merge_map) (drop : nat → bool) (st : mstate)
    : option (outcome mstate) :=
  match m_q st with
  | [] => Some (Ret st)
  | _ =>
    match fuel with
    | O => None
    | S fuel' =>
      match merge_iter merges (drop (m_draws st)) st with
      | Panic => Some Panic
      | Ret st' => merge_loop fuel' merges drop st'
      end
    end
  end.

(** word.go:157-164 and 167-169: drop the symbols of length 0. *)
Definition remove_empty (w : word) : word := filter (λ s, negb (ws_len s =? 0)) w.

Definition merge_fuel (w : word) : nat := let n := (4 * length w + 2)%nat in (n * n)%nat.

(** [rand.Float64()] yields numbers in [0, 1); [dropout] and the numbers drawn are float64, i.e.
    rationals. word.go:101, 105: [hasDropout && rand.Float64() < dropout]. *)
Definition dropped_at (dropout : Q) (draws : nat → Q) (k : nat) : bool :=
  negb (Qle_bool dropout 0) && negb (Qle_bool dropout (draws k)).

(** word.go:89-165 [MergeAll]; [None] is "out of fuel". *)
Definition merge_all_with (w : word) (merges : merge_map) (drop : nat → bool) : option (outcome word) :=
  match initial_queue merges 0 w [] with
  | Panic => Some Panic
  | Ret q =>
    match merge_loop (merge_fuel w) merges drop (MState w q [] 0) with
    | None => None
    | Some Panic => Some Panic
    | Some (Ret st) => Some (Ret (remove_empty (m_w st)))
    end
  end.
Definition merge_all (w : word) (merges : merge_map) (dropout : Q) (draws : nat → Q)
    : option (outcome word) :=
  merge_all_with w merges (dropped_at dropout draws).

(** bpemodel.go:19-45 [BPEModel], without the cache: wordcache.go:28-39 stores nothing and
    [Get] always returns nil. *)
Record bpe : Type := Bpe {
  b_vocab : vocab;
  b_merges : merge_map;
  b_dropout : Q;
  b_unk : list Z;
  b_prefix : list Z;
  b_suffix : list Z;
  b_fuse : bool;
}.

(** bpemodel.go:207-221. *)
Definition has_dropout (m : bpe) : bool := negb (Qle_bool (b_dropout m) 0).
Definition has_unk (m : bpe) : bool := negb (zlen (b_unk m) =? 0).
Definition has_prefix_opt (m : bpe) : bool := negb (zlen (b_prefix m) =? 0).
Definition has_suffix_opt (m : bpe) : bool := negb (zlen (b_suffix m) =? 0).

(** bpemodel.go:139-147: the term looked up for the rune [r] at index [i] of [n]. *)
Definition symbol_term (m : bpe) (i last r : Z) : list Z :=
  let s := encode_rune r in
  let s1 := if (i =? 0) && has_prefix_opt m then b_prefix m ++ s else s in
  if (i =? last) && has_suffix_opt m then s1 ++ b_suffix m else s1.

(** bpemodel.go:138-178: the loop over the runes; [unk] is the pending unknown symbol. *)
Fixpoint symbols_loop (m : bpe) (unkID : Z) (rs : list Z) (i last : Z) (unk : option (Z * Z)) (w : word)
    : word :=
  match rs with
  | [] => match unk with Some (uid, ulen) => word_add w uid ulen | None => w end
  | r :: rs' =>
    let byteLen := rune_len r in
    match get_id (b_vocab m) (symbol_term m i last r) with
    | Some id =>
      let w1 := match unk with Some (uid, ulen) => word_add w uid ulen | None => w end in
      symbols_loop m unkID rs' (i + 1) last None (word_add w1 id byteLen)
    | None =>
      if has_unk m then
        match unk with
        | Some (uid, ulen) =>
          if b_fuse m then symbols_loop m unkID rs' (i + 1) last (Some (uid, ulen + byteLen)) w
          else symbols_loop m unkID rs' (i + 1) last (Some (unkID, byteLen)) (word_add w uid ulen)
        | None => symbols_loop m unkID rs' (i + 1) last (Some (unkID, byteLen)) w
        end
      else symbols_loop m unkID rs' (i + 1) last unk w
    end
  end.

(** bpemodel.go:120-183 [mergeWord]; [None] is "out of fuel". *)
Definition merge_word (m : bpe) (s : list Z) (draws : nat → Q) : option (outcome (result word)) :=
  let go unkID :=
    let rs := runes s in
    match merge_all (symbols_loop m unkID rs 0 (zlen rs - 1) None []) (b_merges m) (b_dropout m) draws with
    | None => None
    | Some Panic => Some Panic
    | Some (Ret w) => Some (Ret (Ok w))
    end in
  if has_unk m then
    match get_id (b_vocab m) (b_unk m) with
    | None => Some (Ret (Err EUnknownTokenOutOfVocabulary))
    | Some unkID => go unkID
    end
  else go 0.

(** bpemodel.go:185-205 [wordToTokens]. *)
Fixpoint word_to_tokens (m : bpe) (w : word) (offsetStart : Z) : result (list token) :=
  match w with
  | [] => Ok []
  | s :: w' =>
    match get_string (b_vocab m) (ws_id s) with
    | None => Err (EIDNotFound (ws_id s))
    | Some value =>
      let offsetEnd := offsetStart + ws_len s in
      match word_to_tokens m w' offsetEnd with
      | Ok l => Ok (Token (ws_id s) value (Offsets offsetStart offsetEnd) :: l)
      | Err e => Err e
      end
    end
  end.

(** bpemodel.go:85-118 [Tokenize], [tokenizeWithCache] (the cache never hits); an empty input gives
    nil, the empty list. [None] is "out of fuel". *)
Definition bpe_tokenize (m : bpe) (s : list Z) (draws : nat → Q) : option (outcome (result (list token))) :=
  if zlen s =? 0 then Some (Ret (Ok []))
  else
    match merge_word m s draws with
    | None => None
    | Some Panic => Some Panic
    | Some (Ret (Err e)) => Some (Ret (Err e))
    | Some (Ret (Ok w)) => Some (Ret (word_to_tokens m w 0))
    end.

(** The same with the cache (bpemodel.go:85-118): a store with the methods of wordcache.go. *)
Record cache_impl : Type := CacheImpl {
  ca_state : Type;
  ca_get : ca_state → list Z → option word;
  ca_set : ca_state → list Z → word → ca_state;
}.
(** wordcache.go:28-39: [Set] does nothing and [Get] returns nil. *)
Definition stub_cache : cache_impl := CacheImpl unit (λ _ _, None) (λ c _ _, c).

(** bpemodel.go:85-118 [Tokenize] and [tokenizeWithCache]: the answer and the new cache. *)
Definition bpe_tokenize_cached (ci : cache_impl) (m : bpe) (s : list Z) (draws : nat → Q) (c : ca_state ci)
    : option (outcome (result (list token) * ca_state ci)) :=
  if zlen s =? 0 then Some (Ret (Ok [], c))
  else
    match (if has_dropout m then None else ca_get ci c s) with
    | Some w => Some (Ret (word_to_tokens m w 0, c))
    | None =>
      match merge_word m s draws with
      | None => None
      | Some Panic => Some Panic
      | Some (Ret (Err e)) => Some (Ret (Err e, c))
      | Some (Ret (Ok w)) =>
        let toks := word_to_tokens m w 0 in
        Some (Ret (toks, if has_dropout m then c else match toks with Ok _ => ca_set ci c s w | Err _ => c end))
      end
    end.
