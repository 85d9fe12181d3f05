(** The models of Bpe.v and WordPiece.v once more, with vocabularies and merge maps that are pointers and may be nil. *)
From Verif Require Import GoBase Strutils Vocab MergeMap Heap Bpe WordPiece.
From Coq Require Import QArith.
#[local] Open Scope Z_scope.

(** vocabulary.go:13-16: [*Vocabulary], [None] if it is nil. Every method reads a field of the receiver, so it panics on nil. *)
Notation vocab_ptr := (option vocab).
(** vocabulary.go:67-70 [GetID], 74-77 [GetString], 51-58 [AddTerm]. *)
Definition get_id_p (v : vocab_ptr) (t : list Z) : outcome (option Z) := match v with Some v => Ret (get_id v t) | None => Panic end.
Definition get_string_p (v : vocab_ptr) (i : Z) : outcome (option (list Z)) := match v with Some v => Ret (get_string v i) | None => Panic end.
Definition add_term_p (v : vocab_ptr) (t : list Z) : outcome vocab_ptr := match v with Some v => v' ← add_term v t; Ret (Some v') | None => Panic end.

(** mergemap.go:16: [*MergeMap], a pointer to a map: the pointer may be nil, and so may the map (as in [new(MergeMap)]). *)
Inductive merges_ptr : Type := NilPointer | NilMap | Merges (mm : merge_map).
(** mergemap.go:93-96 [Get]: reading a nil map finds nothing. *)
Definition mm_get_p (mm : merges_ptr) (a b : Z) : outcome (option merge_value) :=
  match mm with NilPointer => Panic | NilMap => Ret None | Merges mm => Ret (mm_get mm a b) end.
(** mergemap.go:98-100 [Set]: writing to a nil map panics. *)
Definition mm_set_p (mm : merges_ptr) (a b : Z) (x : merge_value) : outcome merges_ptr :=
  match mm with NilPointer | NilMap => Panic | Merges mm => Ret (Merges (mm_set mm a b x)) end.

(** word.go:94-99, as [initial_queue]. *)
Fixpoint initial_queue_p (merges : merges_ptr) (i : Z) (syms : word) (q : list word_merge) : outcome (list word_merge) :=
  match syms with
  | a :: ((b :: _) as rest) =>
    g ← mm_get_p merges (ws_id a) (ws_id b);
    q' ← (match g with Some m => heap_push q (WordMerge (mv_rank m) (mv_id m) i) | None => Ret q end);
    initial_queue_p merges (i + 1) rest q'
  | _ => Ret q
  end.

(** word.go:139-154, as [push_neighbours]. *)
Definition push_neighbours_p (merges : merges_ptr) (w : word) (pos : Z) (q : list word_merge) : outcome (list word_merge) :=
  current ← idx w pos;
  q1 ← (if negb (ws_prev current =? -1) then
          prevSymbol ← idx w (ws_prev current);
          g ← mm_get_p merges (ws_id prevSymbol) (ws_id current);
          match g with Some m => heap_push q (WordMerge (mv_rank m) (mv_id m) (ws_prev current)) | None => Ret q end
        else Ret q);
  if negb (ws_next current =? -1) && (ws_next current <? zlen w) then
    nextSymbol ← idx w (ws_next current);
    g ← mm_get_p merges (ws_id current) (ws_id nextSymbol);
    match g with Some m => heap_push q1 (WordMerge (mv_rank m) (mv_id m) pos) | None => Ret q1 end
  else Ret q1.

(** word.go:102-155, as [merge_iter] and [merge_loop]. *)
Definition merge_iter_p (merges : merges_ptr) (dropped : bool) (st : mstate) : outcome mstate :=
  x ← heap_pop (m_q st);
  let '(top, q) := x in
  if dropped then Ret (MState (m_w st) q (m_skip st ++ [top]) (m_draws st + 1)%nat) else
  q1 ← heap_push_all q (m_skip st);
  let st1 := MState (m_w st) q1 [] (m_draws st + 1)%nat in
  cur ← idx (m_w st) (wm_pos top);
  if (ws_len cur =? 0) || negb (negb (ws_next cur =? -1)) then Ret st1 else
  let nextPos := ws_next cur in
  right ← idx (m_w st) nextPos;
  g ← mm_get_p merges (ws_id cur) (ws_id right);
  match g with
  | None => Ret st1
  | Some m =>
    if negb (mv_id m =? wm_id top) then Ret st1 else
    w' ← do_merge (m_w st) (wm_pos top) nextPos right (wm_id top);
    q2 ← push_neighbours_p merges w' (wm_pos top) q1;
    Ret (MState w' q2 [] (m_draws st + 1)%nat)
  end.
Fixpoint merge_loop_p (fuel : nat) (merges : merges_ptr) (drop : nat → bool) (st : mstate) : option (outcome mstate) :=
  match m_q st with
  | [] => Some (Ret st)
  | _ =>
    match fuel with
    | O => None
    | S fuel' =>
      match merge_iter_p merges (drop (m_draws st)) st with
      | Panic => Some Panic
      | Ret st' => merge_loop_p fuel' merges drop st'
      end
    end
  end.
(** word.go:89-165 [MergeAll]. *)
Definition merge_all_p (w : word) (merges : merges_ptr) (dropout : Q) (draws : nat → Q) : option (outcome word) :=
  match initial_queue_p merges 0 w [] with
  | Panic => Some Panic
  | Ret q =>
    match merge_loop_p (merge_fuel w) merges (dropped_at dropout draws) (MState w q [] 0) with
    | None => None
    | Some Panic => Some Panic
    | Some (Ret st) => Some (Ret (remove_empty (m_w st)))
    end
  end.

(** bpemodel.go:19-69 [BPEModel] and [New], which stores the pointers as they are: [p_opts] has the other options; its vocabulary and merges are not read. *)
Record bpe_p : Type := BpeP { p_vocab : vocab_ptr; p_merges : merges_ptr; p_opts : bpe }.

(** bpemodel.go:138-178, as [symbols_loop]. *)
Fixpoint symbols_loop_p (m : bpe_p) (unkID : Z) (rs : list Z) (i last : Z) (unk : option (Z * Z)) (w : word) : outcome word :=
  match rs with
  | [] => Ret (match unk with Some (uid, ulen) => word_add w uid ulen | None => w end)
  | r :: rs' =>
    let byteLen := rune_len r in
    g ← get_id_p (p_vocab m) (symbol_term (p_opts m) i last r);
    match g with
    | Some id =>
      let w1 := match unk with Some (uid, ulen) => word_add w uid ulen | None => w end in
      symbols_loop_p m unkID rs' (i + 1) last None (word_add w1 id byteLen)
    | None =>
      if has_unk (p_opts m) then
        match unk with
        | Some (uid, ulen) =>
          if b_fuse (p_opts m) then symbols_loop_p m unkID rs' (i + 1) last (Some (uid, ulen + byteLen)) w
          else symbols_loop_p m unkID rs' (i + 1) last (Some (unkID, byteLen)) (word_add w uid ulen)
        | None => symbols_loop_p m unkID rs' (i + 1) last (Some (unkID, byteLen)) w
        end
      else symbols_loop_p m unkID rs' (i + 1) last unk w
    end
  end.

(** bpemodel.go:120-183 [mergeWord]. *)
Definition merge_word_p (m : bpe_p) (s : list Z) (draws : nat → Q) : option (outcome (result word)) :=
  let go unkID :=
    let rs := runes s in
    match symbols_loop_p m unkID rs 0 (zlen rs - 1) None [] with
    | Panic => Some Panic
    | Ret w =>
      match merge_all_p w (p_merges m) (b_dropout (p_opts m)) draws with
      | None => None
      | Some Panic => Some Panic
      | Some (Ret w) => Some (Ret (Ok w))
      end
    end in
  if has_unk (p_opts m) then
    match get_id_p (p_vocab m) (b_unk (p_opts m)) with
    | Panic => Some Panic
    | Ret None => Some (Ret (Err EUnknownTokenOutOfVocabulary))
    | Ret (Some unkID) => go unkID
    end
  else go 0.

(** bpemodel.go:185-205 [wordToTokens]. *)
Fixpoint word_to_tokens_p (m : bpe_p) (w : word) (offsetStart : Z) : outcome (result (list token)) :=
  match w with
  | [] => Ret (Ok [])
  | s :: w' =>
    g ← get_string_p (p_vocab m) (ws_id s);
    match g with
    | None => Ret (Err (EIDNotFound (ws_id s)))
    | Some value =>
      let offsetEnd := offsetStart + ws_len s in
      r ← word_to_tokens_p m w' offsetEnd;
      Ret (match r with
           | Ok l => Ok (Token (ws_id s) value (Offsets offsetStart offsetEnd) :: l)
           | Err e => Err e
           end)
    end
  end.

(** bpemodel.go:85-118 [Tokenize]. *)
Definition bpe_tokenize_p (m : bpe_p) (s : list Z) (draws : nat → Q) : option (outcome (result (list token))) :=
  if zlen s =? 0 then Some (Ret (Ok []))
  else
    match merge_word_p m s draws with
    | None => None
    | Some Panic => Some Panic
    | Some (Ret (Err e)) => Some (Ret (Err e))
    | Some (Ret (Ok w)) => Some (word_to_tokens_p m w 0)
    end.

(** wordpiecemodel.go:19-28 [WordPieceModel]: [q_opts] has the other options; its vocabulary is not read. *)
Record wordpiece_p : Type := WordPieceP { q_vocab : vocab_ptr; q_opts : wordpiece }.

(** wordpiecemodel.go:77-99, as [wp_inner]. *)
Fixpoint wp_inner_p (fuel : nat) (m : wordpiece_p) (seq : list Z) (start en : Z) : option (outcome (option token)) :=
  if start <? en then
    match fuel with
    | O => None
    | S fuel' =>
      match sub seq start en with
      | Panic => Some Panic
      | Ret s =>
        let subStr := if 0 <? start then w_prefix (q_opts m) ++ s else s in
        match get_id_p (q_vocab m) subStr with
        | Panic => Some Panic
        | Ret (Some id) => Some (Ret (Some (Token id subStr (Offsets start en))))
        | Ret None =>
          if 0 <? zlen subStr then
            match idx subStr (zlen subStr - 1) with
            | Panic => Some Panic
            | Ret b => wp_inner_p fuel' m seq start (en - byte_step b)
            end
          else wp_inner_p fuel' m seq start (en - 1)
        end
      end
    end
  else Some (Ret None).
(** wordpiecemodel.go:72-108, as [wp_outer]. *)
Fixpoint wp_outer_p (fuel : nat) (m : wordpiece_p) (seq : list Z) (start : Z) : option (outcome (option (list token))) :=
  if start <? zlen seq then
    match fuel with
    | O => None
    | S fuel' =>
      match wp_inner_p (S (length seq)) m seq start (zlen seq) with
      | None => None
      | Some Panic => Some Panic
      | Some (Ret None) => Some (Ret None)
      | Some (Ret (Some t)) =>
        match wp_outer_p fuel' m seq (o_end (t_offsets t)) with
        | Some (Ret (Some l)) => Some (Ret (Some (t :: l)))
        | other => other
        end
      end
    end
  else Some (Ret (Some [])).
(** wordpiecemodel.go:57-65 and 110-120. *)
Definition wp_unknown_p (m : wordpiece_p) (seq : list Z) : outcome (result (list token)) :=
  g ← get_id_p (q_vocab m) (w_unk (q_opts m));
  Ret (match g with
       | None => Err EUnknownTokenOutOfVocabulary
       | Some id => Ok [Token id (w_unk (q_opts m)) (Offsets 0 (zlen seq))]
       end).
(** wordpiecemodel.go:55-123 [Tokenize]. *)
Definition wp_tokenize_p (m : wordpiece_p) (seq : list Z) : option (outcome (result (list token))) :=
  if w_max (q_opts m) <? zlen (runes seq) then Some (wp_unknown_p m seq)
  else
    match wp_outer_p (S (length seq)) m seq 0 with
    | None => None
    | Some Panic => Some Panic
    | Some (Ret None) => Some (wp_unknown_p m seq)
    | Some (Ret (Some l)) => Some (Ret (Ok l))
    end.

(** mergemap.go:37-89 [MergeMapFromFile] with a vocabulary that may be nil: the loop over the lines. *)
Fixpoint merges_loop_p (v : vocab_ptr) (prefixLength : Z) (lines : list (list Z)) (lineCount rank : Z) (m : merge_map) : outcome (result merge_map) :=
  match lines with
  | [] => Ret (Ok m)
  | line :: lines' =>
    if has_prefix line version_prefix then merges_loop_p v prefixLength lines' (lineCount + 1) rank m
    else
      match split_spaces line with
      | [t0; t1] =>
        g0 ← get_id_p v t0;
        match g0 with
        | None => Ret (Err (ELeftOOV lineCount))
        | Some leftID =>
          g1 ← get_id_p v t1;
          match g1 with
          | None => Ret (Err (ERightOOV lineCount))
          | Some rightID =>
            tail ← sub t1 prefixLength (zlen t1);
            g2 ← get_id_p v (t0 ++ tail);
            match g2 with
            | None => Ret (Err (EMergedOOV lineCount))
            | Some mergedID =>
              merges_loop_p v prefixLength lines' (lineCount + 1) (rank + 1) (mm_set m leftID rightID (MergeValue rank mergedID))
            end
          end
        end
      | _ => Ret (Err (EMalformedMerges lineCount))
      end
  end.
Definition merge_map_from_file_p (file : list Z) (v : vocab_ptr) (prefixLength : Z) : outcome (result merge_map) :=
  let '(lines, long) := scan_lines file in
  r ← merges_loop_p v prefixLength lines 1 0 ∅;
  Ret (match r with Ok m => if long then Err ELineTooLong else Ok m | Err e => Err e end).
