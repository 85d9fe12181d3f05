(** Specification vocabulary for the merge queue and byte pair encoding. *)
From stdpp Require Import relations.
From Coq Require Import QArith.
From Verif Require Import GoBase Strutils Vocab MergeMap Heap Bpe.

#[local] Open Scope Z_scope.

(** Programs for a priority queue. *)
Inductive pq_op : Type := Push (x : word_merge) | Pop.

(** Running one on the heap: the entries popped, in order, and the final heap. *)
Fixpoint heap_run (h : list word_merge) (ops : list pq_op) : outcome (list word_merge * list word_merge) :=
  match ops with
  | [] => Ret ([], h)
  | Push x :: ops' => h' ← heap_push h x; heap_run h' ops'
  | Pop :: ops' =>
    r ← heap_pop h;
    r' ← heap_run r.2 ops';
    Ret (r.1 :: r'.1, r'.2)
  end.

(** The order by rank, then by position. *)
Definition before (a b : word_merge) : Prop :=
  wm_rank a < wm_rank b ∨ (wm_rank a = wm_rank b ∧ wm_pos a < wm_pos b).

(** What a priority queue holding the entries [s] may do. *)
Inductive pq_run : list word_merge → list pq_op → list word_merge → list word_merge → Prop :=
| pq_nil s : pq_run s [] [] s
| pq_push s x ops out s' : pq_run (x :: s) ops out s' → pq_run s (Push x :: ops) out s'
| pq_pop s x s1 ops out s' :
    s ≡ₚ x :: s1 → (∀ y, y ∈ s1 → ¬ before y x) → pq_run s1 ops out s' → pq_run s (Pop :: ops) (x :: out) s'.

(** No Pop on an empty queue, starting with [n] entries. *)
Fixpoint pops_fit (n : nat) (ops : list pq_op) : bool :=
  match ops, n with
  | [], _ => true
  | Push _ :: ops', _ => pops_fit (S n) ops'
  | Pop :: ops', S n' => pops_fit n' ops'
  | Pop :: _, O => false
  end.

(** A symbol is an ID with a length in bytes. *)
Notation sym := (Z * Z)%type (only parsing).

(** The word that Add makes of some symbols. *)
Definition word_of (ss : list sym) : word := foldl (λ w s, word_add w s.1 s.2) [] ss.
(** The symbols of a word. *)
Definition word_syms (w : word) : list sym := map (λ s, (ws_id s, ws_len s)) w.

(** Merging one adjacent pair that has a merge, anywhere. *)
Inductive merge_step (mm : merge_map) : list sym → list sym → Prop :=
| merge_step_intro l a la b lb r m :
    mm !! (a, b) = Some m → merge_step mm (l ++ (a, la) :: (b, lb) :: r) (l ++ (mv_id m, la + lb) :: r).

(** At index [k] is a pair with the merge [m]. *)
Definition pair_at (mm : merge_map) (ss : list sym) (k : nat) (m : merge_value) : Prop :=
  ∃ l a la b lb r, ss = l ++ (a, la) :: (b, lb) :: r ∧ length l = k ∧ mm !! (a, b) = Some m.
(** The textbook step: merge the leftmost of the adjacent pairs of lowest rank. *)
Inductive bpe_step (mm : merge_map) : list sym → list sym → Prop :=
| bpe_step_intro l a la b lb r m :
    mm !! (a, b) = Some m →
    (∀ k m', pair_at mm (l ++ (a, la) :: (b, lb) :: r) k m' →
       mv_rank m < mv_rank m' ∨ (mv_rank m = mv_rank m' ∧ (length l <= k)%nat)) →
    bpe_step mm (l ++ (a, la) :: (b, lb) :: r) (l ++ (mv_id m, la + lb) :: r).
(** No adjacent pair has a merge. *)
Definition saturated (mm : merge_map) (ss : list sym) : Prop := ∀ k m, ¬ pair_at mm ss k m.

(** Merging concatenates: IDs have sizes that add up. *)
Definition additive (mm : merge_map) (size : Z → Z) : Prop :=
  ∀ a b m, mm !! (a, b) = Some m → 0 < size a → 0 < size b → size (mv_id m) = size a + size b.

(** The number of bytes of some symbols. *)
Definition sym_bytes (ss : list sym) : Z := foldr (λ s n, s.2 + n) 0 ss.

(** * Tokenize *)

(** What is looked up for each character: the first one with the prefix, the last one with the suffix. *)
Definition char_terms (pre suf : list Z) (rs : list Z) : list (list Z) :=
  imap (λ i r, (if decide (i = 0%nat) then pre else []) ++ encode_rune r
               ++ (if decide (S i = length rs) then suf else [])) rs.

(** Each character as its ID, if known, and its length in bytes. *)
Definition char_classes (m : bpe) (rs : list Z) : list (option Z * Z) :=
  zip_with (λ t r, (get_id (b_vocab m) t, rune_len r)) (char_terms (b_prefix m) (b_suffix m) rs) rs.

(** The symbols for characters: known ones on their own; unknown ones left out if there is no unknown
    token, else one symbol for each, or, if they are fused, for each maximal run of them. *)
Inductive group_syms (fuse : bool) (unk : option Z) : list (option Z * Z) → list sym → Prop :=
| gs_nil : group_syms fuse unk [] []
| gs_known i n cs ss : group_syms fuse unk cs ss → group_syms fuse unk ((Some i, n) :: cs) ((i, n) :: ss)
| gs_dropped n cs ss : unk = None → group_syms fuse unk cs ss → group_syms fuse unk ((None, n) :: cs) ss
| gs_unknown u n cs ss :
    unk = Some u → fuse = false → group_syms fuse unk cs ss → group_syms fuse unk ((None, n) :: cs) ((u, n) :: ss)
| gs_fused u ns cs ss :
    unk = Some u → fuse = true → ns ≠ [] → (∀ n cs', cs ≠ (None, n) :: cs') → group_syms fuse unk cs ss →
    group_syms fuse unk (map (pair None) ns ++ cs) ((u, foldr Z.add 0 ns) :: ss).

(** The tokens of symbols that start at byte [o]. *)
Inductive toks_of (v : vocab) : Z → list sym → list token → Prop :=
| to_nil o : toks_of v o [] []
| to_cons o i n x ss ts :
    get_string v i = Some x → toks_of v (o + n) ss ts →
    toks_of v o ((i, n) :: ss) (Token i x (Offsets o (o + n)) :: ts).

(** Token offsets that follow each other from [i] to [len] without gaps; none is empty. *)
Fixpoint toks_tile (i : Z) (ts : list token) (len : Z) : Prop :=
  match ts with
  | [] => i = len
  | t :: ts' => o_start (t_offsets t) = i ∧ i < o_end (t_offsets t) ∧ toks_tile (o_end (t_offsets t)) ts' len
  end.

(** The same token, [d] bytes further. *)
Definition move_tok (d : Z) (t : token) : token :=
  Token (t_id t) (t_value t) (Offsets (o_start (t_offsets t) + d) (o_end (t_offsets t) + d)).

(** The answer for given symbols: their tokens, or the first ID without a term. *)
Definition answer (m : bpe) (ts : list (Z * Z)) (res : result (list token)) : Prop :=
  match res with
  | Ok toks => toks_of (b_vocab m) 0 ts toks
  | Err e => ∃ a s b, ts = a ++ s :: b ∧ Forall (λ s, is_Some (get_string (b_vocab m) s.1)) a
                ∧ get_string (b_vocab m) s.1 = None ∧ e = EIDNotFound s.1
  end.

(** The ID of the unknown token, if one is configured. *)
Definition unk_id (m : bpe) : option Z := if decide (b_unk m = []) then None else get_id (b_vocab m) (b_unk m).

(** A cache that returns only what was stored under the same key; it may forget anything. *)
Definition cache_sound (ci : cache_impl) : Prop :=
  ∀ c k w k' w', ca_get ci (ca_set ci c k w) k' = Some w' → (k' = k ∧ w' = w) ∨ ca_get ci c k' = Some w'.
(** The cache after some calls of Tokenize. *)
Fixpoint after_calls (ci : cache_impl) (m : bpe) (calls : list (list Z * (nat → Q))) (c : ca_state ci) : ca_state ci :=
  match calls with
  | [] => c
  | (s, draws) :: calls' =>
    match bpe_tokenize_cached ci m s draws c with
    | Some (Ret (_, c')) => after_calls ci m calls' c'
    | _ => c
    end
  end.
