(** Model of several goroutines calling [Tokenize] of one BPEModel at once: bpemodel.go:85-183, word.go:89-165, cut into the
    steps between which another goroutine may run. What they share: the cache (its methods are taken to be atomic, those of
    wordcache.go touch nothing), the numbers of math/rand (one sequence; rand.Float64 is atomic), and the vocabulary and the
    merges, which nobody writes. Words and tokens belong to one call, or are in the cache, and then only read. *)
From Verif Require Import GoBase Strutils Vocab MergeMap Heap Bpe.
From Coq Require Import QArith.
Import GoBase.
#[local] Open Scope Z_scope.

(** Where a call is: not begun; in front of word.go:102, the test of the loop; in front of bpemodel.go:116, [cache.Set];
    returned; panicked. *)
Inductive phase : Type :=
| Begin
| Looping (st : mstate)
| Storing (w : word) (ts : list token)
| Answered (r : result (list token))
| Crashed.
(** A call, and the numbers of the random source it has taken. *)
Record call : Type := Call { cl_text : list Z; cl_phase : phase; cl_taken : list nat }.
(** The cache, and how many random numbers have been taken. *)
Record shared (ci : cache_impl) : Type := Shared { sh_cache : ca_state ci; sh_next : nat }.
Arguments Shared {_} _ _. Arguments sh_cache {_} _. Arguments sh_next {_} _.

(** bpemodel.go:120-178: [mergeWord] up to [MergeAll]. *)
Definition first_word (m : bpe) (s : list Z) : result word :=
  let go unkID := let rs := runes s in Ok (symbols_loop m unkID rs 0 (zlen rs - 1) None []) in
  if has_unk m then
    match get_id (b_vocab m) (b_unk m) with
    | None => Err EUnknownTokenOutOfVocabulary
    | Some unkID => go unkID
    end
  else go 0.

(** One step of a call; [None]: it has ended. [source] is the sequence of random numbers. *)
Definition call_step (ci : cache_impl) (m : bpe) (source : nat → Q) (c : call) (sh : shared ci) : option (call * shared ci) :=
  let s := cl_text c in
  let to ph := Call s ph (cl_taken c) in
  match cl_phase c with
  | Begin => Some (
    (* bpemodel.go:86-92, 106-109 *)
    if zlen s =? 0 then (to (Answered (Ok [])), sh) else
    match (if has_dropout m then None else ca_get ci (sh_cache sh) s) with
    | Some hit => (to (Answered (word_to_tokens m hit 0)), sh)
    | None =>
      match first_word m s with
      | Err e => (to (Answered (Err e)), sh)
      | Ok w =>
        match initial_queue (b_merges m) 0 w [] with
        | Panic => (to Crashed, sh)
        | Ret q => (to (Looping (MState w q [] 0)), sh)
        end
      end
    end)
  | Looping st => Some (
    match m_q st with
    | [] =>
      (* word.go:157-164, bpemodel.go:94-98 and 111-115 *)
      let w := remove_empty (m_w st) in
      match word_to_tokens m w 0 with
      | Err e => (to (Answered (Err e)), sh)
      | Ok ts => if has_dropout m then (to (Answered (Ok ts)), sh) else (to (Storing w ts), sh)
      end
    | _ =>
      (* word.go:102-155: one turn of the loop, with the next random number, if any *)
      let k := sh_next sh in
      let dropped := has_dropout m && negb (Qle_bool (b_dropout m) (source k)) in
      let sh' := if has_dropout m then Shared (sh_cache sh) (S k) else sh in
      let taken := if has_dropout m then cl_taken c ++ [k] else cl_taken c in
      match merge_iter (b_merges m) dropped st with
      | Panic => (Call s Crashed taken, sh')
      | Ret st' => (Call s (Looping st') taken, sh')
      end
    end)
  | Storing w ts => Some (to (Answered (Ok ts)), Shared (ca_set ci (sh_cache sh) s w) (sh_next sh))
  | Answered _ | Crashed => None
  end.

(** Any of the calls makes the next step. *)
Record system (ci : cache_impl) : Type := System { sy_calls : list call; sy_shared : shared ci }.
Arguments System {_} _ _. Arguments sy_calls {_} _. Arguments sy_shared {_} _.
Inductive sys_step (ci : cache_impl) (m : bpe) (source : nat → Q) : system ci → system ci → Prop :=
| sys_step_call i c c' calls sh sh' :
    calls !! i = Some c → call_step ci m source c sh = Some (c', sh') →
    sys_step ci m source (System calls sh) (System (<[i := c']> calls) sh').
