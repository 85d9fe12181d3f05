(** Model of the dropout of /repo/models/bpemodel with Go's float64: infinities, NaN and signed zeros included. The numbers and
    their comparison are those of Coq's [SpecFloat] (IEEE 754 without NaN payloads, which no comparison looks at). *)
From Coq Require Import QArith SpecFloat.
From Verif Require Import GoBase Strutils Vocab MergeMap Heap Bpe.
Import GoBase.
#[local] Open Scope Z_scope.

(** word.go:101, 105: [hasDropout && rand.Float64() < dropout], where hasDropout is [dropout > 0]. *)
Definition dropped_float (dropout : spec_float) (draws : nat → spec_float) (k : nat) : bool :=
  SFltb (S754_zero false) dropout && SFltb (draws k) dropout.

(** bpemodel.go:120-183 [mergeWord], 85-118 [Tokenize], as in Bpe.v, of a model with the given dropout; [b_dropout] is not used. *)
Definition merge_word_float (m : bpe) (dropout : spec_float) (s : list Z) (draws : nat → spec_float) : option (outcome (result word)) :=
  let go unkID :=
    let rs := runes s in
    match merge_all_with (symbols_loop m unkID rs 0 (zlen rs - 1) None []) (b_merges m) (dropped_float dropout draws) with
    | None => None
    | Some Panic => Some Panic
    | Some (Ret w) => Some (Ret (Ok w))
    end in
  if has_unk m then
    match get_id (b_vocab m) (b_unk m) with
    | None => Some (Ret (Err EUnknownTokenOutOfVocabulary))
    | Some unkID => go unkID
    end
  else go 0.
Definition bpe_tokenize_float (m : bpe) (dropout : spec_float) (s : list Z) (draws : nat → spec_float)
    : option (outcome (result (list token))) :=
  if zlen s =? 0 then Some (Ret (Ok []))
  else
    match merge_word_float m dropout s draws with
    | None => None
    | Some Panic => Some Panic
    | Some (Ret (Err e)) => Some (Ret (Err e))
    | Some (Ret (Ok w)) => Some (Ret (word_to_tokens m w 0))
    end.
