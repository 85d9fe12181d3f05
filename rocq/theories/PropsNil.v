(** C119: nil vocabularies and nil merges. *)
From Coq Require Import QArith.
From Verif Require Import GoBase Strutils Vocab MergeMap Bpe WordPiece Nil SpecVocab SpecBpe NilFacts.
#[local] Open Scope Z_scope.

(** Pointers that are not nil: the models of Bpe.v and WordPiece.v, and [MergeMapFromFile]. *)
Theorem C119_same_bpe (m : bpe) (s : list Z) (draws : nat → Q) :
  bpe_tokenize_p (BpeP (Some (b_vocab m)) (Merges (b_merges m)) m) s draws = bpe_tokenize m s draws.
Proof. by apply bpe_same. Qed.
Print Assumptions C119_same_bpe.

Theorem C119_same_wordpiece (m : wordpiece) (s : list Z) : wp_tokenize_p (WordPieceP (Some (w_vocab m)) m) s = wp_tokenize m s.
Proof. apply wordpiece_same. Qed.
Print Assumptions C119_same_wordpiece.

Theorem C119_same_merges_file (file : list Z) (v : vocab) (n : Z) : merge_map_from_file_p file (Some v) n = merge_map_from_file file v n.
Proof. apply merges_file_same. Qed.
Print Assumptions C119_same_merges_file.

(** A pointer to a nil map: as an empty map. *)
Theorem C119_nil_map (m : bpe) (s : list Z) (draws : nat → Q) : b_merges m = ∅ →
  bpe_tokenize_p (BpeP (Some (b_vocab m)) NilMap m) s draws = bpe_tokenize m s draws.
Proof. intros E. apply bpe_same. intros. by rewrite E, mm_get_empty. Qed.
Print Assumptions C119_nil_map.

(** A nil vocabulary: BPE panics on all but the empty string, whatever its merges and options; WordPiece also on the empty string
    if the length limit is negative. *)
Theorem C119_bpe_vocab (p : merges_ptr) (m : bpe) (s : list Z) (draws : nat → Q) :
  bpe_tokenize_p (BpeP None p m) s draws = match s with [] => Some (Ret (Ok [])) | _ :: _ => Some Panic end.
Proof. apply bpe_nil_vocab. Qed.
Print Assumptions C119_bpe_vocab.

Theorem C119_wordpiece_vocab (m : wordpiece) (s : list Z) :
  wp_tokenize_p (WordPieceP None m) s = if bool_decide (s = [] ∧ 0 <= w_max m) then Some (Ret (Ok [])) else Some Panic.
Proof.
  rewrite wordpiece_nil_vocab. destruct s as [|b s].
  - change (zlen (@nil Z) =? 0) with true. cbn [andb]. destruct (0 <=? w_max m) eqn:E; [rewrite bool_decide_eq_true_2|rewrite bool_decide_eq_false_2]; [done|split; [done|by apply Z.leb_le]|done|].
    intros [_ H]. apply Z.leb_le in H. congruence.
  - rewrite bool_decide_eq_false_2 by (intros [? _]; done). destruct (zlen (b :: s) =? 0) eqn:E; [|done]. by apply Z.eqb_eq in E.
Qed.
Print Assumptions C119_wordpiece_vocab.

(** [MergeMapFromFile] with a nil vocabulary: panics where an empty one gives the error for the left token of a line. *)
Theorem C119_merges_file (file : list Z) (n : Z) :
  merge_map_from_file_p file None n = match merge_map_from_file file new_vocab n with Ret (Err (ELeftOOV _)) => Panic | r => r end.
Proof. apply merges_file_nil. Qed.
Print Assumptions C119_merges_file.

(** Nil merges: panics on the texts that with no merges give two tokens or more; otherwise, as with no merges. *)
Theorem C119_bpe_merges (m : bpe) (s : list Z) (draws : nat → Q) : consistent (b_vocab m) → b_merges m = ∅ →
  bpe_tokenize_p (BpeP (Some (b_vocab m)) NilPointer m) s draws
  = match bpe_tokenize m s draws with Some (Ret (Ok (_ :: _ :: _))) => Some Panic | r => r end.
Proof. intros Hv Hm. by apply bpe_nil_merges. Qed.
Print Assumptions C119_bpe_merges.

(** For any vocabulary, even one that has an ID without a term: panics if the text gives two symbols or more, before that error
    can arise; no panic if the unknown token is missing, whatever the text. *)
Theorem C119_bpe_merges_any (m : bpe) (s : list Z) (draws : nat → Q) : b_merges m = ∅ →
  let run := bpe_tokenize_p (BpeP (Some (b_vocab m)) NilPointer m) s draws in
  if decide (b_unk m ≠ [] ∧ get_id (b_vocab m) (b_unk m) = None) then run = bpe_tokenize m s draws
  else ∃ ss, group_syms (b_fuse m) (unk_id m) (char_classes m (runes s)) ss
         ∧ run = if decide (2 <= length ss)%nat then Some Panic else bpe_tokenize m s draws.
Proof.
  intros Hm run. destruct (decide _) as [[Hu Hn]|H].
  - unfold run, bpe_tokenize_p, bpe_tokenize. destruct (zlen s =? 0); [done|]. unfold merge_word_p, merge_word. cbn [p_opts p_vocab get_id_p]. rewrite Hn.
    unfold has_unk. destruct (b_unk m) as [|x l]; [done|]. destruct (Z.eqb_spec (zlen (x :: l)) 0) as [E|_]; [|done]. done.
  - apply bpe_nil_symbols; [done|]. intros Hh. destruct (get_id (b_vocab m) (b_unk m)); [by eexists|]. destruct H. split; [|done]. intros E. unfold has_unk in Hh. by rewrite E in Hh.
Qed.
Print Assumptions C119_bpe_merges_any.

(** Vocabulary "a", "b" without merges: "a" is one token with either pointer; "ab" is two tokens with a pointer to a nil map and
    panics with a nil pointer; "ac" has no symbol for its "c", so it does not panic. With no vocabulary all three panic; WordPiece
    panics on "a" and not on the empty string. *)
Example C119_example :
  let v := Vocab false {[ [97] := 0; [98] := 1 ]} {[ 0 := [97]; 1 := [98] ]} in
  let m := Bpe v ∅ 0 [] [] [] false in
  let t i b k := Token i [b] (Offsets k (k + 1)) in
  let draws := λ _ : nat, 0%Q in
  map (λ s, bpe_tokenize_p (BpeP (Some v) NilMap m) s draws) [ [97]; [97; 98]; [97; 99] ]
    = [Some (Ret (Ok [t 0 97 0])); Some (Ret (Ok [t 0 97 0; t 1 98 1])); Some (Ret (Ok [t 0 97 0]))]
  ∧ map (λ s, bpe_tokenize_p (BpeP (Some v) NilPointer m) s draws) [ [97]; [97; 98]; [97; 99] ]
    = [Some (Ret (Ok [t 0 97 0])); Some Panic; Some (Ret (Ok [t 0 97 0]))]
  ∧ map (λ s, bpe_tokenize_p (BpeP None NilPointer m) s draws) [ [97]; [97; 98]; [97; 99] ] = [Some Panic; Some Panic; Some Panic]
  ∧ map (wp_tokenize_p (WordPieceP None wp_default)) [ []; [97] ] = [Some (Ret (Ok [])); Some Panic]
  ∧ map (λ f, merge_map_from_file_p f None 0) [ version_prefix; [97; 32; 98]; [97; 98] ] = [Ret (Ok ∅); Panic; Ret (Err (EMalformedMerges 1))]
  ∧ mm_get_p NilMap 0 1 = Ret None ∧ mm_set_p NilMap 0 1 (MergeValue 0 2) = Panic ∧ add_term_p (Some (Vocab true ∅ ∅)) [97] = Panic.
Proof. vm_compute. done. Qed.

(** Pointers that are not nil: "aab" with the merge of "a" and "b"; an unknown token that is not in the vocabulary; a vocabulary
    that is not there, and the empty text; a limit of one character, and a character of two bytes; a merges file with "a b". *)
Example C119_same_example :
  let v := Vocab false {[ [97] := 0; [98] := 1; [97; 98] := 2; [195; 169] := 3 ]} {[ 0 := [97]; 1 := [98]; 2 := [97; 98]; 3 := [195; 169] ]} in
  let m unk := Bpe v ∅ 0 unk [] [] false in
  let draws := λ _ : nat, 0%Q in
  bpe_tokenize_p (BpeP (Some v) (Merges {[ (0, 1) := MergeValue 0 2 ]}) (m [])) [97; 97; 98] draws
    = Some (Ret (Ok [Token 0 [97] (Offsets 0 1); Token 2 [97; 98] (Offsets 1 3)]))
  ∧ bpe_tokenize_p (BpeP (Some v) NilPointer (m [63])) [97; 98] draws = Some (Ret (Err EUnknownTokenOutOfVocabulary))
  ∧ bpe_tokenize_p (BpeP None NilPointer (m [63])) [] draws = Some (Ret (Ok []))
  ∧ wp_tokenize_p (WordPieceP (Some v) (WordPiece v [] [] 1)) [195; 169] = Some (Ret (Ok [Token 3 [195; 169] (Offsets 0 2)]))
  ∧ merge_map_from_file_p [97; 32; 98; 10] (Some v) 0 = Ret (Ok {[ (0, 1) := MergeValue 0 2 ]}).
Proof. vm_compute. done. Qed.

(** A vocabulary with the ID 7 for "a" and no term for it: "a" is an error, "aa" panics; with an unknown token that is missing,
    both are that error. *)
Example C119_any_example :
  let v := Vocab false {[ [97] := 7 ]} ∅ in
  let run unk s := bpe_tokenize_p (BpeP (Some v) NilPointer (Bpe v ∅ 0 unk [] [] false)) s (λ _, 0%Q) in
  map (run []) [ [97]; [97; 97] ] = [Some (Ret (Err (EIDNotFound 7))); Some Panic]
  ∧ map (run [63]) [ [97]; [97; 97] ] = [Some (Ret (Err EUnknownTokenOutOfVocabulary)); Some (Ret (Err EUnknownTokenOutOfVocabulary))].
Proof. vm_compute. done. Qed.
