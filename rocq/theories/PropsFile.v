(** Property theorems C113: reading files in portions, and errors of the file system. *)
From Coq Require Import ZifyBool String.
From Verif Require Import GoBase Vocab Json MergeMap Files SpecVocab SpecFiles Utf8Facts SliceFacts VocabFacts FilesFacts PropsVocab Lit.
Import GoBase.
#[local] Open Scope Z_scope.

(** However the bytes of the merges file arrive, the results are those for the bytes of the whole file, which C31 and C32
    describe. If closing fails, its error is returned beside the map. *)
Theorem C113_merges :
  ∀ file ask close v k, portions ask →
  merge_map_file (inl (Reader file ask 0 AtEOF)) close v k
  = Some (match merge_map_from_file file v k with
          | Ret (Ok m) => Ret (Some m, close)
          | Ret (Err e) => Ret (None, Some e)
          | Panic => Panic
          end).
Proof.
  intros file ask close v k Hp. cbn [merge_map_file rd_left].
  rewrite (merges_scan_spec (2 + length file) v k _ file AtEOF 1 0 ∅ (scanning_new file ask AtEOF Hp)) by lia.
  unfold loop_result, merge_map_from_file. destruct (scan_lines file) as [ls long]. cbn [fst snd].
  destruct (merges_loop v k ls 1 0 ∅) as [[m|e]|]; cbn [mbind outcome_bind]; [|done|done]. by destruct long.
Qed.
Print Assumptions C113_merges.

(** A read fails with the error [e] after the bytes [read]: there is no map. The error is [e] if these bytes alone are a good
    merges file; else it is what is wrong with them, or the same panic. *)
Theorem C113_read_error :
  ∀ read e ask close v k, portions ask →
  merge_map_file (inl (Reader read ask 0 (Failed e))) close v k
  = Some (match merge_map_from_file read v k with
          | Ret (Ok _) => Ret (None, Some e)
          | Ret (Err e') => Ret (None, Some e')
          | Panic => Panic
          end).
Proof.
  intros read e ask close v k Hp. cbn [merge_map_file rd_left].
  rewrite (merges_scan_spec (2 + length read) v k _ read (Failed e) 1 0 ∅ (scanning_new read ask (Failed e) Hp)) by lia.
  unfold loop_result, merge_map_from_file. destruct (scan_lines read) as [ls long]. cbn [fst snd].
  destruct (merges_loop v k ls 1 0 ∅) as [[m|e']|]; cbn [mbind outcome_bind]; [|done|done]. by destruct long.
Qed.
Print Assumptions C113_read_error.

(** So an error of reading is not always reported as such: the bytes of a line up to the error count as a line. *)
Theorem C113_cut_line_refuted :
  ¬ ∀ file read rest e ask close v k m, portions ask → file = read ++ rest → merge_map_from_file file v k = Ret (Ok m) →
  merge_map_file (inl (Reader read ask 0 (Failed e))) close v k = Some (Ret (None, Some e)).
Proof.
  intros H. set (v := Vocab false {[ [97] := 0; [98] := 1; [97; 98] := 2 ]} ∅).
  destruct (merge_map_from_file (bytes_of "a b") v 0) as [[m|]|] eqn:E; [|vm_compute in E; discriminate..].
  assert (Hp : portions (λ _, 100)) by (intros i; exists 0%nat; lia).
  specialize (H (bytes_of "a b") (bytes_of "a") (bytes_of " b") (EExternal 5) (λ _, 100) None v 0 m Hp eq_refl E).
  rewrite C113_read_error in H by done. vm_compute in H. discriminate.
Qed.
Print Assumptions C113_cut_line_refuted.
(** It may even be a panic, on a file without fault: the line is cut within the term on the right, and what is left is another
    term, shorter than the prefix. *)
Theorem C113_cut_panic :
  ∃ file read rest v k m, file = read ++ rest ∧ merge_map_from_file file v k = Ret (Ok m)
    ∧ ∀ e ask close, portions ask → merge_map_file (inl (Reader read ask 0 (Failed e))) close v k = Some Panic.
Proof.
  set (v := Vocab false {[ [97] := 0; [35] := 1; [35; 35; 98] := 2; [97; 98] := 3 ]} ∅).
  destruct (merge_map_from_file (bytes_of "a ##b") v 2) as [[m|]|] eqn:E; [|vm_compute in E; discriminate..].
  exists (bytes_of "a ##b"), (bytes_of "a #"), (bytes_of "#b"), v, 2, m. split; [done|]. split; [done|].
  intros e ask close Hp. rewrite C113_read_error by done. vm_compute. reflexivity.
Qed.
Print Assumptions C113_cut_panic.

(** No failure of the file system is lost: with an error of opening, reading or closing there is an error or a panic, and a map
    only if nothing but closing has failed. *)
Theorem C113_no_silence :
  ∀ file close v k, match file with inl r => portions (rd_ask r) ∧ rd_calls r = O | inr _ => True end →
  (∃ e, file = inr e) ∨ (∃ r e, file = inl r ∧ rd_end r = Failed e) ∨ (∃ e, close = Some e) →
  merge_map_file file close v k = Some Panic
  ∨ ∃ m e, merge_map_file file close v k = Some (Ret (m, Some e))
      ∧ (m ≠ None → close = Some e ∧ ∃ r, file = inl r ∧ rd_end r = AtEOF).
Proof.
  intros [[left ask calls x]|e] close v k Hf Hfail; [|right; exists None, e; done]. cbn [rd_ask rd_calls] in Hf. destruct Hf as [Hp ->].
  destruct x as [|e].
  - destruct Hfail as [(e & [=])|[(r & e & [= <-] & [=])|(e & ->)]]. rewrite C113_merges by done.
    destruct (merge_map_from_file left v k) as [[m|e']|]; [right; exists (Some m), e|right; exists None, e'|by left]; (split; [done|]); [|done].
    intros _. split; [done|]. eexists. done.
  - rewrite C113_read_error by done. destruct (merge_map_from_file left v k) as [[m|e']|]; [right; exists None, e|right; exists None, e'|by left]; done.
Qed.
Print Assumptions C113_no_silence.

(** The vocabulary file: read to the end, or not at all. *)
Theorem C113_vocabulary :
  ∀ file ask x room order fuel, (∀ i, 1 <= ask i ∧ 1 <= room i) → (length file < fuel)%nat →
  vocab_file fuel (inl (Reader file ask 0 x)) room order
  = Some (match x with AtEOF => from_json_bytes file order | Failed e => Err e end).
Proof.
  intros file ask x room order fuel Hp Hf. cbn [vocab_file]. rewrite read_all_spec by done. cbn [rd_left rd_end app]. by destruct x.
Qed.
Print Assumptions C113_vocabulary.

(** One byte at a time, or with 100 empty reads in between; after 101 empty reads the scanner gives up. A file that fails after
    the first line; one that cannot be closed. *)
Example C113_example :
  let v := match add_terms new_vocab (map bytes_of ["a"; "b"; "ab"; "aba"]) with Ret v => v | Panic => new_vocab end%string in
  let file := bytes_of "#version: 0.2" ++ [10] ++ bytes_of "a b" ++ [13; 10] ++ bytes_of "ab a" in
  let pairs o := match o with
                 | Some (Ret (Some m, e)) => Some (mm_get m 0 1, mm_get m 2 0, e)
                 | Some (Ret (None, e)) => Some (None, None, e)
                 | _ => None
                 end in
  let good := Some (Some (MergeValue 0 2), Some (MergeValue 1 3), None) in
  let every n i := if Nat.eqb (Nat.modulo i n) (n - 1) then 1 else 0 in
  pairs (merge_map_file (inl (Reader file (λ _, 1) 0 AtEOF)) None v 0) = good
  ∧ pairs (merge_map_file (inl (Reader file (λ _, 4096) 0 AtEOF)) None v 0) = good
  ∧ pairs (merge_map_file (inl (Reader file (every 101%nat) 0 AtEOF)) None v 0) = good
  ∧ pairs (merge_map_file (inl (Reader file (every 102%nat) 0 AtEOF)) None v 0) = Some (None, None, Some no_progress)
  ∧ pairs (merge_map_file (inl (Reader (take 14 file) (λ _, 5) 0 (Failed (EExternal 5)))) None v 0) = Some (None, None, Some (EExternal 5))
  ∧ pairs (merge_map_file (inl (Reader (take 15 file) (λ _, 5) 0 (Failed (EExternal 5)))) None v 0) = Some (None, None, Some (EMalformedMerges 2))
  ∧ pairs (merge_map_file (inl (Reader file (λ _, 7) 0 AtEOF)) (Some (EExternal 9)) v 0)
    = Some (Some (MergeValue 0 2), Some (MergeValue 1 3), Some (EExternal 9))
  ∧ pairs (merge_map_file (inr (EExternal 2)) None v 0) = Some (None, None, Some (EExternal 2))
  (* the conditions hold *)
  ∧ portions (λ _, 1) ∧ portions (every 101%nat) ∧ ¬ portions (every 102%nat)
  (* the lines *)
  ∧ (scan_lines file).1 = [bytes_of "#version: 0.2"; bytes_of "a b"; bytes_of "ab a"]
  (* a vocabulary *)
  ∧ (match vocab_file 100 (inl (Reader (bytes_of "{""a"": 7}") (λ _, 2) 0 AtEOF)) (λ _, 512) map_to_list with
     | Some (Ok w) => get_id w (bytes_of "a") | _ => None end) = Some 7
  ∧ vocab_file 100 (inl (Reader (bytes_of "{""a"": 7}") (λ _, 2) 0 (Failed (EExternal 5)))) (λ _, 512) map_to_list = Some (Err (EExternal 5)).
Proof.
  intros v file pairs good every. split_and!; try (vm_compute; reflexivity).
  - intros i. exists 0%nat. lia.
  - intros i. exists (100 - i mod 101)%nat. split; [lia|]. subst every. cbv beta.
    assert (i mod 101 < 101)%nat by (apply Nat.mod_upper_bound; lia).
    assert (((i + (100 - i mod 101)) mod 101)%nat = 100%nat) as ->; [|done].
    rewrite (Nat.div_mod i 101) at 1 by lia. replace (101 * (i / 101) + i mod 101 + (100 - i mod 101))%nat with (100 + (i / 101) * 101)%nat by lia.
    rewrite Nat.mod_add by lia. done.
  - intros H. destruct (H 0%nat) as (j & Hj & Ha). subst every. cbv beta in Ha. rewrite Nat.mod_small in Ha by lia.
    destruct (Nat.eqb _ _) eqn:E; [apply Nat.eqb_eq in E; lia|lia].
Qed.
