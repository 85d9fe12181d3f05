(** Property theorems C79 (the number of steps of MergeAll) and C80 (answers depend only on the terms and merges that a
    text can reach). *)
From Coq Require Import QArith String.
From stdpp Require Import relations.
From Verif Require Import GoBase Strutils Vocab MergeMap Heap Bpe WordPiece Lit SpecText SpecVocab SpecBpe SpecAgree BpeTok StepFacts AgreeFacts PropsBpe.
Import GoBase.
#[local] Open Scope Z_scope.

(** * C79 *)

(** [m_draws] counts the iterations of the loop: with that many the loop ends, with fewer it does not. *)
Theorem C79_count :
  ∀ fuel mm drop st st', merge_loop fuel mm drop st = Some (Ret st') →
  ∀ k, merge_loop k mm drop st = if decide (m_draws st' - m_draws st <= k)%nat then Some (Ret st') else None.
Proof.
  intros fuel mm drop st st' H k. destruct (decide _) as [Hk|Hk]; [by eapply merge_loop_enough|]. eapply merge_loop_short; [exact H|lia].
Qed.
Print Assumptions C79_count.

(** Without dropout, n symbols take at most (n - 1) + (2n - 5) iterations (no more than n - 1 if n < 3). *)
Theorem C79_linear :
  ∀ ss mm dropout draws, Forall (λ s, 0 < s.2) ss → (dropout <= 0)%Q →
  let n := length ss in let drop := dropped_at dropout draws in
  ∃ q st, initial_queue mm 0 (word_of ss) [] = Ret q
    ∧ merge_loop ((n - 1) + (2 * n - 5)) mm drop (MState (word_of ss) q [] 0) = Some (Ret st)
    ∧ merge_all (word_of ss) mm dropout draws = Some (Ret (remove_empty (m_w st))).
Proof.
  intros ss mm dropout draws Hss Hd n drop.
  destruct (merge_steps mm drop ss Hss) as (q & st & E1 & E2 & E3); [intros k; by apply dropped_none|].
  exists q, st. split; [done|]. split; [eapply merge_loop_enough; [exact E2|cbn [m_draws]; unfold n; lia]|].
  unfold merge_all, merge_all_with. rewrite E1. unfold drop in E2. by rewrite E2.
Qed.
Print Assumptions C79_linear.

(** With dropout, whatever is drawn: quadratically many at most. *)
Theorem C79_dropout :
  ∀ ss mm dropout draws, Forall (λ s, 0 < s.2) ss →
  let n := length ss in let drop := dropped_at dropout draws in let k := ((n - 1) + (2 * n - 5))%nat in
  ∃ q st, initial_queue mm 0 (word_of ss) [] = Ret q
    ∧ merge_loop (k * (k - 1) / 2 + (n - 1)) mm drop (MState (word_of ss) q [] 0) = Some (Ret st)
    ∧ merge_all (word_of ss) mm dropout draws = Some (Ret (remove_empty (m_w st))).
Proof.
  intros ss mm dropout draws Hss n drop k.
  destruct (merge_steps_dropout mm drop ss Hss k eq_refl) as (q & st & E1 & E2 & E3).
  exists q, st. split; [done|]. split.
  - eapply merge_loop_enough; [exact E2|]. cbn [m_draws]. rewrite Nat.sub_0_r. fold n in E3.
    rewrite <- (Nat.div_add _ (n - 1) 2) by done. apply Nat.div_le_lower_bound; [done|]. lia.
  - unfold merge_all, merge_all_with. rewrite E1. unfold drop in E2. by rewrite E2.
Qed.
Print Assumptions C79_dropout.

(** So in Tokenize, by the number of characters. *)
Theorem C79_tokenize :
  ∀ m s u draws, (b_dropout m <= 0)%Q →
  let n := length (runes s) in let w := symbols_loop m u (runes s) 0 (zlen (runes s) - 1) None [] in
  ∃ q st, initial_queue (b_merges m) 0 w [] = Ret q
    ∧ merge_loop ((n - 1) + (2 * n - 5)) (b_merges m) (dropped_at (b_dropout m) draws) (MState w q [] 0) = Some (Ret st)
    ∧ merge_all w (b_merges m) (b_dropout m) draws = Some (Ret (remove_empty (m_w st))).
Proof.
  intros m s u draws Hd n w. destruct (symbols_loop_spec m u (runes s) 0 (zlen (runes s) - 1) None []) as (ss & E & G); [done|].
  fold w in E. rewrite add_syms_nil in E. rewrite classes_spec in G.
  assert (Hl : (length ss <= n)%nat).
  { apply group_count in G. unfold char_classes in G. rewrite zip_with_length, (Nat.min_r) in G; [done|].
    unfold char_terms. by rewrite imap_length. }
  assert (Hpos : Forall (λ s, 0 < s.2) ss) by (eapply group_pos; [apply classes_pos|exact G]).
  destruct (C79_linear ss (b_merges m) (b_dropout m) draws Hpos Hd) as (q & st & E1 & E2 & E3). rewrite E. exists q, st.
  split; [done|]. split; [|done]. rewrite (C79_count _ _ _ _ _ E2), decide_True; [done|].
  pose proof (C79_count _ _ _ _ _ E2 ((length ss - 1) + (2 * length ss - 5))) as H. rewrite E2 in H.
  destruct (decide _) in H; [lia|done].
Qed.
Print Assumptions C79_tokenize.

(** Four symbols a b c d where "bc" has the lowest rank and all pairs that come up have merges: 6 iterations, the bound;
    with dropout and the worst luck, 14 of the 18 allowed. *)
Definition c79_merges : merge_map :=
  list_to_map [((1, 2), MergeValue 2 12); ((2, 3), MergeValue 1 23); ((3, 4), MergeValue 3 34); ((1, 23), MergeValue 4 123);
               ((23, 4), MergeValue 5 234); ((123, 4), MergeValue 6 1234)].
Example C79_example :
  let w := word_of [(1, 1); (2, 1); (3, 1); (4, 1)] in
  let q := [WordMerge 1 23 1; WordMerge 2 12 0; WordMerge 3 34 2] in
  initial_queue c79_merges 0 w [] = Ret q
  ∧ merge_loop 5 c79_merges (λ _, false) (MState w q [] 0) = None
  ∧ match merge_loop 6 c79_merges (λ _, false) (MState w q [] 0) with
    | Some (Ret st) => m_draws st = 6%nat ∧ word_syms (remove_empty (m_w st)) = [(1234, 4)]
    | _ => False
    end
  ∧ match merge_loop 18 c79_merges (λ k, existsb (Nat.eqb k) [1; 2; 4; 5; 6; 8; 9; 11]%nat) (MState w q [] 0) with
    | Some (Ret st) => m_draws st = 14%nat ∧ word_syms (remove_empty (m_w st)) = [(1234, 4)]
    | _ => False
    end.
Proof. vm_compute. auto 10. Qed.

(** * C80 *)

(** Merging looks at no other pairs than those of neighbours in what it makes, with any dropout. *)
Theorem C80_merges :
  ∀ ss mm mm' dropout draws, Forall (λ s, 0 < s.2) ss →
  (∀ ss', rtc (merge_step mm) ss ss' → agree_on mm mm' ss') →
  merge_all (word_of ss) mm dropout draws = merge_all (word_of ss) mm' dropout draws.
Proof. intros ss mm mm' dropout draws Hss Ha. by apply merge_all_agree. Qed.
Print Assumptions C80_merges.

(** Tokenize of two BPE models with the same settings: the same answer if the vocabularies agree on the terms of the
    characters, on the unknown token and on the IDs that come up, and the merges on the pairs that come up. *)
Theorem C80_bpe :
  ∀ m m' s draws, same_settings m m' →
  (b_unk m ≠ [] → get_id (b_vocab m) (b_unk m) = get_id (b_vocab m') (b_unk m)) →
  Forall (λ t, get_id (b_vocab m) t = get_id (b_vocab m') t) (char_terms (b_prefix m) (b_suffix m) (runes s)) →
  (∀ ss ss', group_syms (b_fuse m) (unk_id m) (char_classes m (runes s)) ss → rtc (merge_step (b_merges m)) ss ss' →
     agree_on (b_merges m) (b_merges m') ss' ∧ Forall (λ x, get_string (b_vocab m) x.1 = get_string (b_vocab m') x.1) ss') →
  bpe_tokenize m s draws = bpe_tokenize m' s draws.
Proof. exact bpe_agree. Qed.
Print Assumptions C80_bpe.

(** More terms, and more lines at the end of the merge file, each naming a new term as one of the two to merge: nothing
    changes for texts none of whose characters (with prefix and suffix) is a new term. *)
Theorem C80_extend :
  ∀ m m' s draws f f' ls ls' k,
  same_settings m m' → consistent (b_vocab m) → consistent (b_vocab m') → extends (b_vocab m) (b_vocab m') →
  file_lines f ls → merge_map_from_file f (b_vocab m) k = Ret (Ok (b_merges m)) →
  file_lines f' (ls ++ ls') → Forall (foreign_line (b_vocab m)) (merge_lines ls') →
  merge_map_from_file f' (b_vocab m') k = Ret (Ok (b_merges m')) →
  (b_unk m ≠ [] → is_Some (get_id (b_vocab m) (b_unk m))) →
  Forall (λ t, get_id (b_vocab m') t ≠ None → get_id (b_vocab m) t ≠ None) (char_terms (b_prefix m) (b_suffix m) (runes s)) →
  bpe_tokenize m s draws = bpe_tokenize m' s draws.
Proof. exact bpe_extend. Qed.
Print Assumptions C80_extend.

(** Terms a b c ab abc, then x xb bc: the merge "x b" is foreign and changes the answer for texts with x only; the merge
    "b c" is not, and changes that for "abcbc". *)
Example C80_extend_example :
  let nl := [10] in
  let f := bytes_of "a b"%string ++ nl ++ bytes_of "ab c"%string ++ nl in
  let v := PropsBpe.ex_vocab (map bytes_of ["a"; "b"; "c"; "ab"; "abc"]%string) in
  let v' := PropsBpe.ex_vocab (map bytes_of ["a"; "b"; "c"; "ab"; "abc"; "x"; "xb"; "bc"]%string) in
  let f' := f ++ bytes_of "x b"%string ++ nl in
  let f'' := f ++ bytes_of "b c"%string ++ nl in
  match merge_map_from_file f v 0, merge_map_from_file f' v' 0, merge_map_from_file f'' v' 0 with
  | Ret (Ok mm), Ret (Ok mm'), Ret (Ok mm'') =>
    let tok v mm s := match bpe_tokenize (Bpe v mm 0 [] [] [] false) (bytes_of s) (λ _, 0%Q) with
                      | Some (Ret (Ok ts)) => map t_value ts | _ => [] end in
    tok v mm "abcbc"%string = map bytes_of ["abc"; "b"; "c"]%string
    ∧ tok v' mm' "abcbc"%string = map bytes_of ["abc"; "b"; "c"]%string
    ∧ tok v' mm'' "abcbc"%string = map bytes_of ["abc"; "bc"]%string
    ∧ tok v' mm' "xbc"%string = map bytes_of ["xb"; "c"]%string
    ∧ tok v mm "xbc"%string = map bytes_of ["b"; "c"]%string
  | _, _, _ => False
  end.
Proof. vm_compute. auto 10. Qed.

(** WordPiece asks for parts of the text only, with the prefix if not at its start, and for the unknown token. *)
Theorem C80_wordpiece :
  ∀ m m' s, w_prefix m = w_prefix m' → w_unk m = w_unk m' → w_max m = w_max m' →
  get_id (w_vocab m) (w_unk m) = get_id (w_vocab m') (w_unk m) →
  (∀ t, wp_term (w_prefix m) s t → get_id (w_vocab m) t = get_id (w_vocab m') t) →
  wp_tokenize m s = wp_tokenize m' s.
Proof. exact wp_agree. Qed.
Print Assumptions C80_wordpiece.

(** So terms added to a vocabulary built by AddTerm matter only to texts that contain them. *)
Theorem C80_wordpiece_add :
  ∀ ts ts' v v' unk pre max s, add_terms new_vocab ts = Ret v → add_terms v ts' = Ret v' → unk ∈ ts →
  Forall (λ t, ¬ wp_term pre s t) ts' →
  wp_tokenize (WordPiece v unk pre max) s = wp_tokenize (WordPiece v' unk pre max) s.
Proof.
  intros ts ts' v v' unk pre max s Hv Hv' Hu Hts.
  destruct (VocabFacts.grown_add_terms [] new_vocab ts VocabFacts.grown_new) as (v0 & Hv0 & G & _).
  rewrite Hv in Hv0. injection Hv0 as <-. destruct (VocabFacts.grown_add_terms _ v ts' G) as (v1 & Hv1 & G' & Hold).
  rewrite Hv' in Hv1. injection Hv1 as <-.
  assert (Hsame : ∀ t, t ∈ ts ∨ t ∉ ts' → get_id v t = get_id v' t).
  { intros t Ht. destruct (get_id v t) as [i|] eqn:E; [symmetry; by apply Hold|]. destruct (get_id v' t) as [i|] eqn:E'; [|done].
    exfalso. unfold get_id in E, E'. apply not_elem_of_dom in E. assert (E2 : t ∈ dom (v_ids v')) by (apply elem_of_dom; eauto).
    rewrite (VocabFacts.gr_dom _ _ G) in E. rewrite (VocabFacts.gr_dom _ _ G') in E2.
    set_solver. }
  apply C80_wordpiece; [done..| |].
  - cbn. apply Hsame. by left.
  - cbn. intros t Ht. apply Hsame. right. intros Hin. rewrite Forall_forall in Hts. by apply (Hts t).
Qed.
Print Assumptions C80_wordpiece_add.

(** "aff" and "affable" do not matter inside "unaffable"; "##affable" does. *)
Example C80_wordpiece_example :
  let ts := map bytes_of ["[UNK]"; "un"; "##aff"; "##able"]%string in
  let v more := match add_terms new_vocab (ts ++ map bytes_of more) with Ret v => v | Panic => new_vocab end in
  let tok more := match wp_tokenize (WordPiece (v more) (bytes_of "[UNK]"%string) (bytes_of "##"%string) 100) (bytes_of "unaffable"%string) with
                  | Some (Ret (Ok l)) => map t_value l | _ => [] end in
  tok [] = map bytes_of ["un"; "##aff"; "##able"]%string
  ∧ tok ["aff"; "##un"; "##c"; "affable"]%string = tok []
  ∧ tok ["##affable"]%string = map bytes_of ["un"; "##affable"]%string.
Proof. vm_compute. auto 10. Qed.
