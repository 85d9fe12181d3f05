(** Property theorems C104 and C105: terms that stand for themselves, and vocabularies that know every character. *)
From Coq Require Import ZifyBool QArith String.
From stdpp Require Import relations.
From Verif Require Import GoBase Utf8Facts SliceFacts Strutils Vocab MergeMap Heap Bpe WordPiece Lit SpecText SpecVocab SpecBpe SpecWordPiece VocabFacts BpeFacts BpeTok
  WordPieceFacts SettledFacts TermFacts PropsBpe PropsWordPiece PropsStable PropsTrain.
Import GoBase.
#[local] Open Scope Z_scope.

(** * C104 *)
(** WordPiece: a term is the answer for its own text. *)
Theorem C104_wordpiece :
  ∀ m x i, Forall (λ c, 0 <= c <= 255) x → x ≠ [] → get_id (w_vocab m) x = Some i → zlen (runes x) <= w_max m →
  wp_tokenize m x = Some (Ret (Ok [Token i x (Offsets 0 (zlen x))])).
Proof.
  intros m x i Hb Hx Hi Hm. assert (Hl : tried_toks (w_vocab m) (w_prefix m) x 0 [Token i x (Offsets 0 (zlen x))]).
  { apply (tt_cons _ _ _ 0 (zlen x) x i []).
    - destruct x; [done|]. rewrite zlen_cons. pose proof (zlen_nonneg x). lia.
    - by exists 0%nat.
    - exists [], []. by rewrite app_nil_r.
    - done.
    - intros e' x' He _ (a & b & -> & Ha & ->). exfalso. destruct a; [|rewrite zlen_cons in Ha; pose proof (zlen_nonneg a); lia].
      cbn [app] in He. rewrite zlen_app in He. pose proof (zlen_nonneg b). lia.
    - constructor. }
  destruct (wp_tokenize_spec m x Hb) as [(l & _ & E & Hl')|([Hc|Hc] & _)]; [|lia|by apply Hc in Hl].
  rewrite E. by rewrite (tried_toks_fun _ _ _ _ _ Hl Hl').
Qed.
Print Assumptions C104_wordpiece.

(** BPE: a term is the answer for its own text exactly if it occurs in the answer for some text. *)
Theorem C104_bpe_iff :
  ∀ m file t i, consistent (b_vocab m) → merge_map_from_file file (b_vocab m) 0 = Ret (Ok (b_merges m)) →
  b_prefix m = [] → b_suffix m = [] → (b_dropout m <= 0)%Q → (b_unk m ≠ [] → is_Some (get_id (b_vocab m) (b_unk m))) →
  valid_utf8 t = true → Forall (λ r, is_Some (get_id (b_vocab m) (encode_rune r))) (runes t) → get_id (b_vocab m) t = Some i →
  (∃ s draws toks, valid_utf8 s = true ∧ Forall (λ r, is_Some (get_id (b_vocab m) (encode_rune r))) (runes s)
     ∧ bpe_tokenize m s draws = Some (Ret (Ok toks)) ∧ t ∈ map t_value toks)
  ↔ ∀ draws, bpe_tokenize m t draws = Some (Ret (Ok [Token i t (Offsets 0 (zlen t))])).
Proof.
  intros m file t i Hc Hf Hpre Hsuf Hd Hu Hv Hk Hi. split.
  - intros (s & draws & toks & Hvs & Hks & E & Ht). apply elem_of_list_fmap in Ht as (tok & -> & Htok). apply elem_of_list_split in Htok as (t1 & t3 & ->). intros draws'.
    pose proof (C69_bpe_parts m file s draws draws' t1 [tok] t3 Hc Hf Hpre Hsuf Hd Hu Hvs Hks E) as H. cbn [map concat] in H. rewrite app_nil_r in H. rewrite H.
    destruct (C39_faithful m file (t_value tok) draws' Hc Hf Hpre Hsuf Hu Hv Hk) as (toks & E' & _ & G). rewrite H in E'. injection E' as <-.
    apply Forall_cons in G as [(G1 & G2 & _) _]. cbn [t_value t_id t_offsets move_tok o_start o_end] in G1, G2.
    destruct G1 as (a & b & Eab & Ha & Hb). assert (a = [] ∧ b = []) as [-> ->].
    { apply (f_equal length) in Eab. rewrite !app_length in Eab. destruct a, b; cbn in Eab; try lia. done. }
    rewrite Hi in G2. injection G2 as ->. unfold move_tok. rewrite Ha in Hb. rewrite Ha, Hb. by destruct tok.
  - intros H. exists t, (λ _, 0%Q), [Token i t (Offsets 0 (zlen t))]. split_and!; try done. cbn. by left.
Qed.
Print Assumptions C104_bpe_iff.

(** Not every term that a line of the merges file makes is one: with "b c", "a b" and "ab c" no answer has the term abc. *)
Theorem C104_bpe_refuted :
  ¬ ∀ m file, consistent (b_vocab m) → merge_map_from_file file (b_vocab m) 0 = Ret (Ok (b_merges m)) →
  b_prefix m = [] → b_suffix m = [] → (b_dropout m <= 0)%Q → (b_unk m ≠ [] → is_Some (get_id (b_vocab m) (b_unk m))) →
  ∀ a b mv t, b_merges m !! (a, b) = Some mv → get_string (b_vocab m) (mv_id mv) = Some t →
  valid_utf8 t = true → Forall (λ r, is_Some (get_id (b_vocab m) (encode_rune r))) (runes t) →
  ∀ draws, bpe_tokenize m t draws = Some (Ret (Ok [Token (mv_id mv) t (Offsets 0 (zlen t))])).
Proof.
  intros H. set (v := PropsBpe.ex_vocab (map bytes_of ["a"; "b"; "c"; "ab"; "bc"; "abc"]%string)). set (file := bytes_of "b c"%string ++ [10] ++ bytes_of "a b"%string ++ [10] ++ bytes_of "ab c"%string).
  set (mm := match merge_map_from_file file v 0 with Ret (Ok mm) => mm | _ => ∅ end).
  specialize (H (Bpe v mm 0 [] [] [] false) file (ex_consistent _) ltac:(by vm_compute) eq_refl eq_refl (Qle_refl 0) ltac:(done) 3 2 (MergeValue 2 5) (bytes_of "abc"%string)
    ltac:(by vm_compute) ltac:(by vm_compute) ltac:(by vm_compute)).
  specialize (H ltac:(repeat constructor; vm_compute; by eexists) (λ _, 0%Q)). vm_compute in H. done.
Qed.
Print Assumptions C104_bpe_refuted.

(** Terms with and without the prefix; BPE with these merges: "ab" and "bc" are their own answers, "abc" is not. *)
Example C104_example :
  wp_tokenize (ex_wp ["[UNK]"; "un"; "##able"; "unable"; "é野"]%string) (bytes_of "unable"%string) = Some (Ret (Ok [Token 3 (bytes_of "unable"%string) (Offsets 0 6)]))
  ∧ wp_tokenize (ex_wp ["[UNK]"; "un"; "##able"; "unable"; "é野"]%string) (bytes_of "##able"%string) = Some (Ret (Ok [Token 2 (bytes_of "##able"%string) (Offsets 0 6)]))
  ∧ wp_tokenize (ex_wp ["[UNK]"; "un"; "##able"; "unable"; "é野"]%string) (bytes_of "é野"%string) = Some (Ret (Ok [Token 4 (bytes_of "é野"%string) (Offsets 0 5)]))
  ∧ let v := PropsBpe.ex_vocab (map bytes_of ["a"; "b"; "c"; "ab"; "bc"; "abc"]%string) in
    match merge_map_from_file (bytes_of "b c"%string ++ [10] ++ bytes_of "a b"%string ++ [10] ++ bytes_of "ab c"%string) v 0 with
    | Ret (Ok mm) =>
      let run s := match bpe_tokenize (Bpe v mm 0 [] [] [] false) (bytes_of s) (λ _, 0%Q) with Some (Ret (Ok l)) => map t_id l | _ => [] end in
      run "ab"%string = [3] ∧ run "bc"%string = [4] ∧ run "abc"%string = [0; 4]
    | _ => False
    end.
Proof. vm_compute. auto 10. Qed.

(** * C105 *)
(** A vocabulary that has every character of a word, the first one as it is and the others with the prefix, knows the word: the
    answer is the greedy segmentation.  Partial: no character but the first may take three bytes.
    Missing for the full claim: words with such characters, for which it is false (below). *)
Theorem C105_all_characters_partial :
  ∀ m rs, scalars rs → zlen rs <= w_max m → valid_terms (w_vocab m) → valid_utf8 (w_prefix m) = true → Forall (λ r, rune_len r ≠ 3) (tail rs) →
  match rs with c :: _ => is_Some (get_id (w_vocab m) (encode [c])) | [] => True end →
  Forall (λ c, is_Some (get_id (w_vocab m) (w_prefix m ++ encode [c]))) (tail rs) →
  ∃ segs toks, greedy (w_vocab m) (w_prefix m) true rs segs ∧ seg_toks (w_vocab m) (w_prefix m) 0 segs toks
    ∧ wp_tokenize m (encode rs) = Some (Ret (Ok toks)).
Proof.
  intros m rs Hs Hm Hv Hp H3 H1 H2. destruct (greedy_total (w_vocab m) (w_prefix m) rs true) as (segs & Hg); [by destruct rs|done|].
  destruct (C44_greedy_partial m rs Hs Hm Hv Hp H3) as (res & E & [(segs' & toks & G1 & G2 & ->)|[Hno _]]); [|by destruct (Hno segs)].
  by exists segs', toks.
Qed.
Print Assumptions C105_all_characters_partial.

(** With three-byte characters it is false: 野口 is unknown to a vocabulary with 野 and ##口. *)
Theorem C105_all_characters_refuted :
  ¬ ∀ m rs, scalars rs → zlen rs <= w_max m → valid_terms (w_vocab m) → valid_utf8 (w_prefix m) = true →
  match rs with c :: _ => is_Some (get_id (w_vocab m) (encode [c])) | [] => True end →
  Forall (λ c, is_Some (get_id (w_vocab m) (w_prefix m ++ encode [c]))) (tail rs) →
  ∃ segs toks, greedy (w_vocab m) (w_prefix m) true rs segs ∧ seg_toks (w_vocab m) (w_prefix m) 0 segs toks
    ∧ wp_tokenize m (encode rs) = Some (Ret (Ok toks)).
Proof.
  intros H. destruct (H (ex_wp ["[UNK]"; "野"; "##口"]%string) [0x91CE; 0x53E3]) as (segs & toks & _ & Ht & E).
  - repeat constructor.
  - vm_compute. discriminate.
  - intros t i Ht. unfold get_id in Ht. apply elem_of_map_to_list, elem_of_list_In in Ht. vm_compute in Ht. destruct Ht as [[= <- _]|[[= <- _]|[[= <- _]|[]]]]; reflexivity.
  - reflexivity.
  - by eexists.
  - repeat constructor. by eexists.
  - vm_compute in E. injection E as <-. inversion Ht as [|o a l i ts Hi Ht1 Eo Es [Ei Ev Ee Er]]. change (piece_term _ _ (encode a)) with (encode a) in Ev. rewrite Ev in Ee. by vm_compute in Ee.
Qed.
Print Assumptions C105_all_characters_refuted.

(** Exactly: the words that every vocabulary with their characters knows are those without a three-byte character after the first. *)
Theorem C105_all_characters_iff :
  ∀ rs, scalars rs →
  (∀ m, zlen rs <= w_max m → valid_terms (w_vocab m) → valid_utf8 (w_prefix m) = true →
     match rs with c :: _ => is_Some (get_id (w_vocab m) (encode [c])) | [] => True end →
     Forall (λ c, is_Some (get_id (w_vocab m) (w_prefix m ++ encode [c]))) (tail rs) →
     ∃ segs toks, greedy (w_vocab m) (w_prefix m) true rs segs ∧ seg_toks (w_vocab m) (w_prefix m) 0 segs toks
       ∧ wp_tokenize m (encode rs) = Some (Ret (Ok toks)))
  ↔ Forall (λ r, rune_len r ≠ 3) (tail rs).
Proof.
  intros rs Hs. split; [by apply characters_need|]. intros H3 m H1 H2 H4 H5 H6. by apply C105_all_characters_partial.
Qed.
Print Assumptions C105_all_characters_iff.

(** Another term can make a word unknown: "abc" is a and ##bc, but with the term ab it is unknown. *)
Theorem C105_more_terms_refuted :
  ¬ ∀ m m' s toks, w_prefix m' = w_prefix m → w_unk m' = w_unk m → w_max m' = w_max m →
  (∀ t i, get_id (w_vocab m) t = Some i → get_id (w_vocab m') t = Some i) →
  wp_tokenize m s = Some (Ret (Ok toks)) → Forall (λ tok, t_value tok ≠ w_unk m) toks →
  ∀ toks', wp_tokenize m' s = Some (Ret (Ok toks')) → Forall (λ tok, t_value tok ≠ w_unk m) toks'.
Proof.
  intros H. specialize (H (ex_wp ["[UNK]"; "a"; "##bc"]%string) (ex_wp ["[UNK]"; "a"; "##bc"; "ab"]%string) (bytes_of "abc"%string)
    [Token 1 (bytes_of "a"%string) (Offsets 0 1); Token 2 (bytes_of "##bc"%string) (Offsets 1 3)] eq_refl eq_refl eq_refl).
  feed specialize H.
  - intros t i Ht. unfold get_id in Ht. apply elem_of_map_to_list, elem_of_list_In in Ht. vm_compute in Ht. destruct Ht as [[= <- <-]|[[= <- <-]|[[= <- <-]|[]]]]; reflexivity.
  - by vm_compute.
  - repeat constructor; by vm_compute.
  - specialize (H [Token 0 (bytes_of "[UNK]"%string) (Offsets 0 3)] ltac:(by vm_compute)). apply Forall_cons in H as [H _]. by apply H.
Qed.
Print Assumptions C105_more_terms_refuted.

(** With all letters known the words have tokens, whatever longer terms there are; the word bac is unknown when ##c is not there. *)
Example C105_example :
  let ids m s := match wp_tokenize m (bytes_of s) with Some (Ret (Ok l)) => map t_id l | _ => [] end in
  let full := ex_wp ["[UNK]"; "a"; "b"; "é"; "##a"; "##b"; "##é"; "ab"; "##éa"; "##éab"]%string in
  ids full "abéa"%string = [7; 8] ∧ ids full "éabab"%string = [3; 4; 5; 4; 5] ∧ ids full "ababéab"%string = [7; 4; 5; 9]
  ∧ ids (ex_wp ["[UNK]"; "a"; "##€"; "##b"]%string) "a€b"%string = [0] ∧ ids (ex_wp ["[UNK]"; "€"; "##b"]%string) "€b"%string = [1; 2]
  ∧ ids (ex_wp ["[UNK]"; "a"; "b"; "##a"; "ba"]%string) "bac"%string = [0] ∧ ids (ex_wp ["[UNK]"; "a"; "b"; "##a"; "ba"; "##c"]%string) "bac"%string = [4; 5].
Proof. vm_compute. auto 10. Qed.
