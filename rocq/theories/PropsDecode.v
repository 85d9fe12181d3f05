(** Property theorems C88 and C89: token IDs determine the text. *)
From Coq Require Import ZifyBool QArith String.
From stdpp Require Import relations list_numbers.
From Verif Require Import GoBase Utf8Facts Strutils Vocab MergeMap Bpe WordPiece Encodings PreTokString Normalizers PreTokenizers Regex SpecText SpecVocab SpecBpe SpecWordPiece SpecPretok SpecEnd SpecPipe SpecDecode
  PretokFacts EndFacts DecodeFacts ShownFacts PropsWordPiece PropsBpe PropsPipe Lit.
Import GoBase.
#[local] Open Scope Z_scope.

(** * C88: the models *)
(** BPE, whatever the merges, dropout and random numbers of the two calls. *)
Theorem C88_bpe_partial :
  ∀ m m' file file' s s' draws draws' toks toks', b_vocab m = b_vocab m' → consistent (b_vocab m) →
  merge_map_from_file file (b_vocab m) 0 = Ret (Ok (b_merges m)) → merge_map_from_file file' (b_vocab m') 0 = Ret (Ok (b_merges m')) →
  b_prefix m = [] → b_suffix m = [] → b_prefix m' = [] → b_suffix m' = [] →
  (b_unk m ≠ [] → is_Some (get_id (b_vocab m) (b_unk m))) → (b_unk m' ≠ [] → is_Some (get_id (b_vocab m') (b_unk m'))) →
  valid_utf8 s = true → valid_utf8 s' = true →
  Forall (λ r, is_Some (get_id (b_vocab m) (encode_rune r))) (runes s) → Forall (λ r, is_Some (get_id (b_vocab m) (encode_rune r))) (runes s') →
  bpe_tokenize m s draws = Some (Ret (Ok toks)) → bpe_tokenize m' s' draws' = Some (Ret (Ok toks')) → map t_id toks = map t_id toks' → s = s'.
Proof. exact bpe_text_of_ids. Qed.
Print Assumptions C88_bpe_partial.
(** Not if characters are unknown. *)
Theorem C88_bpe_refuted :
  ¬ ∀ m s s' draws toks toks', consistent (b_vocab m) → bpe_tokenize m s draws = Some (Ret (Ok toks)) → bpe_tokenize m s' draws = Some (Ret (Ok toks')) →
    map t_id toks = map t_id toks' → s = s'.
Proof.
  intros H. specialize (H (Bpe (PropsBpe.ex_vocab [[97]]) ∅ 0 [] [] [] false) [97; 98] [97; 99] (λ _, 0%Q) [Token 0 [97] (Offsets 0 1)] [Token 0 [97] (Offsets 0 1)]).
  assert ([97; 98] = [97; 99]) as E; [|done]. apply H; [apply grown_consistent|done..].
Qed.
Print Assumptions C88_bpe_refuted.

(** WordPiece, for any bytes and any other answer than the unknown token. *)
Theorem C88_wordpiece_partial :
  ∀ m s s' toks toks', distinct_ids (w_vocab m) → Forall (λ c, 0 <= c <= 255) s → Forall (λ c, 0 <= c <= 255) s' →
  wp_tokenize m s = Some (Ret (Ok toks)) → wp_tokenize m s' = Some (Ret (Ok toks')) →
  (∀ u, get_id (w_vocab m) (w_unk m) = Some u → map t_id toks ≠ [u]) → map t_id toks = map t_id toks' → s = s'.
Proof. exact wp_text_of_ids. Qed.
Print Assumptions C88_wordpiece_partial.
Theorem C88_wordpiece_refuted :
  ¬ ∀ m s s' toks toks', distinct_ids (w_vocab m) → Forall (λ c, 0 <= c <= 255) s → Forall (λ c, 0 <= c <= 255) s' →
    wp_tokenize m s = Some (Ret (Ok toks)) → wp_tokenize m s' = Some (Ret (Ok toks')) → map t_id toks = map t_id toks' → s = s'.
Proof.
  intros H. specialize (H (ex_wp ["[UNK]"]%string) [97] [98] [Token 0 (bytes_of "[UNK]") (Offsets 0 1)] [Token 0 (bytes_of "[UNK]") (Offsets 0 1)]).
  assert ([97] = [98]) as E; [|done]. apply H; try done; [apply consistent_distinct, grown_consistent|by repeat constructor..].
Qed.
Print Assumptions C88_wordpiece_refuted.

(** "una" and "un" with "a" after a space differ; with dropout 1, "aé" has other tokens, hence other IDs, than with the merge. *)
Example C88_example :
  let m := ex_wp ["[UNK]"; "un"; "##a"; "##é"; "a"]%string in
  let ids x := match x with Some (Ret (Ok toks)) => Some (map t_id toks) | _ => None end in
  ids (wp_tokenize m (bytes_of "unaé")) = Some [1; 2; 3] ∧ ids (wp_tokenize m (bytes_of "una")) = Some [1; 2] ∧ ids (wp_tokenize m (bytes_of "x")) = Some [0]
  ∧ let v := PropsBpe.ex_vocab [[97]; [195; 169]; [97; 195; 169]] in
    match merge_map_from_file (encode [97; 32; 0xE9]) v 0 with
    | Ret (Ok mm) => ids (bpe_tokenize (Bpe v mm 0 [] [] [] false) (encode [97; 0xE9; 97]) (λ _, 0%Q)) = Some [2; 0]
                   ∧ ids (bpe_tokenize (Bpe v mm 1 [] [] [] false) (encode [97; 0xE9; 97]) (λ _, 0%Q)) = Some [0; 1; 0]
    | _ => False
    end.
Proof. vm_compute. auto. Qed.

(** * C89: pipelines *)
(** WordPiece over delimited or BERT pieces: the same IDs come from the same words, if no word starts with the
    prefix for later pieces of words and none is unknown. *)
Theorem C89_words_partial :
  ∀ pre pre' shown shown' m rs rs' pieces pieces' wi ty wi' ty' e e',
  cuts pre rs shown pieces → cuts pre' rs' shown' pieces' → scalars rs → scalars rs' →
  valid_terms (w_vocab m) → valid_utf8 (w_prefix m) = true → distinct_ids (w_vocab m) →
  Forall (λ x, ¬ w_prefix m `prefix_of` encode x.2) pieces → Forall (λ x, ¬ w_prefix m `prefix_of` encode x.2) pieces' →
  encode_text pre (wp_model m) (encode rs) wi ty = Ret (Ok e) → encode_text pre' (wp_model m) (encode rs') wi' ty' = Ret (Ok e') →
  (∀ u, get_id (w_vocab m) (w_unk m) = Some u → u ∉ e_ids e) → e_ids e = e_ids e' → pieces.*2 = pieces'.*2.
Proof. exact wp_words_of_ids. Qed.
Print Assumptions C89_words_partial.
(** The condition on the words is there for nothing with BERT pieces, if the prefix starts with punctuation
    and is longer: ## is. *)
Theorem C89_bert :
  ∀ u m rs rs' pieces pieces' c d r wi ty wi' ty' e e', bert_pieces_of white_space (u_punct u) rs pieces → bert_pieces_of white_space (u_punct u) rs' pieces' →
  scalars rs → scalars rs' → valid_terms (w_vocab m) → distinct_ids (w_vocab m) → w_prefix m = encode (c :: d :: r) → scalars (c :: d :: r) → u_punct u c = true →
  encode_text (bert_pretokenizer u) (wp_model m) (encode rs) wi ty = Ret (Ok e) → encode_text (bert_pretokenizer u) (wp_model m) (encode rs') wi' ty' = Ret (Ok e') →
  (∀ u, get_id (w_vocab m) (w_unk m) = Some u → u ∉ e_ids e) → e_ids e = e_ids e' → pieces.*2 = pieces'.*2.
Proof.
  intros u m rs rs' fs fs' c d r wi ty wi' ty' e e' Hf Hf' Hs Hs' Hv Hd Hp Hpr Hc. apply (C89_words_partial _ _ _ _ m rs rs' fs fs' wi ty wi' ty' e e' (cuts_bert u rs fs Hf) (cuts_bert u rs' fs' Hf')); try done.
  - rewrite Hp. apply valid_utf8_encode.
  - rewrite Hp. by eapply bert_no_prefix.
  - rewrite Hp. by eapply bert_no_prefix.
Qed.
Print Assumptions C89_bert.
(** Without it, "ab" and "a ##b" have the same IDs. *)
Theorem C89_words_refuted :
  ¬ ∀ m rs rs' pieces pieces' e e', delimited_pieces white_space rs pieces → delimited_pieces white_space rs' pieces' →
    scalars rs → scalars rs' → distinct_ids (w_vocab m) →
    encode_text whitespace_split (wp_model m) (encode rs) 0 0 = Ret (Ok e) → encode_text whitespace_split (wp_model m) (encode rs') 0 0 = Ret (Ok e') →
    (∀ u, get_id (w_vocab m) (w_unk m) = Some u → u ∉ e_ids e) → e_ids e = e_ids e' → pieces.*2 = pieces'.*2.
Proof.
  intros H.
  destruct (delimited white_space [97; 98]) as (fs & _ & Ho & Hf); [by repeat constructor|].
  destruct (delimited white_space [97; 32; 35; 35; 98]) as (fs' & _ & Ho' & Hf'); [by repeat constructor|].
  set (m := ex_wp ["[UNK]"; "a"; "##b"]%string).
  assert (fs.*2 = fs'.*2) as E.
  { eapply (H m [97; 98] [97; 32; 35; 35; 98]); [done|done|by repeat constructor|by repeat constructor|apply consistent_distinct, grown_consistent|vm_compute; reflexivity|vm_compute; reflexivity| |reflexivity].
    intros u Hu. vm_compute in Hu. injection Hu as <-. cbn. set_solver. }
  assert ((0, [97; 98]) ∈ fs) as Hin. { apply Hf. exists [], []. split; [done|]. split; [done|]. split; [by repeat constructor|]. done. }
  apply (elem_of_list_fmap_1 snd) in Hin. change (snd <$> fs) with (fs.*2) in Hin. rewrite E in Hin. apply elem_of_list_fmap in Hin as ([k w] & Ew & Hin). cbn in Ew. subst w.
  apply Hf' in Hin as (l & r & [El _] & _). cbn in El. do 6 (destruct l as [|? l]; cbn in El; [discriminate El|]; try discriminate El; injection El as _ El).
Qed.
Print Assumptions C89_words_refuted.
(** With BPE instead of WordPiece not even the words count: "ab" and "a b". *)
Theorem C89_bpe_refuted :
  ¬ ∀ m rs rs' e e', consistent (b_vocab m) → Forall (λ c, white_space c = false → is_Some (get_id (b_vocab m) (encode_rune c))) (rs ++ rs') →
    encode_text whitespace_split (bpe_model m (λ _ _, 0%Q)) (encode rs) 0 0 = Ret (Ok e) → encode_text whitespace_split (bpe_model m (λ _ _, 0%Q)) (encode rs') 0 0 = Ret (Ok e') →
    e_ids e = e_ids e' → base.filter (λ c, white_space c = true) rs = base.filter (λ c, white_space c = true) rs'.
Proof.
  intros H. specialize (H (Bpe (PropsBpe.ex_vocab [[97]; [98]]) ∅ 0 [] [] [] false) [97; 98] [97; 32; 98]).
  assert ([] = [32]) as E; [|done]. eapply H; [apply grown_consistent| |vm_compute; reflexivity..]. by repeat constructor; cbn; eauto.
Qed.
Print Assumptions C89_bpe_refuted.
(** What the IDs do determine: all the text outside the delimiters, whatever the pre-tokenizers, merges, dropout and random numbers of the two calls. *)
Theorem C89_bpe_shown :
  ∀ pre pre' shown shown' m m' file file' draws draws' rs rs' pieces pieces' wi ty wi' ty' e e',
  cuts pre rs shown pieces → cuts pre' rs' shown' pieces' → scalars rs → scalars rs' → b_vocab m = b_vocab m' → consistent (b_vocab m) →
  merge_map_from_file file (b_vocab m) 0 = Ret (Ok (b_merges m)) → merge_map_from_file file' (b_vocab m') 0 = Ret (Ok (b_merges m')) →
  b_prefix m = [] → b_suffix m = [] → b_prefix m' = [] → b_suffix m' = [] →
  (b_unk m ≠ [] → is_Some (get_id (b_vocab m) (b_unk m))) → (b_unk m' ≠ [] → is_Some (get_id (b_vocab m') (b_unk m'))) →
  Forall (λ c, shown c = true → is_Some (get_id (b_vocab m) (encode_rune c))) rs → Forall (λ c, shown' c = true → is_Some (get_id (b_vocab m) (encode_rune c))) rs' →
  encode_text pre (bpe_model m draws) (encode rs) wi ty = Ret (Ok e) → encode_text pre' (bpe_model m' draws') (encode rs') wi' ty' = Ret (Ok e') →
  e_ids e = e_ids e' → base.filter (λ c, shown c = true) rs = base.filter (λ c, shown' c = true) rs'.
Proof. exact bpe_shown_of_ids. Qed.
Print Assumptions C89_bpe_shown.

(** Byte-level BPE without space in front: any text. *)
Theorem C89_byte_level :
  ∀ fold letter number space m file draws draws' rs rs' wi ty wi' ty' e e', scalars rs → scalars rs' → has_bytes (b_vocab m) →
  consistent (b_vocab m) → merge_map_from_file file (b_vocab m) 0 = Ret (Ok (b_merges m)) →
  b_prefix m = [] → b_suffix m = [] → (b_unk m ≠ [] → is_Some (get_id (b_vocab m) (b_unk m))) →
  let pre := byte_level (engine_of (splitting_re fold letter number space)) false in
  encode_text pre (bpe_model m draws) (encode rs) wi ty = Ret (Ok e) → encode_text pre (bpe_model m draws') (encode rs') wi' ty' = Ret (Ok e') →
  e_ids e = e_ids e' → rs = rs'.
Proof. intros fold letter number space. exact (byte_text_of_ids fold letter number space false). Qed.
Print Assumptions C89_byte_level.
(** With the space in front: up to one space in front of a text that does not start with white space. *)
Theorem C89_byte_level_prefix :
  ∀ fold letter number space m file draws draws' rs rs' wi ty wi' ty' e e', scalars rs → scalars rs' → has_bytes (b_vocab m) →
  consistent (b_vocab m) → merge_map_from_file file (b_vocab m) 0 = Ret (Ok (b_merges m)) →
  b_prefix m = [] → b_suffix m = [] → (b_unk m ≠ [] → is_Some (get_id (b_vocab m) (b_unk m))) →
  let pre := byte_level (engine_of (splitting_re fold letter number space)) true in
  encode_text pre (bpe_model m draws) (encode rs) wi ty = Ret (Ok e) → encode_text pre (bpe_model m draws') (encode rs') wi' ty' = Ret (Ok e') →
  e_ids e = e_ids e' →
  rs = rs' ∨ (rs = 32 :: rs' ∧ rs' ≠ [] ∧ ∀ c, head rs' = Some c → white_space c = false) ∨ (rs' = 32 :: rs ∧ rs ≠ [] ∧ ∀ c, head rs = Some c → white_space c = false).
Proof.
  intros fold letter number space m file draws draws' rs rs' wi ty wi' ty' e e' Hs Hs' Hb Hcons Hf Hp Hx Hu pre He He' E. apply spaced_eq.
  exact (byte_text_of_ids fold letter number space true m file draws draws' rs rs' wi ty wi' ty' e e' Hs Hs' Hb Hcons Hf Hp Hx Hu He He' E).
Qed.
Print Assumptions C89_byte_level_prefix.
(** Metaspace and BPE: any known text without the meta character. *)
Theorem C89_metaspace :
  ∀ c prefix m file draws draws' rs rs' wi ty wi' ty' e e', scalars rs → scalars rs' → scalar c = true → c ∉ rs → c ∉ rs' →
  Forall (λ x, is_Some (get_id (b_vocab m) (encode_rune x))) (meta_text c prefix rs) → Forall (λ x, is_Some (get_id (b_vocab m) (encode_rune x))) (meta_text c prefix rs') →
  consistent (b_vocab m) → merge_map_from_file file (b_vocab m) 0 = Ret (Ok (b_merges m)) →
  b_prefix m = [] → b_suffix m = [] → (b_unk m ≠ [] → is_Some (get_id (b_vocab m) (b_unk m))) →
  encode_text (metaspace c prefix) (bpe_model m draws) (encode rs) wi ty = Ret (Ok e) → encode_text (metaspace c prefix) (bpe_model m draws') (encode rs') wi' ty' = Ret (Ok e') →
  e_ids e = e_ids e' → rs = rs'.
Proof. exact meta_text_of_ids. Qed.
Print Assumptions C89_metaspace.

(** "a" and " a" are indeed the same with the space in front and differ without; "no#, a" in BERT pieces. *)
Example C89_example :
  let ids x := match x with Ret (Ok e) => Some (e_ids e) | _ => None end in
  let v := PropsBpe.ex_vocab (map (λ b, encode_rune (byte_char b)) (seqZ 0 256)) in
  let re := engine_of (splitting_re (λ c, c) (λ c, (97 <=? c) && (c <=? 122)) (λ c, (48 <=? c) && (c <=? 57)) (λ c, c =? 32)) in
  let u := Unicode (λ _, false) (λ _, false) (λ c, (c =? 35) || (c =? 44)) (λ c, c) (λ c, c) in
  let run b s := ids (encode_text (byte_level re b) (bpe_model (Bpe v ∅ 0 [] [] [] false) (λ _ _, 0%Q)) s 0 0) in
  run true [97] = Some [32; 97] ∧ run true [32; 97] = Some [32; 97] ∧ run false [97] = Some [97] ∧ run false [32; 97] = Some [32; 97]
  ∧ ids (encode_text (bert_pretokenizer u) (wp_model (ex_wp ["[UNK]"; "n"; "##o"; "#"; ","; "a"]%string)) (bytes_of " no#,  a") 0 0) = Some [1; 2; 3; 4; 5].
Proof. vm_compute. auto 10. Qed.
