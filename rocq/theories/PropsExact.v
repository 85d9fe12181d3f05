(** Exact conditions for the properties that do not hold in general (C02, C08-C11, C18, C26, C38, C40, C44, C60, C66):
    where the code does what it should, and that it does so nowhere else. *)
From Coq Require Import ZifyBool QArith.
From Verif Require Import GoBase Strutils SplitPattern NormString Normalizers Vocab MergeMap Bpe WordPiece
  SpecText SpecNorm SpecNormalizers SpecVocab SpecBpe SpecWordPiece SpecExact
  Utf8Facts SliceFacts StrutilsFacts PatternFacts NormFacts NormEdits VocabFacts WordPieceFacts Lit
  PropsPatterns PropsNorm PropsBpe PropsWordPiece NormalizersFacts PropsNormalizers ExactFacts ExactBpe ExactWordPiece ExactBert RangeFacts PropsRange TileFacts.
Import GoBase NormString SpecNorm.
#[local] Open Scope Z_scope.

(** * C02 *)
(** What Convert returns for the characters [b] of a b c: the byte offsets it was given, except that the
    end of the text becomes the first byte of the last character plus one. *)
Theorem C02_convert_exact :
  ∀ a b c, scalars (a ++ b ++ c) → b ++ c ≠ [] →
  ∃ o, convert (new_converter (encode (a ++ b ++ c))) (Offsets (zlen (encode a)) (zlen (encode (a ++ b)))) = Ret o
    ∧ o_start o = zlen (encode a)
    ∧ (c ≠ [] → o_end o = zlen (encode (a ++ b)))
    ∧ (∀ init x, c = [] → a ++ b = init ++ [x] → o_end o = zlen (encode init) + 1).
Proof.
  intros a b c Hs Hne. destruct (b ++ c) as [|r l] eqn:E; [done|].
  rewrite (convert_exact a r l Hs b c) by done. eexists. split; [done|]. cbn [o_start o_end]. split; [done|]. split.
  - intros Hc. by rewrite decide_False.
  - intros init x -> Hi. rewrite decide_True by done. rewrite app_nil_r in E. rewrite <- E, Hi, removelast_last. done.
Qed.
Print Assumptions C02_convert_exact.

(** So the answer is right exactly if the characters before the end of the range (before the last
    character, if the range goes to the end of the text) are ASCII. *)
Theorem C02_convert_iff :
  ∀ a b c, scalars (a ++ b ++ c) → b ++ c ≠ [] →
  convert (new_converter (encode (a ++ b ++ c))) (Offsets (zlen (encode a)) (zlen (encode (a ++ b))))
    = Ret (Offsets (zlen a) (zlen (a ++ b)))
  ↔ (c ≠ [] ∧ Forall (λ r, r < 128) (a ++ b)) ∨ (c = [] ∧ Forall (λ r, r < 128) (removelast (a ++ b))).
Proof.
  intros a b c Hs Hne. pose proof Hs as Hs'. rewrite app_assoc in Hs'. apply scalars_app in Hs' as [Hab Hc].
  pose proof Hab as Hab'. apply scalars_app in Hab' as [Ha Hb].
  destruct (C02_convert_exact a b c Hs Hne) as ([o1 o2] & -> & H1 & H2 & H3). cbn [o_start o_end] in *. subst o1.
  destruct (decide (c = [])) as [->|Hcn].
  - rewrite app_nil_r in Hne. destruct (exists_last (l := a ++ b)) as (init & x & E). { intros E. apply app_eq_nil in E as [_ ->]. done. }
    rewrite (H3 init x eq_refl E). rewrite E, removelast_last, zlen_app. change (zlen [x]) with 1.
    rewrite E in Hab. apply scalars_app in Hab as [Hi _]. rewrite <- (encode_count_ascii _ Hi). split.
    + intros [= _ E2]. right. split; [done|lia].
    + intros [[? _]|[_ E2]]; [done|]. f_equal. f_equal; [|lia].
      assert (Forall (λ r, r < 128) a) as Haa; [|by apply encode_count_ascii in Haa].
      apply encode_count_ascii in E2; [|done]. destruct (exists_last Hne) as (b' & y & ->). rewrite app_assoc in E.
      apply app_inj_tail in E as [<- _]. by apply Forall_app in E2 as [? _].
  - rewrite (H2 Hcn). rewrite <- (encode_count_ascii _ Hab). split.
    + intros [= _ E2]. by left.
    + intros [[_ E2]|[? _]]; [|done]. f_equal. f_equal; [|done].
      rewrite (encode_count_ascii _ Hab) in E2. apply Forall_app in E2 as [E2 _]. by apply encode_count_ascii.
Qed.
Print Assumptions C02_convert_iff.

(** "éa!": the a is characters 1..2, bytes 2..3, and Convert answers 2..3; for é! it is right about the first character of "aé!". *)
Example C02_exact_example :
  convert (new_converter (encode [0xE9; 97; 33])) (Offsets 2 3) = Ret (Offsets 2 3)
  ∧ convert (new_converter (encode [0xE9; 97; 33])) (Offsets 0 4) = Ret (Offsets 0 4)
  ∧ convert (new_converter (encode [97; 0xE9])) (Offsets 0 3) = Ret (Offsets 0 2)
  (* beyond the end *)
  ∧ convert (new_converter (encode [97; 0xE9])) (Offsets 0 4) = Panic ∧ convert (new_converter (encode [97; 0xE9])) (Offsets 3 3) = Panic
  (* the empty string *)
  ∧ convert (new_converter []) (Offsets 0 0) = Ret (Offsets 0 0)
  ∧ removelast ([97] ++ [0xE9]) = [97].
Proof. vm_compute. auto 10. Qed.

(** * C08, C09, C66: on a string just made *)
Theorem C08_filter_iff :
  ∀ rs keep, scalars rs →
  (∃ n', filter_runes (from_string (encode rs)) keep = Ret n' ∧ repr n' (base.filter (λ p, keep p.1 = true) (fresh 0 rs)))
  ↔ ascii_lead (λ r, keep r = false) rs.
Proof.
  intros rs keep Hs. split; [by apply filter_needs|]. intros Hl.
  destruct (filter_aligned (from_string (encode rs)) (fresh 0 rs) keep) as (n' & H1 & H2 & _).
  - by apply from_string_repr.
  - by rewrite fresh_chars.
  - by exists n'.
Qed.
Print Assumptions C08_filter_iff.

(** Removing é from "aéb" is exact, removing it from "éab" is not. *)
Example C08_iff_example :
  let keep := λ r, r <? 128 in
  ascii_lead (λ r, keep r = false) [97; 0xE9; 98] ∧ ¬ ascii_lead (λ r, keep r = false) [0xE9; 97; 98]
  ∧ filter_runes (from_string (encode [0xE9; 97; 98])) keep = Panic.
Proof.
  intros keep. split; [|split; [|vm_compute; reflexivity]].
  - intros [|x l] c r E Hl _; [constructor|]. injection E as <- _. apply Forall_cons in Hl as [Hl _]. done.
  - intros H. specialize (H [0xE9] 97 [98] eq_refl). apply Forall_cons in H as [H _]; [lia|by repeat constructor|done].
Qed.

Theorem C09_trim_iff :
  ∀ left right lead mid trail, scalars (lead ++ mid ++ trail) →
  trimmed left right (fresh 0 lead) (fresh (zlen (encode lead)) mid) (fresh (zlen (encode (lead ++ mid))) trail) →
  (∃ n', trim_left_right (from_string (encode (lead ++ mid ++ trail))) left right = Ret n'
       ∧ repr n' (fresh (zlen (encode lead)) mid))
  ↔ Forall (λ r, r < 128) lead ∨ mid = [].
Proof.
  intros left right lead mid trail Hs Ht. split.
  - intros (n' & H1 & H2). by eapply trim_needs.
  - intros H. pose proof (from_string_repr _ Hs) as Hf. rewrite !fresh_app, !Z.add_0_l in Hf. rewrite encode_app, zlen_app in Ht.
    destruct (trim_spec _ left right _ _ _ Hf Ht) as (n' & H1 & H2 & _); [|by exists n'].
    destruct H as [H| ->]; [left|by right]. rewrite <- (Forall_fmap fst (λ r, r < 128)). by rewrite fresh_chars.
Qed.
Print Assumptions C09_trim_iff.

Theorem C66_strip_iff :
  ∀ left right lead mid trail, scalars (lead ++ mid ++ trail) →
  trimmed left right (fresh 0 lead) (fresh (zlen (encode lead)) mid) (fresh (zlen (encode (lead ++ mid))) trail) →
  (∃ n', strip_normalizer left right (from_string (encode (lead ++ mid ++ trail))) = Ret (n', None)
       ∧ repr n' (fresh (zlen (encode lead)) mid))
  ↔ Forall (λ r, r < 128) lead ∨ mid = [].
Proof.
  intros left right lead mid trail Hs Ht. rewrite <- (C09_trim_iff left right lead mid trail Hs Ht).
  unfold strip_normalizer, no_error. split; intros (n' & H & Hr).
  - apply bind_Ret in H as (n1 & H & [= ->]). by exists n'.
  - exists n'. by rewrite H.
Qed.
Print Assumptions C66_strip_iff.

(** "U+3000 é U+3000": white space of three bytes, on both sides. Trimmed on the right it is exact. *)
Example C09_iff_example :
  trimmed false true (fresh 0 []) (fresh 0 [0x3000; 0xE9]) (fresh 5 [0x3000])
  ∧ trim_left_right (from_string (encode [0x3000; 0xE9; 0x3000])) false true
    = Ret (NS (encode [0x3000; 0xE9; 0x3000]) (encode [0x3000; 0xE9]) [(0, 3); (0, 3); (0, 3); (3, 5); (3, 5)] 0)
  ∧ trimmed true false (fresh 0 [0x3000]) (fresh 3 [0xE9; 0x3000]) (fresh 8 [])
  ∧ (n ← trim_left_right (from_string (encode [0x3000; 0xE9; 0x3000])) true false; Ret (ns_al n)) ≠ Ret (spans_of (fresh 3 [0xE9; 0x3000])).
Proof.
  split.
  { split; [constructor|]. split; [by repeat constructor|]. split; [done|]. intros p w E. apply (f_equal last) in E. rewrite last_snoc in E.
    vm_compute in E. by injection E as <-. }
  split; [vm_compute; reflexivity|]. split; [|vm_compute; congruence].
  split; [by repeat constructor|]. split; [constructor|]. split; [|done]. intros p w E. vm_compute in E. by injection E as <- _.
Qed.

(** * C10, C11: on any well-formed string *)
(** Prepend("") exactly. *)
Theorem C10_prepend_nothing :
  ∀ n x a v, repr n ((x, a) :: v) →
  ∃ n', prepend n [] = Ret n' ∧ repr n' ((x, (0, 0)) :: v) ∧ same_origin n n'.
Proof. exact prepend_nothing. Qed.
Print Assumptions C10_prepend_nothing.
Theorem C10_prepend_iff :
  ∀ n x a v p, repr n ((x, a) :: v) →
  (∃ n', prepend n p = Ret n' ∧ repr n' (map (λ r, (r, a)) (runes p) ++ (x, a) :: v)) ↔ p ≠ [] ∨ a = (0, 0).
Proof.
  intros n x a v p Hr. split.
  - intros (n' & H1 & H2). destruct (decide (p = [])) as [->|]; [right|by left].
    destruct (prepend_nothing n x a v Hr) as (n'' & H3 & H4 & _). rewrite H1 in H3. injection H3 as <-.
    pose proof (ByteFacts.repr_unique _ _ _ H2 H4) as E. cbn in E. by injection E.
  - intros [Hp| ->].
    + destruct (prepend_spec n x a v p Hr Hp) as (n' & H1 & H2 & _). by exists n'.
    + destruct (decide (p = [])) as [->|Hp].
      * destruct (prepend_nothing n x (0, 0) v Hr) as (n' & H1 & H2 & _). by exists n'.
      * destruct (prepend_spec n x (0, 0) v p Hr Hp) as (n' & H1 & H2 & _). by exists n'.
Qed.
Print Assumptions C10_prepend_iff.
Example C10_iff_example :
  repr (from_string (encode [0xE9; 97])) ((0xE9, (0, 2)) :: [(97, (2, 3))])
  ∧ prepend (from_string (encode [0xE9; 97])) [] = Ret (NS (encode [0xE9; 97]) (encode [0xE9; 97]) [(0, 0); (0, 0); (2, 3)] 0).
Proof. split; [apply (from_string_repr [0xE9; 97]); by repeat constructor|vm_compute; reflexivity]. Qed.

(** For Append even the text is wrong in all other cases. *)
Theorem C11_append_iff :
  ∀ n v x a p, repr n (v ++ [(x, a)]) →
  (∃ n', append n p = Ret n' ∧ ns_norm n' = encode (v.*1 ++ x :: runes p)) ↔ Forall (λ q, q.1 < 128) v.
Proof.
  intros n v x a p Hr. split.
  - intros (n' & H1 & H2). by eapply append_needs.
  - intros H. destruct (append_spec n v x a p Hr H) as (n' & H1 & (_ & H2 & _) & _). exists n'. split; [done|].
    rewrite H2, fmap_app, (fmap_cons fst). cbn [fst]. do 3 f_equal. clear. induction (runes p) as [|r rs IH]; [done|]. cbn [map]. rewrite (fmap_cons fst). cbn [fst]. by rewrite IH.
Qed.
Print Assumptions C11_append_iff.
Example C11_iff_example :
  repr (from_string (encode [0xE9; 97; 98])) ([(0xE9, (0, 2)); (97, (2, 3))] ++ [(98, (3, 4))])
  ∧ (n ← append (from_string (encode [0xE9; 97; 98])) [33]; Ret (ns_norm n)) = Ret (encode [0xE9; 98; 33]).
Proof. split; [apply (from_string_repr [0xE9; 97; 98]); by repeat constructor|vm_compute; reflexivity]. Qed.

(** * C18 *)
(** The pieces' original texts make up the original text, whatever the pattern and the behaviour (but Removed), exactly if
    the spans follow each other from the start of the original text to its end. *)
Theorem C18_recombine_iff :
  ∀ n v, wf_as n v →
  (∀ (p : pattern) b cs ps, p (ns_norm n) = Ret (Ok cs) → boundary_cover (ns_norm n) cs →
     b ≠ Removed → split n p b = Ret (Ok ps) → concat (map ns_orig ps) = ns_orig n)
  ↔ tiles 0 v (zlen (ns_orig n)).
Proof.
  intros n v Hwf. split; [by apply recombine_tiles|]. intros Ht p b cs ps Hp Hc Hb Hs. by eapply C18_recombine_partial.
Qed.
Print Assumptions C18_recombine_iff.
(** "aaa" without its second letter and with its first one doubled: the letters one by one make up "aaa" again, but two
    pieces do not. *)
Example C18_iff_example :
  let n := NS [97; 97; 97] [97; 97; 97] [(0, 1); (0, 1); (2, 3)] 0 in
  ¬ tiles 0 [(97, (0, 1)); (97, (0, 1)); (97, (2, 3))] 3
  ∧ (r ← split n (rune_pattern 97) Isolated; Ret (match r with Ok ps => concat (map ns_orig ps) | Err _ => [] end)) = Ret [97; 97; 97]
  ∧ (r ← split n (λ _, Ret (Ok [Capture 0 2 true; Capture 2 3 false])) Isolated; Ret (match r with Ok ps => concat (map ns_orig ps) | Err _ => [] end)) = Ret [97; 97].
Proof. split; [cbn; lia|]. vm_compute. auto. Qed.

(** * C26: the empty pattern *)
Theorem C26_empty_pattern_iff :
  ∀ rs, scalars rs →
  (∃ cs, string_pattern [] (encode rs) = Ret (Ok cs) ∧ covers 0 cs (zlen (encode rs))) ↔ Forall (λ r, r < 128) rs.
Proof.
  intros rs Hs. unfold string_pattern. cbn [zlen length]. change (Z.of_nat 0 =? 0) with true. cbv iota.
  rewrite runes_encode_scalars by done. rewrite <- (encode_count_ascii _ Hs). split.
  - intros (cs & [= <-] & H). cbn in H. lia.
  - intros E. eexists. split; [done|]. cbn. pose proof (zlen_nonneg rs). rewrite E. lia.
Qed.
Print Assumptions C26_empty_pattern_iff.
Example C26_iff_example :
  string_pattern [] (encode [97; 0x91CE]) = Ret (Ok [Capture 0 2 false]) ∧ zlen (encode [97; 0x91CE]) = 4.
Proof. vm_compute. auto. Qed.

(** * C38 *)
(** Without unknown token the tokens tile the length of the known characters. *)
Theorem C38_known_exact :
  ∀ m s draws toks, b_unk m = [] → bpe_tokenize m s draws = Some (Ret (Ok toks)) →
  toks_tile 0 toks (known_bytes (char_classes m (runes s))).
Proof. exact known_tile. Qed.
Print Assumptions C38_known_exact.
Theorem C38_offsets_iff :
  ∀ m s draws toks, valid_utf8 s = true → bpe_tokenize m s draws = Some (Ret (Ok toks)) →
  toks_tile 0 toks (zlen s) ↔ b_unk m ≠ [] ∨ Forall (λ c, c.1 ≠ None) (char_classes m (runes s)).
Proof.
  intros m s draws toks Hv H. split; [by eapply offsets_needs|]. intros Hk. by destruct (C38_offsets_partial m s draws toks Hv Hk H).
Qed.
Print Assumptions C38_offsets_iff.
(** "éxa" with é and a known. *)
Example C38_iff_example :
  let m := Bpe (PropsBpe.ex_vocab [[97]; [195; 169]]) ∅ 0 [] [] [] false in
  bpe_tokenize m [195; 169; 120; 97] (λ _, 0%Q)
  = Some (Ret (Ok [Token 1 [195; 169] (Offsets 0 2); Token 0 [97] (Offsets 2 3)]))
  ∧ char_classes m [0xE9; 120; 97] = [(Some 1, 2); (None, 1); (Some 0, 1)] ∧ known_bytes (char_classes m [0xE9; 120; 97]) = 3.
Proof. vm_compute. auto. Qed.

(** * C40 *)
(** The terms looked up are the documented ones exactly if there is no prefix (or no text). *)
Theorem C40_prefix_iff :
  ∀ pre suf rs, char_terms pre suf rs = documented_terms pre suf rs ↔ pre = [] ∨ rs = [].
Proof.
  intros pre suf rs. split.
  - intros E. destruct rs as [|r rs]; [by right|left]. apply (f_equal (head (A := list Z))) in E.
    unfold char_terms, documented_terms in E. cbn in E. injection E as E. apply (f_equal zlen) in E. rewrite zlen_app in E.
    destruct pre as [|x pre]; [done|]. rewrite zlen_cons in E. pose proof (zlen_nonneg pre). lia.
  - intros [->| ->]; [|done]. unfold char_terms, documented_terms. apply imap_ext. intros i x _. by destruct (decide (i = 0%nat)).
Qed.
Print Assumptions C40_prefix_iff.
Example C40_iff_example :
  char_terms [35] [36] [97; 98; 99] = [[35; 97]; [98]; [99; 36]]
  ∧ documented_terms [35] [36] [97; 98; 99] = [[97]; [35; 98]; [35; 99; 36]].
Proof. vm_compute. auto. Qed.

(** * C44 *)
(** The words that every vocabulary segments greedily are those without a three-byte character after the
    first character. *)
Theorem C44_greedy_iff :
  ∀ rs, scalars rs →
  (∀ m, zlen rs <= w_max m → valid_terms (w_vocab m) → valid_utf8 (w_prefix m) = true →
     ∃ res, wp_tokenize m (encode rs) = Some (Ret res) ∧ greedy_answer m rs res)
  ↔ Forall (λ r, rune_len r ≠ 3) (tail rs).
Proof.
  intros rs Hs. split; [by apply greedy_needs|]. intros H m H1 H2 H3. by apply C44_greedy_partial.
Qed.
Print Assumptions C44_greedy_iff.
Example C44_iff_example :
  Forall (λ r, rune_len r ≠ 3) (tail [0x91CE; 0xE9; 0x1D11E]) ∧ ¬ Forall (λ r, rune_len r ≠ 3) (tail [97; 0x20AC]).
Proof. split; [repeat constructor; vm_compute; congruence|]. intros H. apply Forall_cons in H as [H _]. by apply H. Qed.

(** * C60: cleaning *)
(** With cleaning and without the removal of accents (which filters again): exact on a string just made
    exactly if what is removed at the front is ASCII. *)
Theorem C60_clean_iff :
  ∀ u o rs, scalars rs → bo_clean o = true → bo_accents o = false →
  (∃ n', bert_normalizer u o (from_string (encode rs)) = Ret (n', None) ∧ repr n' (bert_aligned u o (fresh 0 rs)))
  ↔ ascii_lead (cleaned_away u) rs.
Proof.
  intros u o rs Hs Hc Ha. split; [by apply clean_needs|]. intros Hl.
  destruct (C60_bert_partial u o (from_string (encode rs)) (fresh 0 rs)) as (n' & H1 & H2 & _).
  - by apply from_string_repr.
  - intros _. by rewrite fresh_chars.
  - by rewrite Ha.
  - by exists n'.
Qed.
Print Assumptions C60_clean_iff.
(** NUL before "é" is removed exactly; U+FFFD before it is not. *)
Example C60_iff_example :
  let u := Unicode (λ _, false) (λ _, false) (λ _, false) (λ c, c) (λ c, c) in
  let o := BertOptions true true false true in
  (x ← bert_normalizer u o (from_string (encode [0; 0xE9])); Ret (ns_al x.1)) = Ret (spans_of [(0xE9, (1, 3))])
  ∧ (x ← bert_normalizer u o (from_string (encode [0xFFFD; 0xE9; 97])); Ret (ns_al x.1)) = Ret [(0, 3); (0, 3); (3, 5)]
  ∧ bert_aligned u o (fresh 0 [0xFFFD; 0xE9; 97]) = [(0xE9, (3, 5)); (97, (5, 6))].
Proof. vm_compute. auto. Qed.

(** With the removal of accents, for tables in which the space is not a mark: if what cleaning removes at
    the front is ASCII (or cleaning is off), the normalizer is exact on a string just made exactly if the marks
    at the front of the cleaned, spaced text are ASCII. *)
Theorem C60_accents_iff :
  ∀ u o rs, scalars rs → u_mn u 32 = false → bo_accents o = true →
  (bo_clean o = true → ascii_lead (cleaned_away u) rs) →
  (∃ n', bert_normalizer u o (from_string (encode rs)) = Ret (n', None) ∧ repr n' (bert_aligned u o (fresh 0 rs)))
  ↔ ascii_lead (λ r, u_mn u r = true) (when (bo_chinese o) (spaced_out is_chinese) (when (bo_clean o) (cleaned u) rs)).
Proof.
  intros u o rs Hs Hm Ha Hc. split; [by apply accents_need|]. intros Hl.
  destruct (C60_bert_partial u o (from_string (encode rs)) (fresh 0 rs)) as (n' & H1 & H2 & _).
  - by apply from_string_repr.
  - by rewrite fresh_chars.
  - by rewrite fresh_chars.
  - by exists n'.
Qed.
Print Assumptions C60_accents_iff.
(** The combining mark U+20D0 before "éa" is removed with wrong spans for the rest, U+0301 before "ab" makes Normalize
    panic; after a Chinese character marks are not at the front, and everything is exact. *)
Example C60_accents_example :
  let u := Unicode (λ _, false) (λ c, (c =? 0x301) || (c =? 0x20D0)) (λ _, false) (λ c, c) (λ c, c) in
  let o := BertOptions true true true true in
  u_mn u 32 = false ∧ u_mn u 0x301 = true
  ∧ (x ← bert_normalizer u o (from_string (encode [0x20D0; 0xE9; 97])); Ret (ns_al x.1)) = Ret [(0, 3); (0, 3); (3, 5)]
  ∧ bert_aligned u o (fresh 0 [0x20D0; 0xE9; 97]) = [(0xE9, (3, 5)); (97, (5, 6))]
  ∧ (x ← bert_normalizer u o (from_string (encode [0x301; 97; 98])); Ret (ns_al x.1)) = Panic
  ∧ (x ← bert_normalizer u o (from_string (encode [0x4E00; 0x301; 97])); Ret (ns_al x.1))
    = Ret (spans_of (bert_aligned u o (fresh 0 [0x4E00; 0x301; 97])))
  ∧ bert_aligned u o (fresh 0 [0x4E00; 0x301; 97]) = [(32, (0, 3)); (0x4E00, (0, 3)); (32, (0, 3)); (97, (5, 6))].
Proof. vm_compute. auto 10. Qed.
