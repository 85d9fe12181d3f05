(** Property theorems C112: the BERT pipeline and the tokenizer of BERT. *)
From Coq Require Import ZifyBool Sorted QArith String.
From stdpp Require Import relations.
From Verif Require Import GoBase Utf8Facts Strutils SplitPattern NormString Vocab MergeMap Bpe WordPiece Encodings PreTokString Normalizers PreTokenizers SpecText SpecNorm SpecVocab SpecBpe SpecWordPiece SpecPts SpecPretok SpecNormalizers SpecEnd SpecPipe SpecRef
  SliceFacts NormFacts NormInv WordPieceFacts PretokFacts NormalizersFacts EndFacts PipeFacts RefFacts RefBert PropsWordPiece PropsPretok PropsNormalizers PropsEnd BertText Lit.
Import GoBase NormString SpecNorm.
#[local] Open Scope Z_scope.

(** * One word *)
Lemma seg_values v pre o segs toks : 0 < o → seg_toks v pre o segs toks → map t_value toks = map (λ s, pre ++ encode s) segs ∧ Forall (λ t, get_id v (t_value t) = Some (t_id t)) toks.
Proof.
  intros Ho H. induction H as [o|o a segs i ts Hi _ IH]; [done|]. destruct IH as [IH1 IH2]; [pose proof (zlen_nonneg (encode a)); lia|].
  replace (o =? 0) with false in Hi |- * by lia. cbn [piece_term] in *. cbn [map t_value t_id]. rewrite IH1. split; [done|]. by constructor.
Qed.
Theorem C112_word :
  ∀ m w, scalars w → w ≠ [] → valid_terms (w_vocab m) → valid_utf8 (w_prefix m) = true → is_Some (get_id (w_vocab m) (w_unk m)) →
  Forall (λ c, rune_len c ≠ 3) (tail w) →
  ∃ toks, wp_tokenize m (encode w) = Some (Ret (Ok toks)) ∧ wordpiece_tokens m w (map t_value toks)
    ∧ Forall (λ t, get_id (w_vocab m) (t_value t) = Some (t_id t)) toks.
Proof.
  intros m w Hs Hne Hv Hp [iu Hu] H3.
  assert (Hunk : ∀ res, unknown_answer m (encode w) res → ∃ i, get_id (w_vocab m) (w_unk m) = Some i ∧ res = Ok [Token i (w_unk m) (Offsets 0 (zlen (encode w)))]).
  { intros res [H|[H _]]; [done|congruence]. }
  destruct (decide (zlen w <= w_max m)) as [Hm|Hm].
  - destruct (C44_greedy_partial m w Hs Hm Hv Hp H3) as (res & E & [(segs & toks & G1 & G2 & ->)|[G H]]).
    + exists toks. split; [done|]. destruct segs as [|a segs]; [by inversion G1|]. pose proof G1 as G0. inversion G1 as [|? ? b ? Ha]; subst.
      inversion G2 as [|? ? ? i ts Hi Hts]; subst. cbn [Z.eqb piece_term] in Hi.
      assert (Hpos : 0 < 0 + zlen (encode a)) by (destruct a as [|c a]; [done|]; apply encode_pos).
      destruct (seg_values _ _ _ _ _ Hpos Hts) as [E1 E2].
      cbn [map t_value t_id piece_term Z.eqb]. rewrite E1. split; [by apply wordpiece_found|by constructor].
    + apply Hunk in H as (i & Hi & ->). eexists. split; [done|]. split; [by apply wordpiece_bad|]. by constructor.
  - destruct (C45_too_long m (encode w) (encode_bytes _)) as (res & E & H); [rewrite runes_encode_scalars by done; lia|].
    apply Hunk in H as (i & Hi & ->). eexists. split; [done|]. split; [apply wordpiece_too_long; lia|]. by constructor.
Qed.
Print Assumptions C112_word.

(** * The pipeline *)
Lemma bert_pipeline u m n L wi ty : holds_text n L → ns_shift n = 0 →
  valid_terms (w_vocab m) → valid_utf8 (w_prefix m) = true → is_Some (get_id (w_vocab m) (w_unk m)) →
  let ws := flat_map (split_on_punc (u_punct u) []) (words white_space [] L) in
  Forall (λ w, Forall (λ c, rune_len c ≠ 3) (tail w)) ws →
  ∃ e parts, encode_ns (bert_pretokenizer u) (wp_model m) n wi ty = Ret (Ok e)
    ∧ Forall2 (wordpiece_tokens m) ws parts ∧ e_tokens e = concat parts
    ∧ Forall2 (λ t i, get_id (w_vocab m) t = Some i) (e_tokens e) (e_ids e).
Proof.
  intros (Hwf & HL & En) H0 Hv Hp Hu ws H3. destruct Hwf as (v & Hwf). pose proof Hwf as ((Hs & Hn & _) & _).
  assert (E : v.*1 = L) by (apply encode_inj_scalars; [done|done|congruence]).
  destruct (C55_bert_pretokenizer u v.*1 Hs) as (fs & _ & Ho & Hf).
  pose proof (pieces_words white_space (u_punct u) v.*1 fs Ho Hf) as Hws. rewrite E in Hws. fold ws in Hws.
  destruct (cuts_found (bert_pretokenizer u) n v _ fs Hwf H0 (cuts_bert u v.*1 fs (conj Ho Hf))) as (l & ts & Hpre & Hft & Hh & _ & Hoc).
  assert (Hch : ∀ i t, ts !! i = Some t → ∃ x, fs !! i = Some x ∧ t.*1 = x.2 ∧ t ≠ [] ∧ scalars t.*1 ∧ Forall (λ c, rune_len c ≠ 3) (tail t.*1)).
  { intros j t Hj. destruct (Forall2_lookup_r _ _ _ _ _ Hft Hj) as (x & Hx & (a & b & _ & _ & Ex)). exists x. split; [done|]. split; [done|].
    destruct (Hoc x) as (Hne & a' & b' & Hx'); [by eapply elem_of_list_lookup_2|]. split; [intros ->; by rewrite <- Ex in Hne|]. rewrite Ex. split; [by eapply occurs_scalars|].
    rewrite Forall_forall in H3. apply H3. rewrite <- Hws. apply elem_of_list_fmap. exists x. split; [done|]. by eapply elem_of_list_lookup_2. }
  assert (Hans : ∀ j i t, ts !! i = Some t → ∃ toks, wp_model m j (encode t.*1) = Ret (Ok toks) ∧ wordpiece_tokens m t.*1 (map t_value toks)
     ∧ Forall (λ t, get_id (w_vocab m) (t_value t) = Some (t_id t)) toks).
  { intros j i t Hi. destruct (Hch i t Hi) as (x & Hx & Ex & Hne & Hsc & Ht3). destruct (C112_word m t.*1 Hsc ltac:(by destruct t) Hv Hp Hu Ht3) as (toks & Et & G). exists toks. unfold wp_model. by rewrite Et. }
  destruct (pipeline_tokens (bert_pretokenizer u) (wp_model m) n wi ty _ ts l Hpre Hh) as [(e & tss & E1 & E2 & E3 & E4 & E5)|(e & j & t & _ & Ht & Ee)].
  { intros j t Hin. apply elem_of_list_lookup in Hin as (i & Hi). destruct (Hch i t Hi) as (x & Hx & Ex & Hne & Hsc & _).
    unfold wp_model. destruct (C43_tokens_tile m (encode t.*1) (encode_bytes _)) as (res & Er & Hres). rewrite Er.
    eexists. split; [done|]. intros toks ->. split; [|by eapply C46_boundaries].
    destruct Hres as [[(k & _ & [= ->])|[_ [=]]]|(toks' & [= ->] & Ht & _)]; [|done]. cbn. split; [done|]. split; [|done].
    destruct t as [|[c s] t]; [done|]. apply encode_pos. }
  - assert (Hall : Forall2 (λ t toks, wordpiece_tokens m t.*1 (map t_value toks) ∧ Forall (λ t, get_id (w_vocab m) (t_value t) = Some (t_id t)) toks) ts tss).
    { apply Forall2_same_length_lookup_2; [done|]. intros j t toks Hj Htoks. destruct (Hans j j t Hj) as (toks' & Et & G).
      rewrite (E3 j t toks Hj Htoks) in Et. injection Et as <-. done. }
    exists e, (map (map t_value) tss). split; [done|]. split; [|split; [done|]].
    + rewrite <- Hws. apply Forall2_fmap. apply Forall2_same_length_lookup_2; [pose proof (Forall2_length _ _ _ Hft); congruence|].
      intros j x toks Hx Htoks. destruct (Forall2_lookup_l _ _ _ _ _ Hft Hx) as (t & Ht & _). destruct (Hch j t Ht) as (x' & Hx' & Ex & _). rewrite Hx in Hx'. injection Hx' as <-.
      destruct (Forall2_lookup_lr _ _ _ _ _ _ Hall Ht Htoks) as [G _]. by rewrite Ex in G.
    + rewrite E4, E5. clear -Hall. induction Hall as [|t toks ts tss [_ H] _ IH]; [constructor|]. cbn [map concat]. apply Forall2_app; [|done].
      clear -H. induction H; cbn [map]; by constructor.
  - exfalso. destruct (Hans j j t Ht) as (toks & Et & _). congruence.
Qed.
Lemma bert_normalized u o rs r : scalars rs → bert_normalizer u o (from_string (encode rs)) = Ret r →
  r.2 = None ∧ holds_text r.1 (bert_text u o rs) ∧ ns_shift r.1 = 0.
Proof.
  intros Hs H. unfold bert_normalizer, no_error in H. apply bind_Ret in H as (n & H & [= <-]). split; [done|]. cbn [fst].
  destruct (bert_text_spec u o (from_string (encode rs)) rs n) as [G1 [_ G2]]; [|done|]. { split; [by exists (fresh 0 rs); apply from_string_wf|]. done. }
  split; [done|]. by rewrite G2.
Qed.

Theorem C112_bert_partial :
  ∀ u decomposed m rs wi ty, scalars rs → case_tables u → Forall (agreed_char u decomposed) (32 :: rs) →
  valid_terms (w_vocab m) → valid_utf8 (w_prefix m) = true → is_Some (get_id (w_vocab m) (w_unk m)) →
  bert_normalizer u default_bert (from_string (encode rs)) ≠ Panic →
  Forall (λ w, Forall (λ c, rune_len c ≠ 3) (tail w)) (basic_tokens white_space (bert_punct u) (control_char u) (u_mn u) (u_lower u) decomposed chinese_char rs) →
  ∃ e, encode_normalized (bert_normalizer u default_bert) (bert_pretokenizer u) (wp_model m) (encode rs) wi ty = Ret (Ok e)
    ∧ bert_tokens u decomposed m rs (e_tokens e)
    ∧ Forall2 (λ t i, get_id (w_vocab m) t = Some i) (e_tokens e) (e_ids e).
Proof.
  intros u decomposed m rs wi ty Hs Hu Ha Hv Hp Hunk Hn H3. destruct (bert_normalizer u default_bert (from_string (encode rs))) as [r|] eqn:E; [|done].
  destruct (bert_normalized u default_bert rs r Hs E) as (E2 & Ht & H0). unfold encode_normalized. rewrite E. cbn [mbind outcome_bind]. rewrite E2.
  destruct (bert_pipeline u m r.1 _ wi ty Ht H0 Hv Hp Hunk) as (e & parts & E1 & G1 & G2 & G3); [by rewrite (bert_words u decomposed rs)|].
  rewrite (bert_words u decomposed rs) in G1 by done. exists e. split; [done|]. split; [by exists parts|done].
Qed.
Print Assumptions C112_bert_partial.

Theorem C112_cased_partial :
  ∀ u m rs wi ty, scalars rs → Forall (λ c, bert_punct u c = u_punct u c ∧ ¬ (0x2B820 <= c <= 0x2B91F)) (32 :: rs) →
  valid_terms (w_vocab m) → valid_utf8 (w_prefix m) = true → is_Some (get_id (w_vocab m) (w_unk m)) →
  bert_normalizer u (BertOptions true true false false) (from_string (encode rs)) ≠ Panic →
  Forall (λ w, Forall (λ c, rune_len c ≠ 3) (tail w)) (basic_tokens white_space (bert_punct u) (control_char u) (λ _, false) (λ c, c) (λ c, [c]) chinese_char rs) →
  ∃ e, encode_normalized (bert_normalizer u (BertOptions true true false false)) (bert_pretokenizer u) (wp_model m) (encode rs) wi ty = Ret (Ok e)
    ∧ bert_cased_tokens u m rs (e_tokens e)
    ∧ Forall2 (λ t i, get_id (w_vocab m) t = Some i) (e_tokens e) (e_ids e).
Proof.
  intros u m rs wi ty Hs Ha Hv Hp Hunk Hn H3. set (o := BertOptions true true false false) in *. destruct (bert_normalizer u o (from_string (encode rs))) as [r|] eqn:E; [|done].
  destruct (bert_normalized u o rs r Hs E) as (E2 & Ht & H0). unfold encode_normalized. rewrite E. cbn [mbind outcome_bind]. rewrite E2.
  destruct (bert_pipeline u m r.1 _ wi ty Ht H0 Hv Hp Hunk) as (e & parts & E1 & G1 & G2 & G3); [by rewrite bert_cased_words|].
  rewrite bert_cased_words in G1 by done. exists e. split; [done|]. split; [by exists parts|done].
Qed.
Print Assumptions C112_cased_partial.

(** * For one text, exactly *)
Lemma text_iff u o (norm := bert_normalizer u o) rs R (agrees : wordpiece → Prop) : scalars rs → Forall (λ w, w ≠ [] ∧ scalars w) R →
  (∀ m, agrees m ↔ ∃ e parts, encode_normalized norm (bert_pretokenizer u) (wp_model m) (encode rs) (-1) 0 = Ret (Ok e) ∧ Forall2 (wordpiece_tokens m) R parts ∧ e_tokens e = concat parts) →
  (∀ m, valid_terms (w_vocab m) → valid_utf8 (w_prefix m) = true → is_Some (get_id (w_vocab m) (w_unk m)) → agrees m)
  ↔ norm (from_string (encode rs)) ≠ Panic ∧ library_words u o rs = R ∧ Forall (λ w, Forall (λ c, rune_len c ≠ 3) (tail w)) R.
Proof.
  intros Hs HR Ha. unfold encode_normalized in Ha. split.
  - intros H. destruct (norm (from_string (encode rs))) as [r|] eqn:E.
    2: { destruct (some_vocab [[]]) as (v & Hv). destruct (Ha (WordPiece v [] [] 0)) as [Ha' _]. destruct Ha' as (e & parts & G & _); [|done].
         apply H; [by apply (some_valid _ _ Hv); constructor|done|apply Hv; by left]. }
    destruct (bert_normalized u o rs r Hs E) as (E2 & Ht & H0). split; [done|].
    assert (Hsame : ∀ m, valid_terms (w_vocab m) → valid_utf8 (w_prefix m) = true → is_Some (get_id (w_vocab m) (w_unk m)) → same_tokens (library_words u o rs) R m).
    { intros m Hv Hp Hu. destruct (proj1 (Ha m) (H m Hv Hp Hu)) as (e & parts & G1 & G2 & G3). cbn [mbind outcome_bind] in G1. rewrite E2 in G1.
      destruct (bert_parts u m r.1 _ (-1) 0 Ht H0 Hv Hp Hu) as (e' & ps & P1 & P2 & P3). rewrite G1 in P1. injection P1 as <-. exists ps, parts. split; [done|]. split; [done|congruence]. }
    assert (HL : library_words u o rs = R). { apply same_words; [|done|done]. apply library_words_ok. by destruct Ht as (_ & Ht & _). }
    split; [done|]. rewrite HL in Hsame. by apply same_no_three.
  - intros (Hn & HL & H3) m Hv Hp Hu. apply Ha. destruct (norm (from_string (encode rs))) as [r|] eqn:E; [|done].
    destruct (bert_normalized u o rs r Hs E) as (E2 & Ht & H0). cbn [mbind outcome_bind]. rewrite E2.
    destruct (bert_pipeline u m r.1 _ (-1) 0 Ht H0 Hv Hp Hu) as (e & parts & E1 & G1 & G2 & _); [by fold (library_words u o rs); rewrite HL|].
    fold (library_words u o rs) in G1. rewrite HL in G1. by exists e, parts.
Qed.

(** Every vocabulary gives a text the tokens of BERT exactly if the normalizer does not panic, both split the text into the same words,
    and no word has a three-byte character after its first. *)
Theorem C112_text_iff :
  ∀ u decomposed rs, scalars rs → (∀ c, scalar c = true → scalars (decomposed (u_lower u c))) →
  (∀ m, valid_terms (w_vocab m) → valid_utf8 (w_prefix m) = true → is_Some (get_id (w_vocab m) (w_unk m)) → bert_agrees u decomposed m rs)
  ↔ no_panic u rs ∧ library_words u default_bert rs = reference_words u decomposed rs ∧ no_three u decomposed rs.
Proof.
  intros u d rs Hs Hd. apply (text_iff u default_bert rs (reference_words u d rs) (λ m, bert_agrees u d m rs)); [done|by apply reference_words_ok|].
  intros m. split; [intros (e & E & parts & G1 & G2); by exists e, parts|intros (e & parts & E & G1 & G2); exists e; split; [done|]; by exists parts].
Qed.
Print Assumptions C112_text_iff.
Theorem C112_cased_text_iff :
  ∀ u rs, scalars rs →
  (∀ m, valid_terms (w_vocab m) → valid_utf8 (w_prefix m) = true → is_Some (get_id (w_vocab m) (w_unk m)) → bert_cased_agrees u m rs)
  ↔ bert_normalizer u cased_bert (from_string (encode rs)) ≠ Panic ∧ library_words u cased_bert rs = reference_cased_words u rs
    ∧ Forall (λ w, Forall (λ c, rune_len c ≠ 3) (tail w)) (reference_cased_words u rs).
Proof.
  intros u rs Hs. apply (text_iff u cased_bert rs (reference_cased_words u rs) (λ m, bert_cased_agrees u m rs)); [done|apply reference_words_ok; [done|]; intros c Hc; by constructor|].
  intros m. split; [intros (e & E & parts & G1 & G2); by exists e, parts|intros (e & parts & E & G1 & G2); exists e; split; [done|]; by exists parts].
Qed.
Print Assumptions C112_cased_text_iff.
(** "a$" and "né": other words.  "n, 5": the same. *)
Example C112_text_example :
  let u := Unicode (λ _, false) (λ c, c =? 0x301) (λ c, (c =? 44) || (c =? 46)) (λ c, c) (λ c, c) in
  let d := λ c, if c =? 0xE9 then [101; 0x301] else [c] in
  (library_words u default_bert [97; 36], reference_words u d [97; 36]) = ([[97; 36]], [[97]; [36]])
  ∧ (library_words u default_bert [110; 0xE9], reference_words u d [110; 0xE9]) = ([[110; 0xE9]], [[110; 101]])
  ∧ (library_words u cased_bert [110; 0xE9], reference_cased_words u [110; 0xE9]) = ([[110; 0xE9]], [[110; 0xE9]])
  ∧ (library_words u default_bert [110; 44; 32; 53], reference_words u d [110; 44; 32; 53]) = ([[110]; [44]; [53]], [[110]; [44]; [53]]).
Proof. vm_compute. auto. Qed.

(** * Each of the five conditions on the text is needed *)
Theorem C112_conditions : bert_claim (λ u d rs, in_nfd u d rs ∧ no_symbols u rs ∧ no_missing rs ∧ no_panic u rs ∧ no_three u d rs).
Proof.
  intros u d m rs Hs Hu Hv Hp Hunk (H1 & H2 & H3 & H4 & H5).
  destruct (C112_bert_partial u d m rs (-1) 0 Hs Hu) as (e & E & T & _); try done; [|by exists e].
  unfold in_nfd, no_symbols, no_missing in *. rewrite Forall_forall in *. intros c Hc. split; [by apply H1|]. split; [by apply H2|].
  apply elem_of_cons in Hc as [->|Hc]; [lia|by apply H3].
Qed.
Print Assumptions C112_conditions.

Lemma bert_fun u d m rs r1 r2 : bert_tokens u d m rs r1 → bert_tokens u d m rs r2 → r1 = r2.
Proof.
  intros (p1 & H1 & ->) (p2 & H2 & ->). f_equal. revert p2 H2. induction H1 as [|w x ws p1 H _ IH]; intros p2 H2; [by apply Forall2_nil_inv_l in H2|].
  apply Forall2_cons_inv_l in H2 as (y & p2' & Hy & H2 & ->). f_equal; [by eapply wordpiece_fun|by apply IH].
Qed.
Lemma ex_valid v : forallb (λ p : list Z * Z, valid_utf8 p.1) (map_to_list (v_ids v)) = true → valid_terms v.
Proof.
  intros H t i Ht. rewrite forallb_forall in H. apply (H (t, i)). apply elem_of_list_In, elem_of_map_to_list. exact Ht.
Qed.
Definition no_case (other mark punct : Z → bool) : unicode := Unicode other mark punct (λ c, c) (λ c, c).
Lemma no_case_tables other mark punct : (∀ c, white_space c = true → mark c = false) → case_tables (no_case other mark punct).
Proof. intros H. by constructor. Qed.

(** "é" where "e" is known: accents are only removed where they are characters of their own. *)
Theorem C112_accents_refuted : ¬ bert_claim (λ u d rs, no_symbols u rs ∧ no_missing rs ∧ no_panic u rs ∧ no_three u d rs).
Proof.
  intros H. set (u := no_case (λ _, false) (λ c, c =? 0x301) (λ _, false)). set (d := λ c, if c =? 0xE9 then [101; 0x301] else [c]).
  set (m := ex_wp ["[UNK]"%string; "e"%string]). destruct (H u d m [0xE9]) as (e & E & T).
  - by repeat constructor.
  - apply no_case_tables. intros c Hc. destruct (Z.eqb_spec c 0x301) as [->|]; [by vm_compute in Hc|done].
  - by apply ex_valid; vm_compute.
  - by vm_compute.
  - vm_compute. eauto.
  - split; [repeat constructor|]. split; [repeat constructor; lia|]. split; [by vm_compute|]. unfold no_three. vm_compute basic_tokens. repeat constructor.
  - vm_compute in E. injection E as <-. cbn [e_tokens] in T. assert (G : bert_tokens u d m [0xE9] [[101]]).
    { exists [[[101]]]. split; [|done]. vm_compute basic_tokens. repeat constructor. apply (wordpiece_whole m [101]); [done|by vm_compute|by vm_compute; eauto]. }
    pose proof (bert_fun _ _ _ _ _ _ T G). discriminate.
Qed.
Print Assumptions C112_accents_refuted.

(** "$5": not punctuation for the library. *)
Theorem C112_symbols_refuted : ¬ bert_claim (λ u d rs, in_nfd u d rs ∧ no_missing rs ∧ no_panic u rs ∧ no_three u d rs).
Proof.
  intros H. set (u := no_case (λ _, false) (λ _, false) (λ c, c =? 46)). set (d := λ c : Z, [c]).
  set (m := ex_wp ["[UNK]"%string; "$"%string; "5"%string]). destruct (H u d m [36; 53]) as (e & E & T).
  - by repeat constructor.
  - by apply no_case_tables.
  - by apply ex_valid; vm_compute.
  - by vm_compute.
  - vm_compute. eauto.
  - split; [repeat constructor|]. split; [repeat constructor; lia|]. split; [by vm_compute|]. unfold no_three. vm_compute basic_tokens. repeat constructor.
  - vm_compute in E. injection E as <-. cbn [e_tokens] in T. assert (G : bert_tokens u d m [36; 53] [[36]; [53]]).
    { exists [[[36]]; [[53]]]. split; [|done]. vm_compute basic_tokens. repeat constructor.
      - apply (wordpiece_whole m [36]); [done|by vm_compute|by vm_compute; eauto].
      - apply (wordpiece_whole m [53]); [done|by vm_compute|by vm_compute; eauto]. }
    pose proof (bert_fun _ _ _ _ _ _ T G). discriminate.
Qed.
Print Assumptions C112_symbols_refuted.

(** U+2B820, the first ideograph of Extension E, before "a". *)
Theorem C112_extension_refuted : ¬ bert_claim (λ u d rs, in_nfd u d rs ∧ no_symbols u rs ∧ no_panic u rs ∧ no_three u d rs).
Proof.
  intros H. set (u := no_case (λ _, false) (λ _, false) (λ _, false)). set (d := λ c : Z, [c]).
  set (m := ex_wp ["[UNK]"%string; "𫠠"%string; "a"%string]). destruct (H u d m [0x2B820; 97]) as (e & E & T).
  - by repeat constructor.
  - by apply no_case_tables.
  - by apply ex_valid; vm_compute.
  - by vm_compute.
  - vm_compute. eauto.
  - split; [repeat constructor|]. split; [repeat constructor|]. split; [by vm_compute|]. unfold no_three. vm_compute basic_tokens. repeat constructor.
  - vm_compute in E. injection E as <-. cbn [e_tokens] in T. assert (G : bert_tokens u d m [0x2B820; 97] [encode [0x2B820]; [97]]).
    { exists [[encode [0x2B820]]; [[97]]]. split; [|done]. vm_compute basic_tokens. constructor; [|constructor; [|constructor]].
      - apply (wordpiece_whole m [0x2B820]); [done|by vm_compute|by vm_compute; eauto].
      - apply (wordpiece_whole m [97]); [done|by vm_compute|by vm_compute; eauto]. }
    pose proof (bert_fun _ _ _ _ _ _ T G). discriminate.
Qed.
Print Assumptions C112_extension_refuted.

(** A byte order mark before "abc": the library panics. *)
Theorem C112_mark_refuted : ¬ bert_claim (λ u d rs, in_nfd u d rs ∧ no_symbols u rs ∧ no_missing rs ∧ no_three u d rs).
Proof.
  intros H. set (u := no_case (λ c, c =? 0xFEFF) (λ _, false) (λ _, false)). set (d := λ c : Z, [c]).
  set (m := ex_wp ["[UNK]"%string; "abc"%string]). destruct (H u d m [0xFEFF; 97; 98; 99]) as (e & E & T).
  - by repeat constructor.
  - by apply no_case_tables.
  - by apply ex_valid; vm_compute.
  - by vm_compute.
  - vm_compute. eauto.
  - split; [repeat constructor|]. split; [repeat constructor|]. split; [repeat constructor; lia|]. unfold no_three. vm_compute basic_tokens. repeat constructor; by vm_compute.
  - by vm_compute in E.
Qed.
Print Assumptions C112_mark_refuted.

(** "a€" with "a" and "##€". *)
Theorem C112_three_refuted : ¬ bert_claim (λ u d rs, in_nfd u d rs ∧ no_symbols u rs ∧ no_missing rs ∧ no_panic u rs).
Proof.
  intros H. set (u := no_case (λ _, false) (λ _, false) (λ _, false)). set (d := λ c : Z, [c]).
  set (m := ex_wp ["[UNK]"%string; "a"%string; "##€"%string]). destruct (H u d m [97; 0x20AC]) as (e & E & T).
  - by repeat constructor.
  - by apply no_case_tables.
  - by apply ex_valid; vm_compute.
  - by vm_compute.
  - vm_compute. eauto.
  - split; [repeat constructor|]. split; [repeat constructor|]. split; [repeat constructor; lia|]. by vm_compute.
  - vm_compute in E. injection E as <-. cbn [e_tokens] in T. assert (G : bert_tokens u d m [97; 0x20AC] [[97]; bytes_of "##€"]).
    { exists [[[97]; bytes_of "##€"]]. split; [|done]. vm_compute basic_tokens. constructor; [|constructor].
      apply (wordpiece_found m _ [97] [[0x20AC]]); [by vm_compute|].
      apply (greedy_cons _ _ true [97] [0x20AC]); [done|by vm_compute; eauto| |].
      - intros a' b' Ea Hl. destruct a' as [|x [|y [|z a']]]; cbn in Hl; try lia; injection Ea as <- <-; [by vm_compute|by destruct a'].
      - apply (greedy_cons _ _ false [0x20AC] []); [done|by vm_compute; eauto| |constructor].
        intros a' b' Ea Hl. destruct a' as [|x [|y a']]; cbn in Hl; try lia. discriminate. }
    pose proof (bert_fun _ _ _ _ _ _ T G). discriminate.
Qed.
Print Assumptions C112_three_refuted.

(** "Übung-1 野": U+00DC is one character whose lower case, U+00FC, has no decomposition here; "-" is punctuation, 野 stands alone. *)
Example C112_example :
  let u := Unicode (λ _, false) (λ c, c =? 0x301) (λ c, c =? 45) (λ c, if c =? 0xDC then 0xFC else c) (λ c, c) in
  let m := ex_wp ["[UNK]"%string; "ü"%string; "##bung"%string; "-"%string; "野"%string; "##b"%string] in
  let rs := [0xDC; 98; 117; 110; 103; 45; 49; 9; 0x91CE] in
  basic_tokens white_space (bert_punct u) (control_char u) (u_mn u) (u_lower u) (λ c, [c]) chinese_char rs = [[0xFC; 98; 117; 110; 103]; [45]; [49]; [0x91CE]]
  ∧ (e ← encode_normalized (bert_normalizer u default_bert) (bert_pretokenizer u) (wp_model m) (encode rs) (-1) 0;
     Ret (match e with Ok e => (e_tokens e, e_ids e) | Err _ => ([], []) end))
    = Ret (map bytes_of ["ü"%string; "##bung"%string; "-"%string; "[UNK]"%string; "野"%string], [1; 2; 3; 0; 4]).
Proof. vm_compute. auto. Qed.
