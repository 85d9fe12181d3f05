(** For which texts the tokens of the BERT pipeline are those of BERT, over all vocabularies. *)
From Coq Require Import ZifyBool Sorted.
From Verif Require Import GoBase Utf8Facts Strutils SplitPattern NormString Vocab MergeMap Bpe WordPiece Encodings PreTokString Normalizers PreTokenizers SpecText SpecNorm SpecVocab SpecBpe SpecWordPiece SpecPts SpecPretok SpecNormalizers SpecEnd SpecPipe SpecRef
  SliceFacts VocabFacts NormFacts NormInv WordPieceFacts ExactWordPiece PretokFacts NormalizersFacts EndFacts PipeFacts RefFacts RefBert PropsWordPiece PropsPretok PropsNormalizers PropsEnd.
Import GoBase NormString SpecNorm.
#[local] Open Scope Z_scope.

(** * The pipeline, word by word *)
Definition answers (m : wordpiece) (w : list Z) (p : list (list Z)) : Prop := ∃ toks, wp_tokenize m (encode w) = Some (Ret (Ok toks)) ∧ p = map t_value toks.

Lemma wp_answers m w : is_Some (get_id (w_vocab m) (w_unk m)) → ∃ toks, wp_tokenize m (encode w) = Some (Ret (Ok toks)).
Proof.
  intros [i Hi]. destruct (C43_tokens_tile m (encode w) (encode_bytes _)) as (res & -> & [[(k & Hk & ->)|[Hk _]]|(toks & -> & _)]); [eauto|congruence|eauto].
Qed.

Lemma bert_parts u m n L wi ty : holds_text n L → ns_shift n = 0 → valid_terms (w_vocab m) → valid_utf8 (w_prefix m) = true → is_Some (get_id (w_vocab m) (w_unk m)) →
  let ws := flat_map (split_on_punc (u_punct u) []) (words white_space [] L) in
  ∃ e parts, encode_ns (bert_pretokenizer u) (wp_model m) n wi ty = Ret (Ok e) ∧ Forall2 (answers m) ws parts ∧ e_tokens e = concat parts.
Proof.
  intros (Hwf & HL & En) H0 Hv Hp Hu ws. destruct Hwf as (v & Hwf). pose proof Hwf as ((Hs & Hn & _) & _).
  assert (E : v.*1 = L) by (apply encode_inj_scalars; [done|done|congruence]).
  destruct (C55_bert_pretokenizer u v.*1 Hs) as (fs & _ & Ho & Hf).
  pose proof (pieces_words white_space (u_punct u) v.*1 fs Ho Hf) as Hws. rewrite E in Hws. fold ws in Hws.
  destruct (cuts_found (bert_pretokenizer u) n v _ fs Hwf H0 (cuts_bert u v.*1 fs (conj Ho Hf))) as (l & ts & Hpre & Hft & Hh & _ & Hoc).
  assert (Hch : ∀ i t, ts !! i = Some t → ∃ x, fs !! i = Some x ∧ t.*1 = x.2 ∧ t ≠ [] ∧ scalars t.*1).
  { intros j t Hj. destruct (Forall2_lookup_r _ _ _ _ _ Hft Hj) as (x & Hx & (a & b & _ & _ & Ex)). exists x. split; [done|]. split; [done|].
    destruct (Hoc x) as (Hne & a' & b' & Hx'); [by eapply elem_of_list_lookup_2|]. split; [intros ->; by rewrite <- Ex in Hne|]. rewrite Ex. by eapply occurs_scalars. }
  assert (Hans : ∀ j t, ∃ toks, wp_model m j (encode t) = Ret (Ok toks) ∧ wp_tokenize m (encode t) = Some (Ret (Ok toks))).
  { intros j t. destruct (wp_answers m t Hu) as (toks & Et). exists toks. unfold wp_model. by rewrite Et. }
  destruct (pipeline_tokens (bert_pretokenizer u) (wp_model m) n wi ty _ ts l Hpre Hh) as [(e & tss & E1 & E2 & E3 & E4 & E5)|(e & j & t & _ & Ht & Ee)].
  { intros j t Hin. apply elem_of_list_lookup in Hin as (i & Hi). destruct (Hch i t Hi) as (x & Hx & Ex & Hne & Hsc).
    unfold wp_model. destruct (C43_tokens_tile m (encode t.*1) (encode_bytes _)) as (res & Er & Hres). rewrite Er.
    eexists. split; [done|]. intros toks ->. split; [|by eapply C46_boundaries].
    destruct Hres as [[(k & _ & [= ->])|[_ [=]]]|(toks' & [= ->] & Ht & _)]; [|done]. cbn. split; [done|]. split; [|done].
    destruct t as [|[c s] t]; [done|]. apply encode_pos. }
  - exists e, (map (map t_value) tss). split; [done|]. split; [|done].
    rewrite <- Hws. apply Forall2_fmap. apply Forall2_same_length_lookup_2; [pose proof (Forall2_length _ _ _ Hft); congruence|].
    intros j x toks Hx Htoks. destruct (Forall2_lookup_l _ _ _ _ _ Hft Hx) as (t & Ht & _). destruct (Hch j t Ht) as (x' & Hx' & Ex & _). rewrite Hx in Hx'. injection Hx' as <-.
    pose proof (E3 j t toks Ht Htoks) as Em. destruct (Hans j t.*1) as (toks' & Et & Et'). rewrite Em in Et. injection Et as <-. rewrite Ex in Et'. by exists toks.
  - exfalso. destruct (Hans j t.*1) as (toks & Et & _). congruence.
Qed.

(** * Vocabularies that tell texts apart *)
Lemma some_vocab (ts : list (list Z)) : ∃ v, ∀ t, is_Some (get_id v t) ↔ t ∈ ts.
Proof.
  destruct (grown_add_terms [] new_vocab ts grown_new) as (v & _ & G & _). cbn [app] in G. exists v. intros t. unfold get_id.
  rewrite <- elem_of_dom, (gr_dom _ _ G). unfold terms_set. set_solver.
Qed.
Lemma some_valid v (ts : list (list Z)) : (∀ t, is_Some (get_id v t) ↔ t ∈ ts) → Forall (λ t, valid_utf8 t = true) ts → valid_terms v.
Proof. intros H Hv t i Hi. rewrite Forall_forall in Hv. apply Hv, H. by exists i. Qed.

(** A word that is a term is its own token. *)
Lemma wordpiece_whole m w : w ≠ [] → zlen w <= w_max m → is_Some (get_id (w_vocab m) (encode w)) → wordpiece_tokens m w [encode w].
Proof.
  intros Hw Hm Hi. apply (wordpiece_found m w w []); [done|]. rewrite <- (app_nil_r w) at 1. apply greedy_cons; [done|done| |constructor].
  intros a' b' E Hl. rewrite app_nil_r in E. apply (f_equal length) in E. rewrite app_length in E. lia.
Qed.
Lemma wordpiece_fun m w r1 r2 : wordpiece_tokens m w r1 → wordpiece_tokens m w r2 → r1 = r2.
Proof.
  intros H1 H2. inversion H1 as [?|? G1|a1 s1 ? G1]; inversion H2 as [?|? G2|a2 s2 ? G2]; subst; try done; try lia.
  - by destruct (G1 _ G2).
  - by destruct (G2 _ G1).
  - pose proof (greedy_fun _ _ _ _ _ _ G1 G2) as [= -> ->]. done.
Qed.
Lemma whole_tried v pre s i : s ≠ [] → get_id v s = Some i → tried_toks v pre s 0 [Token i s (Offsets 0 (zlen s))].
Proof.
  intros Hs Hi. assert (0 < zlen s) by (destruct s; [done|]; rewrite zlen_cons; pose proof (zlen_nonneg s); lia).
  apply (tt_cons v pre s 0 (zlen s) s i []); [done|by exists 0%nat| |done| |constructor].
  - exists [], []. rewrite app_nil_r. split; [done|]. split; [done|lia].
  - intros e' x' He Ht _. apply tried_le in Ht. lia.
Qed.
Lemma whole_answers m w p : w ≠ [] → scalars w → zlen w <= w_max m → is_Some (get_id (w_vocab m) (encode w)) → answers m w p → p = [encode w].
Proof.
  intros Hw Hs Hm [i Hi] (toks & Et & ->). assert (Hne : encode w ≠ []) by (intros E; by apply encode_nil_inv in E).
  pose proof (whole_tried (w_vocab m) (w_prefix m) (encode w) i Hne Hi) as Ht.
  destruct (C44_greedy_over_tried_ends m (encode w) (encode_bytes _)) as [(toks' & E & G)|(res & _ & _ & Hno)]; [by rewrite runes_encode_scalars| |by destruct (Hno _ Ht)].
  rewrite Et in E. injection E as <-. by rewrite (tried_toks_fun m (encode w) _ _ _ G Ht).
Qed.

Lemma word_le (ws : list (list Z)) w : w ∈ ws → zlen (encode w) <= zlen (encode (concat ws)).
Proof.
  intros H. apply elem_of_list_split in H as (l1 & l2 & ->). rewrite concat_app. cbn [concat]. rewrite !encode_app, !zlen_app.
  pose proof (zlen_nonneg (encode (concat l1))). pose proof (zlen_nonneg (encode (concat l2))). lia.
Qed.
Lemma zlen_le_encode w : zlen w <= zlen (encode w).
Proof. induction w as [|c w IH]; [done|]. rewrite zlen_cons, zlen_encode_cons. pose proof (rune_len_bounds c). lia. Qed.

Lemma all_whole (A : list Z → list (list Z) → Prop) ws ps : Forall2 A ws ps → (∀ w p, w ∈ ws → A w p → p = [encode w]) → ps = map (λ w, [encode w]) ws.
Proof.
  induction 1 as [|w p ws ps Hp _ IH]; intros H; [done|]. cbn [map]. rewrite (H w p), IH; [done| |by left|done]. intros z q Hz. apply H. by right.
Qed.

Section words.
  Context (L R : list (list Z)).
  Hypothesis HL : Forall (λ w, w ≠ [] ∧ scalars w) L.
  Hypothesis HR : Forall (λ w, w ≠ [] ∧ scalars w) R.

  Definition same_tokens (m : wordpiece) : Prop :=
    ∃ p q, Forall2 (answers m) L p ∧ Forall2 (wordpiece_tokens m) R q ∧ concat p = concat q.

  (** All words of both are terms: the words are the same. *)
  Lemma same_words : (∀ m, valid_terms (w_vocab m) → valid_utf8 (w_prefix m) = true → is_Some (get_id (w_vocab m) (w_unk m)) → same_tokens m) → L = R.
  Proof.
    intros H. destruct (some_vocab ([] :: map encode (L ++ R))) as (v & Hv). set (N := zlen (encode (concat (L ++ R)))).
    set (m := WordPiece v [] [] N).
    assert (Hu : is_Some (get_id (w_vocab m) (w_unk m))). { apply Hv. cbn. by left. }
    assert (Hval : valid_terms (w_vocab m)).
    { apply (some_valid _ _ Hv). constructor; [done|]. apply Forall_fmap, Forall_true. intros w. apply valid_utf8_encode. }
    assert (Hw : ∀ w, w ∈ L ++ R → zlen w <= w_max m ∧ is_Some (get_id (w_vocab m) (encode w))).
    { intros w Hw. split; [cbn [m w_max]; pose proof (word_le _ _ Hw); pose proof (zlen_le_encode w); unfold N; lia|]. apply Hv. right. by apply elem_of_list_fmap_1. }
    destruct (H m Hval eq_refl Hu) as (p & q & Hp & Hq & E).
    assert (Ep : p = map (λ w, [encode w]) L).
    { apply (all_whole (answers m)); [done|]. intros w x Hin Hx. rewrite Forall_forall in HL. destruct (HL w Hin) as [H1 H2]. destruct (Hw w) as [H3 H4]; [by apply elem_of_app; left|]. by apply (whole_answers m). }
    assert (Eq : q = map (λ w, [encode w]) R).
    { apply (all_whole (wordpiece_tokens m)); [done|]. intros w x Hin Hx. rewrite Forall_forall in HR. destruct (HR w Hin) as [H1 H2]. destruct (Hw w) as [H3 H4]; [by apply elem_of_app; right|].
      apply (wordpiece_fun _ _ _ _ Hx). by apply wordpiece_whole. }
    rewrite Ep, Eq in E. clear -E HL HR.
    assert (C : ∀ l : list (list Z), concat (map (λ w, [encode w]) l) = map encode l). { induction l as [|x l IH]; [done|]. cbn. by rewrite IH. }
    rewrite !C in E. clear C. revert R HR E. induction HL as [|w l [_ Hw] Hl IH]; intros [|w' l'] HR E; try done.
    cbn [map] in E. injection E as E1 E2. apply Forall_cons in HR as [[_ Hw'] HR]. f_equal; [by apply encode_inj_scalars|]. by apply IH.
  Qed.
End words.

(** The vocabulary that has, besides a long unknown token, the part of a word before a three-byte character as its first part and the rest as a
    continuation. *)
Section three.
  Context (y c : Z) (a b : list Z) (N : Z) (v : vocab).
  Hypothesis Hs : scalars (y :: a ++ c :: b).
  Hypothesis HN : zlen (encode (y :: a ++ c :: b)) < N.
  Let P := encode (repeat 35 (Z.to_nat N)).
  Hypothesis Hv : ∀ t, is_Some (get_id v t) ↔ t ∈ [P; encode (y :: a); P ++ encode (c :: b)].

  Lemma P_len : zlen P = N.
  Proof.
    unfold P. pose proof (zlen_nonneg (encode (y :: a ++ c :: b))) as H0. assert (G : ∀ k, zlen (encode (repeat 35 k)) = Z.of_nat k).
    { induction k as [|k IH]; [done|]. cbn [repeat]. rewrite zlen_encode_cons, IH. change (rune_len 35) with 1. lia. }
    rewrite G. lia.
  Qed.
  Lemma parts_scalars : scalars (y :: a) ∧ scalars (c :: b).
  Proof. by apply (scalars_app (y :: a) (c :: b)). Qed.
  Lemma first_known q : scalars q → zlen (encode q) < N → is_Some (get_id v (encode q)) → q = y :: a.
  Proof.
    intros Hq Hl Hi. apply Hv in Hi. pose proof P_len as HP. destruct parts_scalars as [H1 _].
    apply elem_of_cons in Hi as [E|Hi]; [rewrite E in Hl; lia|]. apply elem_of_cons in Hi as [E|Hi]; [by apply encode_inj_scalars|].
    apply elem_of_list_singleton in Hi. rewrite Hi, zlen_app in Hl. pose proof (zlen_nonneg (encode (c :: b))). lia.
  Qed.
  Lemma next_known q : scalars q → q ≠ [] → is_Some (get_id v (P ++ encode q)) → q = c :: b.
  Proof.
    intros Hq Hne Hi. apply Hv in Hi. pose proof P_len as HP. destruct parts_scalars as [_ H1].
    assert (0 < zlen (encode q)) by (destruct q as [|z q]; [done|]; apply encode_pos).
    apply elem_of_cons in Hi as [E|Hi]; [apply (f_equal zlen) in E; rewrite zlen_app in E; lia|].
    apply elem_of_cons in Hi as [E|Hi].
    - apply (f_equal zlen) in E. rewrite zlen_app in E. change (y :: a ++ c :: b) with ((y :: a) ++ c :: b) in HN. rewrite encode_app, zlen_app in HN. pose proof (zlen_nonneg (encode (c :: b))). lia.
    - apply elem_of_list_singleton, app_inv_head in Hi. by apply encode_inj_scalars.
  Qed.
  Lemma piece_known first q q' : scalars q → scalars q' → zlen (encode q) < N → zlen (encode q') < N → q ≠ [] → q' ≠ [] →
    is_Some (get_id v (piece_term P first (encode q))) → is_Some (get_id v (piece_term P first (encode q'))) → q = q'.
  Proof.
    intros H1 H2 L1 L2 N1 N2 G1 G2. destruct first; cbn [piece_term] in *.
    - by rewrite (first_known q), (first_known q').
    - by rewrite (next_known q), (next_known q').
  Qed.
  Lemma three_valid : valid_terms v.
  Proof.
    apply (some_valid _ _ Hv). constructor; [apply valid_utf8_encode|]. constructor; [apply valid_utf8_encode|]. constructor; [|done].
    unfold P. rewrite <- encode_app. apply valid_utf8_encode.
  Qed.

  Lemma tried_known rs p l : scalars (p ++ rs) → zlen (encode (p ++ rs)) < N → tried_toks v P (encode (p ++ rs)) (zlen (encode p)) l →
    ∃ segs, greedy v P (zlen (encode p) =? 0) rs segs ∧ seg_toks v P (zlen (encode p)) segs l.
  Proof.
    intros Hps Hf H. remember (encode (p ++ rs)) as s eqn:Es. remember (zlen (encode p)) as o eqn:Eo. revert p rs Hps Hf Es Eo.
    induction H as [|o e x i ts H1 H2 H3 H4 H5 H6 IH]; intros p rs Hps Hf -> Eo.
    { rewrite encode_app, zlen_app in Eo. rewrite (zlen_encode_0 rs) by lia. exists []. split; constructor. }
    subst o. apply scalars_app in Hps as [Ha Hr].
    assert (valid_utf8 x = true) as Hx. { apply (piece_term_valid P (zlen (encode p) =? 0) x); [apply valid_utf8_encode|]. by apply (three_valid _ i). }
    destruct (cut_valid _ _ _ _ Ha Hr H3 Hx) as (k & d & -> & -> & ->).
    assert (0 < zlen (encode k)) as Hk. { rewrite encode_app, zlen_app in H1. lia. }
    apply scalars_app in Hr as [Hks Hds].
    destruct (IH (p ++ k) d) as (segs & G1 & G2); [by rewrite !scalars_app|done|by rewrite app_assoc|done|].
    exists (k :: segs). split.
    - constructor; [by intros ->|by exists i| |].
      + intros a' b' E Hl. destruct (get_id v (piece_term P _ (encode a'))) as [j|] eqn:Ej; [|done]. exfalso.
        assert (Hab : scalars (a' ++ b')) by (rewrite <- E; by apply scalars_app). apply scalars_app in Hab as [Ha' _].
        rewrite encode_app, zlen_app in Hf. pose proof (zlen_nonneg (encode p)). pose proof Hf as Hf'. rewrite E, encode_app, zlen_app in Hf'. rewrite encode_app, zlen_app in Hf.
        pose proof (zlen_nonneg (encode d)). pose proof (zlen_nonneg (encode b')).
        assert (Hk0 : k ≠ []) by (by intros ->). assert (Ha0 : a' ≠ []) by (intros ->; cbn in Hl; lia).
        assert (Ek : k = a'); [|rewrite Ek in Hl; lia]. apply (piece_known (zlen (encode p) =? 0)); done || lia.
      + rewrite encode_app, zlen_app in G1. destruct (Z.eqb_spec (zlen (encode p) + zlen (encode k)) 0); [pose proof (zlen_nonneg (encode p)); lia|done].
    - rewrite encode_app, zlen_app. constructor; [done|]. by rewrite encode_app, zlen_app in G2.
  Qed.

  Definition three_model : wordpiece := WordPiece v P P N.
  (** Word by word, the library has at most as many tokens. *)
  Lemma three_le w p q : w ≠ [] → scalars w → zlen (encode w) < N → answers three_model w p → wordpiece_tokens three_model w q → (length p <= length q)%nat.
  Proof.
    intros Hw Hsw Hl (toks & Et & ->) Hq. pose proof (zlen_le_encode w) as Hle.
    assert (H1 : (1 <= length q)%nat) by (inversion Hq; cbn; lia).
    destruct (C44_greedy_over_tried_ends three_model (encode w) (encode_bytes _)) as [(toks' & E & G)|(res & E & Hr & _)].
    { rewrite runes_encode_scalars by done. cbn. lia. }
    - rewrite Et in E. injection E as <-. destruct (tried_known w [] toks Hsw Hl G) as (segs & G1 & G2). change (zlen (encode []) =? 0) with true in G1.
      destruct segs as [|k segs]; [by inversion G1; subst|].
      assert (Hq' : wordpiece_tokens three_model w (encode k :: map (λ s, P ++ encode s) segs)). { apply wordpiece_found; [cbn; lia|done]. }
      rewrite (wordpiece_fun _ _ _ _ Hq Hq'). assert (Hlen : ∀ o s t, seg_toks v P o s t → length t = length s). { clear. induction 1; cbn; lia. }
      rewrite map_length, (Hlen _ _ _ G2). cbn. by rewrite map_length.
    - destruct Hr as [(k & _ & Hr)|[_ Hr]]; subst res; rewrite Et in E; [|done]. injection E as ->. done.
  Qed.
  Lemma three_lt p q : rune_len c = 3 → Forall (λ r, rune_len r ≠ 3) b → let w := y :: a ++ c :: b in
    answers three_model w p → wordpiece_tokens three_model w q → (length p < length q)%nat.
  Proof.
    intros H3 Hb w (toks & Et & ->) Hq. pose proof (zlen_le_encode w) as Hle. fold w in HN, Hs.
    assert (Hgr : greedy v P true w [y :: a; c :: b]).
    { apply (greedy_cons v P true (y :: a) (c :: b)); [done|apply Hv; by right; left| |].
      - intros a' b' E Hl. destruct (get_id v _) as [i|] eqn:Hi; [|done]. exfalso.
        assert (Hab : scalars (a' ++ b')) by (rewrite <- E; exact Hs). apply scalars_app in Hab as [Ha' _].
        assert (HNa : zlen (encode (a' ++ b')) < N) by (rewrite <- E; exact HN). rewrite encode_app, zlen_app in HNa. pose proof (zlen_nonneg (encode b')).
        rewrite (first_known a') in Hl; [lia|done|lia|by exists i].
      - pose proof (greedy_cons v P false (c :: b) [] []) as Hc. rewrite app_nil_r in Hc. apply Hc; [done|apply Hv; by right; right; left| |constructor].
        intros a' b' E Hl. apply (f_equal length) in E. rewrite !app_length in E. cbn in *. lia. }
    assert (Hq' : wordpiece_tokens three_model w (encode (y :: a) :: map (λ s, P ++ encode s) [c :: b])). { apply wordpiece_found; [cbn; lia|done]. }
    rewrite (wordpiece_fun _ _ _ _ Hq Hq'). cbn [map length]. rewrite map_length.
    destruct (C44_greedy_over_tried_ends three_model (encode w) (encode_bytes _)) as [(toks' & E & G)|(res & E & Hr & _)].
    { rewrite runes_encode_scalars by done. cbn. lia. }
    - exfalso. rewrite Et in E. injection E as <-. destruct (tried_known w [] toks Hs HN G) as (segs & G1 & G2). change (zlen (encode []) =? 0) with true in G1.
      rewrite (greedy_fun _ _ _ _ _ _ G1 Hgr) in G2. inversion G2 as [|? ? ? i ts Hi Hts]; subst.
      inversion G as [|? e x j ts' L1 L2 L3 L4 L5 L6]; subst. change (zlen (encode [])) with 0 in L2. rewrite Z.add_0_l in L2.
      by apply (not_tried (y :: a) c b H3 Hb).
    - destruct Hr as [(k & _ & Hr)|[_ Hr]]; subst res; rewrite Et in E; [|done]. injection E as ->. cbn. lia.
  Qed.
End three.

Lemma same_no_three R : Forall (λ w, w ≠ [] ∧ scalars w) R →
  (∀ m, valid_terms (w_vocab m) → valid_utf8 (w_prefix m) = true → is_Some (get_id (w_vocab m) (w_unk m)) → same_tokens R R m) →
  Forall (λ w, Forall (λ c, rune_len c ≠ 3) (tail w)) R.
Proof.
  intros HR H. apply Forall_forall. intros w Hw. destruct w as [|y rs]; [constructor|]. cbn [tail]. destruct (last_three rs) as [|(a & c & b & -> & H3 & Hb)]; [done|]. exfalso.
  set (w := y :: a ++ c :: b) in *. set (N := zlen (encode (concat R)) + 1). rewrite Forall_forall in HR.
  assert (HN : ∀ w, w ∈ R → zlen (encode w) < N). { intros w' Hw'. pose proof (word_le _ _ Hw'). unfold N. lia. }
  destruct (HR w Hw) as [_ Hs].
  destruct (some_vocab [encode (repeat 35 (Z.to_nat N)); encode (y :: a); encode (repeat 35 (Z.to_nat N)) ++ encode (c :: b)]) as (v & Hv).
  set (m := three_model N v). assert (Hu : is_Some (get_id (w_vocab m) (w_unk m))). { apply Hv. by left. }
  destruct (H m) as (p & q & Hp & Hq & E); [by apply (three_valid y c a b N)|apply valid_utf8_encode|done|].
  assert (Hle : ∀ R' p' q', (∀ x, x ∈ R' → x ∈ R) → Forall2 (answers m) R' p' → Forall2 (wordpiece_tokens m) R' q' → (length (concat p') <= length (concat q'))%nat).
  { intros R' p' q' Hin Hp'. revert q'. induction Hp' as [|x p1 R' p' Hx Hp' IH]; intros q' Hq'; [by apply Forall2_nil_inv_l in Hq' as ->|].
    apply Forall2_cons_inv_l in Hq' as (q1 & q2 & Hq1 & Hq2 & ->). cbn [concat]. rewrite !app_length.
    destruct (HR x) as [X1 X2]; [apply Hin; by left|]. pose proof (three_le y c a b N v Hs (HN w Hw) Hv x p1 q1 X1 X2 (HN x (Hin x ltac:(by left))) Hx Hq1).
    specialize (IH ltac:(intros z Hz; apply Hin; by right) q2 Hq2). lia. }
  apply elem_of_list_split in Hw as (l1 & l2 & ER). 
  assert (Hp2 : Forall2 (answers m) (l1 ++ w :: l2) p) by (by rewrite <- ER). assert (Hq2 : Forall2 (wordpiece_tokens m) (l1 ++ w :: l2) q) by (by rewrite <- ER).
  apply Forall2_app_inv_l in Hp2 as (p1 & p2 & Hp1 & Hp2 & ->). apply Forall2_app_inv_l in Hq2 as (q1 & q2 & Hq1 & Hq2 & ->).
  apply Forall2_cons_inv_l in Hp2 as (pw & p3 & Hpw & Hp3 & ->). apply Forall2_cons_inv_l in Hq2 as (qw & q3 & Hqw & Hq3 & ->).
  apply (f_equal length) in E. rewrite !concat_app, !app_length in E. cbn [concat] in E. rewrite !app_length in E.
  pose proof (Hle l1 p1 q1 ltac:(intros z Hz; rewrite ER; apply elem_of_app; by left) Hp1 Hq1).
  pose proof (Hle l2 p3 q3 ltac:(intros z Hz; rewrite ER; apply elem_of_app; right; by right) Hp3 Hq3).
  assert (Hw' : w ∈ R) by (rewrite ER; apply elem_of_app; right; by left).
  pose proof (three_lt y c a b N v Hs (HN w Hw') Hv pw qw H3 Hb Hpw Hqw). lia.
Qed.

(** * The words *)
Lemma split_chars p l : ∀ part w, w ∈ split_on_punc p part l → w ≠ [] ∧ ∀ c, c ∈ w → c ∈ part ++ l.
Proof.
  induction l as [|x l IH]; intros part w H; cbn [split_on_punc] in H.
  - destruct (decide (part = [])) as [|Hp]; [by apply elem_of_nil in H|]. apply elem_of_list_singleton in H as ->. split; [done|]. intros c Hc. by rewrite app_nil_r.
  - destruct (p x).
    + apply elem_of_app in H as [H|H].
      * destruct (decide (part = [])) as [|Hp]; [by apply elem_of_nil in H|]. apply elem_of_list_singleton in H as ->. split; [done|]. intros c Hc. apply elem_of_app. by left.
      * apply elem_of_cons in H as [->|H]; [split; [done|]; intros c Hc; apply elem_of_list_singleton in Hc as ->; apply elem_of_app; right; by left|].
        destruct (IH [] w H) as [H1 H2]. split; [done|]. intros c Hc. apply elem_of_app. right. right. by apply (H2 c).
    + destruct (IH _ w H) as [H1 H2]. split; [done|]. intros c Hc. pose proof (H2 c Hc) as H3. by rewrite <- app_assoc in H3.
Qed.
Lemma words_chars white l : ∀ part w, w ∈ words white part l → ∀ c, c ∈ w → c ∈ part ++ l.
Proof.
  induction l as [|x l IH]; intros part w H c Hc; cbn [words] in H.
  - rewrite app_nil_r. destruct (decide (part = [])); [by apply elem_of_nil in H|]. by apply elem_of_list_singleton in H as ->.
  - destruct (white x).
    + apply elem_of_app in H as [H|H].
      * destruct (decide (part = [])); [by apply elem_of_nil in H|]. apply elem_of_list_singleton in H as ->. apply elem_of_app. by left.
      * apply elem_of_app. right. right. by apply (IH [] w H c).
    + pose proof (IH _ w H c Hc) as H3. by rewrite <- app_assoc in H3.
Qed.
Lemma library_words_ok p L : scalars L → Forall (λ w, w ≠ [] ∧ scalars w) (flat_map (split_on_punc p []) (words white_space [] L)).
Proof.
  intros HL. apply Forall_forall. intros w Hw. apply elem_of_list_In, in_flat_map in Hw as (x & Hx & Hw). apply elem_of_list_In in Hx, Hw.
  destruct (split_chars _ _ _ _ Hw) as [H1 H2]. split; [done|]. unfold scalars in *. rewrite Forall_forall in *. intros c Hc. apply HL, (words_chars white_space L [] x Hx), H2, Hc.
Qed.
Lemma reference_words_ok punct control mark lower d chinese rs : scalars rs → (∀ c, scalar c = true → scalars (d (lower c))) →
  Forall (λ w, w ≠ [] ∧ scalars w) (basic_tokens white_space punct control mark lower d chinese rs).
Proof.
  intros Hs Hd. apply Forall_forall. intros w Hw. unfold basic_tokens in Hw. apply elem_of_list_In, in_flat_map in Hw as (x & Hx & Hw).
  apply elem_of_list_In in Hw. destruct (split_chars _ _ _ _ Hw) as [H1 H2]. split; [done|].
  apply in_map_iff in Hx as (z & <- & Hz). apply elem_of_list_In in Hz. unfold scalars in *. rewrite Forall_forall in *. intros c Hc. apply H2 in Hc. cbn [app] in Hc.
  unfold fold_word in Hc. apply elem_of_list_filter in Hc as [_ Hc]. apply elem_of_list_In, in_flat_map in Hc as (k & Hk & Hc). apply elem_of_list_In in Hc.
  apply in_map_iff in Hk as (e & <- & He). apply elem_of_list_In in He. pose proof (words_chars _ _ _ _ Hz e He) as G. cbn [app] in G.
  assert (Hcl : ∀ rs, (∀ c, c ∈ rs → scalar c = true) → ∀ c, c ∈ clean_text white_space control rs → scalar c = true).
  { clear. induction rs as [|y rs IH]; intros H c Hc; [by apply elem_of_nil in Hc|]. cbn [clean_text] in Hc. destruct (_ || _); [apply IH; [|done]; intros; apply H; by right|].
    apply elem_of_cons in Hc as [->|Hc]; [destruct (white_space y); [done|apply H; by left]|]. apply IH; [|done]. intros; apply H; by right. }
  assert (Hch : ∀ rs, (∀ c, c ∈ rs → scalar c = true) → ∀ c, c ∈ chinese_chars chinese rs → scalar c = true).
  { clear. induction rs as [|y rs IH]; intros H c Hc; [by apply elem_of_nil in Hc|]. cbn [chinese_chars] in Hc. apply elem_of_app in Hc as [Hc|Hc].
    - destruct (chinese y); [|apply elem_of_list_singleton in Hc as ->; apply H; by left].
      apply elem_of_cons in Hc as [->|Hc]; [done|]. apply elem_of_cons in Hc as [->|Hc]; [apply H; by left|]. by apply elem_of_list_singleton in Hc as ->.
    - apply IH; [|done]. intros; apply H; by right. }
  pose proof (Hd e) as Hde. rewrite Forall_forall in Hde. apply Hde; [|done]. revert G. apply Hch. by apply Hcl.
Qed.
