(** Facts about pipelines that edit the text. *)
From Coq Require Import ZifyBool ZifyNat Sorted QArith.
From stdpp Require Import relations list_numbers.
From Verif Require Import GoBase Utf8Facts Strutils SplitPattern NormString Vocab MergeMap Bpe WordPiece Encodings PreTokString Normalizers PreTokenizers Regex SpecText SpecNorm SpecHist SpecVocab SpecBpe SpecWordPiece SpecPts SpecSplit SpecPretok SpecEnd SpecPipe
  SliceFacts StrutilsFacts PatternFacts NormFacts NormInv NormReplace NormSlice HistFacts RangeFacts PtsFacts PretokFacts ByteFacts RegexFacts EndFacts WordPieceFacts NormSplit SplitExact PropsWordPiece PropsBpe PropsPretok.
Import GoBase NormString SpecNorm.
#[local] Open Scope Z_scope.

(** * Parts *)
Lemma atext_prefix_len (a b a' b' : atext) : a ++ b = a' ++ b' → alen a = alen a' → a = a' ∧ b = b'.
Proof.
  intros H Hl. apply List.app_eq_app in H as (m & [[-> ->]|[-> ->]]); rewrite alen_app in Hl;
    (destruct m as [|[c s] m]; [by rewrite !app_nil_r|]); unfold alen in Hl; rewrite (fmap_cons fst) in Hl; cbn [fst] in Hl; pose proof (encode_pos c m.*1); lia.
Qed.

(** What one entry of the piece [t] is. *)
Definition part_of (w ty : Z) (t : atext) (toks : list token) (p : atext) (en : enc_token) : Prop :=
  p ≠ [] ∧ et_word en = w ∧ et_type en = ty ∧ et_offsets en = Offsets (first_start p) (last_end p)
  ∧ ∃ tok t1 t3, tok ∈ toks ∧ t = t1 ++ p ++ t3 ∧ t_offsets tok = Offsets (alen t1) (alen (t1 ++ p)) ∧ et_id en = t_id tok ∧ et_token en = t_value tok.
Lemma tile_parts w ty t toks0 d r toks es : t = d ++ r → toks ⊆ toks0 → toks_tile (alen d) toks (alen t) → Forall2 (entry_of t w ty) toks es →
  ∃ ps, concat ps = r ∧ Forall2 (part_of w ty t toks0) ps es.
Proof.
  intros Ht Hsub Htile He. revert d r Ht Htile. induction He as [|tok en toks es H He IH]; intros d r Ht Htile; cbn [toks_tile] in Htile.
  - exists []. split; [|constructor]. rewrite Ht in Htile. rewrite alen_app in Htile. destruct r as [|[c s] r]; [done|].
    unfold alen in Htile at 3. rewrite (fmap_cons fst) in Htile. cbn [fst] in Htile. pose proof (encode_pos c r.*1). lia.
  - destruct Htile as (H1 & H2 & H3). destruct H as (E1 & E2 & E3 & E4 & t1 & t2 & t3 & E5 & E6 & E7 & E8). rewrite E7 in H1, H3. cbn [o_start o_end] in H1, H3.
    assert (t1 = d ∧ t2 ++ t3 = r) as [-> <-]. { apply atext_prefix_len; [congruence|done]. }
    destruct (IH (λ x Hx, Hsub x (elem_of_list_further _ _ _ Hx)) (d ++ t2) t3) as (ps & Hps & Hall); [by rewrite <- app_assoc|done|].
    exists (t2 :: ps). split; [cbn; by rewrite Hps|]. constructor; [|done]. split_and!; try done. exists tok, d, t3. split_and!; try done. apply Hsub. by left.
Qed.

Lemma encoded_parts wi ty i ts tss es : encoded wi ty (Z.of_nat i) ts tss es → Forall2 (λ t toks, toks_tile 0 toks (alen t)) ts tss →
  ∃ parts, map (λ ps, concat ps) parts = ts
    ∧ Forall2 (λ jp en, stands_for wi ty jp en
        ∧ ∃ k t toks tok t1 t3, jp.1 = (i + k)%nat ∧ ts !! k = Some t ∧ tss !! k = Some toks ∧ tok ∈ toks
          ∧ t = t1 ++ jp.2 ++ t3 ∧ t_offsets tok = Offsets (alen t1) (alen (t1 ++ jp.2)) ∧ et_id en = t_id tok ∧ et_token en = t_value tok)
      (numbered i parts) es.
Proof.
  intros He Ht. revert i es He. induction Ht as [|t toks ts tss H Ht IH]; intros i es He; inversion He as [|i' t' ts' toks1 toks2 es1 es2 H1 H2]; subst.
  - exists []. split; [done|constructor].
  - destruct (tile_parts _ ty t toks [] t toks es1 eq_refl (λ x Hx, Hx) H H1) as (ps & Hps & Hall).
    destruct (IH (S i) es2) as (parts & Hp & Hall'); [by replace (Z.of_nat (S i)) with (Z.of_nat i + 1) by lia|].
    exists (ps :: parts). split; [cbn; by rewrite Hps, Hp|]. cbn [numbered]. apply Forall2_app.
    + apply Forall2_fmap_l. eapply Forall2_impl; [exact Hall|]. intros p en (P1 & P2 & P3 & P4 & tok & t1 & t3 & P5 & P6 & P7 & P8 & P9).
      split; [by split_and!|]. exists 0%nat, t, toks, tok, t1, t3. split_and!; try done.
    + eapply Forall2_impl; [exact Hall'|]. intros [j p] en (P & k & t' & toks' & tok & t1 & t3 & P1 & P2).
      split; [done|]. exists (S k), t', toks', tok, t1, t3. split; [cbn [fst] in *; lia|]. done.
Qed.

Lemma answered_length model k l tss : answered model k l tss → length tss = length l.
Proof. induction 1; cbn; [done|]. by f_equal. Qed.

(** A pipeline whose model answers every piece with tokens that tile it along characters. *)
Lemma tiling_pipeline pre (model : a_model) n wi ty o ts l :
  pre (pts_from_ns n) = Ret (Pts o (splits_from_ns l), None) → Forall2 holds_at ts l →
  (∀ j t, t ∈ ts → ∃ r, model j (encode t.*1) = Ret r ∧ ∀ toks, r = Ok toks → toks_tile 0 toks (alen t)
     ∧ Forall (λ tok, boundary (encode t.*1) (o_start (t_offsets tok)) ∧ boundary (encode t.*1) (o_end (t_offsets tok))) toks) →
  (∃ e es parts, encode_ns pre model n wi ty = Ret (Ok e) ∧ entries e es ∧ cut_up ts wi ty parts es
     ∧ (∀ j t, ts !! j = Some t → ∃ toks, model j (encode t.*1) = Ret (Ok toks))
     ∧ Forall2 (λ jp en, ∃ t toks tok t1 t3, ts !! jp.1 = Some t ∧ model jp.1 (encode t.*1) = Ret (Ok toks) ∧ tok ∈ toks
          ∧ t = t1 ++ jp.2 ++ t3 ∧ t_offsets tok = Offsets (alen t1) (alen (t1 ++ jp.2)) ∧ et_id en = t_id tok ∧ et_token en = t_value tok) (numbered 0 parts) es)
  ∨ (∃ e j t, encode_ns pre model n wi ty = Ret (Err e) ∧ ts !! j = Some t ∧ model j (encode t.*1) = Ret (Err e)).
Proof.
  intros Hp Hh Hm.
  assert (Hn : ∀ t n, holds_at t n → ns_norm n = encode t.*1 ∧ scalars t.*1). { intros t n' (H' & H & _). by rewrite shift_spans_chars in H, H'. }
  assert (Hsc : ∀ t, t ∈ ts → scalars t.*1).
  { intros t Hin. apply elem_of_list_lookup in Hin as (i & Hi). destruct (Forall2_lookup_l _ _ _ _ _ Hh Hi) as (n' & _ & H). by apply Hn in H as [_ H]. }
  destruct (encode_ns_pipeline pre model n wi ty o ts l Hp Hh) as [(tss & e & es & H1 & H2 & H3 & H4)|(e & l1 & n' & l2 & tss & H1 & H2 & H3 & H4)].
  { intros j t Hin. destruct (Hm j t Hin) as (r & Hr & Hr'). exists r. split; [done|]. intros toks Htoks. destruct (Hr' toks Htoks) as [Ht Hb].
    apply Forall_forall. intros tok Htok. rewrite Forall_forall in Hb. destruct (Hb tok Htok). apply on_chars_boundary; try done; [by apply Hsc|]. by apply (toks_tile_in _ _ _ _ Ht). }
  - assert (Hl : ∀ j t toks, ts !! j = Some t → tss !! j = Some toks → model j (encode t.*1) = Ret (Ok toks)).
    { intros j t toks Hj Htoks. destruct (Forall2_lookup_l _ _ _ _ _ Hh Hj) as (n' & Hn' & Hht). apply Hn in Hht as [<- _]. by apply (answered_lookup model 0 l tss j n' toks). }
    assert (Hlen : length tss = length ts). { rewrite (answered_length _ _ _ _ H2). symmetry. by eapply Forall2_length. }
    assert (Ht : Forall2 (λ t toks, toks_tile 0 toks (alen t)) ts tss).
    { apply Forall2_same_length_lookup_2; [done|]. intros j t toks Hj Htoks. specialize (Hl j t toks Hj Htoks).
      destruct (Hm j t) as (r & Hr & Hr'); [by eapply elem_of_list_lookup_2|]. rewrite Hl in Hr. injection Hr as <-. by apply Hr'. }
    destruct (encoded_parts wi ty 0 ts tss es H4 Ht) as (parts & Hp1 & Hp2).
    left. exists e, es, parts. split; [done|]. split; [done|]. split; [split; [done|]|split].
    + eapply Forall2_impl; [exact Hp2|]. by intros jp en [? _].
    + intros j t Hj. destruct (lookup_lt_is_Some_2 tss j) as [toks Htoks]; [rewrite Hlen; by eapply lookup_lt_Some|]. exists toks. by apply Hl.
    + eapply Forall2_impl; [exact Hp2|]. intros jp en (_ & k & t & toks & tok & t1 & t3 & -> & Q1 & Q2 & Q3). cbn [Nat.add]. exists t, toks, tok, t1, t3.
      split; [done|]. split; [by apply Hl|done].
  - right. assert (l !! length l1 = Some n') as Hn'. { rewrite H2. by rewrite list_lookup_middle. }
    destruct (Forall2_lookup_r _ _ _ _ _ Hh Hn') as (t & Ht & Hht). apply Hn in Hht as [E _]. exists e, (length l1), t. rewrite <- E. done.
Qed.

Lemma text_at_part (t1 p t3 : atext) x : text_at (encode (t1 ++ p ++ t3).*1) (alen t1) (alen (t1 ++ p)) x → x = encode p.*1.
Proof.
  intros (a & b & E & Ea & Eb). rewrite !fmap_app, !encode_app in E. rewrite alen_app in Eb. unfold alen in *.
  apply app_inj_1 in E as [<- E]; [|unfold zlen in *; lia]. apply app_inj_1 in E as [<- _]; [done|]. unfold zlen in *. lia.
Qed.

(** * BPE on pieces whose characters are all known *)
Lemma bpe_known m file draws s j : consistent (b_vocab m) → merge_map_from_file file (b_vocab m) 0 = Ret (Ok (b_merges m)) →
  b_prefix m = [] → b_suffix m = [] → (b_unk m ≠ [] → is_Some (get_id (b_vocab m) (b_unk m))) →
  scalars s → Forall (λ c, is_Some (get_id (b_vocab m) (encode_rune c))) s →
  ∃ toks, bpe_model m draws j (encode s) = Ret (Ok toks) ∧ toks_tile 0 toks (zlen (encode s))
    ∧ Forall (λ t, boundary (encode s) (o_start (t_offsets t)) ∧ boundary (encode s) (o_end (t_offsets t))) toks
    ∧ Forall (λ t, text_at (encode s) (o_start (t_offsets t)) (o_end (t_offsets t)) (t_value t) ∧ get_id (b_vocab m) (t_value t) = Some (t_id t)) toks.
Proof.
  intros Hcons Hfile Hpre Hsuf Hunk Hs Hk. rewrite <- (runes_encode_scalars s) in Hk by done.
  destruct (C39_faithful m file (encode s) (draws j) Hcons Hfile Hpre Hsuf Hunk (valid_utf8_encode _) Hk) as (toks & E & _ & Hq).
  exists toks. unfold bpe_model. rewrite E. split; [done|].
  destruct (C38_offsets_partial m (encode s) (draws j) toks (valid_utf8_encode _)) as [T1 T2]; [|done|].
  - right. clear -Hk Hpre Hsuf. revert Hk. generalize (runes (encode s)). intros l Hl. unfold char_classes, char_terms.
    rewrite Hpre, Hsuf. apply Forall_forall. intros c Hc. apply elem_of_lookup_zip_with in Hc as (i & t & r & -> & Ht & Hr). cbn [fst].
    rewrite list_lookup_imap, Hr in Ht. injection Ht as <-.
    replace ((if decide (i = 0%nat) then [] else []) ++ encode_rune r ++ (if decide (S i = length l) then [] else [])) with (encode_rune r)
      by (destruct (decide (i = 0%nat)), (decide (S i = length l)); by rewrite app_nil_r).
    rewrite Forall_forall in Hl. destruct (Hl r) as [y ->]; [by eapply elem_of_list_lookup_2|]. done.
  - split; [done|]. split; [done|]. eapply Forall_impl; [exact Hq|]. cbn. by intros t (? & ? & _).
Qed.

Lemma bpe_pipeline pre m file draws n wi ty o ts l :
  pre (pts_from_ns n) = Ret (Pts o (splits_from_ns l), None) → Forall2 holds_at ts l →
  consistent (b_vocab m) → merge_map_from_file file (b_vocab m) 0 = Ret (Ok (b_merges m)) →
  b_prefix m = [] → b_suffix m = [] → (b_unk m ≠ [] → is_Some (get_id (b_vocab m) (b_unk m))) →
  Forall (λ t : atext, Forall (λ c, is_Some (get_id (b_vocab m) (encode_rune c))) t.*1) ts →
  ∃ e es parts, encode_ns pre (bpe_model m draws) n wi ty = Ret (Ok e) ∧ entries e es ∧ cut_up ts wi ty parts es
    ∧ Forall2 (spelled (b_vocab m)) (numbered 0 parts) es.
Proof.
  intros Hp Hh Hcons Hfile Hpre Hsuf Hunk Hk. rewrite Forall_forall in Hk.
  assert (Hsc : ∀ t, t ∈ ts → scalars t.*1).
  { intros t Hin. apply elem_of_list_lookup in Hin as (i & Hi). destruct (Forall2_lookup_l _ _ _ _ _ Hh Hi) as (n' & _ & (H & _)). by rewrite shift_spans_chars in H. }
  assert (Hans : ∀ j t, t ∈ ts → _) by (intros j t Hin; exact (bpe_known m file draws t.*1 j Hcons Hfile Hpre Hsuf Hunk (Hsc t Hin) (Hk t Hin))).
  destruct (tiling_pipeline pre (bpe_model m draws) n wi ty o ts l Hp Hh) as [(e & es & parts & H1 & H2 & H3 & _ & H4)|(e & j & t & H1 & H2 & H3)].
  - intros j t Hin. destruct (Hans j t Hin) as (toks & E & T & B & _). exists (Ok toks). split; [done|]. intros ? [= <-]. done.
  - exists e, es, parts. split_and!; try done. eapply Forall2_impl; [exact H4|]. intros [j p] en (t & toks & tok & t1 & t3 & Q1 & Q2 & Q3 & Q4 & Q5 & Q6 & Q7). cbn [fst snd] in *.
    destruct (Hans j t) as (toks' & E & _ & _ & Q); [by eapply elem_of_list_lookup_2|]. rewrite E in Q2. injection Q2 as ->. rewrite Forall_forall in Q. destruct (Q tok Q3) as [G1 G2].
    split; cbn [snd]; [|by rewrite Q6, Q7]. rewrite Q7. rewrite Q5 in G1. cbn [o_start o_end] in G1. rewrite Q4 in G1. by apply text_at_part in G1.
  - exfalso. destruct (Hans j t) as (toks & E & _); [by eapply elem_of_list_lookup_2|]. congruence.
Qed.

Lemma piece_holds n t n' : ns_shift n = 0 → t ≠ [] → piece_of n t n' → holds_at t n'.
Proof. intros H0 Ht (H1 & H2 & _). destruct (H2 Ht) as [_ Hs]. unfold holds_at. by rewrite Hs, H0. Qed.

(** * Byte-level text *)
Lemma byte_text_fst v : (byte_text v).*1 = map byte_char (encode v.*1).
Proof.
  induction v as [|[x a] v IH]; [done|]. unfold byte_text in *. cbn [flat_map fst snd]. rewrite fmap_app, IH, (fmap_cons fst). cbn [fst].
  rewrite encode_cons, map_app. f_equal. rewrite <- list_fmap_compose. done.
Qed.
Lemma byte_text_snd v : (byte_text v).*2 = spans_of v.
Proof.
  induction v as [|[x a] v IH]; [done|]. unfold byte_text, spans_of in *. cbn [flat_map fst snd]. rewrite fmap_app, IH. f_equal.
  rewrite <- list_fmap_compose. induction (encode_rune x) as [|b l IHl]; [done|]. rewrite fmap_cons, IHl. done.
Qed.
Lemma byte_text_app v w : byte_text (v ++ w) = byte_text v ++ byte_text w.
Proof. unfold byte_text. apply flat_map_app. Qed.
Lemma byte_text_concat ts : concat (map byte_text ts) = byte_text (concat ts).
Proof. induction ts as [|t ts IH]; [done|]. cbn [map concat]. by rewrite byte_text_app, IH. Qed.
Lemma numbered_snd {A} i (parts : list (list A)) : (numbered i parts).*2 = concat parts.
Proof.
  revert i. induction parts as [|ps parts IH]; intros i; [done|]. cbn [numbered concat]. rewrite fmap_app, IH. f_equal.
  induction ps as [|p ps IHp]; [done|]. cbn. by f_equal.
Qed.
Lemma concat_concat {A} (parts : list (list (list A))) : concat (concat parts) = concat (map (λ ps, concat ps) parts).
Proof. induction parts as [|ps parts IH]; [done|]. cbn. by rewrite concat_app, IH. Qed.

Lemma fresh_span rs i s : scalars rs → spans_of (fresh 0 rs) !! i = Some s →
  boundary (encode rs) s.1 ∧ boundary (encode rs) s.2 ∧ s.1 <= Z.of_nat i < s.2
  ∧ ∀ j, boundary (encode rs) j → (j <= Z.of_nat i → j <= s.1) ∧ (Z.of_nat i + 1 <= j → s.2 <= j).
Proof.
  intros Hs Hi.
  assert (∃ l r l', rs = l ++ r :: l' ∧ s = (zlen (encode l), zlen (encode l) + rune_len r) ∧ zlen (encode l) <= Z.of_nat i < zlen (encode l) + rune_len r) as (l & r & l' & -> & -> & Hr).
  { assert (∀ k, spans_of (fresh k rs) !! i = Some s → ∃ l r l', rs = l ++ r :: l' ∧ s = (k + zlen (encode l), k + zlen (encode l) + rune_len r) ∧ zlen (encode l) <= Z.of_nat i < zlen (encode l) + rune_len r) as H.
    { clear. revert i. induction rs as [|r rs IH]; intros i k; cbn [fresh]; [done|]. rewrite spans_of_cons. assert (Hz : rune_len r = Z.of_nat (length (encode_rune r))) by done.
      intros [H|[Hle H]]%lookup_app_Some.
      - pose proof (lookup_lt_Some _ _ _ H) as Hlt. rewrite repeat_length in Hlt. apply elem_of_list_lookup_2 in H. rewrite elem_of_list_In in H. apply repeat_spec in H as ->.
        exists [], r, rs. split; [done|]. change (zlen (encode [])) with 0. split; [f_equal; lia|]. lia.
      - rewrite repeat_length in Hle, H. apply IH in H as (l & r' & l' & -> & -> & Hi). exists (r :: l), r', l'. split; [done|]. rewrite zlen_encode_cons. split; [f_equal; lia|]. lia. }
    destruct (H 0 Hi) as (l & r & l' & H1 & H2 & H3). exists l, r, l'. split; [done|]. by rewrite !Z.add_0_l in H2. }
  cbn [fst snd]. pose proof Hs as [H1 [H2 H3]%Forall_cons]%Forall_app.
  assert (El : zlen (encode (l ++ [r])) = zlen (encode l) + rune_len r). { rewrite encode_app, zlen_app, zlen_encode_cons. change (zlen (encode [])) with 0. lia. }
  split; [by apply boundary_app; [|constructor]|]. split.
  { rewrite <- El. change (r :: l') with ([r] ++ l'). rewrite app_assoc. apply boundary_app; [|done]. apply Forall_app. split; [done|by constructor]. }
  split; [done|]. intros j Hj. destruct (boundary_split _ _ Hs Hj) as (a & b & E & ->).
  apply List.app_eq_app in E as (m & [[-> E]|[-> E]]).
  - split; [|intros Hle]; rewrite ?encode_app, ?zlen_app in *; pose proof (zlen_nonneg (encode m)); lia.
  - destruct m as [|r' m].
    + rewrite app_nil_r in *. split; lia.
    + injection E as <- ->. rewrite encode_app, zlen_app, zlen_encode_cons. pose proof (zlen_nonneg (encode m)). split; lia.
Qed.

Lemma part_ends (l p r : atext) : p ≠ [] →
  (∃ x, (l ++ p ++ r).*2 !! length l = Some x ∧ first_start p = x.1) ∧ ∃ x, (l ++ p ++ r).*2 !! (length l + length p - 1)%nat = Some x ∧ last_end p = x.2.
Proof.
  intros Hp. split.
  - destruct p as [|[c s] p]; [done|]. exists s. split; [|done]. rewrite fmap_app, lookup_app_r by (by rewrite fmap_length). rewrite fmap_length, Nat.sub_diag. done.
  - destruct p as [|[c s] p _] using rev_ind; [done|]. exists s. split.
    + rewrite app_length. cbn [length]. replace (length l + (length p + 1) - 1)%nat with (length l + length p)%nat by lia.
      rewrite fmap_app, lookup_app_r by (rewrite fmap_length; lia). rewrite fmap_length. replace (length l + length p - length l)%nat with (length p) by lia.
      rewrite !fmap_app, <- app_assoc, lookup_app_r by (by rewrite fmap_length). rewrite fmap_length, Nat.sub_diag. done.
    + unfold last_end, last_span. rewrite fmap_app. change ([(c, s)].*2) with [s]. by rewrite last_snoc.
Qed.

(** The entries spell the bytes of the aligned text [v]; [p] of its bytes come before the text proper. *)
Lemma spells_all rs p (v : atext) qs done_ es : scalars rs → 0 <= p →
  (∀ i s, spans_of v !! i = Some s → spans_of (fresh 0 rs) !! Z.to_nat (Z.max 0 (Z.of_nat i - p)) = Some s) →
  byte_text v = done_ ++ concat qs →
  Forall2 (λ q en, q ≠ [] ∧ et_token en = encode q.*1 ∧ et_offsets en = Offsets (first_start q) (last_end q)) qs es →
  spell_bytes (encode rs) p (encode v.*1) (zlen done_) es.
Proof.
  intros Hs Hp0 Hv Hb H. revert done_ Hb. induction H as [|q en qs es (Hq & Ht & Ho) H IH]; intros d Hb; cbn [spell_bytes].
  - cbn in Hb. rewrite app_nil_r in Hb. rewrite <- Hb. unfold zlen. f_equal. rewrite <- (fmap_length fst), byte_text_fst, map_length. done.
  - cbn [concat] in Hb. pose proof (f_equal (fmap fst) Hb) as Hb1. pose proof (f_equal (fmap snd) Hb) as Hb2. rewrite byte_text_fst in Hb1. rewrite byte_text_snd in Hb2.
    destruct (part_ends d q (concat qs) Hq) as [(x & Hx & Ex) (y & Hy & Ey)]. rewrite <- Hb2 in Hx, Hy.
    rewrite !fmap_app in Hb1.
    assert (∃ b1 b2 b3, encode v.*1 = b1 ++ b2 ++ b3 ∧ map byte_char b1 = d.*1 ∧ map byte_char b2 = q.*1) as (b1 & b2 & b3 & Eb & E1 & E2).
    { apply map_eq_app in Hb1 as (b1 & b' & -> & E1 & E'). apply map_eq_app in E' as (b2 & b3 & -> & E2 & E3). exists b1, b2, b3. done. }
    assert (L1 : zlen b1 = zlen d). { unfold zlen. f_equal. apply (f_equal length) in E1. by rewrite map_length, fmap_length in E1. }
    assert (L2 : zlen b2 = zlen q). { unfold zlen. f_equal. apply (f_equal length) in E2. by rewrite map_length, fmap_length in E2. }
    assert (Hq1 : 0 < zlen q). { destruct q; [done|]. rewrite zlen_cons. pose proof (zlen_nonneg q). lia. }
    pose proof (zlen_nonneg d) as Hd0.
    exists (zlen (d ++ q)), b2. rewrite zlen_app. split; [lia|]. split; [exists b1, b3; split; [done|lia]|]. split; [by rewrite E2|]. split.
    + rewrite Ho. cbn [o_start o_end]. rewrite Ex, Ey. apply Hv in Hx, Hy.
      destruct (fresh_span rs _ _ Hs Hx) as (X1 & X2 & X3 & X4). destruct (fresh_span rs _ _ Hs Hy) as (Y1 & Y2 & Y3 & Y4).
      unfold zlen in *. split; [done|]. split; [done|]. split; [lia|]. split; [lia|]. intros i Hi. split; intros Hle.
      * apply X4; [done|lia].
      * apply Y4; [done|lia].
    + rewrite <- zlen_app. apply IH. by rewrite <- app_assoc.
Qed.

(** * Splitting edited text *)
(** [n] holds what stands at [x] in the aligned text [V]. *)
Definition holds_found (V : atext) (x : Z * list Z) (n : ns) : Prop :=
  ∃ T, found_at V x T ∧ holds_at T n ∧ wf_as n (shift_spans (- ns_shift n) T).

Lemma shift_shift a b t : shift_spans a (shift_spans b t) = shift_spans (b + a) t.
Proof. unfold shift_spans. rewrite map_map. apply map_ext. intros [x [y z]]. cbn. by rewrite !Z.add_assoc. Qed.
Lemma shift_0 t : shift_spans 0 t = t.
Proof. unfold shift_spans. rewrite <- (map_id t) at 2. apply map_ext. intros [x [y z]]. cbn. by rewrite !Z.add_0_r. Qed.

Lemma spots_found b V L R n v d segs k ps :
  V = L ++ shift_spans (ns_shift n) v ++ R → wf_as n v → v = d ++ concat segs.*1 → k = alen L + alen d →
  Forall2 (piece_of n) (base.filter (λ s : _ * bool, b ≠ Removed ∨ s.2 = false) segs).*1 ps →
  ∃ l', non_empty (splits_from_ns ps) = splits_from_ns l' ∧ Forall2 (holds_found V) (remaining b k (texts_of segs)) l'.
Proof.
  intros HV Hwf. revert d k ps. induction segs as [|[t m] segs IH]; intros d k ps Hv Hk H.
  { inversion H; subst. exists []. split; [done|constructor]. }
  rewrite filter_cons in H. cbn [texts_of map spots] in *. unfold remaining. cbn [spots]. rewrite filter_cons.
  cbn [fmap list_fmap concat fst snd] in Hv.
  assert (IH' : ∀ ps, Forall2 (piece_of n) (base.filter (λ s : _ * bool, b ≠ Removed ∨ s.2 = false) segs).*1 ps →
    ∃ l', non_empty (splits_from_ns ps) = splits_from_ns l' ∧ Forall2 (holds_found V) (remaining b (k + alen t) (texts_of segs)) l').
  { intros ps' Hp. apply (IH (d ++ t)); [by rewrite <- app_assoc|rewrite alen_app; lia|done]. }
  change (zlen (encode t.*1)) with (alen t). unfold remaining in IH'.
  destruct (decide (b ≠ Removed ∨ _)) as [Hd|Hd].
  - rewrite fmap_cons in H. apply Forall2_cons_inv_l in H as (n' & ps' & H1 & H2 & ->). cbn [fst] in H1.
    destruct (IH' ps' H2) as (l' & E & Hl'). unfold splits_from_ns in *. cbn [map]. rewrite non_empty_cons. cbn [sp_ns].
    destruct (decide (ns_norm n' ≠ [])) as [Hn|Hn].
    + assert (Hnt : t ≠ []). { intros ->. apply Hn. by apply (piece_norm_nil _ _ _ H1). }
      rewrite decide_True by (split; [by intros E'%fmap_nil_inv|done]). rewrite (fmap_cons fst). cbn [fst]. exists (n' :: l'). cbn [map]. split; [by f_equal|].
      constructor; [|done]. destruct H1 as (P1 & P2 & P3). destruct (P2 Hnt) as [_ Hsh].
      assert (Es : shift_spans (- ns_shift n') (shift_spans (ns_shift n) t) = shift_spans (- first_start t) t). { rewrite shift_shift. f_equal. lia. }
      exists (shift_spans (ns_shift n) t). split; [|split].
      * exists (L ++ shift_spans (ns_shift n) d), (shift_spans (ns_shift n) (concat segs.*1) ++ R). cbn [fst snd]. split; [|split].
        -- by rewrite HV, Hv, !shift_spans_app, <- !app_assoc.
        -- by rewrite alen_app, alen_shift.
        -- by rewrite shift_spans_chars.
      * unfold holds_at. by rewrite Es.
      * rewrite Es. eapply (piece_wf n d t (concat segs.*1)); [by rewrite <- Hv|done].
    + assert (Hnt : t = []). { apply (piece_norm_nil _ _ _ H1). destruct (ns_norm n'); [done|by destruct Hn]. }
      rewrite decide_False by (intros [E' _]; by subst). exists l'. done.
  - rewrite decide_False by (intros [_ E]; by apply Hd). by apply IH'.
Qed.

Lemma split_found V b x n p segs : holds_found V x n → b = Removed ∨ b = Isolated → pattern_cuts p x.2 segs →
  ∃ ps l', split n p b = Ret (Ok ps) ∧ non_empty (splits_from_ns ps) = splits_from_ns l' ∧ Forall2 (holds_found V) (remaining b x.1 segs) l'.
Proof.
  intros (T & (L & R & HV & HL & HT) & Hh & Hwf) Hb (Hs & Hp & Hc & Hne). set (v := shift_spans (- ns_shift n) T) in *.
  assert (Hv1 : v.*1 = x.2) by (unfold v; by rewrite shift_spans_chars).
  assert (Hn : ns_norm n = encode x.2). { destruct Hwf as ((_ & H & _) & _). by rewrite H, Hv1. }
  destruct (texts_of_inv v segs) as (asegs & Ha & Ht); [by rewrite Hv1|].
  assert (Hcov : boundary_cover (ns_norm n) (place 0 segs)).
  { apply (cover_segments _ v); [apply Hwf|]. exists asegs. by rewrite Ht. }
  rewrite <- Hn in Hp.
  destruct (split_exact _ _ p b _ Hwf Hp Hcov) as (asegs' & gs & H1 & H2 & [H3 H4] & H5).
  rewrite <- Ht in H2. apply segs_unique in H2; [|congruence]. subst asegs'.
  destruct H5 as [[_ H5]|[_ (ps & H5 & H6)]].
  - exfalso. destruct H5 as (g1 & g & g2 & -> & _ & Hg & H5). pose proof (zlen_nonneg (ns_orig n)) as Hz.
    destruct Hne as [Hne|Hne].
    + assert (Hg2 : g ≠ []).
      { intros ->. assert (Hgr : Forall (λ g, g = [true] ∨ g = [false]) (map (λ g : asegments, g.*2) (g1 ++ [] :: g2))) by (destruct Hb as [->| ->]; exact H4).
        rewrite map_app in Hgr. apply Forall_app in Hgr as [_ Hgr]. cbn [map] in Hgr. apply Forall_cons in Hgr as [[?|?] _]; done. }
      destruct g as [|[t m] g]; [done|]. rewrite concat_app in H3. cbn [concat app] in H3.
      assert (Hin : (t.*1, m) ∈ segs). { rewrite <- Ht, <- H3. unfold texts_of. rewrite map_app. apply elem_of_app. right. cbn. by left. }
      rewrite Forall_forall in Hne. specialize (Hne _ Hin). cbn in Hne. unfold group_text in Hg. cbn in Hg. apply app_nil in Hg as [-> _]. done.
    + assert (v = []) as Hvn by (rewrite Hne in Hv1; by apply fmap_nil_inv in Hv1).
      assert (Hl : alen v = 0) by (by rewrite Hvn).
      rewrite <- H1, <- H3 in Hl. rewrite <- concat_group_text, map_app, concat_app, alen_app in Hl.
      match type of Hl with _ + alen ?y = _ => pose proof (alen_nonneg y) end. lia.
  - assert (Hk : map group_text (kept_groups b gs) = (base.filter (λ s : _ * bool, b ≠ Removed ∨ s.2 = false) asegs).*1).
    { destruct Hb as [->| ->].
      - rewrite (kept_removed gs H4), H3. f_equal. apply list_filter_iff. naive_solver.
      - rewrite (kept_isolated gs H4), H3. f_equal. symmetry.
        clear. induction asegs as [|y l IH]; [done|]. rewrite filter_cons, decide_True by (by left). by rewrite IH. }
    rewrite <- Ht. destruct (spots_found b V L R n v [] asegs x.1 ps) as (l' & E & Hl').
    + rewrite HV. unfold v. rewrite shift_shift. replace (- ns_shift n + ns_shift n) with 0 by lia. by rewrite shift_0.
    + done.
    + done.
    + change (alen []) with 0. lia.
    + rewrite <- Hk. clear -H6. induction H6; constructor; done.
    + exists ps, l'. done.
Qed.

Lemma run_split_found V p b o fs l gss : Forall2 (holds_found V) fs l → b = Removed ∨ b = Isolated →
  Forall2 (λ x segs, pattern_cuts p x.2 segs) fs gss →
  ∃ l', run_split (split_by p b) (Pts o (splits_from_ns l)) = Ret (Pts o (splits_from_ns l'), None)
    ∧ Forall2 (holds_found V) (concat (zip_with (λ x segs, remaining b x.1 segs) fs gss)) l'.
Proof.
  intros Hf Hb Hg.
  assert (∃ ls, Forall2 (λ n r, ∃ n' items, split_by p b n = Ret (n', Ok items) ∧ non_empty items = r) l (map splits_from_ns ls)
    ∧ Forall2 (holds_found V) (concat (zip_with (λ x segs, remaining b x.1 segs) fs gss)) (concat ls)) as (ls & H1 & H2).
  { revert gss Hg. induction Hf as [|x n fs l Hx Hf IH]; intros gss Hg.
    - apply Forall2_nil_inv_l in Hg as ->. exists []. split; constructor.
    - apply Forall2_cons_inv_l in Hg as (segs & gss' & Hs & Hg & ->). destruct (IH gss' Hg) as (ls & IH1 & IH2).
      destruct (split_found V b x n p segs Hx Hb Hs) as (ps & l' & E1 & E2 & E3). exists (l' :: ls). cbn [map zip_with concat]. split.
      + constructor; [|done]. eexists _, _. unfold split_by. rewrite E1. cbn [mbind outcome_bind]. done.
      + by apply Forall2_app. }
  exists (concat ls). split; [|done]. rewrite (run_split_all _ _ _ _ H1). unfold splits_from_ns. by rewrite concat_map.
Qed.

Lemma found_root n v : wf_as n v → ns_shift n = 0 → holds_found v (0, v.*1) n.
Proof.
  intros Hwf H0. exists v. split; [exists [], []; by rewrite app_nil_r|]. unfold holds_at. rewrite H0. cbn [Z.opp]. rewrite shift_0. split; [apply Hwf|done].
Qed.
Lemma found_holds V fs l : Forall2 (holds_found V) fs l → ∃ ts, Forall2 (found_at V) fs ts ∧ Forall2 holds_at ts l.
Proof.
  induction 1 as [|x n fs l (T & H1 & H2 & _) H (ts & IH1 & IH2)]; [by exists []; repeat constructor|]. exists (T :: ts). split; by constructor.
Qed.

(** What the pre-tokenizers make of edited text. *)
Lemma cuts_found pre n v shown fs : wf_as n v → ns_shift n = 0 → cuts pre v.*1 shown fs →
  ∃ l ts, pre (pts_from_ns n) = Ret (Pts (ns_orig n) (splits_from_ns l), None) ∧ Forall2 (found_at v) fs ts ∧ Forall2 holds_at ts l
    ∧ in_order fs ∧ ∀ x, x ∈ fs → x.2 ≠ [] ∧ ∃ l r, occurs v.*1 l r x.
Proof.
  intros Hwf H0 Hc. pose proof (found_root n v Hwf H0) as Hroot. assert (Hs : scalars v.*1) by apply Hwf. remember v.*1 as rs eqn:Hrs.
  assert (Hone : Forall2 (holds_found v) [(0, rs)] [n]) by (by repeat constructor).
  assert (Hdel : ∀ f, ∃ gs l, run_split (split_by (func_pattern f) Removed) (Pts (ns_orig n) (splits_from_ns [n])) = Ret (Pts (ns_orig n) (splits_from_ns l), None)
     ∧ Forall2 (holds_found v) gs l ∧ in_order gs ∧ ∀ x, x ∈ gs ↔ run_of f rs x).
  { intros f. destruct (delimited_segs f rs Hs) as (segs & H1 & H2 & H3).
    destruct (run_split_found v (func_pattern f) Removed (ns_orig n) _ _ [segs] Hone) as (l & E & Hl); [by left|by constructor; [exact H1|constructor]|].
    cbn [zip_with concat fst] in Hl. rewrite app_nil_r in Hl. exists (remaining Removed 0 segs), l. done. }
  change (pts_from_ns n) with (Pts (ns_orig n) (splits_from_ns [n])).
  destruct Hc as [pre' stop rs' fs Hd [Ho Hf]|u rs' fs [Ho Hf]|word space rs' fs Ho Hf].
  - assert (∃ gs l, pre' (Pts (ns_orig n) (splits_from_ns [n])) = Ret (Pts (ns_orig n) (splits_from_ns l), None) ∧ Forall2 (holds_found v) gs l ∧ in_order gs ∧ ∀ x, x ∈ gs ↔ run_of stop rs' x)
      as (gs & l & H1 & H2 & H3 & H4) by (destruct Hd; apply Hdel).
    assert (gs = fs) as ->. { apply (C54_unique gs fs (run_of stop rs')); try done. by intros x (? & ? & _ & ? & _). }
    destruct (found_holds _ _ _ H2) as (ts & T1 & T2). exists l, ts. split_and!; try done. intros x Hx. apply Hf in Hx as (a & b & H & ? & _). eauto.
  - destruct (bert_segs white_space (u_punct u) rs' Hs) as (segs & gss & H1 & H2 & H3 & H4). set (gs := concat _) in H3, H4.
    destruct (run_split_found v (func_pattern white_space) Removed (ns_orig n) _ _ [segs] Hone) as (l & E & Hl); [by left|by constructor; [exact H1|constructor]|].
    cbn [zip_with concat fst] in Hl. rewrite app_nil_r in Hl.
    destruct (run_split_found v (func_pattern (u_punct u)) Isolated (ns_orig n) _ _ gss Hl) as (l' & E' & Hl'); [by right|done|].
    assert (gs = fs) as Hgs.
    { apply (C54_unique gs fs (bert_piece white_space (u_punct u) rs')); try done. intros x [(? & ? & ? & _ & -> & _)|(? & ? & _ & ? & _)]; done. }
    fold gs in Hl'. rewrite Hgs in Hl'. destruct (found_holds _ _ _ Hl') as (ts & T1 & T2). exists l', ts. split_and!; try done.
    + unfold bert_pretokenizer. rewrite E. cbn [mbind outcome_bind]. done.
    + intros x Hx. apply Hf in Hx as [(a & c & b & H & Hx & _)|(a & b & H & ? & _)]; [|eauto]. split; [by rewrite Hx|]. eauto.
  - destruct (word_segs word space rs' Hs) as (segs & H1 & H2 & Hne & H3 & H4).
    destruct (run_split_found v (invert (regexp2_pattern (engine_of (word_re word space)))) Removed (ns_orig n) _ _ [segs] Hone) as (l & E & Hl); [by left|by constructor; [exact (conj Hs (conj H1 (conj H2 Hne)))|constructor]|].
    cbn [zip_with concat fst] in Hl. rewrite app_nil_r in Hl.
    assert (remaining Removed 0 segs = fs) as Hgs. { apply (C54_unique _ fs (kind_run word space rs')); try done. by intros x (? & ? & ? & _ & ? & _). }
    rewrite Hgs in Hl. destruct (found_holds _ _ _ Hl) as (ts & T1 & T2). exists l, ts. split_and!; try done.
    intros x Hx. apply Hf in Hx as (a & b & k & H & ? & _). eauto.
Qed.
