(** Property theorems C67, C68 (whole pipelines that edit the text). *)
From Coq Require Import ZifyBool Sorted QArith String.
From stdpp Require Import relations.
From Verif Require Import GoBase Utf8Facts Strutils SplitPattern NormString Vocab MergeMap Bpe WordPiece Encodings PreTokString Normalizers PreTokenizers Regex SpecText SpecNorm SpecVocab SpecBpe SpecWordPiece SpecPts SpecPretok SpecNormalizers SpecEnd SpecPipe
  SliceFacts NormFacts NormInv WordPieceFacts BpeTok PretokFacts ByteFacts RegexFacts NormSlice EndFacts PipeFacts PropsWordPiece PropsBpe PropsPretok NormalizersFacts PropsNormalizers Lit.
Import GoBase NormString SpecNorm.
#[local] Open Scope Z_scope.

(** * C67 *)
(** Byte-level pre-tokenizer and byte-level BPE: any text has an encoding; its entries stand for the parts
    into which the pieces are cut. *)
Theorem C67_encoding :
  ∀ fold letter number space rs (prefix : bool) m file draws wi ty, scalars rs → has_bytes (b_vocab m) →
  consistent (b_vocab m) → merge_map_from_file file (b_vocab m) 0 = Ret (Ok (b_merges m)) →
  b_prefix m = [] → b_suffix m = [] → (b_unk m ≠ [] → is_Some (get_id (b_vocab m) (b_unk m))) →
  let v := if prefix then prefixed white_space 32 (fresh 0 rs) else fresh 0 rs in
  ∃ e es ts parts,
    encode_text (byte_level (engine_of (splitting_re fold letter number space)) prefix) (bpe_model m draws) (encode rs) wi ty = Ret (Ok e)
    ∧ entries e es ∧ concat ts = v ∧ Forall (λ t, gpt2_shape fold letter number space t.*1) ts
    ∧ cut_up (map byte_text ts) wi ty parts es ∧ Forall2 (spelled (b_vocab m)) (numbered 0 parts) es.
Proof.
  intros fold letter number space rs b m file draws wi ty Hs Hby Hcons Hfile Hpre Hsuf Hunk v.
  destruct (C58_default_regexp fold letter number space rs b Hs) as (ts & l & H1 & H2 & H3 & H4). fold v in H2.
  assert (Hne : Forall (λ t : atext, t ≠ []) ts). { eapply Forall_impl; [exact H3|]. cbn. intros t Ht ->. by apply shape_nonempty in Ht. }
  assert (Hh : Forall2 holds_at (map byte_text ts) l).
  { apply Forall2_fmap_l. clear -H4 Hne. induction H4 as [|t n ts l H H4 IH]; constructor.
    - apply (piece_holds (from_string (encode rs)) _ _ eq_refl); [|done]. apply Forall_cons in Hne as [Hne _]. intros E. apply (f_equal (fmap snd)) in E. rewrite byte_text_snd in E.
      destruct t as [|[c s] t]; [done|]. rewrite spans_of_cons in E. pose proof (rune_len_bounds c) as Hc. unfold rune_len, zlen in Hc. destruct (length (encode_rune c)); [lia|done].
    - apply IH. by apply Forall_cons in Hne as [_ Hne]. }
  destruct (bpe_pipeline _ m file draws (from_string (encode rs)) wi ty _ _ _ H1 Hh Hcons Hfile Hpre Hsuf Hunk) as (e & es & parts & E1 & E2 & E3 & E4).
  { apply Forall_map. apply Forall_forall. intros t _. cbn. rewrite byte_text_fst. apply Forall_map. eapply Forall_impl; [apply encode_bytes|].
    cbn. intros x Hx. apply Hby. lia. }
  exists e, es, ts, parts. done.
Qed.
Print Assumptions C67_encoding.

(** Lossless, and the offsets byte by byte: the entries spell the bytes of the text, and the offsets of each
    are the smallest range of whole characters around its bytes. *)
Theorem C67_spells :
  ∀ fold letter number space rs (prefix : bool) m file draws wi ty, scalars rs → has_bytes (b_vocab m) →
  consistent (b_vocab m) → merge_map_from_file file (b_vocab m) 0 = Ret (Ok (b_merges m)) →
  b_prefix m = [] → b_suffix m = [] → (b_unk m ≠ [] → is_Some (get_id (b_vocab m) (b_unk m))) →
  let text := match rs with x :: _ => if prefix && negb (white_space x) then 32 :: rs else rs | [] => [] end in
  ∃ e es,
    encode_text (byte_level (engine_of (splitting_re fold letter number space)) prefix) (bpe_model m draws) (encode rs) wi ty = Ret (Ok e)
    ∧ entries e es ∧ spell_bytes (encode rs) (zlen text - zlen rs) (encode text) 0 es
    ∧ Forall (λ en, get_id (b_vocab m) (et_token en) = Some (et_id en)) es.
Proof.
  intros fold letter number space rs b m file draws wi ty Hs Hby Hcons Hfile Hpre Hsuf Hunk text.
  destruct (C67_encoding fold letter number space rs b m file draws wi ty Hs Hby Hcons Hfile Hpre Hsuf Hunk) as (e & es & ts & parts & E1 & E2 & E3 & E4 & [E5 E6] & E7).
  set (v := if b then _ else _) in E3. exists e, es. split; [done|]. split; [done|].
  assert (v.*1 = text ∧ ∀ i s, spans_of v !! i = Some s → spans_of (fresh 0 rs) !! Z.to_nat (Z.max 0 (Z.of_nat i - (zlen text - zlen rs))) = Some s) as [Ev Hv].
  { assert (H0 : v = fresh 0 rs → text = rs → v.*1 = text ∧ ∀ i s, spans_of v !! i = Some s → spans_of (fresh 0 rs) !! Z.to_nat (Z.max 0 (Z.of_nat i - (zlen text - zlen rs))) = Some s).
    { intros -> ->. split; [by rewrite fresh_chars|]. intros i s Hi. rewrite <- Hi. f_equal. lia. }
    unfold v, text in *. destruct rs as [|x rs]; [destruct b; by apply H0|]. destruct b; cbn [andb] in *; [|by apply H0]. cbn [fresh prefixed] in *.
    destruct (white_space x); cbn [negb] in *; [by apply H0|]. clear H0. split; [rewrite !(fmap_cons fst); cbn [fst]; by rewrite fresh_chars|].
    intros i s. rewrite spans_of_cons. change (length (encode_rune 32)) with 1%nat. cbn [repeat app]. rewrite zlen_cons.
    destruct i as [|i]; cbn [lookup list_lookup].
    - intros [= <-]. replace (Z.to_nat _) with 0%nat by lia. rewrite spans_of_cons. pose proof (rune_len_bounds x) as Hc. unfold rune_len, zlen in Hc. destruct (length (encode_rune x)); [lia|done].
    - intros Hi. rewrite <- Hi. f_equal. lia. }
  rewrite <- Ev in Hv |- *. split.
  - apply (spells_all rs _ v (concat parts) []); [done| |done| |].
    + rewrite Ev. unfold text. destruct rs as [|x rs']; [done|]. destruct (_ && _); rewrite ?zlen_cons; lia.
    + cbn [app]. by rewrite concat_concat, E5, byte_text_concat, E3.
    + rewrite <- (numbered_snd 0 parts). apply Forall2_fmap_l. clear -E6 E7. revert E7. induction E6 as [|jp en l es (S1 & S2 & S3 & S4) E6 IH]; intros E7; [constructor|].
      apply Forall2_cons in E7 as [[T1 T2] E7]. constructor; [done|]. by apply IH.
  - clear -E7. induction E7 as [|jp en l es [_ H] E7 IH]; constructor; done.
Qed.
Print Assumptions C67_spells.

(** So the tokens determine the text, whatever the model and its random numbers. *)
Theorem C67_decodable :
  ∀ s p s' p' text text' es es',
  spell_bytes s p text 0 es → spell_bytes s' p' text' 0 es' → Forall (λ b, 0 <= b < 256) text → Forall (λ b, 0 <= b < 256) text' →
  concat (map et_token es) = concat (map et_token es') → text = text'.
Proof.
  assert (H : ∀ s p text es i a b, text = a ++ b → i = zlen a → spell_bytes s p text i es → concat (map et_token es) = encode (map byte_char b)).
  { intros s p text es. induction es as [|en es IH]; intros i a b Ht Hi; cbn [spell_bytes map concat].
    - intros Hz. rewrite Ht, zlen_app in Hz. destruct b as [|x b]; [done|]. rewrite zlen_cons in Hz. pose proof (zlen_nonneg b). lia.
    - intros (j & bs & Hij & (l & r & E & E1 & E2) & Htok & _ & Hrest). rewrite Ht in E. apply app_inj_1 in E as [<- ->]; [|unfold zlen in *; lia].
      rewrite map_app, encode_app, Htok. f_equal. apply (IH j (a ++ bs) r); [by rewrite <- app_assoc|rewrite zlen_app; lia|done]. }
  intros s p s' p' text text' es es' H1 H2 B1 B2 E. rewrite (H s p text es 0 [] text) in E by done. rewrite (H s' p' text' es' 0 [] text') in E by done.
  by apply C57_decodable.
Qed.
Print Assumptions C67_decodable.

(** "é b", space prefix, with the merges "Ã ©" (the two bytes of é) and "Ġ b" - and then without the first:
    both halves of é have the offsets of é. *)
Example C67_example :
  let bytes := map (λ b, encode_rune (byte_char b)) (seqZ 0 256) in
  let v := PropsBpe.ex_vocab (bytes ++ [encode [0xC3; 0xA9]; encode [0x120; 98]]) in
  let pre := byte_level (engine_of (splitting_re (λ c, c) (λ c, (97 <=? c) && (c <=? 122) || (0xE0 <=? c)) (λ c, (48 <=? c) && (c <=? 57)) (λ c, c =? 32))) true in
  match merge_map_from_file (encode [0xC3; 32; 0xA9; 10; 0x120; 32; 98]) v 0, merge_map_from_file (encode [0x120; 32; 98]) v 0 with
  | Ret (Ok mm), Ret (Ok mm') =>
    encode_text pre (bpe_model (Bpe v mm 0 [] [] [] false) (λ _ _, 0%Q)) (encode [0xE9; 32; 98]) (-1) 0
    = Ret (Ok (Encoding [32; 256; 257] [0; 0; 0] [encode [0x120]; encode [0xC3; 0xA9]; encode [0x120; 98]] [0; 0; 1]
        [Offsets 0 2; Offsets 0 2; Offsets 2 4] [0; 0; 0] [1; 1; 1] []))
    ∧ encode_text pre (bpe_model (Bpe v mm' 0 [] [] [] false) (λ _ _, 0%Q)) (encode [0xE9; 32; 98]) (-1) 0
    = Ret (Ok (Encoding [32; 195; 169; 257] [0; 0; 0; 0] [encode [0x120]; encode [0xC3]; encode [0xA9]; encode [0x120; 98]] [0; 0; 0; 1]
        [Offsets 0 2; Offsets 0 2; Offsets 0 2; Offsets 2 4] [0; 0; 0; 0] [1; 1; 1; 1] []))
  | _, _ => False
  end.
Proof. vm_compute. auto. Qed.

(** * C68 *)
(** Any edited text (that is not a piece of another one), the pre-tokenizers that cut at characters, and
    WordPiece: the entries stand for the parts of the pieces of the edited text, and their offsets are where
    these came from in the original text. *)
Theorem C68_wordpiece :
  ∀ pre shown m n v fs wi ty, wf_as n v → ns_shift n = 0 → cuts pre v.*1 shown fs →
  valid_terms (w_vocab m) → valid_utf8 (w_prefix m) = true →
  ∃ ts, Forall2 (found_at v) fs ts
  ∧ ((∃ e es parts, encode_ns pre (wp_model m) n wi ty = Ret (Ok e) ∧ entries e es
       ∧ cut_up ts wi ty parts es ∧ Forall2 (wp_spelled m ts) (numbered 0 parts) es
       ∧ (get_id (w_vocab m) (w_unk m) = None → Forall (λ x, ¬ unanswered m x.2) fs))
     ∨ (encode_ns pre (wp_model m) n wi ty = Ret (Err EUnknownTokenOutOfVocabulary)
       ∧ get_id (w_vocab m) (w_unk m) = None ∧ Exists (λ x, unanswered m x.2) fs)).
Proof.
  intros pre shown m n v fs wi ty Hwf H0 Hc Hv Hpv. destruct (cuts_found pre n v shown fs Hwf H0 Hc) as (l & ts & Hp & Hft & Hh & Ho & Hoc).
  exists ts. split; [done|].
  assert (Hs : scalars v.*1) by apply Hwf.
  assert (Hch : ∀ j t, ts !! j = Some t → ∃ x, fs !! j = Some x ∧ t.*1 = x.2 ∧ t ≠ [] ∧ scalars t.*1).
  { intros j t Hj. destruct (Forall2_lookup_r _ _ _ _ _ Hft Hj) as (x & Hx & (a & b & _ & _ & E)). exists x. split; [done|]. split; [done|].
    destruct (Hoc x) as (Hne & a' & b' & Hx'); [by eapply elem_of_list_lookup_2|]. split; [intros ->; by rewrite <- E in Hne|]. rewrite E. by eapply occurs_scalars. }
  destruct (tiling_pipeline pre (wp_model m) n wi ty _ ts l Hp Hh) as [(e & es & parts & H1 & H2 & H3 & H5 & H6)|(e & j & t & H1 & H2 & H3)].
  { intros j t Hin. apply elem_of_list_lookup in Hin as (i & Hi). destruct (Hch i t Hi) as (x & Hx & Ex & Hne & Hsc).
    unfold wp_model. destruct (C43_tokens_tile m (encode t.*1) (encode_bytes _)) as (res & E & Hres). rewrite E.
    eexists. split; [done|]. intros toks ->. split; [|by eapply C46_boundaries].
    destruct Hres as [[(k & _ & [= ->])|[_ [=]]]|(toks' & [= ->] & Ht & _)]; [|done]. cbn. split; [done|]. split; [|done].
    destruct t as [|[c s] t]; [done|]. apply encode_pos. }
  - left. exists e, es, parts. split; [done|]. split; [done|]. split; [done|]. split.
    + eapply Forall2_impl; [exact H6|]. intros [j p] en (t & toks & tok & t1 & t3 & Q1 & Q2 & Q3 & Q4 & Q5 & Q6 & Q7). cbn [fst snd] in *.
      destruct (Hch j t Q1) as (x & Hx & Ex & Hne & Hsc). unfold wp_model in Q2.
      destruct (wp_tokenize_spec m (encode t.*1) (encode_bytes _)) as [(l' & _ & E & Hl)|(Hu & E)]; rewrite E in Q2.
      * injection Q2 as ->. apply tried_toks_tile in Hl as [Htile Hl]. rewrite Forall_forall in Hl. destruct (Hl tok Q3) as (y & G1 & G2 & G3).
        split; [by rewrite Q6, Q7|]. exists t1, t3. cbn [fst snd]. split; [by rewrite Q1, Q4|]. left. rewrite Q7, G2. unfold piece_term.
        rewrite Q5 in *. cbn [o_start o_end] in *. assert (y = encode p.*1) as ->. { rewrite Q4 in G1. by apply text_at_part in G1. }
        destruct t1 as [|[c s] t1]; [done|]. rewrite decide_False by done. replace (alen ((c, s) :: t1) =? 0) with false; [done|].
        symmetry. apply Z.eqb_neq. unfold alen. rewrite (fmap_cons fst). cbn [fst]. pose proof (encode_pos c t1.*1). lia.
      * injection Q2 as Ht. apply unknown_spec in Ht as [(i & Hi & [= ->])|[_ [=]]]. apply elem_of_list_singleton in Q3 as ->. cbn [t_offsets t_id t_value] in *.
        injection Q5 as Q5 Q5'. assert (t1 = []) as ->.
        { destruct t1 as [|[c s] t1]; [done|]. exfalso. unfold alen in Q5. rewrite (fmap_cons fst) in Q5. cbn [fst] in Q5. pose proof (encode_pos c t1.*1). lia. }
        assert (t3 = []) as ->.
        { cbn [app] in *. rewrite Q4 in Q5'. change (alen (p ++ t3) = alen p) in Q5'. rewrite alen_app in Q5'.
          destruct t3 as [|[c s] t3]; [done|]. exfalso. unfold alen in Q5'. rewrite (fmap_cons fst) in Q5'. cbn [fst] in Q5'. pose proof (encode_pos c t3.*1). lia. }
        cbn [app] in Q4. rewrite app_nil_r in Q4. subst p. split; [by rewrite Q6, Q7|]. exists [], []. cbn [app fst snd]. rewrite app_nil_r. split; [done|]. right. split_and!; try done.
        unfold unanswered. by rewrite runes_encode_scalars in Hu.
    + intros Hn. apply Forall_lookup. intros j x Hx Hu. destruct (Forall2_lookup_l _ _ _ _ _ Hft Hx) as (t & Ht & _).
      destruct (Hch j t Ht) as (x' & Hx' & Ex & _ & Hsc). rewrite Hx in Hx'. injection Hx' as <-. destruct (H5 j t Ht) as (toks & Htk). unfold wp_model in Htk.
      destruct (wp_tokenize_spec m (encode t.*1) (encode_bytes _)) as [(l' & Hmax & E & Hl)|(_ & E)].
      * rewrite runes_encode_scalars in Hmax by done. rewrite <- Ex in Hu. destruct Hu as [?|Hu]; [lia|]. by apply (Hu l').
      * rewrite E in Htk. injection Htk as Htk. unfold wp_unknown in Htk. by rewrite Hn in Htk.
  - right. unfold wp_model in H3. destruct (Hch j t H2) as (x & Hx & Ex & _ & Hsc).
    destruct (wp_tokenize_spec m (encode t.*1) (encode_bytes _)) as [(l' & Hmax & E & Hl)|(Hu & E)]; rewrite E in H3; [done|]. injection H3 as H3.
    apply unknown_spec in H3 as [(i & _ & [=])|[Hn [= ->]]]. split; [done|]. split; [done|]. apply Exists_exists. exists x. split; [by eapply elem_of_list_lookup_2|].
    unfold unanswered. rewrite <- Ex. by rewrite runes_encode_scalars in Hu.
Qed.
Print Assumptions C68_wordpiece.

(** BPE with a vocabulary that knows the characters of the pieces, likewise. *)
Theorem C68_bpe :
  ∀ pre shown m file draws n v fs wi ty, wf_as n v → ns_shift n = 0 → cuts pre v.*1 shown fs →
  consistent (b_vocab m) → merge_map_from_file file (b_vocab m) 0 = Ret (Ok (b_merges m)) →
  b_prefix m = [] → b_suffix m = [] → (b_unk m ≠ [] → is_Some (get_id (b_vocab m) (b_unk m))) →
  Forall (λ x, Forall (λ c, is_Some (get_id (b_vocab m) (encode_rune c))) x.2) fs →
  ∃ ts e es parts, Forall2 (found_at v) fs ts ∧ encode_ns pre (bpe_model m draws) n wi ty = Ret (Ok e) ∧ entries e es
    ∧ cut_up ts wi ty parts es ∧ Forall2 (spelled (b_vocab m)) (numbered 0 parts) es.
Proof.
  intros pre shown m file draws n v fs wi ty Hwf H0 Hc Hcons Hfile Hpre Hsuf Hunk Hk.
  destruct (cuts_found pre n v shown fs Hwf H0 Hc) as (l & ts & Hp & Hft & Hh & _).
  destruct (bpe_pipeline pre m file draws n wi ty _ ts l Hp Hh Hcons Hfile Hpre Hsuf Hunk) as (e & es & parts & H).
  { clear -Hft Hk. induction Hft as [|x t fs ts (a & b & _ & _ & E) Hft IH]; [constructor|]. apply Forall_cons in Hk as [Hk1 Hk]. constructor; [by rewrite E|]. by apply IH. }
  exists ts, e, es, parts. by split.
Qed.
Print Assumptions C68_bpe.

(** The pieces of the pieces' spans: each character of BERT's normalized text comes from the character of
    the original text at its span. *)
Theorem C68_origin :
  ∀ u o rs c s, (c, s) ∈ bert_aligned u o (fresh 0 rs) →
  ∃ l x r, rs = l ++ x :: r ∧ s = (zlen (encode l), zlen (encode (l ++ [x]))) ∧ c ∈ bert_text u o [x].
Proof.
  intros u o rs c s H.
  assert (E : ∀ v : atext, bert_aligned u o v = flat_map (λ p, map (λ c, (c, p.2)) (bert_text u o [p.1])) v).
  { assert (Eapp : ∀ v w : atext, bert_aligned u o (v ++ w) = bert_aligned u o v ++ bert_aligned u o w).
    { intros v w. unfold bert_aligned, when. destruct (bo_clean o), (bo_chinese o), (bo_accents o), (bo_lower o);
        unfold acleaned, aspaced_out, aunmarked, alowered; by rewrite ?filter_app, ?map_app, ?flat_map_app, ?filter_app, ?map_app. }
    induction v as [|[x a] v IH].
    - unfold bert_aligned, when. by destruct (bo_clean o), (bo_chinese o), (bo_accents o), (bo_lower o).
    - change ((x, a) :: v) with ([(x, a)] ++ v). rewrite Eapp, IH. cbn [flat_map app]. f_equal. clear. cbn [fst snd].
      assert (F1 : ∀ rs, acleaned u (map (λ c, (c, a)) rs) = map (λ c, (c, a)) (cleaned u rs)).
      { unfold acleaned, cleaned. induction rs as [|y rs IH]; [done|]. cbn [map]. rewrite !filter_cons. cbn [fst].
        destruct (decide (¬ cleaned_away u y)); [|done]. cbn [map fst snd]. by f_equal. }
      assert (F2 : ∀ rs, aspaced_out is_chinese (map (λ c, (c, a)) rs) = map (λ c, (c, a)) (spaced_out is_chinese rs)).
      { unfold aspaced_out, spaced_out. induction rs as [|y rs IH]; [done|]. cbn [map flat_map]. rewrite map_app, IH. cbn [fst snd]. by destruct (is_chinese y). }
      assert (F3 : ∀ rs, aunmarked u (map (λ c, (c, a)) rs) = map (λ c, (c, a)) (unmarked u rs)).
      { unfold aunmarked, unmarked. induction rs as [|y rs IH]; [done|]. cbn [map]. rewrite !filter_cons. cbn [fst].
        destruct (decide (u_mn u y ≠ true)); [|done]. cbn [map]. by f_equal. }
      assert (F4 : ∀ rs, alowered u (map (λ c, (c, a)) rs) = map (λ c, (c, a)) (lowered u rs)).
      { unfold alowered, lowered. induction rs as [|y rs IH]; [done|]. cbn [map fst snd]. by f_equal. }
      change [(x, a)] with (map (λ c, (c, a)) [x]). unfold bert_aligned, bert_text, when.
      destruct (bo_clean o), (bo_chinese o), (bo_accents o), (bo_lower o); by rewrite ?F1, ?F2, ?F3, ?F4, ?F3, ?F4, ?F4. }
  rewrite E in H. apply elem_of_list_In, in_flat_map in H as ([x a] & Hin & Hc). apply in_map_iff in Hc as (c' & [= <- <-] & Hc). cbn [fst snd] in *.
  apply elem_of_list_In in Hin, Hc. apply elem_of_list_split in Hin as (v1 & v2 & Hf). pose proof (f_equal (fmap fst) Hf) as Hf1. rewrite fresh_chars, fmap_app, fmap_cons in Hf1. cbn [fst] in Hf1.
  exists v1.*1, x, v2.*1. split; [done|]. split; [|done]. destruct (fresh_inj _ _ _ _ Hf) as [_ H2]. rewrite Z.add_0_l, (fmap_cons fst) in H2. cbn [fst fresh] in H2. injection H2 as -> _.
  rewrite encode_app, zlen_app, zlen_encode_cons. change (zlen (encode [])) with 0. unfold alen. f_equal. lia.
Qed.
Print Assumptions C68_origin.

(** BERT: normalizer, pre-tokenizer and WordPiece, if the characters removed at the front are ASCII (C60). *)
Theorem C68_bert_partial :
  ∀ u o m rs wi ty, scalars rs → valid_terms (w_vocab m) → valid_utf8 (w_prefix m) = true →
  (bo_clean o = true → ascii_lead (cleaned_away u) rs) →
  (bo_accents o = true → ascii_lead (λ r, u_mn u r = true) (when (bo_chinese o) (spaced_out is_chinese) (when (bo_clean o) (cleaned u) rs))) →
  ∃ fs ts, bert_pieces_of white_space (u_punct u) (bert_text u o rs) fs
  ∧ Forall2 (found_at (bert_aligned u o (fresh 0 rs))) fs ts
  ∧ ((∃ e es parts, encode_normalized (bert_normalizer u o) (bert_pretokenizer u) (wp_model m) (encode rs) wi ty = Ret (Ok e) ∧ entries e es
       ∧ cut_up ts wi ty parts es ∧ Forall2 (wp_spelled m ts) (numbered 0 parts) es)
     ∨ (encode_normalized (bert_normalizer u o) (bert_pretokenizer u) (wp_model m) (encode rs) wi ty = Ret (Err EUnknownTokenOutOfVocabulary)
       ∧ get_id (w_vocab m) (w_unk m) = None ∧ Exists (λ x, unanswered m x.2) fs)).
Proof.
  intros u o m rs wi ty Hs Hv Hpv Hc Ha. pose proof (from_string_wf rs Hs) as Hwf0. pose proof Hwf0 as (Hr0 & _).
  destruct (C60_bert_partial u o _ _ Hr0) as (n' & E & Hr & Ho1 & Ho2); [by rewrite fresh_chars|by rewrite fresh_chars|].
  destruct (C60_text_partial u o _ _ _ _ Hwf0 E) as (_ & Htx & (v' & Hwf) & _). rewrite fresh_chars in Htx.
  assert (v' = bert_aligned u o (fresh 0 rs)) as ->.
  { destruct Hwf as ((S1 & N1 & A1) & _), Hr as (S2 & N2 & A2). apply spans_inj; [|congruence]. apply encode_inj_scalars; [done|done|congruence]. }
  assert (Ev : (bert_aligned u o (fresh 0 rs)).*1 = bert_text u o rs).
  { destruct Hr as (S2 & N2 & _). rewrite N2 in Htx. apply encode_inj_scalars in Htx; [done|done|].
    assert (Hsb : scalars (bert_text u o rs)); [|done]. clear -Hs. unfold bert_text, when. 
    assert (Hcl : ∀ l, scalars l → scalars (cleaned u l)).
    { intros l Hl. unfold cleaned. apply Forall_map. apply Forall_forall. intros x [_ Hx]%elem_of_list_filter. cbn. pose proof (proj1 (Forall_forall _ _) Hl) as Hl'. destruct (white_space x); [done|by apply Hl']. }
    assert (Hsp : ∀ l, scalars l → scalars (spaced_out is_chinese l)).
    { intros l Hl. unfold spaced_out. induction Hl as [|x l Hx Hl IH]; [constructor|]. cbn [flat_map]. apply Forall_app. split; [|done]. destruct (is_chinese x); repeat constructor; done. }
    assert (Hum : ∀ l, scalars l → scalars (unmarked u l)).
    { intros l Hl. unfold unmarked. apply Forall_forall. intros x [_ Hx]%elem_of_list_filter. pose proof (proj1 (Forall_forall _ _) Hl) as Hl'. by apply Hl'. }
    assert (Hlo : ∀ l, scalars (lowered u l)). { intros l. unfold lowered. apply Forall_map, Forall_forall. intros x _. apply sanitize_scalar. }
    destruct (bo_clean o), (bo_chinese o), (bo_accents o), (bo_lower o); auto. }
  destruct (C55_bert_pretokenizer u (bert_text u o rs)) as (fs & _ & Hord & Hfs). { rewrite <- Ev. apply Hwf. }
  destruct (C68_wordpiece (bert_pretokenizer u) (λ c, negb (white_space c)) m n' _ fs wi ty Hwf) as (ts & Hts & Hcase); [|by rewrite Ev; constructor|done|done|].
  { by rewrite Ho2. }
  assert (En : encode_normalized (bert_normalizer u o) (bert_pretokenizer u) (wp_model m) (encode rs) wi ty = encode_ns (bert_pretokenizer u) (wp_model m) n' wi ty).
  { unfold encode_normalized. rewrite E. done. }
  exists fs, ts. split; [done|]. split; [done|]. rewrite En. destruct Hcase as [(e & es & parts & H1 & H2 & H3 & H4 & _)|H]; [left|by right]. exists e, es, parts. done.
Qed.
Print Assumptions C68_bert_partial.

(** "Ünä, 中" with "ä" as 'a' and U+0308: lower case, accents removed, spaces around 中; the entries quote the
    normalized text, the offsets point into the original. *)
Example C68_example :
  let u := Unicode (λ _, false) (λ c, c =? 0x308) (λ c, c =? 44) (λ c, if c =? 0xDC then 117 else c) (λ c, c) in
  let m := ex_wp ["[UNK]"; "un"; "##a"; ","; "中"]%string in
  let rs := [0xDC; 110; 97; 0x308; 44; 32; 0x4E2D] in
  encode_normalized (bert_normalizer u default_bert) (bert_pretokenizer u) (wp_model m) (encode rs) (-1) 0
  = Ret (Ok (Encoding [1; 2; 3; 4] [0; 0; 0; 0] (map bytes_of ["un"; "##a"; ","; "中"]%string) [0; 0; 1; 2]
      [Offsets 0 3; Offsets 3 4; Offsets 6 7; Offsets 8 11] [0; 0; 0; 0] [1; 1; 1; 1] [])).
Proof. vm_compute. reflexivity. Qed.
(** C60's panic, with U+FEFF in front. *)
Theorem C68_bert_refuted :
  ¬ (∀ u o m rs wi ty, scalars rs → valid_terms (w_vocab m) → valid_utf8 (w_prefix m) = true →
     ∃ r, encode_normalized (bert_normalizer u o) (bert_pretokenizer u) (wp_model m) (encode rs) wi ty = Ret r).
Proof.
  intros H. destruct (H (Unicode (λ r, r =? 0xFEFF) (λ _, false) (λ _, false) (λ c, c) (λ c, c)) default_bert (WordPiece new_vocab [] [] 9)
    [0xFEFF; 97; 98; 99] 0 0) as (r & E); [by repeat constructor| |done|].
  - intros t i Hi. done.
  - vm_compute in E. discriminate.
Qed.
Print Assumptions C68_bert_refuted.
