(** Property theorems C63, C64 (whole pipelines over untouched text). *)
From Coq Require Import ZifyBool Sorted QArith String.
From stdpp Require Import relations.
From Verif Require Import GoBase Utf8Facts Strutils SplitPattern NormString Vocab MergeMap Bpe WordPiece Encodings PreTokString Normalizers PreTokenizers Regex SpecText SpecNorm SpecVocab SpecBpe SpecWordPiece SpecPts SpecPretok SpecEnd
  SliceFacts WordPieceFacts BpeTok PretokFacts NormSlice EndFacts PropsWordPiece PropsBpe PropsPretok Lit.
Import GoBase NormString SpecNorm.
#[local] Open Scope Z_scope.

Lemma in_order_same (fs gs : list (Z * list Z)) (P : Z * list Z → Prop) : in_order fs → in_order gs → (∀ x, x ∈ fs ↔ P x) → (∀ x, x ∈ gs ↔ P x) → (∀ x, P x → x.2 ≠ []) → fs = gs.
Proof. apply C54_unique. Qed.
Lemma bert_piece_ne white punct rs x : bert_piece white punct rs x → x.2 ≠ [].
Proof. intros [(l & c & r & _ & -> & _)|(l & r & _ & ? & _)]; done. Qed.
Lemma cuts_spec pre rs shown pieces : scalars rs → cuts pre rs shown pieces →
  pre (pts_from_string (encode rs)) = Ret (Pts (encode rs) (map plain_split pieces), None) ∧ in_order pieces
  ∧ (∀ x, x ∈ pieces → x.2 ≠ [] ∧ ∃ l r, occurs rs l r x)
  ∧ ∀ a c b i, rs = a ++ c :: b → zlen (encode a) <= i < zlen (encode (a ++ [c])) → (shown c = true ↔ ∃ x, x ∈ pieces ∧ x.1 <= i < x.1 + zlen (encode x.2)).
Proof.
  intros Hs Hc. revert Hs. destruct Hc as [pre' stop rs' fs Hd [Ho Hf]|u rs' fs [Ho Hf]|word space rs' fs Ho Hf]; intros Hs.
  - split_and!; [|done| |intros a c b i H1 H2; exact (runs_cover stop rs' fs a c b i Hf H1 H2)].
    + assert (∃ gs, pre' (pts_from_string (encode rs')) = Ret (Pts (encode rs') (map plain_split gs), None) ∧ in_order gs ∧ ∀ x, x ∈ gs ↔ run_of stop rs' x) as (gs & -> & Ho' & Hf').
      { destruct Hd; apply delimited; done. }
      rewrite (in_order_same fs gs _ Ho Ho' Hf Hf'); [done|]. by intros x (l & r & _ & ? & _).
    + intros x Hx. apply Hf in Hx as (l & r & H & ? & _). split; [done|]. eauto.
  - split_and!; [|done| |intros a c b i H1 H2; exact (bert_cover _ _ rs' fs a c b i Hf H1 H2)].
    + destruct (C55_bert_pretokenizer u rs' Hs) as (gs & -> & Ho' & Hf'). rewrite (in_order_same fs gs _ Ho Ho' Hf Hf'); [done|]. apply bert_piece_ne.
    + intros x Hx. apply Hf in Hx as [(l & c & r & H & Hx & _)|(l & r & H & ? & _)]; [|eauto]. split; [by rewrite Hx|]. eauto.
  - split_and!; [|done| |intros a c b i H1 H2; exact (kinds_cover _ _ rs' fs a c b i Hf H1 H2)].
    + destruct (C59_default_regexp word space rs' Hs) as (gs & E & Ho' & Hf'). unfold Defaults.whitespace_default in E. rewrite E. rewrite (in_order_same fs gs _ Ho Ho' Hf Hf'); [done|]. by intros x (l & r & k & _ & ? & _).
    + intros x Hx. apply Hf in Hx as (l & r & k & H & ? & _). eauto.
Qed.
Lemma text_at_in rs l r x a b y : occurs rs l r x → text_at (encode x.2) a b y → text_at (encode rs) (x.1 + a) (x.1 + b) y.
Proof.
  intros [-> ->] (p & q & E & Ea & Eb). rewrite !encode_app, E. exists (encode l ++ p), (q ++ encode r). rewrite zlen_app, <- !app_assoc. split; [done|]. lia.
Qed.

(** Every valid text has such pieces. *)
Theorem C63_cuts :
  ∀ rs, scalars rs →
  (∀ pre stop, delimiting pre stop → ∃ pieces, cuts pre rs (λ c, negb (stop c)) pieces)
  ∧ (∀ u, ∃ pieces, cuts (bert_pretokenizer u) rs (λ c, negb (white_space c)) pieces)
  ∧ ∀ word space, ∃ pieces, cuts (whitespace_pretokenizer (engine_of (word_re word space))) rs (λ c, word c || negb (space c)) pieces.
Proof.
  intros rs Hs. split_and!.
  - intros pre stop Hd. destruct (delimited stop rs Hs) as (fs & _ & Ho & Hf). exists fs. by constructor.
  - intros u. destruct (C55_bert_pretokenizer u rs Hs) as (fs & _ & Ho & Hf). exists fs. by constructor.
  - intros word space. destruct (C59_default_regexp word space rs Hs) as (fs & _ & Ho & Hf). exists fs. by constructor.
Qed.
Print Assumptions C63_cuts.

(** * C63 *)
Theorem C63_wordpiece :
  ∀ pre shown m rs pieces wi ty, cuts pre rs shown pieces → scalars rs → valid_terms (w_vocab m) → valid_utf8 (w_prefix m) = true →
  (∃ e es, encode_text pre (wp_model m) (encode rs) wi ty = Ret (Ok e) ∧ entries e es
     ∧ Forall (wp_quotes m rs pieces wi ty) es ∧ ordered_ranges 0 (ranges es) (zlen (encode rs)) ∧ covers_only shown rs es
     ∧ (get_id (w_vocab m) (w_unk m) = None → Forall (λ x, ¬ unanswered m x.2) pieces))
  ∨ (encode_text pre (wp_model m) (encode rs) wi ty = Ret (Err EUnknownTokenOutOfVocabulary)
     ∧ get_id (w_vocab m) (w_unk m) = None ∧ Exists (λ x, unanswered m x.2) pieces).
Proof.
  intros pre shown m rs fs wi ty Hc Hs Hv Hpv. destruct (cuts_spec _ _ _ _ Hs Hc) as (Hp & Ho & Hoc & Hcov).
  assert (Hsc : ∀ x, x ∈ fs → scalars x.2). { intros x Hx. destruct (Hoc x Hx) as (_ & l & r & H). by eapply occurs_scalars. }
  destruct (plain_pipeline pre (wp_model m) rs fs wi ty) as [(e & es & H1 & H2 & H3 & H4 & H5 & H6)|(e & j & x & H1 & H2 & H3)]; try done.
  { intros x Hx. by apply Hoc. }
  { intros j x Hx. unfold wp_model. destruct (C43_tokens_tile m (encode x.2) (encode_bytes _)) as (res & E & Hres). rewrite E.
    eexists. split; [done|]. intros toks ->. split; [|by eapply C46_boundaries; [apply Hsc|..]].
    destruct Hres as [[(i & _ & [= ->])|[_ [=]]]|(toks' & [= ->] & Ht & _)]; [|done]. cbn. split; [done|]. split; [|done].
    destruct (Hoc x Hx) as [Hne _]. destruct x as [k [|c w]]; [done|]. apply encode_pos. }
  - left. exists e, es. split; [done|]. split; [done|]. split; [|split; [done|split]].
    + apply Forall_forall. intros en Hen. destruct (H6 en Hen) as (j & k & w & toks & tok & Hj & Ht & Hin & ->).
      destruct (Hoc (k, w)) as (Hne & l & r & Hocc); [by eapply elem_of_list_lookup_2|].
      assert (Hsw : scalars w). { apply (Hsc (k, w)). by eapply elem_of_list_lookup_2. }
      unfold wp_model in Ht. destruct (wp_tokenize_spec m (encode w) (encode_bytes _)) as [(l' & _ & E & Hl)|(Hu & E)]; rewrite E in Ht.
      * injection Ht as ->. apply tried_toks_tile in Hl as [Htile Hl]. rewrite Forall_forall in Hl. destruct (Hl tok Hin) as (x & G1 & G2 & G3).
        destruct (toks_tile_in _ _ _ _ Htile Hin) as (B1 & B2 & B3). split; [done|]. split; [done|]. exists j, k, w, (o_start (t_offsets tok)), (o_end (t_offsets tok)), x.
        split; [done|]. split; [by apply (text_at_in rs l r (k, w))|]. left. cbn [et_token]. rewrite G2. unfold piece_term.
        destruct (Z.eqb_spec (o_start (t_offsets tok)) 0), (Z.ltb_spec 0 (o_start (t_offsets tok))); try done; lia.
      * injection Ht as Ht. apply unknown_spec in Ht as [(i & Hi & [= ->])|[_ [=]]]. apply elem_of_list_singleton in Hin as ->.
        split; [done|]. split; [done|]. assert (text_at (encode w) 0 (zlen (encode w)) (encode w)) as Hw by (exists [], []; rewrite app_nil_r; split; done).
        exists j, k, w, 0, (zlen (encode w)), (encode w).
        split; [split_and!; try done; destruct w; [done|apply encode_pos]|]. split; [by apply (text_at_in rs l r (k, w))|]. right. split; [|done].
        unfold unanswered. by rewrite runes_encode_scalars in Hu.
    + intros a c b i E Hi. rewrite (H4 i). by apply (Hcov a c b i).
    + intros Hn. apply Forall_lookup. intros j x Hx Hu. destruct (H5 j x Hx) as (toks & Ht). unfold wp_model in Ht.
      assert (scalars x.2) by (eapply Hsc, elem_of_list_lookup_2; done).
      destruct (wp_tokenize_spec m (encode x.2) (encode_bytes _)) as [(l' & Hmax & E & Hl)|(_ & E)].
      * rewrite runes_encode_scalars in Hmax by done. destruct Hu as [?|Hu]; [lia|]. by apply (Hu l').
      * rewrite E in Ht. injection Ht as Ht. unfold wp_unknown in Ht. by rewrite Hn in Ht.
  - right. unfold wp_model in H3. assert (scalars x.2) by (eapply Hsc, elem_of_list_lookup_2; done).
    destruct (wp_tokenize_spec m (encode x.2) (encode_bytes _)) as [(l' & Hmax & E & Hl)|(Hu & E)]; rewrite E in H3; [done|]. injection H3 as H3.
    apply unknown_spec in H3 as [(i & _ & [=])|[Hn [= ->]]]. split; [done|]. split; [done|]. apply Exists_exists. exists x. split; [by eapply elem_of_list_lookup_2|].
    unfold unanswered. by rewrite runes_encode_scalars in Hu.
Qed.
Print Assumptions C63_wordpiece.

(** " unaé  x": the word "unaé" is cut, "x" is unknown. "a!?" with the pre-tokenizer for words. *)
Example C63_example :
  let m := ex_wp ["[UNK]"; "un"; "##a"; "##é"; "a"]%string in
  let rs := [32; 117; 110; 97; 0xE9; 32; 32; 120] in
  encode_text whitespace_split (wp_model m) (encode rs) (-1) 7
  = Ret (Ok (Encoding [1; 2; 3; 0] [7; 7; 7; 7] (map bytes_of ["un"; "##a"; "##é"; "[UNK]"]%string) [0; 0; 0; 1]
      [Offsets 1 3; Offsets 3 4; Offsets 4 6; Offsets 8 9] [0; 0; 0; 0] [1; 1; 1; 1] []))
  ∧ encode_text whitespace_split (wp_model (ex_wp ["a"]%string)) (encode rs) (-1) 7 = Ret (Err EUnknownTokenOutOfVocabulary)
  ∧ encode_text (whitespace_pretokenizer (engine_of (word_re (λ c, 97 <=? c) (λ c, c =? 32)))) (wp_model (ex_wp ["a"; "!"; "##?"]%string)) [97; 33; 63; 32; 97] (-1) 7
    = Ret (Ok (Encoding [0; 1; 2; 0] [7; 7; 7; 7] (map bytes_of ["a"; "!"; "##?"; "a"]%string) [0; 1; 1; 2]
      [Offsets 0 1; Offsets 1 2; Offsets 2 3; Offsets 4 5] [0; 0; 0; 0] [1; 1; 1; 1] [])).
Proof. vm_compute. auto. Qed.
(** Without the condition on the terms: the two halves of 𝄞 are terms, both entries get the whole character. *)
Example C63_invalid_terms :
  let v := match add_terms new_vocab [[240; 157]; [35; 35; 132; 158]] with Ret v => v | Panic => new_vocab end in
  match encode_text whitespace_split (wp_model (WordPiece v [] [35; 35] 9)) (bytes_of "𝄞") 0 0 with
  | Ret (Ok e) => e_offsets e = [Offsets 0 4; Offsets 0 4]
  | _ => False
  end.
Proof. vm_compute. reflexivity. Qed.

(** * C64 *)
Theorem C64_bpe :
  ∀ pre shown m file draws rs pieces wi ty, cuts pre rs shown pieces → scalars rs →
  consistent (b_vocab m) → merge_map_from_file file (b_vocab m) 0 = Ret (Ok (b_merges m)) →
  b_prefix m = [] → b_suffix m = [] → (b_unk m ≠ [] → is_Some (get_id (b_vocab m) (b_unk m))) →
  Forall (λ c, shown c = true → is_Some (get_id (b_vocab m) (encode_rune c))) rs →
  ∃ e es, encode_text pre (bpe_model m draws) (encode rs) wi ty = Ret (Ok e) ∧ entries e es
    ∧ Forall (bpe_quotes m rs pieces wi ty) es ∧ ordered_ranges 0 (ranges es) (zlen (encode rs)) ∧ covers_only shown rs es.
Proof.
  intros pre shown m file draws rs fs wi ty Hc Hs Hcons Hfile Hpre Hsuf Hunk Hk. destruct (cuts_spec _ _ _ _ Hs Hc) as (Hp & Ho & Hoc & Hcov).
  assert (Hsc : ∀ x, x ∈ fs → scalars x.2). { intros x Hx. destruct (Hoc x Hx) as (_ & l & r & H). by eapply occurs_scalars. }
  assert (Hkx : ∀ x, x ∈ fs → Forall (λ r, is_Some (get_id (b_vocab m) (encode_rune r))) (runes (encode x.2))).
  { intros x Hx. rewrite runes_encode_scalars by (by apply Hsc). apply Forall_forall. intros c Hin. rewrite Forall_forall in Hk.
    destruct (Hoc x Hx) as (_ & l & r & Hrs & Hx1). apply Hk; [rewrite Hrs; apply elem_of_app; right; by apply elem_of_app; left|].
    apply elem_of_list_split in Hin as (w1 & w2 & Hw). apply (Hcov (l ++ w1) c (w2 ++ r) (zlen (encode (l ++ w1)))).
    - by rewrite Hrs, Hw, <- !app_assoc.
    - rewrite (encode_app (l ++ w1)), zlen_app. pose proof (encode_pos c []). lia.
    - exists x. split; [done|]. rewrite Hx1, Hw, !encode_app, !zlen_app. pose proof (encode_pos c w2). pose proof (zlen_nonneg (encode w1)). lia. }
  assert (Hans : ∀ j x, x ∈ fs → ∃ toks, bpe_model m draws j (encode x.2) = Ret (Ok toks) ∧ toks_tile 0 toks (zlen (encode x.2))
     ∧ Forall (λ t, boundary (encode x.2) (o_start (t_offsets t)) ∧ boundary (encode x.2) (o_end (t_offsets t))) toks
     ∧ Forall (λ t, text_at (encode x.2) (o_start (t_offsets t)) (o_end (t_offsets t)) (t_value t) ∧ get_id (b_vocab m) (t_value t) = Some (t_id t)) toks).
  { intros j x Hx. destruct (C39_faithful m file (encode x.2) (draws j) Hcons Hfile Hpre Hsuf Hunk (valid_utf8_encode _) (Hkx x Hx)) as (toks & E & _ & Hq).
    exists toks. unfold bpe_model. rewrite E. split; [done|].
    destruct (C38_offsets_partial m (encode x.2) (draws j) toks (valid_utf8_encode _)) as [T1 T2]; [|done|].
    - right. clear -Hkx Hx Hpre Hsuf. specialize (Hkx x Hx). revert Hkx. generalize (runes (encode x.2)). intros l Hl. unfold char_classes, char_terms.
      rewrite Hpre, Hsuf. apply Forall_forall. intros c Hc. apply elem_of_lookup_zip_with in Hc as (i & t & r & -> & Ht & Hr). cbn [fst].
      rewrite list_lookup_imap, Hr in Ht. injection Ht as <-.
      replace ((if decide (i = 0%nat) then [] else []) ++ encode_rune r ++ (if decide (S i = length l) then [] else [])) with (encode_rune r)
        by (destruct (decide (i = 0%nat)), (decide (S i = length l)); by rewrite app_nil_r).
      rewrite Forall_forall in Hl. destruct (Hl r) as [y ->]; [by eapply elem_of_list_lookup_2|]. done.
    - split; [done|]. split; [done|]. eapply Forall_impl; [exact Hq|]. cbn. by intros t (? & ? & _). }
  destruct (plain_pipeline pre (bpe_model m draws) rs fs wi ty) as [(e & es & H1 & H2 & H3 & H4 & H5 & H6)|(e & j & x & H1 & H2 & H3)]; try done.
  { intros x Hx. by apply Hoc. }
  { intros j x Hx. destruct (Hans j x Hx) as (toks & E & T & B & _). exists (Ok toks). split; [done|]. intros ? [= <-]. done. }
  - exists e, es. split; [done|]. split; [done|]. split; [|split; [done|]].
    + apply Forall_forall. intros en Hen. destruct (H6 en Hen) as (j & k & w & toks & tok & Hj & Ht & Hin & ->).
      assert ((k, w) ∈ fs) as Hkw by (by eapply elem_of_list_lookup_2). destruct (Hoc (k, w) Hkw) as (Hne & l & r & Hocc).
      destruct (Hans j (k, w) Hkw) as (toks' & E & T & _ & Q). cbn [snd] in *. rewrite E in Ht. injection Ht as ->. rewrite Forall_forall in Q.
      destruct (Q tok Hin) as [Q1 Q2]. destruct (toks_tile_in _ _ _ _ T Hin) as (B1 & B2 & B3).
      split; [done|]. split; [done|]. split; [by apply (text_at_in rs l r (k, w))|]. exists j, k, w, (o_start (t_offsets tok)), (o_end (t_offsets tok)). done.
    + intros a c b i E Hi. rewrite (H4 i). by apply (Hcov a c b i).
  - exfalso. destruct (Hans j x) as (toks & E & _); [by eapply elem_of_list_lookup_2|]. congruence.
Qed.
Print Assumptions C64_bpe.

(** With an unknown token, for any vocabulary, merges, prefix and suffix: the offsets. *)
Theorem C64_offsets :
  ∀ pre shown m draws rs pieces wi ty, cuts pre rs shown pieces → scalars rs → b_unk m ≠ [] →
  ∃ res, encode_text pre (bpe_model m draws) (encode rs) wi ty = Ret res
  ∧ (∀ e, res = Ok e → ∃ es, entries e es ∧ ordered_ranges 0 (ranges es) (zlen (encode rs)) ∧ covers_only shown rs es
      ∧ Forall (λ en, et_type en = ty ∧ ∃ j k w a b x, comes_from pieces wi en j k w a b x ∧ boundary (encode w) a ∧ boundary (encode w) b
          ∧ text_at (encode rs) (o_start (et_offsets en)) (o_end (et_offsets en)) x
          ∧ get_string (b_vocab m) (et_id en) = Some (et_token en)) es)
  ∧ ∀ e, res = Err e → e = EUnknownTokenOutOfVocabulary ∧ get_id (b_vocab m) (b_unk m) = None
                     ∨ ∃ i, e = EIDNotFound i ∧ get_string (b_vocab m) i = None.
Proof.
  intros pre shown m draws rs fs wi ty Hc Hs Hunk. destruct (cuts_spec _ _ _ _ Hs Hc) as (Hp & Ho & Hoc & Hcov).
  assert (Hne : ∀ x, x ∈ fs → encode x.2 ≠ []). { intros x Hx E. destruct (Hoc x Hx) as [Hn _]. destruct x as [k [|c w]]; [done|]. pose proof (encode_pos c w) as Hpos. cbn [snd] in E. rewrite E in Hpos. done. }
  assert (Hans : ∀ j x, x ∈ fs → ∃ res, bpe_model m draws j (encode x.2) = Ret res
     ∧ (∀ toks, res = Ok toks → toks_tile 0 toks (zlen (encode x.2))
         ∧ Forall (λ t, boundary (encode x.2) (o_start (t_offsets t)) ∧ boundary (encode x.2) (o_end (t_offsets t))) toks
         ∧ Forall (λ t, get_string (b_vocab m) (t_id t) = Some (t_value t)) toks)
     ∧ ∀ e, res = Err e → e = EUnknownTokenOutOfVocabulary ∧ get_id (b_vocab m) (b_unk m) = None ∨ ∃ i, e = EIDNotFound i ∧ get_string (b_vocab m) i = None).
  { intros j x Hx. unfold bpe_model. pose proof (C41_unknown m (encode x.2) (draws j) Hunk (Hne x Hx)) as H.
    destruct (get_id (b_vocab m) (b_unk m)) as [u|] eqn:Hu.
    - destruct H as (ss & ts & res & _ & _ & _ & E & A). exists res. split; [by rewrite E|]. split.
      + intros toks ->. destruct (C38_offsets_partial m (encode x.2) (draws j) toks (valid_utf8_encode _)) as [T1 T2]; [by left|done|]. split; [done|]. split; [done|].
        cbn in A. clear -A. induction A as [|o i n x ss ts Hx A IH]; constructor; done.
      + intros e ->. cbn in A. destruct A as (a & s & b & _ & _ & Hn & ->). right. eauto.
    - rewrite H. eexists. split; [done|]. split; [done|]. intros e [= <-]. by left. }
  destruct (plain_pipeline pre (bpe_model m draws) rs fs wi ty) as [(e & es & H1 & H2 & H3 & H4 & H5 & H6)|(e & j & x & H1 & H2 & H3)]; try done.
  { intros x Hx. by apply Hoc. }
  { intros j x Hx. destruct (Hans j x Hx) as (res & E & T & _). exists res. split; [done|]. intros toks Ht. by destruct (T toks Ht) as (? & ? & _). }
  - exists (Ok e). split; [done|]. split; [|done]. intros ? [= <-]. exists es. split; [done|]. split; [done|]. split.
    + intros a c b i E Hi. rewrite (H4 i). by apply (Hcov a c b i).
    + apply Forall_forall. intros en Hen. destruct (H6 en Hen) as (j & k & w & toks & tok & Hj & Ht & Hin & ->). split; [done|].
      assert ((k, w) ∈ fs) as Hkw by (by eapply elem_of_list_lookup_2). destruct (Hoc (k, w) Hkw) as (_ & l & r & Hocc).
      destruct (Hans j (k, w) Hkw) as (res & E & T & _). cbn [snd] in *. rewrite E in Ht. injection Ht as ->. destruct (T _ eq_refl) as (T1 & T2 & T3).
      rewrite Forall_forall in T2, T3. destruct (T2 tok Hin) as [B1 B2]. destruct (toks_tile_in _ _ _ _ T1 Hin) as (C1 & C2 & C3).
      destruct (text_at_total (encode w) (o_start (t_offsets tok)) (o_end (t_offsets tok))) as [x Hx]; [done|lia|done|].
      exists j, k, w, (o_start (t_offsets tok)), (o_end (t_offsets tok)), x. split; [done|]. split; [done|]. split; [done|]. split; [by apply (text_at_in rs l r (k, w))|]. by apply T3.
  - exists (Err e). split; [done|]. split; [done|]. intros ? [= <-].
    assert (Hx : x ∈ fs) by (by eapply elem_of_list_lookup_2). destruct (Hans j x Hx) as (res & E & _ & T). rewrite E in H3. injection H3 as ->. by apply T.
Qed.
Print Assumptions C64_offsets.

(** "ab,é?a" split by BERT's pre-tokenizer (',' and '?' as punctuation), with the merge a b; and with an unknown token for é. *)
Example C64_example :
  let u := Unicode (λ _, false) (λ _, false) (λ c, (c =? 63) || (c =? 44)) (λ c, c) (λ c, c) in
  let v := PropsBpe.ex_vocab [[97]; [98]; [195; 169]; [97; 98]; [44]; [63]] in
  match merge_map_from_file [97; 32; 98] v 0 with
  | Ret (Ok mm) =>
    encode_text (bert_pretokenizer u) (bpe_model (Bpe v mm 0 [] [] [] false) (λ _ _, 0%Q)) (encode [97; 98; 44; 0xE9; 63; 32; 97]) (-1) 0
    = Ret (Ok (Encoding [3; 4; 2; 5; 0] [0; 0; 0; 0; 0] [[97; 98]; [44]; [195; 169]; [63]; [97]] [0; 1; 2; 3; 4]
        [Offsets 0 2; Offsets 2 3; Offsets 3 5; Offsets 5 6; Offsets 7 8] [0; 0; 0; 0; 0] [1; 1; 1; 1; 1] []))
    ∧ encode_text whitespace_split (bpe_model (Bpe (PropsBpe.ex_vocab [[97]; [98]; [97; 98]; [63]]) ∅ 0 [63] [] [] true) (λ _ _, 0%Q)) (encode [97; 0xE9; 0xE9; 32; 98]) 5 0
    = Ret (Ok (Encoding [0; 3; 1] [0; 0; 0] [[97]; [63]; [98]] [5; 5; 5] [Offsets 0 1; Offsets 1 5; Offsets 6 7] [0; 0; 0] [1; 1; 1] []))
  | _ => False
  end.
Proof. vm_compute. auto. Qed.
