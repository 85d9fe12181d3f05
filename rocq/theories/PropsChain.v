(** Property theorems C99: pipelines with any sequence of normalizers. *)
From Coq Require Import ZifyBool Sorted QArith String.
From stdpp Require Import relations.
From Verif Require Import GoBase Utf8Facts Strutils SplitPattern NormString Vocab MergeMap Bpe WordPiece Encodings PreTokString Normalizers PreTokenizers Regex SpecText SpecNorm SpecVocab SpecBpe SpecWordPiece SpecPts SpecPretok SpecNormalizers SpecShift SpecProg SpecGpt2 SpecEnd SpecPipe
  SliceFacts NormFacts NormInv WordPieceFacts BpeTok PretokFacts ByteFacts RegexFacts NormSlice EndFacts PipeFacts MetaFacts Gpt2Facts ProgFacts PropsWordPiece PropsBpe PropsProg PropsPipe Lit.
Import GoBase NormString SpecNorm.
#[local] Open Scope Z_scope.

Lemma normalized u z rs : scalars rs →
  match meanings u (steps_of u z) (fresh 0 rs) with
  | Some w => ∃ n, normalizer_of u z (from_string (encode rs)) = Ret (n, None) ∧ wf_as n w ∧ ns_shift n = 0 ∧ ns_orig n = encode rs
  | None => normalizer_of u z (from_string (encode rs)) = Panic
  end.
Proof.
  intros Hs. pose proof (from_string_wf rs Hs) as Hwf. pose proof Hwf as (Hr & _). pose proof (meanings_does u (steps_of u z) _ _ Hr) as H. rewrite normalizer_steps. unfold no_error.
  destruct (meanings u (steps_of u z) (fresh 0 rs)) as [w|]; [|by rewrite H]. destruct H as (n & E & Hw & [H1 H2]). exists n. rewrite E. split; [done|]. split; [|done].
  apply wf_repr; [|done]. eapply calls_wf; [by eexists|exact E].
Qed.
Lemma normalized_pipe u z pre model rs wi ty n : normalizer_of u z (from_string (encode rs)) = Ret (n, None) →
  encode_normalized (normalizer_of u z) pre model (encode rs) wi ty = encode_ns pre model n wi ty.
Proof. intros E. unfold encode_normalized. by rewrite E. Qed.

(** WordPiece after a pre-tokenizer that cuts at characters: the pieces are those of the normalized text [w] - or the normalizer panics. *)
Theorem C99_wordpiece :
  ∀ u z pre m rs wi ty, scalars rs → valid_terms (w_vocab m) → valid_utf8 (w_prefix m) = true →
  let run := encode_normalized (normalizer_of u z) pre (wp_model m) (encode rs) wi ty in
  match meanings u (steps_of u z) (fresh 0 rs) with
  | None => run = Panic
  | Some w => ∀ shown fs, cuts pre w.*1 shown fs → ∃ ts, Forall2 (SpecPipe.found_at w) fs ts
    ∧ ((∃ e es parts, run = Ret (Ok e) ∧ entries e es ∧ cut_up ts wi ty parts es ∧ Forall2 (wp_spelled m ts) (numbered 0 parts) es
          ∧ (get_id (w_vocab m) (w_unk m) = None → Forall (λ x, ¬ unanswered m x.2) fs))
       ∨ (run = Ret (Err EUnknownTokenOutOfVocabulary) ∧ get_id (w_vocab m) (w_unk m) = None ∧ Exists (λ x, unanswered m x.2) fs))
  end.
Proof.
  intros u z pre m rs wi ty Hs Hv Hpv run. pose proof (normalized u z rs Hs) as H. unfold run. destruct (meanings _ _ _) as [w|]; [|unfold encode_normalized; by rewrite H].
  destruct H as (n & E & Hw & H0 & _). rewrite (normalized_pipe _ _ _ _ _ _ _ _ E). intros shown fs Hc. exact (C68_wordpiece pre shown m n w fs wi ty Hw H0 Hc Hv Hpv).
Qed.
Print Assumptions C99_wordpiece.

(** BPE likewise, if the vocabulary has the characters of the pieces. *)
Theorem C99_bpe :
  ∀ u z pre m file draws rs wi ty, scalars rs →
  consistent (b_vocab m) → merge_map_from_file file (b_vocab m) 0 = Ret (Ok (b_merges m)) →
  b_prefix m = [] → b_suffix m = [] → (b_unk m ≠ [] → is_Some (get_id (b_vocab m) (b_unk m))) →
  let run := encode_normalized (normalizer_of u z) pre (bpe_model m draws) (encode rs) wi ty in
  match meanings u (steps_of u z) (fresh 0 rs) with
  | None => run = Panic
  | Some w => ∀ shown fs, cuts pre w.*1 shown fs → Forall (λ x, Forall (λ c, is_Some (get_id (b_vocab m) (encode_rune c))) x.2) fs →
    ∃ ts e es parts, Forall2 (SpecPipe.found_at w) fs ts ∧ run = Ret (Ok e) ∧ entries e es
      ∧ cut_up ts wi ty parts es ∧ Forall2 (spelled (b_vocab m)) (numbered 0 parts) es
  end.
Proof.
  intros u z pre m file draws rs wi ty Hs Hcons Hfile Hpre Hsuf Hunk run. pose proof (normalized u z rs Hs) as H. unfold run. destruct (meanings _ _ _) as [w|]; [|unfold encode_normalized; by rewrite H].
  destruct H as (n & E & Hw & H0 & _). rewrite (normalized_pipe _ _ _ _ _ _ _ _ E). intros shown fs Hc Hk. by eapply C68_bpe.
Qed.
Print Assumptions C99_bpe.

(** Byte-level pre-tokenizer and byte-level BPE: any text that the normalizer does not panic at. *)
Theorem C99_byte_level :
  ∀ u z fold letter number space rs (prefix : bool) m file draws wi ty, scalars rs → disjoint_kinds letter number space → has_bytes (b_vocab m) →
  consistent (b_vocab m) → merge_map_from_file file (b_vocab m) 0 = Ret (Ok (b_merges m)) →
  b_prefix m = [] → b_suffix m = [] → (b_unk m ≠ [] → is_Some (get_id (b_vocab m) (b_unk m))) →
  let run := encode_normalized (normalizer_of u z) (byte_level (engine_of (splitting_re fold letter number space)) prefix) (bpe_model m draws) (encode rs) wi ty in
  match meanings u (steps_of u z) (fresh 0 rs) with
  | None => run = Panic
  | Some w => let v := if prefix then prefixed white_space 32 w else w in
    ∃ e es ts parts, run = Ret (Ok e) ∧ entries e es ∧ concat ts = v ∧ pieces fold letter number space v.*1 (map (λ t : atext, t.*1) ts)
      ∧ cut_up (map byte_text ts) wi ty parts es ∧ Forall2 (spelled (b_vocab m)) (numbered 0 parts) es
      ∧ concat (map et_token es) = encode (map byte_char (encode v.*1))
  end.
Proof.
  intros u z fold letter number space rs b m file draws wi ty Hs Hd Hby Hcons Hfile Hpre Hsuf Hunk run. pose proof (normalized u z rs Hs) as H. unfold run. destruct (meanings _ _ _) as [w|]; [|unfold encode_normalized; by rewrite H].
  destruct H as (n & E & Hw & H0 & _). rewrite (normalized_pipe _ _ _ _ _ _ _ _ E). set (v := if b then prefixed white_space 32 w else w).
  destruct (byte_level_matches_at fold letter number space n w b Hw) as (ms & ts & l & H1 & H2 & H3 & H4 & H5). fold v in H2, H3.
  pose proof (scan_pieces fold letter number space Hd _ _ _ H3) as Hpc. rewrite <- H4 in Hpc.
  assert (Hne : Forall (λ t : atext, t ≠ []) ts).
  { apply splitting_scan in H3 as [_ H3]. rewrite <- H4, Forall_map in H3. eapply Forall_impl; [exact H3|]. cbn. intros t Ht ->. by apply shape_nonempty in Ht. }
  assert (Hh : Forall2 holds_at (map byte_text ts) l).
  { apply Forall2_fmap_l. clear -H5 Hne H0. induction H5 as [|t n' ts l H H5 IH]; constructor.
    - apply (piece_holds n _ _ H0); [|done]. apply Forall_cons in Hne as [Hne _]. intros E. apply (f_equal (fmap snd)) in E. rewrite byte_text_snd in E.
      destruct t as [|[c s] t]; [done|]. rewrite spans_of_cons in E. pose proof (rune_len_bounds c) as Hc. unfold rune_len, zlen in Hc. destruct (length (encode_rune c)); [lia|done].
    - apply IH. by apply Forall_cons in Hne as [_ Hne]. }
  destruct (bpe_pipeline _ m file draws n wi ty _ _ _ H1 Hh Hcons Hfile Hpre Hsuf Hunk) as (e & es & parts & E1 & E2 & E3 & E4).
  { apply Forall_map. apply Forall_forall. intros t _. cbn. rewrite byte_text_fst. apply Forall_map. eapply Forall_impl; [apply encode_bytes|].
    cbn. intros x Hx. apply Hby. lia. }
  exists e, es, ts, parts. split_and!; try done.
  destruct E3 as [E3 _]. assert (Ec : concat (concat parts) = byte_text v). { by rewrite concat_concat, E3, byte_text_concat, H2. }
  rewrite <- byte_text_fst, <- Ec, <- (numbered_snd 0 parts). clear -E4. induction E4 as [|jp en l es [H _] E4 IH]; [done|]. rewrite (fmap_cons snd). cbn [map concat]. rewrite fmap_app, encode_app, H. f_equal. exact IH.
Qed.
Print Assumptions C99_byte_level.

(** Metaspace pre-tokenizer and BPE. *)
Theorem C99_metaspace :
  ∀ u z c rs (prefix : bool) m file draws wi ty, scalars rs → scalar c = true →
  consistent (b_vocab m) → merge_map_from_file file (b_vocab m) 0 = Ret (Ok (b_merges m)) →
  b_prefix m = [] → b_suffix m = [] → (b_unk m ≠ [] → is_Some (get_id (b_vocab m) (b_unk m))) →
  let run := encode_normalized (normalizer_of u z) (metaspace c prefix) (bpe_model m draws) (encode rs) wi ty in
  match meanings u (steps_of u z) (fresh 0 rs) with
  | None => run = Panic
  | Some w => let v := spaces_to c (if prefix then prefixed (λ x, x =? c) c w else w) in
    Forall (λ x, is_Some (get_id (b_vocab m) (encode_rune x))) v.*1 →
    ∃ e es ts parts, run = Ret (Ok e) ∧ entries e es ∧ concat ts = v ∧ cut_before c (map (λ t, t.*1) ts)
      ∧ cut_up ts wi ty parts es ∧ Forall2 (spelled (b_vocab m)) (numbered 0 parts) es
      ∧ concat (map et_token es) = encode v.*1
  end.
Proof.
  intros u z c rs b m file draws wi ty Hs Hc Hcons Hfile Hpre Hsuf Hunk run. pose proof (normalized u z rs Hs) as H. unfold run. destruct (meanings _ _ _) as [w|]; [|unfold encode_normalized; by rewrite H].
  destruct H as (n & E & Hw & H0 & _). rewrite (normalized_pipe _ _ _ _ _ _ _ _ E). set (v := spaces_to c _). intros Hk.
  destruct (metaspace_at n w c b Hw) as (ts & l & H1 & H2 & H3 & H4). cbv zeta in H2. rewrite sanitize_id in H2 by done. fold v in H2.
  assert (Hne : Forall (λ t : atext, t ≠ []) ts).
  { destruct H3 as [H3 _]. rewrite Forall_map in H3. eapply Forall_impl; [exact H3|]. cbn. by intros t (x & r & Ht & _) ->. }
  assert (Hh : Forall2 holds_at ts l).
  { clear -H4 Hne H0. induction H4 as [|t n' ts l H H4 IH]; constructor.
    - apply (piece_holds n _ _ H0); [|done]. by apply Forall_cons in Hne as [? _].
    - apply IH. by apply Forall_cons in Hne as [_ Hne]. }
  destruct (bpe_pipeline _ m file draws n wi ty _ _ _ H1 Hh Hcons Hfile Hpre Hsuf Hunk) as (e & es & parts & E1 & E2 & E3 & E4).
  { rewrite <- H2 in Hk. clear -Hk. induction ts as [|t ts IH]; [constructor|]. cbn [concat] in Hk. rewrite fmap_app in Hk.
    apply Forall_app in Hk as [? ?]. constructor; [done|by apply IH]. }
  exists e, es, ts, parts. split_and!; try done.
  destruct E3 as [E3 _]. assert (Ec : concat (concat parts) = v). { by rewrite concat_concat, E3, H2. }
  rewrite <- Ec, <- (numbered_snd 0 parts). clear -E4. induction E4 as [|jp en l es [H _] E4 IH]; [done|]. rewrite (fmap_cons snd). cbn [map concat]. rewrite fmap_app, encode_app, H. f_equal. exact IH.
Qed.
Print Assumptions C99_metaspace.

(** " É b ": stripped and in lower case, then byte-level BPE with a space put in front and the merge "Ã ©" (the two bytes of é). The
    offsets are those of the original text, where é is É; the space put in front has those of É. With an
    ideographic space in front, stripping leaves é the span of that space (C59), and of three letters after it, it panics. *)
Example C99_example :
  let bytes := map (λ b, encode_rune (byte_char b)) (seqZ 0 256) in
  let v := PropsBpe.ex_vocab (bytes ++ [encode [0xC3; 0xA9]]) in
  let u := Unicode (λ _, false) (λ _, false) (λ _, false) (λ c, if c =? 0xC9 then 0xE9 else c) (λ c, c) in
  let z := NSequence [NStrip true true; NSequence [NLower]] in
  let pre := byte_level (engine_of (splitting_re (λ c, c) (λ c, (97 <=? c) && (c <=? 122) || (0xE0 <=? c)) (λ c, (48 <=? c) && (c <=? 57)) (λ c, c =? 32))) true in
  match merge_map_from_file (encode [0xC3; 32; 0xA9]) v 0 with
  | Ret (Ok mm) =>
    let run rs := (x ← encode_normalized (normalizer_of u z) pre (bpe_model (Bpe v mm 0 [] [] [] false) (λ _ _, 0%Q)) (encode rs) (-1) 0;
                   Ret (match x with Ok e => Some (e_tokens e, e_offsets e, e_words e) | Err _ => None end)) in
    run [32; 0xC9; 32; 98; 32] = Ret (Some ([encode [0x120]; encode [0xC3; 0xA9]; encode [0x120]; [98]], [Offsets 1 3; Offsets 1 3; Offsets 3 4; Offsets 4 5], [0; 0; 1; 1]))
    ∧ run [0x3000; 0xC9] = Ret (Some ([encode [0x120]; encode [0xC3; 0xA9]], [Offsets 0 3; Offsets 0 3], [0; 0]))
    ∧ run [0x3000; 97; 97; 97] = Panic
  | _ => False
  end.
Proof. vm_compute. auto. Qed.
