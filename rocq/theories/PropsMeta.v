(** Property theorems C72 (metaspace pre-tokenizer and BPE). *)
From Coq Require Import ZifyBool Sorted QArith String.
From stdpp Require Import relations.
From Verif Require Import GoBase Utf8Facts Strutils SplitPattern NormString Vocab MergeMap Bpe WordPiece Encodings PreTokString Normalizers PreTokenizers Regex SpecText SpecNorm SpecVocab SpecBpe SpecWordPiece SpecPts SpecPretok SpecNormalizers SpecEnd SpecPipe
  SliceFacts NormFacts NormInv WordPieceFacts BpeTok PretokFacts ByteFacts NormSlice EndFacts PipeFacts MetaFacts PropsWordPiece PropsBpe PropsPretok PropsPipe Lit.
Import GoBase NormString SpecNorm.
#[local] Open Scope Z_scope.

(** * C72 *)
(** The entries stand for the parts into which the pieces are cut. *)
Theorem C72_encoding :
  ∀ rs c (prefix : bool) m file draws wi ty, scalars rs → scalar c = true →
  Forall (λ x, is_Some (get_id (b_vocab m) (encode_rune x))) (meta_text c prefix rs) →
  consistent (b_vocab m) → merge_map_from_file file (b_vocab m) 0 = Ret (Ok (b_merges m)) →
  b_prefix m = [] → b_suffix m = [] → (b_unk m ≠ [] → is_Some (get_id (b_vocab m) (b_unk m))) →
  ∃ e es ts parts,
    encode_text (metaspace c prefix) (bpe_model m draws) (encode rs) wi ty = Ret (Ok e)
    ∧ entries e es ∧ concat ts = spaces_to c (if prefix then prefixed (λ x, x =? c) c (fresh 0 rs) else fresh 0 rs)
    ∧ cut_before c (map (λ t, t.*1) ts)
    ∧ cut_up ts wi ty parts es ∧ Forall2 (spelled (b_vocab m)) (numbered 0 parts) es.
Proof.
  intros rs c b m file draws wi ty Hs Hc Hk Hcons Hfile Hpre Hsuf Hunk.
  destruct (C56_metaspace rs c b Hs) as (ts & l & H1 & H2 & H3 & H4 & _). cbv zeta in H2. rewrite sanitize_id in H2 by done.
  assert (Hne : Forall (λ t : atext, t ≠ []) ts).
  { destruct H3 as [H3 _]. rewrite Forall_map in H3. eapply Forall_impl; [exact H3|]. cbn. by intros t (x & r & Ht & _) ->. }
  assert (Hh : Forall2 holds_at ts l).
  { clear -H4 Hne. induction H4 as [|t n ts l H H4 IH]; constructor.
    - apply (piece_holds (from_string (encode rs)) _ _ eq_refl); [|done]. by apply Forall_cons in Hne as [? _].
    - apply IH. by apply Forall_cons in Hne as [_ Hne]. }
  destruct (bpe_pipeline _ m file draws (from_string (encode rs)) wi ty _ _ _ H1 Hh Hcons Hfile Hpre Hsuf Hunk) as (e & es & parts & E1 & E2 & E3 & E4).
  { rewrite <- (meta_chars c b rs), <- H2 in Hk. clear -Hk. induction ts as [|t ts IH]; [constructor|]. cbn [concat] in Hk. rewrite fmap_app in Hk.
    apply Forall_app in Hk as [? ?]. constructor; [done|by apply IH]. }
  exists e, es, ts, parts. done.
Qed.
Print Assumptions C72_encoding.

(** Lossless: the tokens spell the text with meta symbols. The offsets follow each other without gap or overlap;
    a meta symbol added in front counts as part of the first character. *)
Theorem C72_spells :
  ∀ rs c (prefix : bool) m file draws wi ty, scalars rs → scalar c = true →
  Forall (λ x, is_Some (get_id (b_vocab m) (encode_rune x))) (meta_text c prefix rs) →
  consistent (b_vocab m) → merge_map_from_file file (b_vocab m) 0 = Ret (Ok (b_merges m)) →
  b_prefix m = [] → b_suffix m = [] → (b_unk m ≠ [] → is_Some (get_id (b_vocab m) (b_unk m))) →
  ∃ e es,
    encode_text (metaspace c prefix) (bpe_model m draws) (encode rs) wi ty = Ret (Ok e)
    ∧ entries e es ∧ concat (map et_token es) = encode (meta_text c prefix rs)
    ∧ Forall (λ en, get_id (b_vocab m) (et_token en) = Some (et_id en)) es
    ∧ (chained 0 es (zlen (encode rs))
       ∨ ∃ x rs' en es', rs = x :: rs' ∧ x ≠ c ∧ prefix = true ∧ es = en :: es' ∧ et_token en = encode_rune c
           ∧ et_offsets en = Offsets 0 (rune_len x) ∧ chained 0 es' (zlen (encode rs))).
Proof.
  intros rs c b m file draws wi ty Hs Hc Hk Hcons Hfile Hpre Hsuf Hunk.
  destruct (C72_encoding rs c b m file draws wi ty Hs Hc Hk Hcons Hfile Hpre Hsuf Hunk) as (e & es & ts & parts & E1 & E2 & E3 & _ & [E5 E6] & E7).
  exists e, es. split; [done|]. split; [done|].
  assert (Hq : Forall2 (λ q en, offsets_of q en ∧ et_token en = encode q.*1) (concat parts) es).
  { rewrite <- (numbered_snd 0 parts). apply Forall2_fmap_l. clear -E6 E7. revert E7. induction E6 as [|jp en l es (S1 & S2 & S3 & S4) E6 IH]; intros E7; [constructor|].
    apply Forall2_cons in E7 as [[T1 T2] E7]. constructor; [done|]. by apply IH. }
  assert (Hcat : concat (concat parts) = spaces_to c (if b then prefixed (λ x, x =? c) c (fresh 0 rs) else fresh 0 rs)) by (by rewrite concat_concat, E5).
  split_and!.
  - rewrite <- meta_chars, <- Hcat. clear -Hq. induction Hq as [|q en qs es [_ H] Hq IH]; [done|]. cbn [map concat]. rewrite fmap_app, encode_app. by f_equal.
  - clear -E7. induction E7 as [|jp en l es [_ H] E7 IH]; constructor; done.
  - assert (H0 : ∀ qs es', Forall2 (λ q en, offsets_of q en ∧ et_token en = encode q.*1) qs es' → concat qs = spaces_to c (fresh 0 rs) → chained 0 es' (zlen (encode rs))).
    { intros qs es' H Eq. apply (spaces_chained c rs qs es' 0 Eq). eapply Forall2_impl; [exact H|]. by intros q en [? _]. }
    destruct rs as [|x rs]; [left; destruct b; by eapply H0|]. destruct b; [|left; by eapply H0]. cbn [fresh prefixed] in Hcat.
    destruct (Z.eqb_spec x c) as [->|Hx]; [left; by eapply H0|].
    destruct Hq as [|q en qs es [[Hne Ho] Htok] Hq]; [done|]. cbn [concat] in Hcat.
    destruct q as [|y q]; [done|]. unfold spaces_to in Hcat. cbn [map app fst snd] in Hcat. injection Hcat as -> Hcat.
    destruct q as [|z q].
    + right. exists x, rs, en, es. split_and!; [done..| | |].
      * rewrite Htok. unfold encode. cbn. rewrite app_nil_r. by destruct (c =? 32) eqn:?.
      * rewrite Ho. done.
      * by apply (H0 qs).
    + left. assert (E : spaces_to c (fresh 0 (x :: rs)) = (z :: q) ++ concat qs) by done.
      apply spaces_split in E as (r1 & r2 & Er & Ez & Eq). assert (r1 ≠ []) as H1 by (by intros ->).
      assert (Hend : o_end (et_offsets en) = zlen (encode r1)).
      { rewrite Ho. cbn [o_end]. transitivity (last_end (z :: q)); [done|]. rewrite Ez, spaces_last by done. lia. }
      cbn [chained]. rewrite Hend. split; [by rewrite Ho|]. split.
      * destruct r1 as [|w r1]; [done|]. rewrite zlen_encode_cons. pose proof (rune_len_bounds w). pose proof (zlen_nonneg (encode r1)). lia.
      * rewrite Er, encode_app, zlen_app. apply (spaces_chained c r2 qs es); [done|]. eapply Forall2_impl; [exact Hq|]. by intros ? ? [? _].
Qed.
Print Assumptions C72_spells.

(** The text can be read back if the meta symbol does not occur in it. *)
Theorem C72_decodable :
  ∀ rs c prefix, c ∉ rs →
  map (λ x, if x =? c then 32 else x) (meta_text c prefix rs) = (if prefix && negb (bool_decide (rs = [])) then [32] else []) ++ rs.
Proof.
  intros rs c b Hc.
  assert (H : ∀ l, c ∉ l → map (λ x, if x =? c then 32 else x) (map (λ x, if x =? 32 then c else x) l) = l).
  { induction l as [|x l IH]; intros Hl; [done|]. apply not_elem_of_cons in Hl as [Hx Hl]. cbn [map]. rewrite (IH Hl). f_equal.
    destruct (Z.eqb_spec x 32) as [->|_]; [by rewrite Z.eqb_refl|]. destruct (Z.eqb_spec x c); congruence. }
  unfold meta_text. destruct rs as [|x rs]; [by destruct b|]. pose proof Hc as Hc'. apply not_elem_of_cons in Hc' as [Hx _].
  destruct (Z.eqb_spec x c) as [?|_]; [congruence|]. destruct b; cbn [andb negb]; [|by rewrite (H (x :: rs) Hc)].
  change (bool_decide (x :: rs = [])) with false. rewrite map_cons, map_cons, (H (x :: rs) Hc).
  destruct (Z.eqb_spec c 32) as [->|_]; by rewrite Z.eqb_refl.
Qed.
Print Assumptions C72_decodable.

(** Not otherwise: "a b" and "a_b" look the same. *)
Theorem C72_decodable_refuted : ¬ (∀ rs rs' c prefix, meta_text c prefix rs = meta_text c prefix rs' → rs = rs').
Proof. intros H. specialize (H [97; 32; 98] [97; 95; 98] 95 true). vm_compute in H. specialize (H eq_refl). discriminate. Qed.
Print Assumptions C72_decodable_refuted.

(** "é b" with "▁": the merge "▁ b" applies, "▁ é" is none. Then with a merge of the added symbol. *)
Example C72_example :
  let v := PropsBpe.ex_vocab (map encode [[0x2581]; [0xE9]; [98]; [0x2581; 98]; [0x2581; 0xE9]]) in
  let pre := metaspace 0x2581 true in
  match merge_map_from_file (encode [0x2581; 32; 98]) v 0, merge_map_from_file (encode [0x2581; 32; 98; 10; 0x2581; 32; 0xE9]) v 0 with
  | Ret (Ok mm), Ret (Ok mm') =>
    encode_text pre (bpe_model (Bpe v mm 0 [] [] [] false) (λ _ _, 0%Q)) (encode [0xE9; 32; 98]) (-1) 0
    = Ret (Ok (Encoding [0; 1; 3] [0; 0; 0] (map encode [[0x2581]; [0xE9]; [0x2581; 98]]) [0; 0; 1]
        [Offsets 0 2; Offsets 0 2; Offsets 2 4] [0; 0; 0] [1; 1; 1] []))
    ∧ encode_text pre (bpe_model (Bpe v mm' 0 [] [] [] false) (λ _ _, 0%Q)) (encode [0xE9; 32; 98]) (-1) 0
    = Ret (Ok (Encoding [4; 3] [0; 0] (map encode [[0x2581; 0xE9]; [0x2581; 98]]) [0; 1] [Offsets 0 2; Offsets 2 4] [0; 0] [1; 1] []))
  | _, _ => False
  end.
Proof. vm_compute. auto. Qed.
