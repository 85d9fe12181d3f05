(** Property theorems C73 (texts encoded in parts). *)
From Coq Require Import ZifyBool Sorted QArith String.
From stdpp Require Import relations.
From Verif Require Import GoBase Utf8Facts Strutils SplitPattern NormString Vocab MergeMap Bpe WordPiece Encodings PreTokString Normalizers PreTokenizers SpecText SpecNorm SpecVocab SpecBpe SpecWordPiece SpecPts SpecPretok SpecEnd SpecJoin
  SliceFacts StrutilsFacts NormFacts NormInv NormSlice PretokFacts WordPieceFacts BpeFacts BpeTok EndFacts JoinFacts PropsWordPiece PropsBpe PropsPretok PropsEnd.
Import GoBase NormString SpecNorm.
#[local] Open Scope Z_scope.

(** * C73 *)
(** The encoding of two texts with a delimiter between them is the encodings of the two texts, the second one moved. *)
Theorem C73_join :
  ∀ pre shown model rs1 d rs2 pieces1 wi ty, scalars (rs1 ++ d :: rs2) → cuts pre rs1 shown pieces1 → shown d = false → stays_inside model →
  encode_text pre model (encode (rs1 ++ d :: rs2)) wi ty
  = one_then_other (zlen (encode (rs1 ++ [d]))) (if wi <? 0 then zlen pieces1 else 0)
      (encode_text pre model (encode rs1) wi ty) (encode_text pre (called_before (length pieces1) model) (encode rs2) wi ty).
Proof.
  intros pre shown model rs1 d rs2 fs1 wi ty Hs Hc Hd Hi. pose proof Hs as Hs'. apply scalars_app in Hs' as [Hs1 Hs2]. change (d :: rs2) with ([d] ++ rs2) in Hs2.
  apply scalars_app in Hs2 as [_ Hs2]. destruct (cuts_join pre shown rs1 d rs2 fs1 Hs2 Hd Hc) as (fs2 & Hc2 & Hc3).
  destruct (cuts_spec _ _ _ _ Hs1 Hc) as (Hp1 & _ & Ho1 & _). destruct (cuts_spec _ _ _ _ Hs2 Hc2) as (Hp2 & _ & Ho2 & _). destruct (cuts_spec _ _ _ _ Hs Hc3) as (Hp3 & _).
  rewrite (encode_text_pieces _ _ _ _ _ _ Hp1), (encode_text_pieces _ _ _ _ _ _ Hp2), (encode_text_pieces _ _ _ _ _ _ Hp3).
  apply encode_pieces_join; [done|..].
  - intros x Hx. destruct (Ho1 x Hx) as (_ & l & r & H). by apply (occurs_scalars _ _ _ _ Hs1 H).
  - intros x Hx. destruct (Ho2 x Hx) as (_ & l & r & H). by apply (occurs_scalars _ _ _ _ Hs2 H).
Qed.
Print Assumptions C73_join.

(** The models stay inside, whatever their vocabulary, merges and options. *)
Theorem C73_models : (∀ m, stays_inside (wp_model m)) ∧ ∀ m draws, stays_inside (bpe_model m draws).
Proof.
  split.
  - intros m k w toks Hw H. unfold wp_model in H. destruct (C43_tokens_tile m (encode w) (encode_bytes _)) as (res & E & Hres). rewrite E in H. injection H as ->.
    destruct Hres as [[(i & _ & [= ->])|[_ [=]]]|(toks' & [= ->] & Ht & _)].
    + constructor; [|constructor]. cbn. pose proof (zlen_nonneg (encode w)). lia.
    + apply Forall_forall. intros t Hin. pose proof (toks_tile_in _ _ _ _ Ht Hin). lia.
  - intros m draws k w toks Hw H. unfold bpe_model in H. destruct (tokenize_total m (encode w) (draws k)) as [res E]. rewrite E in H. injection H as ->.
    destruct (decide (encode w = [])) as [Hn|Hn].
    { rewrite Hn in E. injection E as <-. constructor. }
    destruct (decide (has_unk m = true ∧ get_id (b_vocab m) (b_unk m) = None)) as [[Hu Hk]|Hu].
    { exfalso. unfold bpe_tokenize, merge_word in E. rewrite Hu, Hk in E. destruct (encode w) as [|x s]; [done|]. rewrite zlen_cons in E.
      pose proof (zlen_nonneg s). destruct (Z.eqb_spec (1 + zlen s) 0); [lia|done]. }
    destruct (tokenize_split m (encode w) (draws k) Hn) as (ss & G & Hp & H).
    { intros E'. destruct (get_id (b_vocab m) (b_unk m)) eqn:E''; [eauto|]. by destruct Hu. }
    destruct (merge_all_steps (b_merges m) (dropped_at (b_dropout m) (draws k)) ss Hp) as (w' & Ew & Hst).
    destruct (H (word_syms w')) as (res & E' & A); [by exists w'|]. rewrite E in E'. injection E' as <-. cbn in A.
    assert (Hpos : Forall (λ s, 0 < s.2) (word_syms w')).
    { clear -Hst Hp. induction Hst as [|s t s' [l a la b lb r m0 _] _ IH]; [done|]. apply IH. apply Forall_app in Hp as [Hl Hp].
      apply Forall_cons in Hp as [Ha Hp]. apply Forall_cons in Hp as [Hb Hr]. apply Forall_app. split; [done|]. constructor; [cbn in *; lia|done]. }
    apply toks_tile_of in A; [|done]. rewrite (merge_steps_total _ _ _ Hst), Z.add_0_l in A. apply group_bytes in G; [|apply char_classes_pos].
    rewrite class_bytes_snd, char_classes_snd, runes_encode_scalars, rune_lens in G by done.
    apply Forall_forall. intros t Hin. pose proof (toks_tile_in _ _ _ _ A Hin). lia.
Qed.
Print Assumptions C73_models.

(** So with WordPiece; *)
Theorem C73_wordpiece :
  ∀ pre shown m rs1 d rs2 pieces1 wi ty, scalars (rs1 ++ d :: rs2) → cuts pre rs1 shown pieces1 → shown d = false →
  encode_text pre (wp_model m) (encode (rs1 ++ d :: rs2)) wi ty
  = one_then_other (zlen (encode (rs1 ++ [d]))) (if wi <? 0 then zlen pieces1 else 0)
      (encode_text pre (wp_model m) (encode rs1) wi ty) (encode_text pre (wp_model m) (encode rs2) wi ty).
Proof. intros pre shown m rs1 d rs2 fs1 wi ty Hs Hc Hd. rewrite (C73_join pre shown _ rs1 d rs2 fs1); [done..|]. apply C73_models. Qed.
Print Assumptions C73_wordpiece.

(** with BPE, where the dice thrown for the second text are those left over by the first; *)
Theorem C73_bpe :
  ∀ pre shown m draws rs1 d rs2 pieces1 wi ty, scalars (rs1 ++ d :: rs2) → cuts pre rs1 shown pieces1 → shown d = false →
  encode_text pre (bpe_model m draws) (encode (rs1 ++ d :: rs2)) wi ty
  = one_then_other (zlen (encode (rs1 ++ [d]))) (if wi <? 0 then zlen pieces1 else 0)
      (encode_text pre (bpe_model m draws) (encode rs1) wi ty)
      (encode_text pre (bpe_model m (λ k, draws (length pieces1 + k)%nat)) (encode rs2) wi ty).
Proof. intros pre shown m draws rs1 d rs2 fs1 wi ty Hs Hc Hd. rewrite (C73_join pre shown _ rs1 d rs2 fs1); [done..|]. apply C73_models. Qed.
Print Assumptions C73_bpe.

(** without dropout they do not matter. *)
Theorem C73_bpe_no_dropout :
  ∀ pre m draws draws' text wi ty, (b_dropout m <= 0)%Q → encode_text pre (bpe_model m draws) text wi ty = encode_text pre (bpe_model m draws') text wi ty.
Proof.
  intros pre m draws draws' text wi ty Hd.
  assert (H : ∀ k s, bpe_model m draws k s = bpe_model m draws' k s).
  { intros k s. unfold bpe_model. f_equal. unfold bpe_tokenize, merge_word.
    assert (∀ w, merge_all w (b_merges m) (b_dropout m) (draws k) = merge_all w (b_merges m) (b_dropout m) (draws' k)) as Hw.
    { intros w. apply C37_decisions. intros j. split; intros [H _]; by destruct (Qlt_not_le _ _ H). }
    destruct (zlen s =? 0); [done|]. destruct (has_unk m); [destruct (get_id (b_vocab m) (b_unk m)); [|done]|]; by rewrite Hw. }
  unfold encode_text, encode_ns. destruct (pre (pts_from_ns (from_string text))) as [[p [e|]]|]; cbn [mbind outcome_bind fst snd]; [done| |done].
  unfold pts_tokenize. assert (∀ l k, tokenize_loop (calling (bpe_model m draws)) k l = tokenize_loop (calling (bpe_model m draws')) k l) as ->; [|done].
  induction l as [|x l IH]; intros k; [done|]. cbn [tokenize_loop]. destruct (sp_tokens x); [by rewrite IH|]. rewrite !calling_eq, H.
  destruct (bpe_model m draws' k (ns_norm (sp_ns x))) as [[ts|e]|]; cbn [mbind outcome_bind]; [by rewrite IH|done|done].
Qed.
Print Assumptions C73_bpe_no_dropout.

(** Elsewhere texts cannot be cut: "a" and "b" are not "ab". *)
Theorem C73_elsewhere_refuted :
  ¬ (∀ m rs1 d rs2 pieces1, cuts whitespace_split rs1 (λ c, negb (white_space c)) pieces1 →
     encode_text whitespace_split (wp_model m) (encode (rs1 ++ d :: rs2)) (-1) 0
     = one_then_other (zlen (encode (rs1 ++ [d]))) (zlen pieces1)
         (encode_text whitespace_split (wp_model m) (encode rs1) (-1) 0) (encode_text whitespace_split (wp_model m) (encode rs2) (-1) 0)).
Proof.
  intros H. specialize (H (WordPiece (ex_vocab (map encode [[97]; [98]; [35; 35; 98]])) [] [35; 35] 100) [] 97 [98] []).
  assert (cuts whitespace_split [] (λ c, negb (white_space c)) []) as Hc.
  { constructor; [constructor|]. split; [constructor|]. intros x. split; [by intros ?%elem_of_nil|]. intros (l & r & [E _] & Hne & _).
    symmetry in E. apply app_nil in E as [_ E]. by apply app_nil in E as [E _]. }
  specialize (H Hc). vm_compute in H. discriminate.
Qed.
Print Assumptions C73_elsewhere_refuted.

(** "ab 6é" and "xa", a space between; "xa" has no answer: with an unknown token, then without. *)
Example C73_example :
  let v := ex_vocab (map encode [[97]; [35; 35; 98]; [54]; [35; 35; 0xE9]; [63]]) in
  let enc unk rs := encode_text whitespace_split (wp_model (WordPiece v unk [35; 35] 100)) (encode rs) (-1) 0 in
  enc [63] [97; 98; 32; 54; 0xE9] = Ret (Ok (Encoding [0; 1; 2; 3] [0; 0; 0; 0] (map encode [[97]; [35; 35; 98]; [54]; [35; 35; 0xE9]]) [0; 0; 1; 1]
      [Offsets 0 1; Offsets 1 2; Offsets 3 4; Offsets 4 6] [0; 0; 0; 0] [1; 1; 1; 1] []))
  ∧ enc [63] [120; 97] = Ret (Ok (Encoding [4] [0] [[63]] [0] [Offsets 0 2] [0] [1] []))
  ∧ enc [63] [97; 98; 32; 54; 0xE9; 32; 120; 97] = Ret (Ok (Encoding [0; 1; 2; 3; 4] [0; 0; 0; 0; 0] (map encode [[97]; [35; 35; 98]; [54]; [35; 35; 0xE9]; [63]]) [0; 0; 1; 1; 2]
      [Offsets 0 1; Offsets 1 2; Offsets 3 4; Offsets 4 6; Offsets 7 9] [0; 0; 0; 0; 0] [1; 1; 1; 1; 1] []))
  ∧ enc [33] [97; 98; 32; 54; 0xE9; 32; 120; 97] = enc [33] [120; 97].
Proof. vm_compute. auto. Qed.
