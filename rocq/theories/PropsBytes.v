(** C100: encoding strings that need not be valid UTF-8, without pre-tokenizer. *)
From Coq Require Import ZifyBool QArith.
From Verif Require Import GoBase Utf8Facts Strutils SplitPattern NormString Vocab MergeMap Bpe WordPiece Encodings PreTokString PreTokenizers SpecText SpecNorm SpecVocab SpecBpe SpecWordPiece SpecEnd SpecInvalid SpecBytes
  SliceFacts NormEdits StrutilsFacts InvalidFacts EndFacts WordPieceFacts BytesFacts PropsWordPiece PropsBpe.
Import GoBase NormString.
#[local] Open Scope Z_scope.

(** BPE reads U+FFFD for every undecodable byte; the offsets are those in the text with U+FFFD written out. *)
Theorem C100_bpe_reads : ∀ m s draws, bpe_tokenize m s draws = bpe_tokenize m (encode (runes s)) draws.
Proof. exact bpe_reads. Qed.
Print Assumptions C100_bpe_reads.

(** The entries stand for consecutive groups of characters of the text as Go reads it. Each entry starts where its group
    starts; it ends where its group ends, but two bytes too late if that is behind an undecodable byte. *)
Theorem C100_bpe :
  ∀ m draws s wi ty toks, (b_unk m ≠ [] ∨ Forall (λ c, c.1 ≠ None) (char_classes m (runes s))) →
  bpe_tokenize m s (draws O) = Some (Ret (Ok toks)) →
  ∃ groups e es, encode_text uncut (bpe_model m draws) s wi ty = Ret (Ok e) ∧ entries e es
    ∧ concat groups = decode s ∧ Forall (λ g, g ≠ []) groups ∧ map et_offsets es = said_places 0 groups
    ∧ map et_id es = map t_id toks ∧ map et_token es = map t_value toks.
Proof.
  intros m draws s wi ty toks Hk Ht. assert (Ht' := Ht). rewrite bpe_reads in Ht'.
  destruct (C38_offsets_partial m (encode (runes s)) (draws O) toks) as (H1 & H2); [|by rewrite (runes_encode_scalars _ (runes_scalars s))|done|].
  { apply valid_utf8_spec. exists (runes s). split; [apply runes_scalars|done]. }
  destruct (uncut_encoding s wi ty (bpe_model m draws) toks) as (gs & e & es & G); [unfold bpe_model; by rewrite Ht|done|done|].
  exists gs, e, es. tauto.
Qed.
Print Assumptions C100_bpe.

(** If all characters are known, U+FFFD included, the tokens quote their groups. *)
Theorem C100_bpe_quotes :
  ∀ m file draws s wi ty, consistent (b_vocab m) → merge_map_from_file file (b_vocab m) 0 = Ret (Ok (b_merges m)) →
  b_prefix m = [] → b_suffix m = [] → (b_unk m ≠ [] → is_Some (get_id (b_vocab m) (b_unk m))) →
  Forall (λ r, is_Some (get_id (b_vocab m) (encode_rune r))) (runes s) →
  ∃ groups e es, encode_text uncut (bpe_model m draws) s wi ty = Ret (Ok e) ∧ entries e es
    ∧ concat groups = decode s ∧ Forall (λ g, g ≠ []) groups ∧ map et_offsets es = said_places 0 groups
    ∧ map et_token es = map (λ g, encode g.*1) groups.
Proof.
  intros m file draws s wi ty Hc Hf Hp Hsu Hu Hk. assert (Hv : valid_utf8 (encode (runes s)) = true). { apply valid_utf8_spec. exists (runes s). split; [apply runes_scalars|done]. }
  destruct (C39_faithful m file (encode (runes s)) (draws O) Hc Hf Hp Hsu Hu Hv) as (toks & Ht & _ & Hq); [by rewrite (runes_encode_scalars _ (runes_scalars s))|].
  destruct (C38_offsets_partial m (encode (runes s)) (draws O) toks Hv) as (H1 & H2); [|done|].
  { right. rewrite (runes_encode_scalars _ (runes_scalars s)). by apply known_classes. }
  assert (Ht' := Ht). rewrite <- bpe_reads in Ht'.
  destruct (uncut_encoding s wi ty (bpe_model m draws) toks) as (gs & e & es & E1 & E2 & E3 & E4 & E5 & _ & E7 & E8); [unfold bpe_model; by rewrite Ht'|done|done|].
  exists gs, e, es. split_and!; try done. rewrite E7. clear -E8 Hq. induction E8 as [|t g toks gs (a & b & H & Ho) _ IH]; [done|]. apply Forall_cons in Hq as [(Hq & _) Hq'].
  cbn [map]. rewrite IH by done. f_equal. rewrite Ho in Hq. cbn [o_start o_end] in Hq. rewrite H in Hq. pose proof (text_at_encode a g.*1 b) as Hx. by eapply text_at_fun.
Qed.
Print Assumptions C100_bpe_quotes.

(** The offsets are right if and only if no entry ends with an undecodable byte; in particular for valid UTF-8. They exceed the
    text by two bytes if it ends with one, and never by more. *)
Theorem C100_places :
  ∀ s groups, concat groups = decode s → Forall (λ g, g ≠ []) groups →
  (said_places 0 groups = true_places 0 groups ↔ Forall (λ g, last g ≠ Some (rune_error, 1)) groups)
  ∧ (valid_utf8 s = true → said_places 0 groups = true_places 0 groups)
  ∧ Forall (λ o, 0 <= o_start o < o_end o ∧ o_start o < zlen s ∧ o_end o <= zlen s + 2) (said_places 0 groups)
  ∧ (bad_end s → ∃ a, last (said_places 0 groups) = Some (Offsets a (zlen s + 2))).
Proof.
  intros s gs Hc Hn. assert (Hr : read_bytes (concat gs) = zlen s) by (rewrite Hc; apply decode_widths). split_and!.
  - apply said_true.
  - intros Hv. apply said_true. apply bad_valid in Hv. apply Forall_forall. intros g Hg E. apply last_Some in E as (g' & ->).
    apply elem_of_list_split in Hg as (l1 & l2 & ->). unfold bad_bytes in Hv. rewrite <- Hc, concat_app in Hv. cbn [concat] in Hv. rewrite !filter_app, !zlen_app in Hv.
    rewrite filter_cons, decide_True in Hv by done. rewrite zlen_cons in Hv.
    pose proof (zlen_nonneg (base.filter (λ x, x = (rune_error, 1)) (concat l1))). pose proof (zlen_nonneg (base.filter (λ x, x = (rune_error, 1)) g')).
    pose proof (zlen_nonneg (base.filter (λ x, x = (rune_error, 1)) (@nil (Z * Z)))). pose proof (zlen_nonneg (base.filter (λ x, x = (rune_error, 1)) (concat l2))). lia.
  - apply Forall_forall. intros o Ho. destruct (said_in 0 gs o Hn) as (H1 & H2 & H3); [|done|].
    { rewrite Hc. apply decode_widths_pos. }
    split; [lia|]. split; [|lia]. rewrite <- Hr, <- (Z.add_0_l (read_bytes _)). apply (said_start 0 gs o Hn); [|done]. rewrite Hc. apply decode_widths_pos.
  - intros Hb. destruct (said_last 0 gs Hn) as (a & Ha); [by rewrite Hc|]. exists a. rewrite Ha, Hr. done.
Qed.
Print Assumptions C100_places.

(** WordPiece reads the bytes as they are, but its offsets are looked up in the alignments of the text with U+FFFD written out.
    No panic; the offsets are those of the bytes with the same numbers in that text. *)
Theorem C100_wordpiece :
  ∀ m s wi ty, Forall (λ c, 0 <= c <= 255) s → s ≠ [] →
  (encode_text uncut (wp_model m) s wi ty = Ret (Err EUnknownTokenOutOfVocabulary) ∧ get_id (w_vocab m) (w_unk m) = None)
  ∨ ∃ toks e es, wp_tokenize m s = Some (Ret (Ok toks)) ∧ toks_tile 0 toks (zlen s)
    ∧ encode_text uncut (wp_model m) s wi ty = Ret (Ok e) ∧ entries e es ∧ map et_id es = map t_id toks ∧ map et_token es = map t_value toks
    ∧ map et_offsets es = map (λ t, Offsets (read_span 0 (decode s) (o_start (t_offsets t))).1 (read_span 0 (decode s) (o_end (t_offsets t) - 1)).2) toks.
Proof.
  intros m s wi ty Hb Hs.
  assert (Hok : ∀ toks, wp_tokenize m s = Some (Ret (Ok toks)) → toks_tile 0 toks (zlen s) → ∃ toks e es, wp_tokenize m s = Some (Ret (Ok toks)) ∧ toks_tile 0 toks (zlen s)
    ∧ encode_text uncut (wp_model m) s wi ty = Ret (Ok e) ∧ entries e es ∧ map et_id es = map t_id toks ∧ map et_token es = map t_value toks
    ∧ map et_offsets es = map (λ t, Offsets (read_span 0 (decode s) (o_start (t_offsets t))).1 (read_span 0 (decode s) (o_end (t_offsets t) - 1)).2) toks).
  { intros toks Ht Htile. destruct (uncut_bytes s wi ty (wp_model m) toks) as (e & es & H); [unfold wp_model; by rewrite Ht|done|]. exists toks, e, es. tauto. }
  destruct (wp_tokenize_spec m s Hb) as [(l & _ & Ht & Hl)|(_ & Ht)].
  - right. apply (Hok l Ht). by apply tried_toks_tile in Hl as [? _].
  - unfold wp_unknown in Ht. destruct (get_id (w_vocab m) (w_unk m)) as [id|] eqn:E.
    + right. apply (Hok _ Ht). cbn [toks_tile t_offsets o_start o_end]. split_and!; try done. destruct s; [done|]. rewrite zlen_cons. pose proof (zlen_nonneg s). lia.
    + left. split; [|done]. unfold encode_text, encode_ns, uncut, pts_from_ns. cbn [mbind outcome_bind fst snd]. unfold pts_tokenize. cbn [p_splits p_original tokenize_loop sp_tokens].
      unfold calling at 1. cbn [sp_ns]. change (ns_norm (from_string s)) with s. unfold wp_model. by rewrite Ht.
Qed.
Print Assumptions C100_wordpiece.

(** So they are right in front of the first undecodable byte, ... *)
Theorem C100_wordpiece_valid_part :
  ∀ a c b rest, scalars (a ++ c ++ b) → c ≠ [] →
  let s := encode (a ++ c ++ b) ++ rest in
  (read_span 0 (decode s) (zlen (encode a))).1 = zlen (encode a) ∧ (read_span 0 (decode s) (zlen (encode (a ++ c)) - 1)).2 = zlen (encode (a ++ c)).
Proof. exact read_span_valid. Qed.
Print Assumptions C100_wordpiece_valid_part.
(** ... but not behind it: of the bytes FF FF "abc", the token for the last one, "##c", is said to be at 1..4. *)
Theorem C100_wordpiece_refuted :
  ¬ ∀ m s wi ty toks e, Forall (λ c, 0 <= c <= 255) s → wp_tokenize m s = Some (Ret (Ok toks)) → encode_text uncut (wp_model m) s wi ty = Ret (Ok e) →
    Forall2 (λ t o, o_start o <= o_start (t_offsets t) ∧ o_end (t_offsets t) <= o_end o) toks (e_offsets e).
Proof.
  intros H. set (m := WordPiece (ex_vocab [[255; 255; 97; 98]; [35; 35; 99]]) [63] [35; 35] 100).
  specialize (H m [255; 255; 97; 98; 99] (-1) 0 [Token 0 [255; 255; 97; 98] (Offsets 0 4); Token 1 [35; 35; 99] (Offsets 4 5)]).
  destruct (encode_text uncut (wp_model m) [255; 255; 97; 98; 99] (-1) 0) as [[e|]|] eqn:E; [|by vm_compute in E..].
  specialize (H e ltac:(repeat (constructor; [lia|]); constructor) ltac:(by vm_compute) eq_refl). vm_compute in E. injection E as <-. cbn [e_offsets] in H.
  inversion_clear H as [|? ? ? ? _ H']. inversion_clear H' as [|? ? ? ? H _]. cbn in H. lia.
Qed.
Print Assumptions C100_wordpiece_refuted.

(** "a", an undecodable byte, "é", another one: the merge of "a" and U+FFFD, and the characters alone. *)
Example C100_example :
  let s := [97; 0xFF; 0xC3; 0xA9; 0xE2] in
  let v := ex_vocab [[97]; [0xEF; 0xBF; 0xBD]; [0xC3; 0xA9]; [97; 0xEF; 0xBF; 0xBD]] in
  match merge_map_from_file ([97; 32; 0xEF; 0xBF; 0xBD; 10]) v 0 with
  | Ret (Ok mm) =>
    let m := Bpe v mm 0 [] [] [] false in
    decode s = [(97, 1); (rune_error, 1); (0xE9, 2); (rune_error, 1)]
    ∧ match encode_text uncut (bpe_model m (λ _ _, 0%Q)) s (-1) 0 with
      | Ret (Ok e) => e_tokens e = [[97; 0xEF; 0xBF; 0xBD]; [0xC3; 0xA9]; [0xEF; 0xBF; 0xBD]]
                      ∧ e_offsets e = said_places 0 [[(97, 1); (rune_error, 1)]; [(0xE9, 2)]; [(rune_error, 1)]]
                      ∧ e_offsets e = [Offsets 0 4; Offsets 2 4; Offsets 4 7]
      | _ => False
      end
  | _ => False
  end.
Proof. vm_compute. auto. Qed.
Example C100_wordpiece_example :
  let m := WordPiece (ex_vocab [[97; 98; 0xFF]; [35; 35; 99]]) [63] [35; 35] 100 in
  match encode_text uncut (wp_model m) [97; 98; 0xFF; 99] (-1) 0 with
  | Ret (Ok e) => e_offsets e = [Offsets 0 5; Offsets 2 5]
  | _ => False
  end.
Proof. vm_compute. reflexivity. Qed.
