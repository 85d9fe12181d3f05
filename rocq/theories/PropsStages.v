(** C77, C78: what histories of the library's own stages make of a text. *)
From Coq Require Import ZifyBool Sorted.
From stdpp Require Import relations.
From Verif Require Import GoBase Utf8Facts Strutils SplitPattern NormString Vocab Bpe WordPiece Encodings Normalizers PreTokString PreTokenizers SpecText SpecNorm SpecHist SpecPts SpecBpe SpecWordPiece SpecExact SpecPretok SpecEnd Regex SpecCommute SpecStages
  SliceFacts NormFacts NormInv HistFacts PtsFacts PropsPts PropsBpe PropsExact PropsWordPiece WordPieceFacts RegexFacts LibFacts OrderFacts.
From Coq Require Import QArith.
Import GoBase NormString SpecNorm.
#[local] Open Scope Z_scope.

(** * C77 *)
(** With any models and engines, and whether or not a call fails: the text is kept, every piece keeps the
    invariants of C26 and stands for a range of the text. *)
Theorem C77_stages :
  ∀ rs p, scalars rs → lib_made (λ _, True) (λ _, True) rs p →
  reachable_pts p ∧ p_original p = encode rs ∧ Forall (λ x, invariants (sp_ns x) ∧ rooted (encode rs) (sp_ns x)) (p_splits p).
Proof.
  intros rs p Hs H. apply lib_made_reachable in H; [|done].
  assert (good (encode rs) p) as [Ho Hg].
  { assert (good (encode rs) (pts_from_string (encode rs))) as H0. { split; [done|]. constructor; [|done]. cbn [sp_ns]. split; [eexists; by apply from_string_wf|]. exists [], []. cbn. by rewrite app_nil_r. }
    clear Hs. revert H0. induction H as [|x y z Hxy _ IH]; [done|]. intros H0. apply IH. by eapply pts_step_good. }
  split; [by exists rs|]. split; [done|]. eapply Forall_impl; [exact Hg|]. intros x [? ?]. split; [by apply wf_invariants|done].
Qed.
Print Assumptions C77_stages.
(** A failing model in the middle: "É" is tokenized and stays as it is, the rest is normalized and cut
    further. *)
Example C77_example :
  let text := [0xC9; 32; 0x4E2D; 33; 98; 32; 99] in
  let model : a_model := λ k s, Ret (if decide (k = 1)%nat then Err EUnknownTokenOutOfVocabulary else Ok [Token 7 s (Offsets 0 (zlen s))]) in
  let u := Unicode (λ _, false) (λ _, false) (λ c, c =? 33) (λ c, if c =? 0xC9 then 0xE9 else if c =? 99 then 100 else c) (λ c, c) in
  (x ← whitespace_split (pts_from_string (encode text));
   y ← pts_tokenize (calling model) O x.1;
   z ← normalize_with (bert_normalizer u default_bert) y.1.2;
   w ← bert_pretokenizer u z.1; Ret (y.2, w.2, original_byte_splits w.1))
  = Ret (Some EUnknownTokenOutOfVocabulary, None,
      [ByteSplit [195; 137] (Offsets 0 2) (Some [Token 7 [195; 137] (Offsets 0 2)]); ByteSplit [228; 184; 173] (Offsets 3 6) None;
       ByteSplit [33] (Offsets 6 7) None; ByteSplit [98] (Offsets 7 8) None; ByteSplit [100] (Offsets 9 10) None]).
Proof. vm_compute. reflexivity. Qed.

(** * C78 *)
(** The models of the library are orderly; WordPiece unless even the empty text is too long for it. *)
Theorem C78_bpe_orderly : ∀ m draws, orderly (bpe_model m draws).
Proof. exact bpe_orderly. Qed.
Print Assumptions C78_bpe_orderly.
Theorem C78_wordpiece_orderly : ∀ m, orderly (wp_model m) ↔ 0 <= w_max m ∨ get_id (w_vocab m) (w_unk m) = None.
Proof. exact wp_orderly. Qed.
Print Assumptions C78_wordpiece_orderly.

(** So are the matches of the two regular expressions of the library, with any character classes. *)
Theorem C78_engines_sound :
  ∀ fold letter number space word, sound_engine (engine_of (word_re word space)) ∧ sound_engine (engine_of (splitting_re fold letter number space)).
Proof.
  intros. split; intros rs Hs; [destruct (engine_of_ok _ rs (word_never_empty word space) Hs) as (ms & -> & _ & H)|destruct (engine_of_ok _ rs (splitting_never_empty fold letter number space) Hs) as (ms & -> & _ & H)]; exact H.
Qed.
Print Assumptions C78_engines_sound.

(** Tokens stand in the order of the text, and two of them share at most one character, the last of the
    first and the first of the second. *)
Theorem C78_in_turn :
  ∀ rs p wi ty, scalars rs → lib_made sound_engine orderly rs p →
  (Exists (λ x, sp_tokens x = None) (p_splits p) ∧ into_encoding p wi ty = Ret (Err ENotTokenized))
  ∨ ∃ e, into_encoding p wi ty = Ret (Ok e)
       ∧ StronglySorted (λ o o', in_turn_but_one rs (o_start o, o_end o) (o_start o', o_end o')) (e_offsets e)
       ∧ Forall (λ o, o_start o < o_end o ∧ boundary (encode rs) (o_start o) ∧ boundary (encode rs) (o_end o)) (e_offsets e).
Proof. exact made_in_turn. Qed.
Print Assumptions C78_in_turn.

(** In one go. *)
Theorem C78_encode :
  ∀ rs nz pre model n er wi ty e, scalars rs → lib_normalizer nz → lib_pretokenizer sound_engine pre → orderly model →
  nz (from_string (encode rs)) = Ret (n, er) → encode_ns pre model n wi ty = Ret (Ok e) →
  StronglySorted (λ o o', in_turn_but_one rs (o_start o, o_end o) (o_start o', o_end o')) (e_offsets e).
Proof.
  intros rs nz pre model n er wi ty e Hs Hnz Hp Hm Hn H. unfold encode_ns in H. apply bind_Ret in H as ([p1 e1] & H1 & H). cbn [fst snd] in H.
  destruct e1; [done|]. apply bind_Ret in H as ([[k p2] e2] & H2 & H). cbn [fst snd] in H. destruct e2; [done|].
  destruct (C78_in_turn rs p2 wi ty Hs) as [[_ E]|(e' & E & Ho & _)].
  - right. exists nz, n, er. split; [done|]. split; [done|]. eapply rtc_l; [by eapply lib_step_pre|]. eapply rtc_once. by eapply lib_step_tokenize.
  - congruence.
  - rewrite H in E. by injection E as ->.
Qed.
Print Assumptions C78_encode.

(** The pieces themselves, tokenized or not. *)
Theorem C78_pieces :
  ∀ rs p, scalars rs → lib_made sound_engine orderly rs p →
  StronglySorted (λ o o', in_turn_but_one rs (o_start o, o_end o) (o_start o', o_end o')) (map bs_offsets (original_byte_splits p))
  ∧ Forall (λ o, boundary (encode rs) (o_start o) ∧ boundary (encode rs) (o_end o) ∧ (rs = [] ∨ o_start o < o_end o)) (map bs_offsets (original_byte_splits p)).
Proof. exact pieces_in_turn. Qed.
Print Assumptions C78_pieces.

(** A text that does not share is not what one gets: "é" as two bytes, cut between them. *)
Theorem C78_disjoint_refuted :
  ∃ rs p, scalars rs ∧ lib_made sound_engine orderly rs p ∧ map bs_offsets (original_byte_splits p) = [Offsets 0 2; Offsets 0 2].
Proof.
  set (engine := engine_of (splitting_re (λ c, c) (λ c, 97 <=? c) (λ _, false) (λ c, c =? 32))).
  set (p1 := Pts [195; 169] [PSplit (NS [195; 169] [195; 131; 194; 169] [(0, 2); (0, 2); (0, 2); (0, 2)] 0) None]).
  set (p2 := Pts [195; 169] [PSplit (NS [195; 169] [195; 131] [(0, 2); (0, 2)] 0) None; PSplit (NS [195; 169] [194; 169] [(0, 2); (0, 2)] 0) None]).
  assert (byte_level engine false (pts_from_string (encode [0xE9])) = Ret (p1, None)) as E1 by (vm_compute; reflexivity).
  assert (metaspace 0xA9 false p1 = Ret (p2, None)) as E2 by (vm_compute; reflexivity).
  exists [0xE9], p2. split; [by repeat constructor|]. split; [|done]. left. apply (rtc_l _ _ p1).
  - eapply lib_step_pre; [|exact E1]. apply lib_byte_level. apply (C78_engines_sound _ _ _ _ (λ _, false)).
  - apply rtc_once. eapply lib_step_pre; [|exact E2]. apply lib_metaspace.
Qed.
Print Assumptions C78_disjoint_refuted.

(** "é 中": spaces put around the Chinese character, a space put in front of the text, and every byte a token
    of its own. The spaces around 中 have its offsets, the one in front those of é. *)
Example C78_example :
  let pre := byte_level (engine_of (splitting_re (λ c, c) (λ c, 97 <=? c) (λ _, false) (λ c, c =? 32))) true in
  let v := PropsBpe.ex_vocab (map (λ b, encode_rune (byte_char b)) [32; 195; 169; 0xE4; 0xB8; 0xAD]) in
  (n ← handle_chinese (from_string (encode [0xE9; 32; 0x4E2D]));
   r ← encode_ns pre (bpe_model (Bpe v ∅ 0 [] [] [] false) (λ _ _, 0%Q)) n (-1) 0;
   Ret (match r with Ok e => Some (e_ids e, map (λ o, (o_start o, o_end o)) (e_offsets e), e_words e) | Err _ => None end))
  = Ret (Some ([0; 1; 2; 0; 0; 3; 4; 5; 0], [(0, 2); (0, 2); (0, 2); (2, 3); (3, 6); (3, 6); (3, 6); (3, 6); (3, 6)], [0; 0; 0; 1; 2; 2; 2; 2; 3])).
Proof. vm_compute. reflexivity. Qed.
