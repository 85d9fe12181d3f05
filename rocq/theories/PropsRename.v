(** Property theorems C75: nothing but the IDs in the answers depends on the IDs of a vocabulary. *)
From Coq Require Import QArith.
From Verif Require Import GoBase Strutils SplitPattern NormString Vocab MergeMap Bpe WordPiece Encodings PreTokString Normalizers PreTokenizers SpecVocab SpecEnd SpecRename RenameFacts PropsVocab PropsBpe.
Import GoBase SplitPattern NormString.
#[local] Open Scope Z_scope.

(** The same merge file over the same terms: the same merges, or the same error. *)
Theorem C75_merge_file :
  ∀ f file v v' px, Inj (=) (=) f → same_terms f v v' →
  match merge_map_from_file file v px, merge_map_from_file file v' px with
  | Ret (Ok m), Ret (Ok m') => same_merges f m m'
  | Ret (Err e), Ret (Err e') => e' = e
  | Panic, Panic => True
  | _, _ => False
  end.
Proof. intros f file v v' px Hf. by apply merge_file_as. Qed.
Print Assumptions C75_merge_file.

(** The same tokens (values and offsets), the same errors; dropout included. *)
Theorem C75_bpe :
  ∀ f v v' mm mm' d u p x fu s draws, Inj (=) (=) f → same_terms f v v' → same_merges f mm mm' →
  bpe_tokenize (Bpe v' mm' d u p x fu) s draws = answer_as f (tokens_as f) <$> bpe_tokenize (Bpe v mm d u p x fu) s draws.
Proof. intros f v v' mm mm' d u p x fu s draws Hf Hv Hm. by apply bpe_as. Qed.
Print Assumptions C75_bpe.

Theorem C75_wordpiece :
  ∀ f v v' u p mx s, same_terms f v v' →
  wp_tokenize (WordPiece v' u p mx) s = answer_as f (tokens_as f) <$> wp_tokenize (WordPiece v u p mx) s.
Proof. intros f v v' u p mx s Hv. by apply wp_as. Qed.
Print Assumptions C75_wordpiece.

(** Encodings: whatever the normalized string and the pre-tokenizer. *)
Theorem C75_encoding_bpe :
  ∀ f v v' mm mm' d u p x fu draws pre n w t, Inj (=) (=) f → same_terms f v v' → same_merges f mm mm' → only_cuts pre →
  encode_ns pre (bpe_model (Bpe v' mm' d u p x fu) draws) n w t
  = answer_as f (encoding_as f) (encode_ns pre (bpe_model (Bpe v mm d u p x fu) draws) n w t).
Proof.
  intros f v v' mm mm' d u p x fu draws pre n w t Hf Hv Hm Hp. apply encode_ns_as; [|done]. intros k s. unfold bpe_model. rewrite (C75_bpe f v v' mm mm') by done.
  by destruct (bpe_tokenize _ s (draws k)).
Qed.
Print Assumptions C75_encoding_bpe.

Theorem C75_encoding_wordpiece :
  ∀ f v v' u p mx pre n w t, same_terms f v v' → only_cuts pre →
  encode_ns pre (wp_model (WordPiece v' u p mx)) n w t = answer_as f (encoding_as f) (encode_ns pre (wp_model (WordPiece v u p mx)) n w t).
Proof.
  intros f v v' u p mx pre n w t Hv Hp. apply encode_ns_as; [|done]. intros k s. unfold wp_model. rewrite (C75_wordpiece f v v') by done. by destruct (wp_tokenize _ s).
Qed.
Print Assumptions C75_encoding_wordpiece.

(** All pre-tokenizers are of the kind meant (an error of the regexp engine is about no ID). *)
Theorem C75_pretokenizers :
  only_cuts whitespace_split ∧ (∀ d, only_cuts (rune_delimiter d)) ∧ (∀ u, only_cuts (bert_pretokenizer u)) ∧ (∀ c b, only_cuts (metaspace c b))
  ∧ ∀ engine : engine2, (∀ s i, (engine s).2 ≠ Some (EIDNotFound i)) → only_cuts (whitespace_pretokenizer engine) ∧ ∀ b, only_cuts (byte_level engine b).
Proof.
  split; [apply split_cuts, func_plain|]. split; [intros d; apply split_cuts, func_plain|]. split; [apply bert_cuts|]. split; [apply metaspace_cuts|].
  intros engine He. assert (∀ s e, (engine s).2 = Some e → plain_err e) as He'. { intros s e H i ->. by apply (He s i). }
  split; [by apply split_cuts, invert_plain, regexp2_plain|]. intros b. by apply byte_level_cuts.
Qed.
Print Assumptions C75_pretokenizers.

(** Any two vocabularies of the same terms, each giving every term an ID of its own, are related in
    this way; for instance two made by adding the same terms in different orders (C28). *)
Theorem C75_same_terms :
  ∀ v v', consistent v → consistent v' → (∀ t, is_Some (get_id v t) ↔ is_Some (get_id v' t)) → ∃ f, Inj (=) (=) f ∧ same_terms f v v'.
Proof. apply same_terms_exists. Qed.
Print Assumptions C75_same_terms.

Theorem C75_any_order :
  ∀ ts ts' v v' file px mm, add_terms new_vocab ts = Ret v → add_terms new_vocab ts' = Ret v' → (∀ t, t ∈ ts ↔ t ∈ ts') → merge_map_from_file file v px = Ret (Ok mm) →
  ∃ f mm', (∀ t, get_id v' t = f <$> get_id v t) ∧ merge_map_from_file file v' px = Ret (Ok mm')
    ∧ (∀ d u p x fu s draws, bpe_tokenize (Bpe v' mm' d u p x fu) s draws = answer_as f (tokens_as f) <$> bpe_tokenize (Bpe v mm d u p x fu) s draws)
    ∧ ∀ u p mx s, wp_tokenize (WordPiece v' u p mx) s = answer_as f (tokens_as f) <$> wp_tokenize (WordPiece v u p mx) s.
Proof.
  intros ts ts' v v' file px mm H H' Ht Hm. destruct (PropsVocab.C28_add_terms ts) as (w & Hw & _ & _ & Hin & Hc & _), (PropsVocab.C28_add_terms ts') as (w' & Hw' & _ & _ & Hin' & Hc' & _).
  rewrite H in Hw. injection Hw as <-. rewrite H' in Hw'. injection Hw' as <-.
  destruct (C75_same_terms v v') as (f & Hf & Hs); [done|done|intros t; by rewrite Hin, Hin'|]. pose proof (C75_merge_file f file v v' px Hf Hs) as Hmm. rewrite Hm in Hmm.
  destruct (merge_map_from_file file v' px) as [[mm'|]|] eqn:E; [|done|done]. exists f, mm'. split; [apply Hs|]. split; [done|]. split; intros; [by apply C75_bpe|by apply C75_wordpiece].
Qed.
Print Assumptions C75_any_order.

(** The merges are kept by ID: with those of the old IDs other merges are done. *)
Theorem C75_old_merges_refuted :
  ¬ (∀ f v v' mm s, Inj (=) (=) f → same_terms f v v' →
     bpe_tokenize (Bpe v' mm 0 [] [] [] false) s (λ _, 0%Q) = answer_as f (tokens_as f) <$> bpe_tokenize (Bpe v mm 0 [] [] [] false) s (λ _, 0%Q)).
Proof.
  intros H. set (v := ex_vocab [[97]; [98]; [97; 98]]). set (v' := ex_vocab [[97; 98]; [98]; [97]]).
  destruct (PropsVocab.C28_add_terms [[97]; [98]; [97; 98]]) as (w & Hw & _ & _ & Hin & Hc & _), (PropsVocab.C28_add_terms [[97; 98]; [98]; [97]]) as (w' & Hw' & _ & _ & Hin' & Hc' & _).
  assert (w = v) as -> by (unfold v, ex_vocab; by rewrite Hw). assert (w' = v') as -> by (unfold v', ex_vocab; by rewrite Hw').
  destruct (C75_same_terms v v') as (f & Hf & Hs); [done|done| |].
  - intros t. rewrite Hin, Hin'. rewrite !elem_of_cons. naive_solver.
  - specialize (H f v v' {[ (0, 1) := MergeValue 0 2 ]} [97; 98] Hf Hs).
    apply (f_equal (fmap (λ o, match o with Ret (Ok l) => length l | _ => 0%nat end))) in H. vm_compute in H. discriminate.
Qed.
Print Assumptions C75_old_merges_refuted.

(** The terms "a", "b", "ab", "c", added in two orders; the text "abc b". *)
Example C75_example :
  let enc ts := let v := ex_vocab ts in
    match merge_map_from_file [97; 32; 98] v 0 with
    | Ret (Ok mm) => encode_text whitespace_split (bpe_model (Bpe v mm 0 [] [] [] false) (λ _ _, 0%Q)) [97; 98; 99; 32; 98] (-1) 0
    | _ => Panic
    end in
  enc [[97]; [98]; [97; 98]; [99]] = Ret (Ok (Encoding [2; 3; 1] [0; 0; 0] [[97; 98]; [99]; [98]] [0; 0; 1] [Offsets 0 2; Offsets 2 3; Offsets 4 5] [0; 0; 0] [1; 1; 1] []))
  ∧ enc [[99]; [97; 98]; [97]; [98]] = Ret (Ok (Encoding [1; 0; 3] [0; 0; 0] [[97; 98]; [99]; [98]] [0; 0; 1] [Offsets 0 2; Offsets 2 3; Offsets 4 5] [0; 0; 0] [1; 1; 1] [])).
Proof. vm_compute. auto. Qed.
