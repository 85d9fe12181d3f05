(** Where BPE tokens end if unknown characters are left out. *)
From Coq Require Import ZifyBool QArith.
From stdpp Require Import relations.
From Verif Require Import GoBase Strutils Vocab MergeMap Bpe SpecText SpecVocab SpecBpe SpecExact Utf8Facts SliceFacts VocabFacts
  BpeWord BpeLoop BpeFacts BpeTok.
Import GoBase.
#[local] Open Scope Z_scope.

Lemma group_known fuse cs ss : group_syms fuse None cs ss → sym_bytes ss = known_bytes cs.
Proof.
  induction 1 as [|i n cs ss _ IH|n cs ss _ _ IH|u n cs ss E|u ns cs ss E]; try done.
  unfold sym_bytes, known_bytes in *. cbn. lia.
Qed.
Lemma known_bytes_le cs : Forall (λ c, 0 < c.2) cs → known_bytes cs <= class_bytes cs
  ∧ (known_bytes cs = class_bytes cs → Forall (λ c, c.1 ≠ None) cs).
Proof.
  induction 1 as [|[[i|] n] cs H _ [IH1 IH2]]; unfold known_bytes, class_bytes in *; cbn in *; [done| |].
  - split; [lia|]. intros E. constructor; [done|]. apply IH2. lia.
  - split; [lia|]. intros E. lia.
Qed.
Lemma steps_pos mm s s' : rtc (merge_step mm) s s' → Forall (λ s, 0 < s.2) s → Forall (λ s, 0 < s.2) s'.
Proof.
  induction 1 as [|s t s' [l a la b lb r m0 _] _ IH]; [done|]. intros Hp. apply IH. apply Forall_app in Hp as [Hl Hp].
  apply Forall_cons in Hp as [Ha Hp]. apply Forall_cons in Hp as [Hb Hr]. apply Forall_app. split; [done|]. constructor; [cbn in *; lia|done].
Qed.
Lemma known_tile m s draws toks : b_unk m = [] → bpe_tokenize m s draws = Some (Ret (Ok toks)) →
  toks_tile 0 toks (known_bytes (char_classes m (runes s))).
Proof.
  intros Hu E. destruct (decide (s = [])) as [->|Hs]; [by injection E as <-|].
  assert (unk_id m = None) as Hn by (unfold unk_id; by rewrite decide_True).
  destruct (tokenize_split m s draws Hs) as (ss & G & Hp & H). { unfold has_unk. by rewrite Hu. }
  destruct (merge_all_steps (b_merges m) (dropped_at (b_dropout m) draws) ss Hp) as (w' & Ew & Hst).
  destruct (H (word_syms w')) as (res & E' & A); [by exists w'|]. rewrite E in E'. injection E' as <-. cbn in A.
  rewrite Hn in G. rewrite <- (group_known _ _ _ G), <- (merge_steps_total _ _ _ Hst).
  replace (sym_bytes (word_syms w')) with (0 + sym_bytes (word_syms w')) by lia. eapply toks_tile_of; [|exact A]. by eapply steps_pos.
Qed.
Lemma toks_tile_end i ts x y : toks_tile i ts x → toks_tile i ts y → x = y.
Proof. revert i. induction ts as [|t ts IH]; intros i; cbn; [by intros -> ->|]. intros (_ & _ & H1) (_ & _ & H2). by eapply IH. Qed.
Lemma offsets_needs m s draws toks : valid_utf8 s = true → bpe_tokenize m s draws = Some (Ret (Ok toks)) →
  toks_tile 0 toks (zlen s) → b_unk m ≠ [] ∨ Forall (λ c, c.1 ≠ None) (char_classes m (runes s)).
Proof.
  intros Hv E Ht. destruct (decide (b_unk m = [])) as [Hu|]; [right|by left].
  pose proof (toks_tile_end _ _ _ _ Ht (known_tile _ _ _ _ Hu E)) as Ek.
  apply known_bytes_le; [apply classes_pos|]. rewrite <- Ek.
  apply valid_utf8_spec in Hv as (rs & Hrs & ->). rewrite runes_encode_scalars by done.
  by rewrite class_bytes_snd, char_classes_snd, rune_lens.
Qed.
