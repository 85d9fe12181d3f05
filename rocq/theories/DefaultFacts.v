(** When a model returns no tokens; what the documentation of the metaspace pre-tokenizer says against what it does. *)
From Coq Require Import ZifyBool QArith.
From stdpp Require Import relations.
From Verif Require Import GoBase Utf8Facts SliceFacts Strutils Vocab MergeMap Heap Bpe WordPiece SpecText SpecVocab SpecBpe SpecWordPiece VocabFacts
  HeapFacts BpeWord BpeLoop BpeFacts BpeTok WordPieceFacts JsonFacts Defaults.
Import GoBase.
#[local] Open Scope Z_scope.

Lemma steps_nothing mm ss : rtc (merge_step mm) ss [] → ss = [].
Proof.
  intros H. remember [] as e eqn:He. induction H as [x|x y z Hs H IH]; [done|]. specialize (IH He). subst y. inversion Hs as [l a la b lb r m Hm E1 E2].
  rewrite He in E2. by destruct l.
Qed.
Lemma group_nothing fuse ou cs : group_syms fuse ou cs [] → Forall (λ c, c.1 = None) cs ∧ (ou = None ∨ cs = []).
Proof.
  intros H. remember [] as e eqn:He. induction H as [|i n cs ss H IH|n cs ss Hn H IH|u n cs ss Hu Hf H IH|u ns cs ss Hu Hf Hn Hc H IH]; try done; [auto|].
  destruct (IH He) as [H1 _]. split; [by constructor|by left].
Qed.
Lemma group_none fuse cs ss : Forall (λ c, c.1 = None) cs → group_syms fuse None cs ss → ss = [].
Proof.
  intros Hc H. induction H as [|i n cs ss H IH|n cs ss Hn H IH|u n cs ss Hu Hf H IH|u ns cs ss Hu Hf Hn Hc' H IH]; try done.
  - apply Forall_cons in Hc as [? _]. done.
  - apply Forall_cons in Hc as [_ Hc]. auto.
Qed.
Lemma classes_nil m s : s ≠ [] → char_classes m (runes s) ≠ [].
Proof.
  intros Hs E. apply Hs, runes_nil_inv. apply (f_equal length) in E. rewrite char_classes_length in E. by apply nil_length_inv in E.
Qed.

Lemma bpe_nothing_iff m s draws :
  bpe_tokenize m s draws = Some (Ret (Ok [])) ↔ s = [] ∨ (b_unk m = [] ∧ Forall (λ c, c.1 = None) (char_classes m (runes s))).
Proof.
  destruct (decide (s = [])) as [->|Hs]; [split; [by left|done]|].
  destruct (decide (has_unk m = true ∧ get_id (b_vocab m) (b_unk m) = None)) as [[Hu Hn]|Hu].
  { assert (E : bpe_tokenize m s draws = Some (Ret (Err EUnknownTokenOutOfVocabulary))).
    { unfold bpe_tokenize, merge_word. rewrite Hu, Hn. destruct s; [done|]. rewrite zlen_cons. pose proof (zlen_nonneg s).
      by destruct (Z.eqb_spec (1 + zlen s) 0); [lia|]. }
    rewrite E. split; [done|]. intros [?|[Hb _]]; [done|]. unfold has_unk in Hu. by rewrite Hb in Hu. }
  destruct (tokenize_split m s draws Hs) as (ss & G & Hp & Hk).
  { intros Hh. destruct (get_id _ _) eqn:E; [eauto|]. by destruct Hu. }
  destruct (merge_all_steps (b_merges m) (dropped_at (b_dropout m) draws) ss Hp) as (w' & Ew & Hst).
  destruct (Hk (word_syms w')) as (res & -> & A); [by exists w'|]. split.
  - intros [= ->]. cbn [answer] in A. assert (word_syms w' = []) as E1 by by inversion A. rewrite E1 in Hst. apply steps_nothing in Hst as ->.
    apply group_nothing in G as [G1 [G2|G2]]; [|by apply classes_nil in G2]. right. split; [|done].
    rewrite unk_id_eq in G2. destruct (has_unk m) eqn:Hh; [by destruct Hu|]. by apply has_opt_nil.
  - intros [?|[Hb Hc]]; [done|]. assert (unk_id m = None) as EU by (unfold unk_id; by rewrite decide_True). rewrite EU in G.
    apply group_none in G as ->; [|done]. assert (word_syms w' = []) as E0.
    { inversion Hst as [|? y ? H1 H2]; [done|]. inversion H1 as [l ? ? ? ? ? ? ? E]. by destruct l. }
    rewrite E0 in A. destruct res as [toks|e]; cbn in A; [by inversion A|]. destruct A as (a & ? & ? & E & _). by destruct a.
Qed.

Lemma wordpiece_nothing_iff m s : Forall (λ c, 0 <= c <= 255) s → wp_tokenize m s = Some (Ret (Ok [])) ↔ s = [] ∧ 0 <= w_max m.
Proof.
  intros Hb. destruct (wp_tokenize_spec m s Hb) as [(l & Hm & -> & Hl)|(Hc & ->)].
  - split.
    + intros [= ->]. inversion Hl as [E|]. assert (s = []) as -> by (destruct s; [done|]; rewrite zlen_cons in *; pose proof (zlen_nonneg s); lia). split; [done|].
      change (zlen (runes [])) with 0 in Hm. lia.
    + intros [-> _]. inversion Hl as [|o e x i ts H1 _ (a & b & E & Ea & Ex)]; [done|]. symmetry in E. apply app_nil in E as [-> E]. apply app_nil in E as [-> ->]. cbn in *. lia.
  - split.
    + unfold wp_unknown. by destruct (get_id _ _).
    + intros [-> Hm]. destruct Hc as [Hc|Hc]; [change (zlen (runes [])) with 0 in Hc; lia|]. destruct (Hc []). apply tt_nil.
Qed.
