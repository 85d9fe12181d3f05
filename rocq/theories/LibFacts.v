(** Proofs for C77: what the library's own components do are histories of edits. *)
From Coq Require Import ZifyBool Sorted.
From stdpp Require Import relations list_numbers.
From Verif Require Import GoBase Utf8Facts Strutils SplitPattern NormString Bpe Encodings Normalizers PreTokString PreTokenizers SpecText SpecNorm SpecSplit SpecHist SpecPts SpecPretok SpecNormalizers SpecEnd SpecCommute SpecStages
  SliceFacts StrutilsFacts PatternFacts NormFacts NormInv NormReplace NormSlice NormSplit SplitExact RangeFacts NormEdits HistFacts PtsFacts PretokFacts ByteFacts EndFacts NormalizersFacts PropsPretok.
Import GoBase NormString SpecNorm.
#[local] Open Scope Z_scope.

Lemma edits_wf n n' : rtc edit n n' → wf n → wf n'.
Proof. induction 1 as [|x y z H _ IH]; [done|]. intros Hx. apply IH. by eapply edit_wf. Qed.

(** ** Normalizers *)
Lemma bert_edits u o n n' : bert_normalize u o n = Ret n' → rtc edit n n'.
Proof.
  unfold bert_normalize. intros H. apply bind_Ret in H as (n1 & H1 & H). apply bind_Ret in H as (n2 & H2 & H). apply bind_Ret in H as (n3 & H3 & H).
  transitivity n1; [|transitivity n2; [|transitivity n3]].
  - destruct (bo_clean o); [|by injection H1 as ->]. unfold clean_text in H1. apply bind_Ret in H1 as (m & H0 & H1).
    eapply rtc_l; [by eapply edit_filter|]. apply rtc_once. by eapply edit_map.
  - destruct (bo_chinese o); [|by injection H2 as ->]. apply rtc_once. by eapply edit_transform.
  - destruct (bo_accents o); [|by injection H3 as ->]. apply rtc_once. by eapply edit_filter.
  - destruct (bo_lower o); [|by injection H as ->]. apply rtc_once. by eapply edit_map.
Qed.
Fixpoint lib_edits nz (H : lib_normalizer nz) {struct H} : ∀ n n' e, nz n = Ret (n', e) → rtc edit n n'.
Proof.
  destruct H as [u|left right|u o|l Hl]; intros n n' e E.
  - unfold lowercase_normalizer, no_error in E. apply bind_Ret in E as (m & E & Em). injection Em as <- <-. apply rtc_once. by eapply edit_map.
  - unfold strip_normalizer, no_error in E. apply bind_Ret in E as (m & E & Em). injection Em as <- <-. apply rtc_once. by eapply edit_trim.
  - unfold bert_normalizer, no_error in E. apply bind_Ret in E as (m & E & Em). injection Em as <- <-. by eapply bert_edits.
  - revert n E. induction Hl as [|nz l Hnz Hl IH]; intros n E; cbn [sequence_normalizer] in E; [by injection E as <- <-|].
    apply bind_Ret in E as ([m em] & E1 & E2). transitivity m; [by eapply lib_edits|].
    destruct em; [by injection E2 as <- <-|by apply IH].
Qed.

Lemma normalize_with_step nz p p' e : lib_normalizer nz → normalize_with nz p = Ret (p', e) → pts_step p p'.
Proof.
  intros Hn H. unfold normalize_with in H. apply bind_Ret in H as ([[[] q] e'] & H & E). cbn in E. injection E as -> ->.
  eapply step_normalize; [|exact H]. intros st n st' n' r _ E. apply bind_Ret in E as ([m em] & E & Em). injection Em as <- <- <-. by eapply lib_edits.
Qed.

(** ** Pre-tokenizers *)
Lemma lib_pre_steps E pre p p' e : lib_pretokenizer E pre → pre p = Ret (p', e) → rtc pts_step p p'.
Proof. intros Hl H. eapply C52_pretokenizers; [|exact H]. destruct Hl; naive_solver. Qed.

Lemma lib_step_steps E M p p' : lib_step E M p p' → rtc pts_step p p'.
Proof.
  intros [pre p1 e Hpre H|nz p1 e Hn H|model k k' p1 e _ H].
  - by eapply lib_pre_steps.
  - apply rtc_once. by eapply normalize_with_step.
  - apply rtc_once. eapply step_tokenize; [|exact H]. intros st n st' n' r _ C. rewrite calling_eq in C. apply bind_Ret in C as (m & C & Em). by injection Em as <- <- <-.
Qed.
Lemma lib_steps E M p p' : rtc (lib_step E M) p p' → rtc pts_step p p'.
Proof. induction 1 as [|x y z H _ IH]; [done|]. transitivity y; [by eapply lib_step_steps|done]. Qed.

(** ** Origins *)
Lemma bert_origin u o n n' : wf n → bert_normalize u o n = Ret n' → same_origin n n'.
Proof.
  intros (v & Hv) H. destruct (bert_text_spec u o n v.*1 n') as [_ Ho]; [|done|done]. split; [by exists v|]. split; apply Hv.
Qed.
Lemma same_origin_trans a b c : same_origin a b → same_origin b c → same_origin a c.
Proof. intros [] []. split; congruence. Qed.
Fixpoint lib_origin nz (H : lib_normalizer nz) {struct H} : ∀ n n' e, wf n → nz n = Ret (n', e) → same_origin n n'.
Proof.
  destruct H as [u|left right|u o|l Hl]; intros n n' e Hw E.
  - unfold lowercase_normalizer, no_error in E. apply bind_Ret in E as (m & E & Em). injection Em as <- <-. by eapply map_runes_wf.
  - unfold strip_normalizer, no_error in E. apply bind_Ret in E as (m & E & Em). injection Em as <- <-. by eapply trim_wf.
  - unfold bert_normalizer, no_error in E. apply bind_Ret in E as (m & E & Em). injection Em as <- <-. by eapply bert_origin.
  - revert n Hw E. induction Hl as [|nz l Hnz Hl IH]; intros n Hw E; cbn [sequence_normalizer] in E; [injection E as <- <-; by split|].
    apply bind_Ret in E as ([m em] & E1 & E2). apply (same_origin_trans _ m); [by eapply lib_origin|].
    destruct em; [injection E2 as <- <-; by split|]. apply IH; [|done]. eapply edits_wf; [|exact Hw]. by eapply lib_edits.
Qed.

Lemma normalize_with_one nz n n' e o : nz n = Ret (n', e) → normalize_with nz (Pts o [PSplit n None]) = Ret (Pts o [PSplit n' None], e).
Proof.
  intros H. unfold normalize_with, pts_normalize. cbn [p_splits p_original normalize_loop sp_tokens sp_ns]. rewrite H. cbn [mbind outcome_bind fst snd]. by destruct e.
Qed.
Lemma lib_made_first E M rs p : scalars rs → lib_made E M rs p → rtc (lib_step E M) (pts_from_string (encode rs)) p.
Proof.
  intros Hs [H|(nz & n & e & Hn & En & H)]; [done|]. eapply rtc_l; [|exact H]. eapply lib_step_normalize; [exact Hn|].
  assert (Hw : wf (from_string (encode rs))) by (eexists; by apply from_string_wf). destruct (lib_origin nz Hn _ _ _ Hw En) as [Ho _].
  unfold pts_from_string, pts_from_ns. rewrite Ho. by apply normalize_with_one.
Qed.
Lemma lib_made_reachable E M rs p : scalars rs → lib_made E M rs p → rtc pts_step (pts_from_string (encode rs)) p.
Proof. intros Hs H. by eapply lib_steps, lib_made_first. Qed.
