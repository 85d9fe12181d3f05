(** Property theorems C74 (pre-tokenizing twice). *)
From Coq Require Import ZifyBool Sorted.
From stdpp Require Import relations list_numbers.
From Verif Require Import GoBase Utf8Facts Strutils SplitPattern NormString Bpe Encodings PreTokString Normalizers PreTokenizers Regex SpecText SpecNorm SpecHist SpecPts SpecPretok
  SliceFacts StrutilsFacts PatternFacts NormFacts PtsFacts PretokFacts ByteFacts RegexFacts SettledFacts.
Import GoBase NormString SpecNorm.
#[local] Open Scope Z_scope.

Lemma reachable_wf p : reachable_pts p → Forall (λ x, sp_tokens x = None → wf (sp_ns x)) (p_splits p).
Proof. intros (rs & _ & _ & H)%reachable_pts_good. eapply Forall_impl; [exact H|]. by intros x [? _]. Qed.

Lemma reachable_any p : reachable_pts p → Forall (λ x, sp_tokens x = None → ∃ v, wf_as (sp_ns x) v ∧ True) (p_splits p).
Proof. intros H%reachable_wf. eapply Forall_impl; [exact H|]. cbn. intros x Hx Ht. destruct (Hx Ht) as (v & Hv). by exists v. Qed.

(** * C74 *)
(** What these pre-tokenizers made of a string, however it was normalized and cut before, a second run leaves alone:
    every piece keeps its text, alignment, original text and place. *)
Theorem C74_whitespace_split : ∀ p p', reachable_pts p → whitespace_split p = Ret (p', None) → whitespace_split p' = Ret (p', None).
Proof.
  intros p p' Hp%reachable_any H. apply run_split_settled.
  assert (Hp' : Forall (λ x, sp_tokens x = None → ∃ v, tight (sp_ns x) v ∧ settled_by white_space Removed v.*1 ∧ True) (p_splits p')).
  { refine (run_split_gives _ (λ n, ∃ v : atext, wf_as n v ∧ True) (λ n, ∃ v : atext, tight n v ∧ settled_by white_space Removed v.*1 ∧ True) _ _ _ Hp H). intros n n' items Hn. apply (split_by_gives white_space Removed n n' items (λ _, True)); auto. }
  eapply Forall_impl; [exact Hp'|]. cbn. intros x Hx Hn. destruct (Hx Hn) as (v & H1 & H2 & _). by eapply split_by_settled.
Qed.
Print Assumptions C74_whitespace_split.

Theorem C74_rune_delimiter : ∀ c p p', reachable_pts p → rune_delimiter c p = Ret (p', None) → rune_delimiter c p' = Ret (p', None).
Proof.
  intros c p p' Hp%reachable_any H. apply run_split_settled.
  assert (Hp' : Forall (λ x, sp_tokens x = None → ∃ v, tight (sp_ns x) v ∧ settled_by (λ x, x =? c) Removed v.*1 ∧ True) (p_splits p')).
  { refine (run_split_gives _ (λ n, ∃ v : atext, wf_as n v ∧ True) (λ n, ∃ v : atext, tight n v ∧ settled_by (λ x, x =? c) Removed v.*1 ∧ True) _ _ _ Hp H). intros n n' items Hn. apply (split_by_gives (λ x, x =? c) Removed n n' items (λ _, True)); auto. }
  eapply Forall_impl; [exact Hp'|]. cbn. intros x Hx Hn. destruct (Hx Hn) as (v & H1 & H2 & _). by eapply (split_by_settled (λ x, x =? c)).
Qed.
Print Assumptions C74_rune_delimiter.

Lemma bert_gives u p p' : reachable_pts p → bert_pretokenizer u p = Ret (p', None) →
  Forall (λ x, sp_tokens x = None → ∃ v, tight (sp_ns x) v ∧ settled_by (u_punct u) Isolated v.*1 ∧ Forall (λ r, white_space r = false) v.*1) (p_splits p').
Proof.
  intros Hp%reachable_any H. unfold bert_pretokenizer in H. apply bind_Ret in H as ([p1 [e|]] & H1 & H); [done|].
  assert (Hp1 : Forall (λ x, sp_tokens x = None → ∃ v, wf_as (sp_ns x) v ∧ Forall (λ r, white_space r = false) v.*1) (p_splits p1)).
  { refine (run_split_gives _ (λ n, ∃ v : atext, wf_as n v ∧ True) (λ n, ∃ v : atext, wf_as n v ∧ Forall (λ r, white_space r = false) v.*1) _ _ _ Hp H1). intros n n' items Hn Hi.
    eapply Forall_impl; [by apply (split_by_gives white_space Removed n n' items (λ _, True)); auto|]. cbn. intros x Hx Ht.
    destruct (Hx Ht) as (v & [Hv _] & [Hs|[? _]] & _); [|done]. by exists v. }
  refine (run_split_gives _ (λ n, ∃ v : atext, wf_as n v ∧ Forall (λ r, white_space r = false) v.*1) (λ n, ∃ v : atext, tight n v ∧ settled_by (u_punct u) Isolated v.*1 ∧ Forall (λ r, white_space r = false) v.*1) _ _ _ Hp1 H). intros n n' items Hn Hi.
  apply (split_by_gives (u_punct u) Isolated n n' items (Forall (λ r, white_space r = false))); [by right|done| |done].
  intros a b c. rewrite !Forall_app. tauto.
Qed.

(** Nor does splitting by white space after BERT pre-tokenization. *)
Theorem C74_bert :
  ∀ u p p', reachable_pts p → bert_pretokenizer u p = Ret (p', None) → bert_pretokenizer u p' = Ret (p', None) ∧ whitespace_split p' = Ret (p', None).
Proof.
  intros u p p' Hp H. apply bert_gives in H; [|done].
  assert (Hw : whitespace_split p' = Ret (p', None)).
  { apply run_split_settled. eapply Forall_impl; [exact H|]. cbn. intros x Hx Hn. destruct (Hx Hn) as (v & H1 & _ & H3). eapply split_by_settled; [done|by left]. }
  split; [|done]. unfold bert_pretokenizer. unfold whitespace_split in Hw. rewrite Hw. cbn [mbind outcome_bind].
  apply run_split_settled. eapply Forall_impl; [exact H|]. cbn. intros x Hx Hn. destruct (Hx Hn) as (v & H1 & H2 & _). by eapply split_by_settled.
Qed.
Print Assumptions C74_bert.

(** The default regexp of the Whitespace pre-tokenizer, \w+|[^\w\s]+, with any classes. *)
Theorem C74_whitespace :
  ∀ word space p p', reachable_pts p → let pre := whitespace_pretokenizer (engine_of (word_re word space)) in pre p = Ret (p', None) → pre p' = Ret (p', None).
Proof.
  intros word space p p' Hp%reachable_wf pre H. apply run_split_settled.
  assert (Hp' : Forall (λ x, sp_tokens x = None → ∃ v, tight (sp_ns x) v ∧ one_kind word space v.*1) (p_splits p')).
  { refine (run_split_gives _ wf (λ n, ∃ v : atext, tight n v ∧ one_kind word space v.*1) _ _ _ Hp H). intros n n' items. apply word_gives. }
  eapply Forall_impl; [exact Hp'|]. cbn. intros x Hx Hn. destruct (Hx Hn) as (v & H1 & H2). by eapply word_settled.
Qed.
Print Assumptions C74_whitespace.

Theorem C74_metaspace : ∀ c prefix p p', reachable_pts p → metaspace c prefix p = Ret (p', None) → metaspace c prefix p' = Ret (p', None).
Proof.
  intros c b p p' Hp%reachable_wf H. apply run_split_settled.
  assert (Hp' : Forall (λ x, sp_tokens x = None → ∃ v, tight (sp_ns x) v ∧ meta_settled c b v.*1) (p_splits p')).
  { refine (run_split_gives _ wf (λ n, ∃ v : atext, tight n v ∧ meta_settled c b v.*1) _ _ _ Hp H). intros n n' items. apply meta_gives. }
  eapply Forall_impl; [exact Hp'|]. cbn. intros x Hx Hn. destruct (Hx Hn) as (v & H1 & H2). by eapply meta_settled_split.
Qed.
Print Assumptions C74_metaspace.

(** Byte level spells the characters that stand for bytes in bytes once more: " " becomes "Ġ" and "Ġ" two characters. *)
Theorem C74_byte_level_refuted :
  ¬ (∀ engine prefix p p', reachable_pts p → byte_level engine prefix p = Ret (p', None) → byte_level engine prefix p' = Ret (p', None)).
Proof.
  intros H. specialize (H (engine_of (splitting_re (λ c, c) (λ c, (97 <=? c) && (c <=? 122)) (λ c, (48 <=? c) && (c <=? 57)) (λ c, c =? 32))) false (pts_from_string [32]) (Pts [32] [PSplit (NS [32] [0xC4; 0xA0] [(0, 1); (0, 1)] 0) None])).
  assert (Hr : reachable_pts (pts_from_string [32])) by (exists [32]; split; [by repeat constructor|constructor]).
  specialize (H Hr). assert (E : 1 = 2) by (vm_compute in H; by injection (H eq_refl)). done.
Qed.
Print Assumptions C74_byte_level_refuted.

(** "a b_c  é" as pieces, and once more; a prefix symbol is not added again. *)
Example C74_example :
  (x ← metaspace 95 true (pts_from_string (encode [97; 32; 98; 95; 99; 32; 32; 0xE9])); y ← metaspace 95 true x.1;
   Ret (map bs_string (original_byte_splits x.1), map bs_string (original_byte_splits y.1)))
  = (let l := map encode [[95; 97]; [95; 98]; [95; 99]; [95]; [95; 0xE9]] in Ret (l, l))
  ∧ (x ← whitespace_split (pts_from_string (encode [97; 32; 98])); y ← metaspace 95 true x.1; z ← metaspace 95 true y.1;
     Ret (map bs_string (original_byte_splits y.1), bool_decide (map bs_string (original_byte_splits y.1) = map bs_string (original_byte_splits z.1))))
    = Ret (map encode [[95; 97]; [95; 98]], true).
Proof. vm_compute. auto. Qed.
