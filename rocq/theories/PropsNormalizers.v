(** Property theorems C60-C62 and C66 (normalizers). *)
From Coq Require Import ZifyBool Sorted.
From stdpp Require Import relations list_numbers.
From Verif Require Import GoBase Utf8Facts Strutils SplitPattern NormString Normalizers SpecText SpecNorm SpecHist SpecNormalizers
  SliceFacts StrutilsFacts PatternFacts NormFacts NormInv NormEdits HistFacts ByteFacts PropsNorm NormalizersFacts.
Import GoBase NormString SpecNorm.
#[local] Open Scope Z_scope.

(** * C60 *)
(** Full statement. False: Filter, called for cleaning and for accents, panics if multi-byte characters
    are removed at the front (see C08); a byte order mark before "abc" will do. *)
Definition C60_statement : Prop :=
  ∀ u o n v, wf_as n v →
  ∃ n', bert_normalizer u o n = Ret (n', None) ∧ repr n' (bert_aligned u o v) ∧ same_origin n n'.
Theorem C60_bert_refuted : ¬ C60_statement.
Proof.
  intros H. destruct (H (Unicode (λ r, r =? 0xFEFF) (λ _, false) (λ _, false) (λ c, c) (λ c, c)) default_bert
    (from_string (encode [0xFEFF; 97; 98; 99])) (fresh 0 [0xFEFF; 97; 98; 99])) as (n' & H1 & _).
  - apply from_string_wf. by repeat constructor.
  - vm_compute in H1. discriminate.
Qed.
Print Assumptions C60_bert_refuted.

(** The same with a combining mark at the front. *)
Theorem C60_accents_refuted :
  ∃ u o n v, wf_as n v ∧ bo_clean o = false ∧ bert_normalizer u o n = Panic.
Proof.
  exists (Unicode (λ _, false) (λ r, r =? 0x301) (λ _, false) (λ c, c) (λ c, c)), (BertOptions false true true true),
    (from_string (encode [0x301; 97; 98; 99])), (fresh 0 [0x301; 97; 98; 99]).
  split; [apply from_string_wf; by repeat constructor|]. split; [done|]. vm_compute. reflexivity.
Qed.
Print Assumptions C60_accents_refuted.

(** The text is right whenever Normalize returns, and it never returns an error. *)
Theorem C60_text_partial :
  ∀ u o n v n' e, wf_as n v → bert_normalizer u o n = Ret (n', e) →
  e = None ∧ ns_norm n' = encode (bert_text u o v.*1) ∧ wf n' ∧ same_origin n n'.
Proof.
  intros u o n v n' e Hwf H. unfold bert_normalizer, no_error in H. apply bind_Ret in H as (n1 & H & E). injection E as <- <-. split; [done|].
  pose proof Hwf as ((Hs & Hn & _) & _). destruct (bert_text_spec u o n v.*1 n1) as [(H1 & _ & H2) H3]; [|done|done].
  split; [by exists v|done].
Qed.
Print Assumptions C60_text_partial.

(** Text and spans, without panic, if the characters removed at the front (by cleaning, and then by the
    removal of accents) are ASCII. Missing: other characters removed at the front. *)
Theorem C60_bert_partial :
  ∀ u o n v, repr n v →
  (bo_clean o = true → ascii_lead (cleaned_away u) v.*1) →
  (bo_accents o = true → ascii_lead (λ r, u_mn u r = true) (when (bo_chinese o) (spaced_out is_chinese) (when (bo_clean o) (cleaned u) v.*1))) →
  ∃ n', bert_normalizer u o n = Ret (n', None) ∧ repr n' (bert_aligned u o v) ∧ same_origin n n'.
Proof.
  intros u o n v Hr Hc Ha. destruct (bert_aligned_spec u o n v Hr Hc Ha) as (n' & H1 & H2). exists n'. split; [|done].
  unfold bert_normalizer, no_error. by rewrite H1.
Qed.
Print Assumptions C60_bert_partial.

(** In particular if the first character is neither removed by cleaning nor a mark. *)
Theorem C60_first_kept_partial :
  ∀ u o n x a v, repr n ((x, a) :: v) → ¬ cleaned_away u x → u_mn u x = false → u_mn u 32 = false →
  ∃ n', bert_normalizer u o n = Ret (n', None) ∧ repr n' (bert_aligned u o ((x, a) :: v)) ∧ same_origin n n'.
Proof.
  intros u o n x a v Hr Hx Hm Hsp.
  assert (Hlead : ∀ (gone : Z → Prop) y rs, ¬ gone y → ascii_lead gone (y :: rs)).
  { intros gone y rs Hy [|z l] c r E Hl _; [constructor|]. injection E as <- _. apply Forall_cons in Hl as [Hl _]. done. }
  apply C60_bert_partial; [done| |]; intros _; rewrite (fmap_cons fst); cbn [fst]; [by apply Hlead|].
  assert (Hmm : ∀ y, u_mn u y = false → u_mn u y ≠ true) by (intros y ->; done).
  assert (∃ y rs, when (bo_clean o) (cleaned u) (x :: v.*1) = y :: rs ∧ u_mn u y = false) as (y & rs & -> & Hy).
  { destruct (bo_clean o); cbn [when]; [|eauto]. unfold cleaned. rewrite filter_cons, decide_True by done. cbn [map]. destruct (white_space x); eauto. }
  destruct (bo_chinese o); cbn [when]; [|by apply Hlead, Hmm]. unfold spaced_out. cbn [flat_map]. destruct (is_chinese y); cbn [app]; by apply Hlead, Hmm.
Qed.
Print Assumptions C60_first_kept_partial.

(** "É" + TAB + NUL + "野" + "A" + combining acute. *)
Example C60_example :
  let u := Unicode (λ r, r =? 9) (λ r, r =? 0x301) (λ _, false) (λ c, if c =? 0xC9 then 0xE9 else if c =? 65 then 97 else c) (λ c, c) in
  let rs := [0xC9; 9; 0; 0x91CE; 65; 0x301] in
  ¬ cleaned_away u 0xC9 ∧ u_mn u 0xC9 = false
  ∧ bert_text u default_bert rs = [0xE9; 32; 32; 0x91CE; 32; 97]
  ∧ (x ← bert_normalizer u default_bert (from_string (encode rs)); Ret (ns_norm x.1)) = Ret (encode [0xE9; 32; 32; 0x91CE; 32; 97])
  ∧ bert_aligned u default_bert (fresh 0 rs)
    = [(0xE9, (0, 2)); (32, (2, 3)); (32, (4, 7)); (0x91CE, (4, 7)); (32, (4, 7)); (97, (7, 8))]
  ∧ let run o rs := (x ← bert_normalizer u o (from_string (encode rs)); Ret (ns_norm x.1)) in
    run (BertOptions false false true false) [65; 0x301; 0x91CE; 10] = Ret (encode [65; 0x91CE; 10])
    ∧ run (BertOptions false false false true) [65; 0x301; 0x91CE; 10] = Ret (encode [97; 0x301; 0x91CE; 10])
    ∧ run (BertOptions true false false false) [65; 10; 9; 13; 0x3000; 0x301; 0xFFFD; 0] = Ret (encode [65; 32; 32; 32; 32; 0x301])
    ∧ run (BertOptions false true false false) [65; 0x301; 0x91CE; 10] = Ret (encode [65; 0x301; 32; 0x91CE; 32; 10]).
Proof. split; [unfold cleaned_away; cbn; lia|]. vm_compute. auto 10. Qed.

(** * C61 *)
Theorem C61_table_refuted : ¬ (∀ r, is_chinese r = true ↔ cjk_ideograph r).
Proof. intros H. destruct (H 0x2B820) as [_ H1]. assert (H2 : cjk_ideograph 0x2B820) by (unfold cjk_ideograph; lia). apply H1 in H2. vm_compute in H2. discriminate. Qed.
Print Assumptions C61_table_refuted.

(** Exactly the first 256 characters of extension E are missing. *)
Theorem C61_table_partial :
  ∀ r, is_chinese r = true ↔ cjk_ideograph r ∧ ¬ 0x2B820 <= r <= 0x2B91F.
Proof. intros r. unfold is_chinese, cjk_ideograph, chinese_table. cbn [existsb]. unfold byte_in. lia. Qed.
Print Assumptions C61_table_partial.

(** What this does to the text: surrounded by spaces iff in the table. *)
Example C61_example :
  is_chinese 0x91CE = true ∧ is_chinese 0x4E00 = true ∧ is_chinese 0x4DFF = false ∧ is_chinese 0x9FFF = true ∧ is_chinese 0xA000 = false ∧ is_chinese 0x2B920 = true ∧ is_chinese 0x2B91F = false ∧ is_chinese 0x3042 = false ∧ is_chinese 0xAC00 = false.
Proof. vm_compute. auto 20. Qed.

(** * C62 *)
Theorem C62_success :
  ∀ l n n', sequence_normalizer l n = Ret (n', None) ↔ all_succeed l n n'.
Proof.
  intros l n n'. split.
  - revert n. induction l as [|f l IH]; intros n H; cbn [sequence_normalizer] in H.
    + injection H as <-. constructor.
    + apply bind_Ret in H as ([n1 [e|]] & H1 & H); [done|]. econstructor; [exact H1|]. by apply IH.
  - induction 1 as [n|f l n n1 n' H1 H IH]; [done|]. cbn [sequence_normalizer]. rewrite H1. exact IH.
Qed.
Print Assumptions C62_success.

(** The error is that of the first normalizer that fails; what comes after it has no influence. *)
Theorem C62_failure :
  ∀ l n n' e, sequence_normalizer l n = Ret (n', Some e) ↔
  ∃ l1 (f : normalizer) l2 n1, l = l1 ++ f :: l2 ∧ all_succeed l1 n n1 ∧ f n1 = Ret (n', Some e).
Proof.
  intros l n n' e. split.
  - revert n. induction l as [|f l IH]; intros n H; cbn [sequence_normalizer] in H; [done|].
    apply bind_Ret in H as ([n1 [er|]] & H1 & H).
    + injection H as <- <-. exists [], f, l, n. split; [done|]. split; [constructor|done].
    + apply IH in H as (l1 & g & l2 & n2 & -> & H2 & H3). exists (f :: l1), g, l2, n2. split; [done|]. split; [by econstructor|done].
  - intros (l1 & f & l2 & n1 & -> & H1 & H2). induction H1 as [n|g l n n2 n3 H3 H IH]; cbn [app sequence_normalizer].
    + rewrite H2. done.
    + rewrite H3. by apply IH.
Qed.
Print Assumptions C62_failure.

Theorem C62_panic :
  ∀ l n, sequence_normalizer l n = Panic ↔
  ∃ l1 (f : normalizer) l2 n1, l = l1 ++ f :: l2 ∧ all_succeed l1 n n1 ∧ f n1 = Panic.
Proof.
  intros l n. split.
  - revert n. induction l as [|f l IH]; intros n H; cbn [sequence_normalizer] in H; [done|].
    destruct (f n) as [[n1 [e|]]|] eqn:E; [done| |].
    + cbn [mbind outcome_bind] in H. apply IH in H as (l1 & g & l2 & n2 & -> & H2 & H3). exists (f :: l1), g, l2, n2. split; [done|]. split; [by econstructor|done].
    + exists [], f, l, n. split; [done|]. split; [constructor|done].
  - intros (l1 & f & l2 & n1 & -> & H1 & H2). induction H1 as [n|g l n n2 n3 H3 H IH]; cbn [app sequence_normalizer].
    + rewrite H2. done.
    + rewrite H3. by apply IH.
Qed.
Print Assumptions C62_panic.

Theorem C62_flatten :
  ∀ ls n, sequence_normalizer (map sequence_normalizer ls) n = sequence_normalizer (concat ls) n.
Proof.
  intros ls. induction ls as [|l ls IH]; intros n; [done|]. cbn [map concat sequence_normalizer].
  revert n. induction l as [|f l IHl]; intros n; [cbn; apply IH|]. cbn [app sequence_normalizer]. destruct (f n) as [[n1 [e|]]|]; [done| |done].
  cbn [mbind outcome_bind]. rewrite <- IHl. done.
Qed.
Print Assumptions C62_flatten.

(** Lower-casing, then a failing normalizer, then trimming: " A " ends as " a ", with the error. *)
Example C62_example :
  let low := no_error (λ n, map_runes n (λ r, if r =? 65 then 97 else r)) in
  let failing : normalizer := λ n, Ret (n, Some EBadSplit) in
  (x ← sequence_normalizer [sequence_normalizer [low; failing]; strip_normalizer true true] (from_string [32; 65; 32]); Ret (ns_norm x.1, x.2))
  = Ret ([32; 97; 32], Some EBadSplit)
  ∧ (x ← sequence_normalizer [low; strip_normalizer true true] (from_string [32; 65; 32]); Ret (ns_norm x.1, x.2)) = Ret ([97], None).
Proof. vm_compute. auto. Qed.

(** * C66 *)
Theorem C66_lowercase :
  ∀ u n v, repr n v →
  ∃ n', lowercase_normalizer u n = Ret (n', None) ∧ repr n' (map (λ p, (sanitize (u_lower u p.1), p.2)) v) ∧ same_origin n n'.
Proof.
  intros u n v Hr. destruct (C07_map n v (u_lower u) Hr) as (n' & H & H'). exists n'. split; [|done]. unfold lowercase_normalizer, no_error. by rewrite H.
Qed.
Print Assumptions C66_lowercase.

Theorem C66_strip_partial :
  ∀ n left right lead mid trail,
  repr n (lead ++ mid ++ trail) → trimmed left right lead mid trail →
  Forall (λ p, p.1 < 128) lead ∨ mid = [] →
  ∃ n', strip_normalizer left right n = Ret (n', None) ∧ repr n' mid ∧ same_origin n n'.
Proof.
  intros n left right lead mid trail H1 H2 H3. destruct (trim_spec n left right lead mid trail H1 H2 H3) as (n' & H & H'). exists n'. split; [|done].
  unfold strip_normalizer, no_error. by rewrite H.
Qed.
Print Assumptions C66_strip_partial.

(** U+3000 before "abcdefgh". *)
Theorem C66_strip_refuted :
  ¬ (∀ n left right lead mid trail, wf_as n (lead ++ mid ++ trail) → trimmed left right lead mid trail →
     ∃ n', strip_normalizer left right n = Ret (n', None) ∧ repr n' mid ∧ same_origin n n').
Proof.
  intros H. apply C09_trim_refuted. intros n l r lead mid trail H1 H2. destruct (H n l r lead mid trail H1 H2) as (n' & H3 & H4).
  unfold strip_normalizer, no_error in H3. apply bind_Ret in H3 as (n1 & H3 & E). injection E as <-. by exists n1.
Qed.
Print Assumptions C66_strip_refuted.

Example C66_example :
  strip_normalizer true false (from_string (encode [32; 9; 0xE9; 32])) = Ret (NS (encode [32; 9; 0xE9; 32]) (encode [0xE9; 32]) [(2, 4); (2, 4); (4, 5)] 0, None)
  ∧ (let u := Unicode (λ _, false) (λ _, false) (λ _, false) (λ c, if c =? 0x130 then 105 else c) (λ c, c) in
     lowercase_normalizer u (from_string (encode [0x130; 98])) = Ret (NS (encode [0x130; 98]) [105; 98] [(0, 2); (2, 3)] 0, None)).
Proof. vm_compute. auto. Qed.
