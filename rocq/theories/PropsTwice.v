(** Property theorems C71 (normalizing twice). *)
From Coq Require Import ZifyBool Sorted.
From stdpp Require Import relations list_numbers.
From Verif Require Import GoBase Utf8Facts Strutils SplitPattern NormString Normalizers SpecText SpecNorm SpecHist SpecNormalizers
  SliceFacts StrutilsFacts PatternFacts NormFacts NormInv NormEdits HistFacts ByteFacts PropsNorm NormalizersFacts PropsNormalizers TwiceFacts.
Import GoBase NormString SpecNorm.
#[local] Open Scope Z_scope.

(** * C71 *)
Definition C71_statement (f : normalizer) : Prop :=
  ∀ n n1, wf n → f n = Ret (n1, None) → f n1 = Ret (n1, None).

Theorem C71_filter : ∀ keep, C71_statement (no_error (λ n, filter_runes n keep)).
Proof.
  intros keep n n1 Hwf H. unfold no_error in *. apply bind_Ret in H as (n2 & H & E). injection E as <-. by rewrite (filter_twice n keep n2).
Qed.
Print Assumptions C71_filter.

Theorem C71_strip : ∀ left right, C71_statement (strip_normalizer left right).
Proof.
  intros l r n n1 Hwf H. unfold strip_normalizer, no_error in *. apply bind_Ret in H as (n2 & H & E). injection E as <-. by rewrite (trim_twice n l r n2).
Qed.
Print Assumptions C71_strip.

(** Lower-casing is settled after one pass iff the table is after one step. *)
Theorem C71_lowercase :
  ∀ u, C71_statement (lowercase_normalizer u) ↔
  ∀ r, scalar r = true → sanitize (u_lower u (sanitize (u_lower u r))) = sanitize (u_lower u r).
Proof.
  intros u. split.
  - intros H r Hr. assert (Hw : wf_as (from_string (encode [r])) (fresh 0 [r])) by (apply from_string_wf; by repeat constructor).
    destruct (C66_lowercase u _ _ (proj1 Hw)) as (n1 & E1 & R1 & _). pose proof (H _ _ (ex_intro _ _ Hw) E1) as E2.
    destruct (C66_lowercase u _ _ R1) as (n2 & E3 & R2 & _). rewrite E2 in E3. injection E3 as <-.
    destruct R1 as (S1 & N1 & _), R2 as (S2 & N2 & _). rewrite N1 in N2. apply encode_inj_scalars in N2; [|done|done]. cbn in N2. by injection N2.
  - intros H n n1 (v & Hr & _) E1. destruct (C66_lowercase u n v Hr) as (n2 & E2 & R & _). rewrite E1 in E2. injection E2 as <-.
    unfold lowercase_normalizer, no_error. rewrite (map_kept n1 _ _ R); [done|]. destruct Hr as (Hs & _). clear -Hs H. induction v as [|[x a] v IH]; [constructor|].
    rewrite (fmap_cons fst) in Hs. apply Forall_cons in Hs as [Hx Hs]. cbn [map]. rewrite (fmap_cons fst). constructor; [by apply H|by apply IH].
Qed.
Print Assumptions C71_lowercase.

(** The BERT normalizer with its default options. False: a Chinese character gets two more spaces with each pass. *)
Theorem C71_bert_refuted : ∃ u, settles u default_bert ∧ ¬ C71_statement (bert_normalizer u default_bert).
Proof.
  exists (Unicode (λ _, false) (λ _, false) (λ _, false) (λ c, c) (λ c, c)). split.
  - split; [done|]. intros _ r Hr Hk. cbn [u_lower]. rewrite !sanitize_id by (rewrite ?sanitize_id; done). done.
  - intros H. assert (Hw : wf (from_string (encode [0x91CE]))) by (exists (fresh 0 [0x91CE]); apply from_string_wf; by repeat constructor).
    specialize (H _ (NS (encode [0x91CE]) (encode [32; 0x91CE; 32]) [(0, 3); (0, 3); (0, 3); (0, 3); (0, 3)] 0) Hw). vm_compute in H. specialize (H eq_refl). discriminate.
Qed.
Print Assumptions C71_bert_refuted.

(** Without the option for Chinese characters one pass settles the text and its spans. *)
Theorem C71_bert_partial :
  ∀ u o, settles u o → bo_chinese o = false → C71_statement (bert_normalizer u o).
Proof.
  intros u o Hset Hch n n1 Hwf H. destruct (bert_first u o n n1 Hset Hwf H) as (v1 & Hr & Hk).
  unfold bert_normalizer, no_error. by rewrite (proj1 (bert_second u o n1 v1 Hr Hk)).
Qed.
Print Assumptions C71_bert_partial.

(** With it the second pass never panics; all it does is put spaces around the Chinese characters once more,
    so that it changes nothing iff there are none. *)
Theorem C71_bert_chinese :
  ∀ u o n n1, settles u o → kept_by u o 32 → (bo_lower o = true → u_lower u 32 = 32) → bo_chinese o = true →
  wf n → bert_normalizer u o n = Ret (n1, None) →
  ∃ n2, bert_normalizer u o n1 = Ret (n2, None)
  ∧ ns_norm n2 = encode (spaced_out is_chinese (runes (ns_norm n1)))
  ∧ (n2 = n1 ↔ Forall (λ r, is_chinese r = false) (runes (ns_norm n1))).
Proof.
  intros u o n n1 Hset H32 Hl Hch Hwf H. destruct (bert_first u o n n1 Hset Hwf H) as (v1 & Hr & Hk).
  destruct (chinese_aligned n1 v1 Hr) as (n2 & E & R & O). exists n2.
  assert (Hn2 : ns_norm n2 = encode (spaced_out is_chinese (runes (ns_norm n1)))).
  { rewrite (repr_runes n1 v1 Hr), <- aspaced_fst. by destruct R as (_ & R & _). }
  split; [|split; [done|]].
  - unfold bert_normalizer, no_error. by rewrite (proj2 (bert_second u o n1 v1 Hr Hk)), E.
  - rewrite (repr_runes n1 v1 Hr). split.
    + intros ->. destruct R as (S2 & N2 & _). destruct Hr as (S1 & N1 & _). rewrite N1 in N2. apply encode_inj_scalars in N2; [|done|done].
      rewrite aspaced_fst in N2. apply (zlen_spaced is_chinese v1.*1). by rewrite <- N2.
    + intros Hn. rewrite aspaced_none in R by done. by eapply same_ns.
Qed.
Print Assumptions C71_bert_chinese.

(** "É" + TAB + "A" + NUL + "野": the first pass lower-cases, cleans and spaces out, the second one only spaces out. *)
Example C71_example :
  let u := Unicode (λ r, r =? 9) (λ r, r =? 0x301) (λ _, false) (λ c, if c =? 0xC9 then 0xE9 else if c =? 65 then 97 else c) (λ c, c) in
  let rs := [0xC9; 9; 65; 0; 0x91CE; 0x301] in
  let twice o := x ← bert_normalizer u o (from_string (encode rs)); y ← bert_normalizer u o x.1; Ret (runes (ns_norm x.1), runes (ns_norm y.1)) in
  twice default_bert = Ret ([0xE9; 32; 97; 32; 0x91CE; 32], [0xE9; 32; 97; 32; 32; 0x91CE; 32; 32])
  ∧ twice (BertOptions true false true true) = Ret ([0xE9; 32; 97; 0x91CE], [0xE9; 32; 97; 0x91CE]).
Proof. vm_compute. auto. Qed.
(** The hypotheses hold for these tables. *)
Example C71_settles_example :
  let u := Unicode (λ r, r =? 9) (λ r, r =? 0x301) (λ _, false) (λ c, if c =? 0xC9 then 0xE9 else if c =? 65 then 97 else c) (λ c, c) in
  settles u default_bert ∧ kept_by u default_bert 32.
Proof.
  intros u. assert (H32 : kept_by u default_bert 32).
  { split; [|done]. intros _. split; [|done]. unfold cleaned_away, u. cbn. lia. }
  split; [|done]. split; [done|]. intros _ r Hr Hk. cbn [u u_lower].
  destruct (r =? 0xC9) eqn:E1; [assert (r = 0xC9) as -> by lia|].
  { split; [|done]. split; [|done]. intros _. split; [unfold cleaned_away, u; cbn; lia|done]. }
  destruct (r =? 65) eqn:E2; [assert (r = 65) as -> by lia|].
  { split; [|done]. split; [|done]. intros _. split; [unfold cleaned_away, u; cbn; lia|done]. }
  rewrite (sanitize_id r Hr). rewrite E1, E2. split; [done|]. by apply sanitize_id.
Qed.
