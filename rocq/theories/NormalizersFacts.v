(** Facts about the normalizers. *)
From Coq Require Import ZifyBool Sorted.
From stdpp Require Import relations list_numbers.
From Verif Require Import GoBase Utf8Facts Strutils SplitPattern NormString Normalizers SpecText SpecNorm SpecHist SpecNormalizers
  SliceFacts StrutilsFacts PatternFacts NormFacts NormInv HistFacts ByteFacts PropsNorm.
Import GoBase NormString SpecNorm.
#[local] Open Scope Z_scope.

Lemma is_whitespace_white r : is_whitespace r = white_space r.
Proof. unfold is_whitespace. destruct ((r =? 9) || (r =? 10) || (r =? 13)) eqn:E; [|done]. assert (r = 9 ∨ r = 10 ∨ r = 13) as [->|[->| ->]] by lia; done. Qed.
Lemma clean_keep u r : negb ((r =? 0) || (r =? rune_error) || is_control u r) = true ↔ ¬ cleaned_away u r.
Proof.
  unfold cleaned_away, is_control, rune_error. destruct ((r =? 9) || (r =? 10) || (r =? 13)) eqn:E; [lia|].
  destruct (u_other u r); lia.
Qed.

Lemma filter_iff {A} (P Q : A → Prop) `{∀ x, Decision (P x), ∀ x, Decision (Q x)} (l : list A) : (∀ x, P x ↔ Q x) → base.filter P l = base.filter Q l.
Proof. intros E. induction l as [|x l IH]; [done|]. rewrite !filter_cons. rewrite IH. destruct (decide (P x)), (decide (Q x)); [done|exfalso; naive_solver..|done]. Qed.

Lemma sanitize_idem_scalars f (rs : list Z) : encode (map f rs) = encode (map (λ r, sanitize (f r)) rs).
Proof. induction rs as [|r rs IH]; [done|]. cbn [map]. rewrite !encode_cons, IH. f_equal. by rewrite encode_rune_sanitize. Qed.

Lemma map_runes_text n v f : repr n v → ∃ n', map_runes n f = Ret n' ∧ ns_norm n' = encode (map (λ r, sanitize (f r)) v.*1) ∧ repr n' (map (λ p, (sanitize (f p.1), p.2)) v) ∧ same_origin n n'.
Proof.
  intros Hr. eexists. split; [by apply map_runes_spec|]. cbn [ns_norm]. split; [|split; [split; [apply map_chars_scalars|done]|done]].
  f_equal. unfold map_chars. clear. induction v as [|p v IH]; [done|]. cbn. by f_equal.
Qed.

Definition holds_text (n : ns) (rs : list Z) : Prop := wf n ∧ scalars rs ∧ ns_norm n = encode rs.

Lemma holds_map n rs f n' : holds_text n rs → map_runes n f = Ret n' → holds_text n' (map (λ r, sanitize (f r)) rs) ∧ same_origin n n'.
Proof.
  intros (Hwf & Hs & Hn) H. destruct (map_runes_wf n f n' Hwf H) as [Hwf' Ho]. split; [|done]. split; [done|]. split.
  - apply Forall_map, Forall_forall. intros r _. apply sanitize_scalar.
  - destruct Hwf as (v & Hr & _). destruct (map_runes_text n v f Hr) as (n'' & E & H2 & _). rewrite E in H. injection H as ->.
    rewrite H2. do 2 f_equal. destruct Hr as (H3 & H4 & _). apply encode_inj_scalars; congruence.
Qed.
Lemma holds_filter n rs keep n' : holds_text n rs → filter_runes n keep = Ret n' → holds_text n' (base.filter (λ r, keep r = true) rs) ∧ same_origin n n'.
Proof.
  intros (Hwf & Hs & Hn) H. destruct (filter_runes_wf n keep n' Hwf H) as [Hwf' Ho]. split; [|done]. split; [done|]. split.
  - apply Forall_forall. intros r [_ Hr]%elem_of_list_filter. unfold scalars in Hs. rewrite Forall_forall in Hs. by apply Hs.
  - rewrite (filter_runes_text n keep n' H), Hn, runes_encode_scalars; done.
Qed.
Lemma holds_chinese n rs n' : holds_text n rs → handle_chinese n = Ret n' → holds_text n' (spaced_out is_chinese rs) ∧ same_origin n n'.
Proof.
  intros (Hwf & Hs & Hn) H. unfold handle_chinese in H. destruct (transform_wf _ _ _ n' Hwf H) as [Hwf' Ho]. split; [|done]. split; [done|]. split.
  - clear -Hs. induction Hs as [|r rs Hr Hs IH]; [constructor|]. unfold spaced_out. cbn [flat_map]. apply Forall_app. split; [|done].
    destruct (is_chinese r); by repeat constructor.
  - rewrite (transform_text _ _ _ _ H), Hn, runes_encode_scalars by done. f_equal. clear. unfold chinese_changes, spaced_out. induction rs as [|r rs IH]; [done|].
    cbn [flat_map]. rewrite fmap_app, IH. f_equal. by destruct (is_chinese r).
Qed.

Lemma bert_clean_text u n rs n' : holds_text n rs → clean_text u n = Ret n' → holds_text n' (cleaned u rs) ∧ same_origin n n'.
Proof.
  intros H0 H. unfold clean_text in H. apply bind_Ret in H as (n1 & H1 & H2). destruct (holds_filter _ _ _ _ H0 H1) as [G1 O1]. destruct (holds_map _ _ _ _ G1 H2) as [G2 O2].
  split; [|destruct O1, O2; split; congruence]. unfold cleaned.
  rewrite <- (filter_iff (λ r, negb ((r =? 0) || (r =? rune_error) || is_control u r) = true) _ rs (clean_keep u)).
  match goal with |- holds_text _ ?x => match type of G2 with holds_text _ ?y => assert (E : x = y); [|by rewrite E] end end.
  apply map_ext_in. intros r Hr. rewrite is_whitespace_white. destruct (white_space r); [done|]. symmetry. apply sanitize_id.
  destruct G1 as (_ & G1 & _). unfold scalars in G1. rewrite Forall_forall in G1. apply G1. by apply elem_of_list_In.
Qed.

Lemma bert_text_spec u o n rs n' : holds_text n rs → bert_normalize u o n = Ret n' → holds_text n' (bert_text u o rs) ∧ same_origin n n'.
Proof.
  intros H0 H. unfold bert_normalize in H. apply bind_Ret in H as (n1 & H1 & H). apply bind_Ret in H as (n2 & H2 & H). apply bind_Ret in H as (n3 & H3 & H4).
  unfold bert_text.
  assert (G1 : holds_text n1 (when (bo_clean o) (cleaned u) rs) ∧ same_origin n n1).
  { destruct (bo_clean o); cbn [when]; [by eapply bert_clean_text|]. by injection H1 as <-. }
  destruct G1 as [G1 O1].
  assert (G2 : holds_text n2 (when (bo_chinese o) (spaced_out is_chinese) (when (bo_clean o) (cleaned u) rs)) ∧ same_origin n1 n2).
  { destruct (bo_chinese o); cbn [when]; [by eapply holds_chinese|]. by injection H2 as <-. }
  destruct G2 as [G2 O2].
  assert (G3 : holds_text n3 (when (bo_accents o) (unmarked u) (when (bo_chinese o) (spaced_out is_chinese) (when (bo_clean o) (cleaned u) rs))) ∧ same_origin n2 n3).
  { destruct (bo_accents o); cbn [when]; [|by injection H3 as <-]. unfold unmarked.
    erewrite filter_iff; [by eapply (holds_filter _ _ (λ r, negb (u_mn u r))); [exact G2|exact H3]|]. intros r. cbn. destruct (u_mn u r); naive_solver. }
  destruct G3 as [G3 O3].
  assert (G4 : holds_text n' (when (bo_lower o) (lowered u) (when (bo_accents o) (unmarked u) (when (bo_chinese o) (spaced_out is_chinese) (when (bo_clean o) (cleaned u) rs)))) ∧ same_origin n3 n').
  { destruct (bo_lower o); cbn [when]; [by eapply holds_map|]. by injection H4 as <-. }
  destruct G4 as [G4 O4]. split; [done|]. destruct O1, O2, O3, O4; split; congruence.
Qed.

(** ** With spans *)
Lemma filter_aligned n v keep : repr n v → ascii_lead (λ r, keep r = false) v.*1 →
  ∃ n', filter_runes n keep = Ret n' ∧ repr n' (base.filter (λ p, keep p.1 = true) v) ∧ same_origin n n'.
Proof.
  intros Hr Hl. apply C08_filter_partial; [done|]. intros v0 p v2 -> H0 Hp.
  rewrite fmap_app, (fmap_cons fst) in Hl. specialize (Hl v0.*1 p.1 v2.*1 eq_refl). rewrite !Forall_fmap in Hl. apply Hl; [done|]. cbn. congruence.
Qed.
Lemma rewrite_chinese prev v : scalars v.*1 → rewrite_chars prev v (chinese_changes v.*1) = Some (aspaced_out is_chinese v).
Proof.
  revert prev. induction v as [|[x a] v IH]; intros prev Hs; [done|]. rewrite (fmap_cons fst) in *. cbn [fst] in *. apply Forall_cons in Hs as [Hx Hs].
  unfold chinese_changes, aspaced_out. cbn [flat_map fst snd]. destruct (is_chinese x); cbn [app rewrite_chars].
  - change (1 <=? 0) with false. cbv iota. rewrite decide_True by lia. change (Z.to_nat (- 0)) with 0%nat. rewrite drop_0, take_0, fmap_nil. cbn [last default].
    change (1 <=? 1) with true. cbv iota. fold (chinese_changes v.*1). rewrite (IH a Hs). cbn [mbind option_bind]. rewrite !sanitize_id by done. done.
  - change (1 <=? 0) with false. cbv iota. rewrite decide_True by lia. change (Z.to_nat (- 0)) with 0%nat. rewrite drop_0, take_0, fmap_nil. cbn [last default].
    fold (chinese_changes v.*1). rewrite (IH a Hs). cbn [mbind option_bind]. by rewrite !sanitize_id by done.
Qed.
Lemma aspaced_scalars c v : scalars v.*1 → scalars (aspaced_out c v).*1.
Proof.
  induction v as [|[x a] v IH]; intros Hs; [done|]. rewrite (fmap_cons fst) in Hs. cbn [fst] in Hs. apply Forall_cons in Hs as [Hx Hs].
  unfold aspaced_out. cbn [flat_map fst snd]. rewrite fmap_app. apply Forall_app. split; [|by apply IH]. destruct (c x); by repeat constructor.
Qed.
Lemma chinese_aligned n v : repr n v → ∃ n', handle_chinese n = Ret n' ∧ repr n' (aspaced_out is_chinese v) ∧ same_origin n n'.
Proof.
  intros Hr. unfold handle_chinese. rewrite (repr_runes n v Hr). pose proof Hr as (Hs & _).
  pose proof (transform_spec n [] v (chinese_changes v.*1) Hr) as H. rewrite alen_nil in H. rewrite H, rewrite_chinese by done. eexists. split; [done|]. split; [|done].
  split; [by apply aspaced_scalars|done].
Qed.

Lemma ascii_lead_iff (P Q : Z → Prop) rs : (∀ r, P r ↔ Q r) → ascii_lead P rs → ascii_lead Q rs.
Proof. intros E H l c r Hrs Hl Hc. apply (H l c r Hrs); [|by rewrite E]. eapply Forall_impl; [exact Hl|]. intros x. apply E. Qed.

Lemma bert_aligned_spec u o n v : repr n v →
  (bo_clean o = true → ascii_lead (cleaned_away u) v.*1) →
  (bo_accents o = true → ascii_lead (λ r, u_mn u r = true) (when (bo_chinese o) (spaced_out is_chinese) (when (bo_clean o) (cleaned u) v.*1))) →
  ∃ n', bert_normalize u o n = Ret n' ∧ repr n' (bert_aligned u o v) ∧ same_origin n n'.
Proof.
  intros Hr Hc Ha.
  assert (∃ n1, (if bo_clean o then clean_text u n else Ret n) = Ret n1 ∧ repr n1 (when (bo_clean o) (acleaned u) v) ∧ same_origin n n1) as (n1 & E1 & R1 & O1).
  { destruct (bo_clean o); cbn [when]; [|by exists n]. unfold clean_text.
    destruct (filter_aligned n v (λ r, negb ((r =? 0) || (r =? rune_error) || is_control u r)) Hr) as (n0 & H0 & R0 & O0).
    { eapply ascii_lead_iff; [|by apply Hc]. intros r. cbn. rewrite <- not_true_iff_false, clean_keep. destruct (decide (cleaned_away u r)); tauto. }
    rewrite H0. cbn [mbind outcome_bind]. destruct (map_runes_text n0 _ (λ r, if is_whitespace r then 32 else r) R0) as (n1 & H1 & _ & R1 & O1). exists n1. split; [done|].
    split; [|destruct O0, O1; split; congruence]. unfold acleaned.
    rewrite <- (filter_iff (λ p : Z * (Z * Z), negb ((p.1 =? 0) || (p.1 =? rune_error) || is_control u p.1) = true) _ v (λ p, clean_keep u p.1)).
    match goal with |- repr _ ?x => match type of R1 with repr _ ?y => assert (E : x = y); [|by rewrite E] end end.
    apply map_ext_in. intros p Hp. rewrite is_whitespace_white. destruct (white_space p.1); [done|]. f_equal. symmetry. apply sanitize_id.
    destruct R0 as (R0 & _). unfold scalars in R0. rewrite Forall_fmap, Forall_forall in R0. apply R0. by apply elem_of_list_In. }
  assert (∃ n2, (if bo_chinese o then handle_chinese n1 else Ret n1) = Ret n2 ∧ repr n2 (when (bo_chinese o) (aspaced_out is_chinese) (when (bo_clean o) (acleaned u) v)) ∧ same_origin n1 n2)
    as (n2 & E2 & R2 & O2).
  { destruct (bo_chinese o); cbn [when]; [|by exists n1]. by apply chinese_aligned. }
  assert (Ht1 : (when (bo_clean o) (acleaned u) v).*1 = when (bo_clean o) (cleaned u) v.*1).
  { destruct (bo_clean o); cbn [when]; [|done]. unfold acleaned, cleaned. clear. induction v as [|p v IH]; [done|]. rewrite (fmap_cons fst), !filter_cons.
    destruct (decide _); [|done]. cbn [map]. rewrite (fmap_cons fst). f_equal. done. }
  assert (Ht2 : (when (bo_chinese o) (aspaced_out is_chinese) (when (bo_clean o) (acleaned u) v)).*1
    = when (bo_chinese o) (spaced_out is_chinese) (when (bo_clean o) (cleaned u) v.*1)).
  { rewrite <- Ht1. destruct (bo_chinese o); cbn [when]; [|done]. generalize (when (bo_clean o) (acleaned u) v) as w. clear. unfold aspaced_out, spaced_out.
    induction w as [|[x a] w IH]; [done|]. cbn [flat_map fst snd]. rewrite fmap_app, (fmap_cons fst), IH. cbn [fst flat_map]. f_equal. by destruct (is_chinese x). }
  assert (∃ n3, (if bo_accents o then strip_accents u n2 else Ret n2) = Ret n3
    ∧ repr n3 (when (bo_accents o) (aunmarked u) (when (bo_chinese o) (aspaced_out is_chinese) (when (bo_clean o) (acleaned u) v))) ∧ same_origin n2 n3) as (n3 & E3 & R3 & O3).
  { rewrite <- Ht2 in Ha. destruct (bo_accents o); cbn [when]; [|by exists n2]. unfold strip_accents, aunmarked.
    destruct (filter_aligned n2 _ (λ r, negb (u_mn u r)) R2) as (n3 & H3 & R3 & O3).
    { eapply ascii_lead_iff; [|by apply Ha]. intros r. cbn. by destruct (u_mn u r). }
    exists n3. split; [done|]. split; [|done]. erewrite filter_iff; [exact R3|]. intros p. cbn. destruct (u_mn u p.1); naive_solver. }
  assert (∃ n4, (if bo_lower o then map_runes n3 (u_lower u) else Ret n3) = Ret n4 ∧ repr n4 (bert_aligned u o v) ∧ same_origin n3 n4) as (n4 & E4 & R4 & O4).
  { unfold bert_aligned. destruct (bo_lower o); cbn [when]; [|by exists n3]. destruct (map_runes_text n3 _ (u_lower u) R3) as (n4 & H4 & _ & R4 & O4). by exists n4. }
  exists n4. unfold bert_normalize. rewrite E1. cbn [mbind outcome_bind]. rewrite E2. cbn [mbind outcome_bind]. rewrite E3. cbn [mbind outcome_bind].
  split; [done|]. split; [done|]. destruct O1, O2, O3, O4; split; congruence.
Qed.
