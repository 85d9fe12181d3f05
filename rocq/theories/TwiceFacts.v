(** Proofs for C71: normalizing twice. *)
From Coq Require Import ZifyBool Sorted.
From stdpp Require Import relations list_numbers.
From Verif Require Import GoBase Utf8Facts Strutils SplitPattern NormString Normalizers SpecText SpecNorm SpecHist SpecNormalizers
  SliceFacts StrutilsFacts PatternFacts NormFacts NormInv NormEdits HistFacts ByteFacts PropsNorm NormalizersFacts.
Import GoBase NormString SpecNorm.
#[local] Open Scope Z_scope.

Lemma same_ns n n' v : repr n v → repr n' v → same_origin n n' → n' = n.
Proof. intros (_ & H1 & H2) (_ & H3 & H4) [H5 H6]. destruct n, n'. cbn in *. congruence. Qed.

Lemma filter_all {A} (P : A → Prop) `{∀ x, Decision (P x)} l : Forall P l → base.filter P l = l.
Proof. induction 1 as [|x l Hx _ IH]; [done|]. rewrite filter_cons, decide_True by done. by f_equal. Qed.

Lemma filter_kept n v keep : repr n v → Forall (λ r, keep r = true) v.*1 → filter_runes n keep = Ret n.
Proof.
  intros Hr Hk. rewrite Forall_fmap in Hk. destruct (C08_filter_partial n v keep Hr) as (n' & H & R & O).
  - intros v0 p v2 -> H0 _. destruct v0 as [|q v0]; [constructor|]. apply Forall_cons in H0 as [H0 _]. apply Forall_cons in Hk as [Hk _]. cbn in Hk. congruence.
  - rewrite filter_all in R by done. rewrite H. f_equal. by eapply same_ns.
Qed.
Lemma map_kept n v f : repr n v → Forall (λ r, sanitize (f r) = r) v.*1 → map_runes n f = Ret n.
Proof.
  intros Hr Hk. destruct (C07_map n v f Hr) as (n' & H & R & O). rewrite H. f_equal. eapply same_ns; [exact Hr| |done].
  replace v with (map (λ p : Z * (Z * Z), (sanitize (f p.1), p.2)) v) at 1; [done|]. rewrite Forall_fmap in Hk. clear -Hk.
  induction Hk as [|[x a] v Hx _ IH]; [done|]. cbn in *. by rewrite Hx, IH.
Qed.

Lemma filter_twice n keep n1 : wf n → filter_runes n keep = Ret n1 → filter_runes n1 keep = Ret n1.
Proof.
  intros Hwf H. destruct (filter_runes_wf n keep n1 Hwf H) as [(v1 & Hr1 & _) _]. apply (filter_kept n1 v1); [done|].
  rewrite <- (repr_runes n1 v1 Hr1), (filter_runes_text n keep n1 H), runes_encode_scalars.
  - apply Forall_forall. by intros r [Hr _]%elem_of_list_filter.
  - apply Forall_forall. intros r [_ Hr]%elem_of_list_filter. pose proof (runes_scalars (ns_norm n)) as Hs. unfold scalars in Hs. rewrite Forall_forall in Hs. by apply Hs.
Qed.

Lemma trim_kept n v left right : repr n v → trimmed left right [] v [] → trim_left_right n left right = Ret n.
Proof.
  intros Hr Ht. destruct (trim_spec n left right [] v []) as (n' & H & R & O); [by rewrite app_nil_r|done|by left|].
  rewrite H. f_equal. by eapply same_ns.
Qed.
Lemma trim_twice n left right n1 : wf n → trim_left_right n left right = Ret n1 → trim_left_right n1 left right = Ret n1.
Proof.
  intros Hwf H. destruct (trim_wf n left right n1 Hwf H) as [(v1 & Hr1 & _) _]. apply (trim_kept n1 v1); [done|].
  destruct Hwf as (v & Hr & _). destruct (C09_trimmed_exists left right v) as (lead & mid & trail & -> & Ht).
  pose proof (trim_text n left right lead mid trail n1 Hr Ht H) as Hn. destruct Hr1 as (Hs1 & Hn1 & _).
  assert (v1.*1 = mid.*1) as E.
  { apply encode_inj_scalars; [done| |congruence]. destruct Hr as (Hs & _). rewrite !fmap_app in Hs. apply Forall_app in Hs as [_ Hs]. by apply Forall_app in Hs as [Hs _]. }
  clear -Ht E. destruct Ht as (_ & _ & H1 & H2). split; [constructor|]. split; [constructor|]. split.
  - destruct left; [|done]. intros p m ->. destruct mid as [|q mid]; [done|]. rewrite !(fmap_cons fst) in E. injection E as E _.
    unfold white. rewrite E. by apply (H1 q mid).
  - destruct right; [|done]. intros p m ->. destruct mid as [|q mid _] using rev_ind; [by destruct m|].
    rewrite !fmap_app in E. cbn in E. apply app_inj_tail in E as [_ E]. unfold white. rewrite E. by apply (H2 q mid).
Qed.

(** ** BERT *)
Lemma kept_cleaned u o rs : bo_clean o = true → Forall (kept_by u o) rs → cleaned u rs = rs.
Proof.
  intros Hc H. unfold cleaned. rewrite filter_all.
  - induction H as [|r rs [Hr _] _ IH]; [done|]. cbn [map]. destruct (Hr Hc) as [_ Hw]. rewrite IH. f_equal. destruct (white_space r); [symmetry; auto|done].
  - eapply Forall_impl; [exact H|]. intros r [Hr _]. by destruct (Hr Hc).
Qed.
Lemma cleaned_kept u rs : u_other u 32 = false → Forall (λ r, ¬ cleaned_away u r ∧ (white_space r = true → r = 32)) (cleaned u rs).
Proof.
  intros H32. unfold cleaned. apply Forall_map, Forall_forall. intros r [Hr _]%elem_of_list_filter.
  destruct (white_space r) eqn:E; [|split; [done|congruence]]. split; [|done]. unfold cleaned_away. intros [?|[?|(? & _)]]; [lia|lia|congruence].
Qed.

(** The text after one pass, before lower-casing. *)
Definition half_text (u : unicode) (o : bert_options) (rs : list Z) : list Z :=
  when (bo_accents o) (unmarked u) (when (bo_chinese o) (spaced_out is_chinese) (when (bo_clean o) (cleaned u) rs)).
Lemma spaced_Forall (P : Z → Prop) c rs : P 32 → Forall P rs → Forall P (spaced_out c rs).
Proof. intros H32 H. induction H as [|r rs Hr _ IH]; [constructor|]. unfold spaced_out. cbn [flat_map]. apply Forall_app. split; [|exact IH]. destruct (c r); by repeat constructor. Qed.
Lemma half_kept u o rs : (bo_clean o = true → u_other u 32 = false) → Forall (kept_by u o) (half_text u o rs).
Proof.
  intros H32. unfold half_text.
  assert (H1 : Forall (λ r, bo_clean o = true → ¬ cleaned_away u r ∧ (white_space r = true → r = 32))
    (when (bo_chinese o) (spaced_out is_chinese) (when (bo_clean o) (cleaned u) rs))).
  { assert (H0 : Forall (λ r, bo_clean o = true → ¬ cleaned_away u r ∧ (white_space r = true → r = 32)) (when (bo_clean o) (cleaned u) rs)).
    { destruct (bo_clean o); cbn [when].
      - eapply Forall_impl; [by apply cleaned_kept, H32|]. cbn. auto.
      - apply Forall_forall. done. }
    destruct (bo_chinese o); cbn [when]; [|done]. apply spaced_Forall; [|done]. intros Hc. split; [|done].
    unfold cleaned_away. intros [?|[?|(Hx & _)]]; [lia|lia|]. rewrite H32 in Hx; done. }
  destruct (bo_accents o) eqn:Ea; cbn [when]; unfold kept_by; rewrite Ea.
  - unfold unmarked. apply Forall_forall. intros r [Hr Hin]%elem_of_list_filter. rewrite Forall_forall in H1. split; [by apply H1|].
    intros _. by apply not_true_iff_false.
  - eapply Forall_impl; [exact H1|]. cbn. done.
Qed.
Lemma bert_kept u o rs : settles u o → scalars rs →
  Forall (λ r, kept_by u o r ∧ (bo_lower o = true → sanitize (u_lower u r) = r)) (bert_text u o rs).
Proof.
  intros [H32 Hl] Hs. unfold bert_text. fold (half_text u o rs). pose proof (half_kept u o rs H32) as Hk.
  assert (Hsc : scalars (half_text u o rs)).
  { unfold half_text. assert (H0 : scalars (when (bo_clean o) (cleaned u) rs)).
    { destruct (bo_clean o); cbn [when]; [|done]. unfold cleaned. apply Forall_map, Forall_forall. intros r [_ Hr]%elem_of_list_filter.
      unfold scalars in Hs. rewrite Forall_forall in Hs. destruct (white_space r); [done|by apply Hs]. }
    assert (H1 : scalars (when (bo_chinese o) (spaced_out is_chinese) (when (bo_clean o) (cleaned u) rs))).
    { destruct (bo_chinese o); cbn [when]; [|done]. by apply spaced_Forall. }
    destruct (bo_accents o); cbn [when]; [|done]. apply Forall_forall. intros r [_ Hr]%elem_of_list_filter.
    unfold scalars in H1. rewrite Forall_forall in H1. by apply H1. }
  destruct (bo_lower o) eqn:El; cbn [when].
  - unfold lowered. apply Forall_map, Forall_forall. intros r Hr. unfold scalars in Hsc. rewrite Forall_forall in Hk, Hsc.
    destruct (Hl eq_refl r (Hsc r Hr) (Hk r Hr)) as [H1 H2]. split; [done|]. intros _. exact H2.
  - eapply Forall_impl; [exact Hk|]. cbn. done.
Qed.

Lemma clean_kept u o n v : bo_clean o = true → repr n v → Forall (kept_by u o) v.*1 → clean_text u n = Ret n.
Proof.
  intros Hc Hr Hk. unfold clean_text. rewrite (filter_kept n v); [|done|].
  - cbn [mbind outcome_bind]. apply (map_kept n v); [done|]. destruct Hr as (Hs & _). unfold scalars in Hs. rewrite Forall_forall in *. intros r Hin.
    rewrite is_whitespace_white. destruct (Hk r Hin) as [Hr _]. destruct (Hr Hc) as [_ Hw]. destruct (white_space r); [by rewrite Hw|]. apply sanitize_id. by apply Hs.
  - eapply Forall_impl; [exact Hk|]. intros r [H _]. apply clean_keep. by destruct (H Hc).
Qed.
Lemma accents_kept u o n v : bo_accents o = true → repr n v → Forall (kept_by u o) v.*1 → strip_accents u n = Ret n.
Proof.
  intros Ha Hr Hk. unfold strip_accents. apply (filter_kept n v); [done|]. eapply Forall_impl; [exact Hk|]. intros r [_ H]. cbn. by rewrite (H Ha).
Qed.

Lemma bert_second u o n v : repr n v → Forall (λ r, kept_by u o r ∧ (bo_lower o = true → sanitize (u_lower u r) = r)) v.*1 →
  (bo_chinese o = false → bert_normalize u o n = Ret n)
  ∧ (bo_chinese o = true → kept_by u o 32 → (bo_lower o = true → u_lower u 32 = 32) →
     bert_normalize u o n = handle_chinese n).
Proof.
  intros Hr Hk. assert (Hk1 : Forall (kept_by u o) v.*1) by (eapply Forall_impl; [exact Hk|]; naive_solver).
  assert (E1 : (if bo_clean o then clean_text u n else Ret n) = Ret n).
  { destruct (bo_clean o) eqn:E; [|done]. by apply (clean_kept u o n v). }
  split.
  - intros Hch. unfold bert_normalize. rewrite E1, Hch. cbn [mbind outcome_bind].
    assert ((if bo_accents o then strip_accents u n else Ret n) = Ret n) as ->.
    { destruct (bo_accents o) eqn:E; [|done]. by apply (accents_kept u o n v). }
    cbn [mbind outcome_bind]. destruct (bo_lower o) eqn:E; [|done]. apply (map_kept n v); [done|]. eapply Forall_impl; [exact Hk|]. cbn. naive_solver.
  - intros Hch H32 Hl. unfold bert_normalize. rewrite E1, Hch. cbn [mbind outcome_bind]. destruct (chinese_aligned n v Hr) as (n2 & E2 & R2 & _). rewrite E2. cbn [mbind outcome_bind].
    assert (Hk2 : Forall (λ r, kept_by u o r ∧ (bo_lower o = true → sanitize (u_lower u r) = r)) (aspaced_out is_chinese v).*1).
    { assert ((aspaced_out is_chinese v).*1 = spaced_out is_chinese v.*1) as ->.
      { clear. unfold aspaced_out, spaced_out. induction v as [|[x a] w IH]; [done|]. cbn [flat_map fst snd]. rewrite fmap_app, (fmap_cons fst), IH. cbn [fst flat_map].
        f_equal. by destruct (is_chinese x). }
      apply spaced_Forall; [|done]. split; [done|]. intros E. by rewrite (Hl E). }
    assert (Hk3 : Forall (kept_by u o) (aspaced_out is_chinese v).*1) by (eapply Forall_impl; [exact Hk2|]; naive_solver).
    assert ((if bo_accents o then strip_accents u n2 else Ret n2) = Ret n2) as ->.
    { destruct (bo_accents o) eqn:E; [|done]. by apply (accents_kept u o n2 (aspaced_out is_chinese v)). }
    cbn [mbind outcome_bind]. destruct (bo_lower o) eqn:E; [|done]. apply (map_kept n2 _ _ R2). eapply Forall_impl; [exact Hk2|]. cbn. naive_solver.
Qed.

Lemma bert_first u o n n1 : settles u o → wf n → bert_normalizer u o n = Ret (n1, None) →
  ∃ v1, repr n1 v1 ∧ Forall (λ r, kept_by u o r ∧ (bo_lower o = true → sanitize (u_lower u r) = r)) v1.*1.
Proof.
  intros Hset (v & (Hs & Hn & Ha) & Hw) H. unfold bert_normalizer, no_error in H. apply bind_Ret in H as (n2 & H & E). injection E as <-.
  destruct (bert_text_spec u o n v.*1 n2) as [((v1 & Hr1 & _) & Hs1 & Hn1) _]; [|done|].
  - split; [by exists v|done].
  - exists v1. split; [done|]. destruct Hr1 as (Hs2 & Hn2 & _). replace v1.*1 with (bert_text u o v.*1); [by apply bert_kept|].
    apply encode_inj_scalars; congruence.
Qed.
Lemma zlen_spaced c rs : zlen rs <= zlen (spaced_out c rs) ∧ (zlen (spaced_out c rs) = zlen rs → Forall (λ r, c r = false) rs).
Proof.
  induction rs as [|r rs [IH1 IH2]]; [done|]. unfold spaced_out in *. cbn [flat_map]. rewrite zlen_app. destruct (c r) eqn:E; rewrite ?zlen_cons, ?zlen_nil.
  - split; [lia|]. intros. exfalso. lia.
  - split; [lia|]. intros. constructor; [done|]. apply IH2. lia.
Qed.
Lemma spaced_none c rs : Forall (λ r, c r = false) rs → spaced_out c rs = rs.
Proof. induction 1 as [|r rs Hr _ IH]; [done|]. unfold spaced_out in *. cbn [flat_map]. by rewrite Hr, IH. Qed.
Lemma aspaced_none c v : Forall (λ r, c r = false) v.*1 → aspaced_out c v = v.
Proof. rewrite Forall_fmap. induction 1 as [|r rs Hr _ IH]; [done|]. unfold aspaced_out in *. cbn [flat_map]. cbn in Hr. by rewrite Hr, IH. Qed.
Lemma aspaced_fst c v : (aspaced_out c v).*1 = spaced_out c v.*1.
Proof.
  unfold aspaced_out, spaced_out. induction v as [|[x a] w IH]; [done|]. cbn [flat_map fst snd]. rewrite fmap_app, (fmap_cons fst), IH. cbn [fst flat_map].
  f_equal. by destruct (c x).
Qed.
