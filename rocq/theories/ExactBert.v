(** When cleaning text is exact. *)
From Coq Require Import ZifyBool Sorted.
From stdpp Require Import relations.
From Verif Require Import GoBase Utf8Facts Strutils SplitPattern NormString Normalizers SpecText SpecNorm SpecHist SpecNormalizers SliceFacts StrutilsFacts
  PatternFacts NormFacts NormInv NormEdits ByteFacts PropsNorm NormalizersFacts ExactFacts.
Import GoBase NormString SpecNorm.
#[local] Open Scope Z_scope.

Lemma head_span n v a l : repr n v → ns_al n = a :: l → ∃ x v', v = (x, a) :: v'.
Proof.
  intros (_ & _ & E) E'. rewrite E' in E. destruct v as [|[x b] v]; [done|]. rewrite spans_of_cons in E.
  pose proof (rune_len_bounds x) as Hb. unfold rune_len, zlen in Hb. destruct (length (encode_rune x)) as [|k]; [lia|].
  cbn [repeat app] in E. injection E as -> _. by exists x, v.
Qed.

Lemma rest_head u o x a v : bo_accents o = false → bo_clean o = false → ∃ y w, bert_aligned u o ((x, a) :: v) = (y, a) :: w.
Proof.
  intros Ha Hc. unfold bert_aligned. rewrite Ha, Hc. cbn [when]. destruct (bo_chinese o); cbn [when]; unfold aspaced_out, alowered.
  - cbn [flat_map fst snd]. destruct (is_chinese x); cbn [app]; destruct (bo_lower o); cbn [when map fst snd]; eauto.
  - destruct (bo_lower o); cbn [when map fst snd]; eauto.
Qed.

Lemma clean_needs u o rs : scalars rs → bo_clean o = true → bo_accents o = false →
  (∃ n', bert_normalizer u o (from_string (encode rs)) = Ret (n', None) ∧ repr n' (bert_aligned u o (fresh 0 rs))) →
  ascii_lead (cleaned_away u) rs.
Proof.
  intros Hs Hc Ha (n' & H & Hr) l c r -> Hl Hk.
  set (n := from_string (encode (l ++ c :: r))) in *.
  set (keep := λ r, negb ((r =? 0) || (r =? rune_error) || is_control u r)).
  assert (Forall (λ r, keep r = false) l) as Hl'.
  { eapply Forall_impl; [exact Hl|]. intros x Hx. cbn. apply not_true_iff_false. unfold keep. rewrite clean_keep. tauto. }
  assert (keep c = true) as Hk' by (by apply clean_keep).
  unfold bert_normalizer, no_error in H. apply bind_Ret in H as (n4 & H & [= ->]).
  unfold bert_normalize in H. rewrite Hc in H. apply bind_Ret in H as (n1 & H1 & H).
  unfold clean_text in H1. apply bind_Ret in H1 as (n0 & H0 & H1). fold keep in H0.
  destruct (filter_runes_wf n keep n0) as [(v0 & R0 & _) _]; [by exists (fresh 0 (l ++ c :: r)); apply from_string_wf|done|].
  unfold filter_runes in H0. unfold n in H0. rewrite (repr_runes _ _ (from_string_repr _ Hs)), fresh_chars in H0. fold n in H0.
  destruct (filter_loop_first keep l c r 0 Hl' Hk') as (cs & w & E & Hcs). rewrite E in H0. cbn [fst snd] in H0. rewrite Z.add_0_l in H0.
  apply transform_head in H0 as (a & al & Hal & Hn0); [|done].
  destruct (head_span _ _ _ _ R0 Hn0) as (x & v0' & ->).
  destruct (map_runes_text n0 _ (λ r, if is_whitespace r then 32 else r) R0) as (n1' & H1' & _ & R1 & _).
  rewrite H1 in H1'. injection H1' as <-. cbn [map fst snd] in R1.
  set (o' := BertOptions false (bo_chinese o) false (bo_lower o)).
  destruct (bert_aligned_spec u o' n1 _ R1) as (n4' & H4 & R4 & _); [done|done|].
  rewrite Ha in H. change (bert_normalize u o' n1 = Ret n') in H. rewrite H in H4. injection H4 as <-.
  destruct (rest_head u o' (sanitize (if is_whitespace x then 32 else x)) a (map (λ p, (sanitize (if is_whitespace p.1 then 32 else p.1), p.2)) v0')) as (y1 & w1 & E1); [done|done|].
  assert (bert_aligned u o (fresh 0 (l ++ c :: r)) = bert_aligned u o' (acleaned u (fresh 0 (l ++ c :: r)))) as Eo.
  { unfold bert_aligned. rewrite Hc, Ha. done. }
  assert (acleaned u (fresh 0 (l ++ c :: r)) = (if white_space c then 32 else c, (zlen (encode l), zlen (encode l) + rune_len c))
     :: map (λ p, (if white_space p.1 then 32 else p.1, p.2)) (base.filter (λ p, keep p.1 = true) (fresh (0 + zlen (encode l) + rune_len c) r))) as Ec.
  { unfold acleaned. rewrite <- (filter_iff (λ p : Z * (Z * Z), keep p.1 = true) _ _ (λ p, clean_keep u p.1)).
    rewrite (fresh_filter keep 0 l c r Hl' Hk'). done. }
  destruct (rest_head u o' (if white_space c then 32 else c) (zlen (encode l), zlen (encode l) + rune_len c)
    (map (λ p, (if white_space p.1 then 32 else p.1, p.2)) (base.filter (λ p, keep p.1 = true) (fresh (0 + zlen (encode l) + rune_len c) r)))) as (y2 & w2 & E2); [done|done|].
  rewrite Eo, Ec, E2 in Hr. rewrite E1 in R4. pose proof (repr_unique _ _ _ Hr R4) as Eq. injection Eq as _ Eq _.
  apply encode_count_ascii; [by apply scalars_app in Hs as [? _]|].
  pose proof (encode_count l). destruct (decide (zlen l < zlen (encode l))) as [Hlt|]; [|lia]. exfalso.
  destruct (from_string_repr _ Hs) as (_ & _ & Hs'). unfold n in Hal. rewrite Hs' in Hal. apply fresh_differs in Hal; [|pose proof (zlen_nonneg l); lia].
  by rewrite <- Eq in Hal.
Qed.

(** The same for the removal of accents, which filters once more. *)
Lemma fresh_spans_from i rs a : a ∈ (fresh i rs).*2 → i <= a.1.
Proof.
  revert i. induction rs as [|x rs IH]; intros i; cbn [fresh]; [set_solver|]. rewrite (fmap_cons snd). cbn [snd].
  intros [->|H]%elem_of_cons; [done|]. apply IH in H. pose proof (rune_len_bounds x). lia.
Qed.

Lemma fresh_spans_distinct i rs : NoDup (fresh i rs).*2.
Proof.
  revert i. induction rs as [|x rs IH]; intros i; cbn [fresh]; [constructor|]. rewrite (fmap_cons snd). cbn [snd]. constructor; [|done].
  intros H%fresh_spans_from. cbn [fst] in H. pose proof (rune_len_bounds x). lia.
Qed.

Lemma acleaned_spans_distinct u (v : list (Z * (Z * Z))) : NoDup v.*2 → NoDup (acleaned u v).*2.
Proof.
  intros Hd. unfold acleaned.
  assert (∀ w : list (Z * (Z * Z)), (map (λ p, (if white_space p.1 then 32 else p.1, p.2)) w).*2 = w.*2) as ->.
  { intros w. induction w as [|p w IH]; [done|]. cbn [map]. rewrite !(fmap_cons snd), IH. done. }
  induction v as [|p v IH]; [constructor|]. rewrite (fmap_cons snd) in Hd. apply NoDup_cons in Hd as [Hp Hd]. rewrite filter_cons.
  destruct (decide _); [|by apply IH]. rewrite (fmap_cons snd). constructor; [|by apply IH]. intros (q & E & Hq)%elem_of_list_fmap.
  apply Hp. rewrite E. apply elem_of_list_fmap. exists q. split; [done|]. by apply elem_of_list_filter in Hq as [_ Hq].
Qed.

Lemma aspaced_spans (w : list (Z * (Z * Z))) s : s ∈ (aspaced_out is_chinese w).*2 → s ∈ w.*2.
Proof.
  induction w as [|[x a] w IH]; [done|]. unfold aspaced_out. cbn [flat_map fst snd]. rewrite fmap_app, (fmap_cons snd). cbn [snd].
  intros [H|H]%elem_of_app; [|right; by apply IH]. apply elem_of_cons. left. destruct (is_chinese x); set_solver.
Qed.

Lemma spaced_lead_distinct ch (w va vb : list (Z * (Z * Z))) c s : NoDup w.*2 →
  when ch (aspaced_out is_chinese) w = va ++ (c, s) :: vb → 32 ∉ va.*1 → s ∉ va.*2.
Proof.
  destruct ch; cbn [when].
  - revert va. induction w as [|[x a] w IH]; intros va Hd E H32.
    + by destruct va.
    + rewrite (fmap_cons snd) in Hd. apply NoDup_cons in Hd as [Ha Hd]. cbn [snd] in Ha. unfold aspaced_out in E. cbn [flat_map fst snd] in E. fold (aspaced_out is_chinese w) in E.
      destruct va as [|[y b] va]; [set_solver|]. rewrite (fmap_cons fst) in H32. cbn [fst] in H32. destruct (is_chinese x); cbn [app] in E; injection E as E1 E2 E; subst y b.
      * destruct H32. by left.
      * rewrite (fmap_cons snd). cbn [snd]. intros [->|Hin]%elem_of_cons.
        -- apply Ha, aspaced_spans. rewrite E, fmap_app, (fmap_cons snd). set_solver.
        -- revert Hin. apply IH; [done|done|set_solver].
  - intros Hd -> _. rewrite fmap_app, (fmap_cons snd) in Hd. cbn [snd] in Hd. apply NoDup_app in Hd as (_ & Hd & _).
    intros Hin. by apply (Hd s Hin); left.
Qed.

Lemma filter_first n va c s vb keep n' : repr n (va ++ (c, s) :: vb) → Forall (λ r, keep r = false) va.*1 → keep c = true → s ∉ va.*2 →
  filter_runes n keep = Ret n' → Forall (λ r, r < 128) va.*1 ∨ ∃ a al, ns_al n' = a :: al ∧ a ≠ s.
Proof.
  intros Hr Hl Hc Hs H. unfold filter_runes in H. rewrite (repr_runes _ _ Hr), fmap_app, (fmap_cons fst) in H. cbn [fst] in H.
  destruct (filter_loop_first keep va.*1 c vb.*1 0 Hl Hc) as (cs & w & E & Hcs). rewrite E in H. cbn [fst snd] in H. rewrite Z.add_0_l in H.
  apply transform_head in H as (a & al & Hal & Hn); [|done]. destruct Hr as (Hsc & _ & Ea). rewrite Ea in Hal.
  rewrite fmap_app in Hsc. apply scalars_app in Hsc as [Hsc _].
  pose proof (encode_count va.*1). destruct (decide (zlen va.*1 < zlen (encode va.*1))) as [Hlt|].
  - right. exists a, al. split; [done|]. intros ->. apply Hs. rewrite spans_of_app, idx_app_l in Hal.
    + by apply idx_spans_in in Hal.
    + rewrite zlen_spans. unfold alen. pose proof (zlen_nonneg va.*1). lia.
  - left. apply encode_count_ascii; [done|lia].
Qed.

Lemma accents_need u o rs : scalars rs → u_mn u 32 = false → bo_accents o = true →
  (bo_clean o = true → ascii_lead (cleaned_away u) rs) →
  (∃ n', bert_normalizer u o (from_string (encode rs)) = Ret (n', None) ∧ repr n' (bert_aligned u o (fresh 0 rs))) →
  ascii_lead (λ r, u_mn u r = true) (when (bo_chinese o) (spaced_out is_chinese) (when (bo_clean o) (cleaned u) rs)).
Proof.
  intros Hs H32 Ha Hcl (n' & H & Hr).
  set (n := from_string (encode rs)) in *.
  set (o' := BertOptions (bo_clean o) (bo_chinese o) false false).
  set (v2 := bert_aligned u o' (fresh 0 rs)).
  destruct (bert_aligned_spec u o' n (fresh 0 rs)) as (n2 & E2 & R2 & _); [by apply from_string_repr|by rewrite fresh_chars|done|]. fold v2 in R2.
  assert (wf n2) as W2.
  { destruct (bert_text_spec u o' n rs n2) as [(W2 & _) _]; [|done|done]. split; [by exists (fresh 0 rs); apply from_string_wf|]. by split. }
  unfold bert_normalizer, no_error in H. apply bind_Ret in H as (n4 & H & [= ->]).
  unfold bert_normalize in H, E2. cbn [bo_clean bo_chinese bo_accents bo_lower o'] in E2.
  apply bind_Ret in E2 as (m1 & F1 & E2). apply bind_Ret in E2 as (m2 & F2 & E2). cbn [mbind outcome_bind] in E2. injection E2 as ->.
  rewrite F1 in H. cbn [mbind outcome_bind] in H. rewrite F2 in H. cbn [mbind outcome_bind] in H. rewrite Ha in H.
  apply bind_Ret in H as (n3 & H3 & H).
  set (w := when (bo_clean o) (acleaned u) (fresh 0 rs)).
  assert (Hv2 : v2 = when (bo_chinese o) (aspaced_out is_chinese) w) by done.
  assert (Hw : w.*1 = when (bo_clean o) (cleaned u) rs).
  { unfold w. rewrite <- (fresh_chars 0 rs) at 2. generalize (fresh 0 rs) as v. destruct (bo_clean o); cbn [when]; [|done]. unfold acleaned, cleaned.
    intros v. induction v as [|p v IH]; [done|]. rewrite (fmap_cons fst), !filter_cons. destruct (decide _); [|done]. cbn [map]. rewrite (fmap_cons fst). f_equal. done. }
  assert (Ht : v2.*1 = when (bo_chinese o) (spaced_out is_chinese) (when (bo_clean o) (cleaned u) rs)).
  { rewrite Hv2, <- Hw. destruct (bo_chinese o); cbn [when]; [|done]. generalize w. clear. unfold aspaced_out, spaced_out.
    intros w. induction w as [|[x a] w IH]; [done|]. cbn [flat_map fst snd]. rewrite fmap_app, (fmap_cons fst), IH. cbn [fst flat_map]. f_equal. by destruct (is_chinese x). }
  rewrite <- Ht. intros l c r El Hl Hk. apply fmap_app_inv in El as (va & vb & -> & El & ->).
  destruct vb as [|[c' s] vb]; [done|]. rewrite (fmap_cons fst) in El. cbn [fst] in El. injection El as <- ->.
  apply not_true_is_false in Hk.
  assert (s ∉ va.*2) as Hns.
  { apply (spaced_lead_distinct (bo_chinese o) w va vb c s); [|by rewrite <- Hv2|].
    - unfold w. destruct (bo_clean o); cbn [when]; [apply acleaned_spans_distinct|]; apply fresh_spans_distinct.
    - intros Hin. rewrite Forall_forall in Hl. apply Hl in Hin. congruence. }
  destruct (filter_first n2 va c s vb (λ r, negb (u_mn u r)) n3) as [Hasc|(a & al & Hal & Hne)]; [done| |by rewrite Hk|done|done|done|].
  { eapply Forall_impl; [exact Hl|]. intros x Hx. cbn. by rewrite Hx. }
  exfalso. apply Hne. unfold strip_accents in H3.
  destruct (filter_runes_wf n2 _ n3 W2 H3) as [(v3 & R3 & _) _].
  destruct (head_span _ _ _ _ R3 Hal) as (x & v3' & ->).
  assert (∃ y v4, repr n' ((y, a) :: v4)) as (y & v4 & R4).
  { destruct (bo_lower o); [|injection H as <-; eauto].
    destruct (map_runes_text n3 _ (u_lower u) R3) as (n5 & H5 & _ & R5 & _). rewrite H in H5. injection H5 as <-. cbn [map fst snd] in R5. eauto. }
  assert (bert_aligned u o (fresh 0 rs) = when (bo_lower o) (alowered u) (aunmarked u (va ++ (c, s) :: vb))) as Eo.
  { rewrite Hv2. unfold bert_aligned. by rewrite Ha. }
  assert (∃ v5, aunmarked u (va ++ (c, s) :: vb) = (c, s) :: v5) as (v5 & E5).
  { unfold aunmarked. rewrite list.filter_app, filter_cons. cbn [fst]. rewrite decide_True by congruence.
    assert (base.filter (λ p : Z * (Z * Z), u_mn u p.1 ≠ true) va = []) as E0; [|rewrite E0; cbn [app]; by eexists].
    clear -Hl. induction va as [|p va IH]; [done|]. rewrite (fmap_cons fst) in Hl. apply Forall_cons in Hl as [Hp Hl]. rewrite filter_cons, decide_False by tauto. by apply IH. }
  rewrite Eo, E5 in Hr. destruct (bo_lower o); cbn [when] in Hr; [unfold alowered in Hr; cbn [map fst snd] in Hr|];
  pose proof (repr_unique _ _ _ Hr R4) as Eq; by injection Eq.
Qed.
