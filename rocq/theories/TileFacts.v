(** Proofs about strings whose pieces recombine to the original, whatever the pattern. *)
From Coq Require Import ZifyBool Sorted.
From Verif Require Import GoBase Strutils SplitPattern NormString SpecText SpecNorm SpecSplit Utf8Facts StrutilsFacts SliceFacts PatternFacts NormFacts NormSplit NormReplace
  SplitExact RangeFacts ByteFacts.
Import GoBase NormString SpecNorm.
#[local] Open Scope Z_scope.

Lemma texts_inj (s s' : asegments) : concat s.*1 = concat s'.*1 → texts_of s = texts_of s' → s = s'.
Proof.
  revert s'. induction s as [|[t m] s IH]; intros [|[t' m'] s'] Hc H; try done. injection H as Ht -> H.
  cbn [fmap list_fmap concat fst] in Hc. apply app_inj_1 in Hc as [-> Hc].
  - f_equal. by apply IH.
  - apply (f_equal length) in Ht. by rewrite !fmap_length in Ht.
Qed.

Lemma isolated_pieces n v segs : wf_as n v → concat segs.*1 = v → Forall (λ s, s.1 ≠ []) segs →
  let cs := place 0 (texts_of segs) in
  boundary_cover (ns_norm n) cs ∧
  ∃ ps, split n (λ _, Ret (Ok cs)) Isolated = Ret (Ok ps) ∧ Forall2 (λ s p, piece_of n s.1 p) segs ps.
Proof.
  intros Hwf Hc Hne cs. pose proof Hwf as ((Hs & Hn & _) & _).
  assert (Hcov : boundary_cover (ns_norm n) cs).
  { rewrite Hn. apply boundary_cover_place; [done|]. exists (texts_of segs). split; [|done]. by rewrite texts_of_concat, Hc. }
  split; [done|]. destruct (split_exact n v (λ _, Ret (Ok cs)) Isolated cs Hwf eq_refl Hcov) as (segs' & gs & Hv & Hcs & [Hg1 Hg2] & Hor).
  assert (segs' = segs) as ->.
  { apply texts_inj; [congruence|]. symmetry. eapply place_inj; [|exact Hcs]. rewrite !texts_of_concat. congruence. }
  clear Hv Hcs Hc.
  assert (Hgs : gs = map (λ s, [s]) segs).
  { clear -Hg1 Hg2. cbn in Hg2. revert segs Hg1. induction gs as [|g gs IH]; intros segs <-; [done|].
    cbn [map] in Hg2. apply Forall_cons in Hg2 as [Hg Hg2]. cbn [concat]. specialize (IH Hg2 _ eq_refl).
    destruct g as [|x [|y g]]; [by destruct Hg| |by destruct Hg]. cbn [app map]. f_equal. done. }
  destruct Hor as [[_ (gs1 & g & gs2 & E & _ & Ht & _)]|(_ & ps & E & Hps)].
  - exfalso. rewrite Hgs in E. assert (Hin : g ∈ map (λ s, [s]) segs) by (rewrite E; apply elem_of_app; right; by left).
    apply elem_of_list_fmap in Hin as (s & -> & Hin). rewrite Forall_forall in Hne. apply (Hne s Hin).
    unfold group_text in Ht. cbn in Ht. by rewrite app_nil_r in Ht.
  - exists ps. split; [done|]. rewrite kept_groups_all in Hps by done. rewrite Hgs in Hps.
    change (map (λ s, [s]) segs) with ((λ s, [s]) <$> segs) in Hps. rewrite Forall2_fmap_l in Hps.
    eapply Forall2_impl; [exact Hps|]. intros s p Hp. cbn in Hp. unfold group_text in Hp. cbn in Hp. by rewrite app_nil_r in Hp.
Qed.

Lemma recombine_tiles n v : wf_as n v →
  (∀ (p : pattern) b cs ps, p (ns_norm n) = Ret (Ok cs) → boundary_cover (ns_norm n) cs →
     b ≠ Removed → split n p b = Ret (Ok ps) → concat (map ns_orig ps) = ns_orig n) →
  tiles 0 v (zlen (ns_orig n)).
Proof.
  intros Hwf H. set (L := zlen (ns_orig n)).
  assert (Hiso : ∀ segs : asegments, concat segs.*1 = v → Forall (λ s, s.1 ≠ []) segs →
    ∃ ps, Forall2 (λ s p, piece_of n s.1 p) segs ps ∧ zlen (concat (map ns_orig ps)) = L).
  { intros segs Hc Hne. destruct (isolated_pieces n v segs Hwf Hc Hne) as (Hcov & ps & E & Hps). exists ps. split; [done|].
    by rewrite (H _ Isolated _ ps eq_refl Hcov ltac:(done) E). }
  destruct (decide (v = [])) as [->|Hv].
  { destruct (Hiso []) as (ps & Hps & E); [done|constructor|]. apply Forall2_nil_inv_l in Hps as ->. cbn in *. done. }
  assert (Hlen : ∀ g p, piece_of n g p → g ≠ [] → zlen (ns_orig p) = last_end g - first_start g).
  { intros g p (_ & Hp & _) Hne. destruct (Hp Hne) as [Ht _]. apply text_at_sub in Ht. by apply sub_zlen in Ht. }
  (* the whole *)
  assert (Hends : first_start v = 0 ∧ last_end v = L).
  { destruct (Hiso [(v, false)]) as (ps & Hps & E); [cbn; by rewrite app_nil_r|by repeat constructor|].
    apply Forall2_cons_inv_l in Hps as (p & ps' & Hp & Hps & ->). apply Forall2_nil_inv_l in Hps as ->. cbn in E. rewrite app_nil_r in E.
    cbn in Hp. pose proof (Hlen _ _ Hp Hv) as E'. destruct Hp as (_ & Hp & _). destruct (Hp Hv) as [Ht _].
    apply text_at_sub, sub_bounds in Ht. fold L in Ht. lia. }
  (* every cut *)
  assert (Hcut : ∀ v1 v2, v = v1 ++ v2 → v1 ≠ [] → v2 ≠ [] → last_end v1 = first_start v2).
  { intros v1 v2 -> H1 H2. destruct (Hiso [(v1, true); (v2, false)]) as (ps & Hps & E); [cbn; by rewrite app_nil_r|by repeat constructor|].
    apply Forall2_cons_inv_l in Hps as (p & ps' & Hp & Hps & ->). apply Forall2_cons_inv_l in Hps as (q & ps'' & Hq & Hps & ->).
    apply Forall2_nil_inv_l in Hps as ->. cbn in E. rewrite app_nil_r, zlen_app in E. cbn in Hp, Hq.
    rewrite (Hlen _ _ Hp H1), (Hlen _ _ Hq H2) in E. destruct Hends as [E1 E2].
    assert (first_start (v1 ++ v2) = first_start v1) as E3 by (by destruct v1 as [|[]]).
    assert (last_end (v1 ++ v2) = last_end v2) as E4.
    { unfold last_end, last_span. rewrite fmap_app. destruct v2 as [|y v2] using rev_ind; [done|]. rewrite fmap_app. cbn. rewrite app_assoc, !last_snoc. done. }
    lia. }
  assert (Hspan : Forall (λ p, p.2.1 <= p.2.2) v).
  { destruct Hwf as (_ & _ & (Ha & _)). rewrite Forall_fmap in Ha. eapply Forall_impl; [exact Ha|]. intros x Hx. cbn in Hx. unfold span_ok in Hx. tauto || lia. }
  destruct Hends as [E1 E2].
  assert (Hgen : ∀ w v1, v = v1 ++ w → w ≠ [] → tiles (first_start w) w L).
  { induction w as [|[c a] w IH]; intros v1 E Hw; [done|]. cbn [tiles first_start snd]. split; [done|]. split.
    - rewrite E, Forall_app, Forall_cons in Hspan. cbn in Hspan. tauto.
    - destruct w as [|y w].
      + cbn. rewrite E in E2. unfold last_end, last_span in E2. rewrite fmap_app in E2. cbn in E2. by rewrite last_snoc in E2.
      + assert (E' : v = (v1 ++ [(c, a)]) ++ y :: w) by (rewrite E; by rewrite <- app_assoc).
        pose proof (Hcut _ _ E' ltac:(by destruct v1) ltac:(done)) as Hb.
        assert (last_end (v1 ++ [(c, a)]) = a.2) as E4. { unfold last_end, last_span. rewrite fmap_app. cbn. by rewrite last_snoc. }
        rewrite E4 in Hb. rewrite Hb. by apply (IH (v1 ++ [(c, a)])). }
  rewrite <- E1. by apply (Hgen v []).
Qed.
