(** Split in full: when it panics, what it returns otherwise, and uniqueness of the grouping. *)
From Coq Require Import ZifyBool Sorted.
From Verif Require Import GoBase Utf8Facts Strutils SplitPattern NormString SpecText SpecNorm SpecSplit SliceFacts
  StrutilsFacts PatternFacts NormFacts NormEdits NormInv NormReplace NormSlice NormSplit.

Lemma cut_exact n b sgs pre v :
  wf_as n v → v = pre ++ concat (map group_text sgs) →
  Forall (λ g : asegments, g ≠ []) sgs →
  (b = Removed → Forall (λ g : asegments, g.*2 = [true] ∨ g.*2 = [false]) sgs) →
  let c := cut n (map (λ g, ((group_match g).1, removable b g)) (place_groups (alen pre) sgs)) in
  (c = Panic ∧ ∃ gs1 g gs2, sgs = gs1 ++ g :: gs2 ∧ kept b g.*2 ∧ group_text g = []
                 ∧ zlen (ns_orig n) < alen (pre ++ concat (map group_text gs1)))
  ∨ (∃ ps, c = Ret (Ok ps) ∧ Forall2 (λ g p, piece_of n (group_text g) p) (kept_groups b sgs) ps
       ∧ ∀ gs1 g gs2, sgs = gs1 ++ g :: gs2 → kept b g.*2 → group_text g = [] →
           alen (pre ++ concat (map group_text gs1)) <= zlen (ns_orig n)).
Proof.
  intros Hwf Hv Hne Hrm. revert pre Hv. induction sgs as [|sg sgs IH]; intros pre Hv.
  { right. exists []. split; [done|]. split; [constructor|]. by intros [|] g gs2. }
  inversion Hne as [|? ? Hsg Hne']; subst x l.
  assert (Hrm' : b = Removed → Forall (λ g : asegments, g.*2 = [true] ∨ g.*2 = [false]) sgs).
  { intros Hb. specialize (Hrm Hb). by inversion Hrm. }
  specialize (IH Hne' Hrm' (pre ++ group_text sg)). rewrite alen_app in IH.
  cbv zeta in IH |- *. cbn [place_groups map cut]. rewrite removable_place; [|intros Hb; specialize (Hrm Hb); by inversion Hrm].
  rewrite (group_match_place _ _ Hsg). unfold kept_groups in *. rewrite filter_cons.
  destruct IH as [[Hcut (gs1 & g & gs2 & -> & Hk & Hg & Hlen)]|(ps & Hcut & Hps & Hall)];
    [by rewrite Hv; cbn [map concat]; rewrite app_assoc| |].
  - left. split.
    + destruct (decide (kept b sg.*2)) as [Hk'|Hk'].
      * rewrite bool_decide_true by done. cbn [negb].
        destruct (slice n _) as [[p|]|] eqn:E; cbn [mbind outcome_bind]; [by rewrite Hcut| |done].
        exfalso. destruct (decide (group_text sg = [])) as [He|He].
        -- rewrite He, alen_nil, Z.add_0_r in E. pose proof Hwf as (Hr & _).
           assert (Hb : boundary (ns_norm n) (alen pre)).
           { destruct Hr as (Hs & Hn & _). rewrite Hn, Hv. rewrite Hv in Hs. by apply aboundary_app. }
           destruct (Z.le_gt_cases (alen pre) (zlen (ns_orig n))).
           ++ by erewrite slice_empty in E.
           ++ by erewrite slice_empty_panics in E.
        -- rewrite <- alen_app in E. rewrite Hv in Hwf.
           destruct (slice_chars n pre (group_text sg) _ Hwf He) as (p & Hp & _). by rewrite Hp in E.
      * rewrite bool_decide_false by done. done.
    + exists (sg :: gs1), g, gs2. split; [done|]. split; [done|]. split; [done|]. cbn [map concat]. by rewrite app_assoc.
  - destruct (decide (kept b sg.*2)) as [Hk|Hk].
    + rewrite bool_decide_true by done. cbn [negb].
      destruct (decide (group_text sg = [])) as [He|He].
      * rewrite He, alen_nil, Z.add_0_r in *. pose proof Hwf as (Hr & _).
        assert (Hb : boundary (ns_norm n) (alen pre)).
        { destruct Hr as (Hs & Hn & _). rewrite Hn, Hv. rewrite Hv in Hs. by apply aboundary_app. }
        destruct (Z.le_gt_cases (alen pre) (zlen (ns_orig n))) as [Hle|Hgt].
        -- right. exists (NS [] [] [] (ns_shift n + alen pre) :: ps).
           erewrite slice_empty by done. cbn [mbind outcome_bind]. rewrite Hcut. cbn [mbind outcome_bind].
           split; [done|]. split; [constructor; [rewrite He; apply piece_of_empty|done]|].
           intros [|sg' gs1] g gs2 [= -> ->] H1 H2.
           ++ cbn [map concat]. by rewrite app_nil_r.
           ++ specialize (Hall gs1 g gs2 eq_refl H1 H2). cbn [map concat]. by rewrite app_assoc, He.
        -- left. erewrite slice_empty_panics by done. split; [done|]. exists [], sg, sgs.
           split; [done|]. split; [done|]. split; [done|]. cbn [map concat]. rewrite app_nil_r. lia.
      * right. rewrite <- alen_app. rewrite Hv in Hwf. cbn [map concat] in Hwf.
        destruct (slice_chars n pre (group_text sg) _ Hwf He) as (p & Hp & Hpo). rewrite Hp.
        cbn [mbind outcome_bind]. rewrite alen_app, Hcut. cbn [mbind outcome_bind]. exists (p :: ps).
        split; [done|]. split; [by constructor|].
        intros [|sg' gs1] g gs2 [= -> ->] H1 H2; [done|].
        specialize (Hall gs1 g gs2 eq_refl H1 H2). cbn [map concat]. by rewrite app_assoc.
    + right. rewrite bool_decide_false by done. cbn [negb]. exists ps. split; [done|]. split; [done|].
      intros [|sg' gs1] g gs2 [= -> ->] H1 H2; [done|].
      specialize (Hall gs1 g gs2 eq_refl H1 H2). cbn [map concat]. by rewrite app_assoc.
Qed.

Lemma split_exact n v (p : pattern) b cs :
  wf_as n v → p (ns_norm n) = Ret (Ok cs) → boundary_cover (ns_norm n) cs →
  ∃ segs gs, concat segs.*1 = v ∧ cs = place 0 (texts_of segs) ∧ grouped b segs gs
    ∧ ((split n p b = Panic ∧ lost_piece b (ns_orig n) gs)
       ∨ (¬ lost_piece b (ns_orig n) gs ∧ ∃ ps, split n p b = Ret (Ok ps)
           ∧ Forall2 (λ g p, piece_of n (group_text g) p) (kept_groups b gs) ps)).
Proof.
  intros Hwf Hp Hcov. pose proof Hwf as (Hr & _).
  apply (cover_segments n v cs Hr) in Hcov as (segs & Hsegs & ->).
  destruct (split_matches_spec b (place 0 (texts_of segs))) as (cgs & Hc & Hg & Hm).
  destruct (place_groups_inv cgs segs 0 Hc) as (sgs & Hcs & ->).
  rewrite kinds_place_groups in Hg.
  assert (Hne : Forall (λ g : asegments, g ≠ []) sgs).
  { apply Forall_forall. intros g Hin ->. eapply (grouping_nonempty b _ []); [exact Hg| |done].
    apply elem_of_list_fmap. by exists []. }
  exists segs, sgs. split; [done|]. split; [done|]. split; [done|].
  unfold split. rewrite Hp. cbn [mbind outcome_bind]. rewrite Hm.
  destruct (cut_exact n b sgs [] v Hwf) as [[Hcut Hl]|(ps & Hcut & Hps & Hall)].
  - cbn. rewrite concat_group_text, Hcs. done.
  - done.
  - intros ->. cbn in Hg. by rewrite Forall_map in Hg.
  - left. rewrite alen_nil in Hcut. split; [done|]. exact Hl.
  - right. rewrite alen_nil in Hcut. split; [|by exists ps].
    intros (gs1 & g & gs2 & H1 & H2 & H3 & H4). specialize (Hall gs1 g gs2 H1 H2 H3). cbn [app] in Hall. lia.
Qed.

(** ** The grouping is determined by the kinds *)
Definition cut_by {A} (J : A → A → Prop) (gs : list (list A)) : Prop :=
  Forall (λ g, g ≠ [] ∧ adjacent J g) gs
  ∧ adjacent (λ g h, ∀ x y, last g = Some x → head h = Some y → ¬ J x y) gs.

Lemma adjacent_nil {A} (R : A → A → Prop) : adjacent R [].
Proof. by intros i x y. Qed.
Lemma adjacent_one {A} (R : A → A → Prop) x : adjacent R [x].
Proof. by intros [|[|i]] y z. Qed.

Lemma cut_by_head {A} (J : A → A → Prop) a b gs x :
  cut_by J ((a ++ x :: b) :: gs) → ∀ y, last a = Some y → J y x.
Proof.
  intros [H _] y Hy. apply Forall_cons in H as [[_ H] _]. rewrite last_lookup in Hy.
  apply (H (pred (length a))).
  - rewrite lookup_app_l; [done|]. apply lookup_lt_Some in Hy. done.
  - apply lookup_lt_Some in Hy. replace (S (pred (length a))) with (length a) by lia. by apply list_lookup_middle.
Qed.

Lemma cut_by_unique {A} (J : A → A → Prop) gs gs' :
  cut_by J gs → cut_by J gs' → concat gs = concat gs' → gs = gs'.
Proof.
  revert gs'. induction gs as [|g gs IH]; intros [|h hs] H H' Heq.
  - done.
  - destruct H' as [H' _]. apply Forall_cons in H' as [[Hh _] _]. by destruct h.
  - destruct H as [H _]. apply Forall_cons in H as [[Hh _] _]. by destruct g.
  - cbn in Heq.
    assert (g = h) as ->.
    { assert (Hcases : ∀ (g h : list A) gs hs, cut_by J (g :: gs) → cut_by J (h :: hs) → g ++ concat gs = h ++ concat hs →
        ∀ k x, h = g ++ x :: k → False).
      { clear. intros g h gs hs H H' Heq k x ->. rewrite <- app_assoc in Heq. apply app_inv_head in Heq.
        pose proof (cut_by_head _ _ _ _ _ H') as Hj. destruct H as [H1 H2]. apply Forall_cons in H1 as [[Hg _] H1].
        destruct (last g) as [y|] eqn:Hy; [|by apply last_None in Hy].
        destruct gs as [|g' gs]; [done|]. apply Forall_cons in H1 as [[Hg' _] _]. destruct g' as [|z g']; [done|].
        cbn in Heq. injection Heq as -> _.
        by apply (H2 0%nat g (x :: g') eq_refl eq_refl y x Hy eq_refl), Hj. }
      destruct (decide (length g < length h)%nat) as [Hlt|Hge].
      - exfalso. apply (f_equal (take (length h))) in Heq as Ht. rewrite take_app in Ht.
        rewrite take_app_ge in Ht by lia.
        destruct (take (length h - length g) (concat gs)) as [|x k] eqn:E; [|by eapply (Hcases g h)].
        rewrite app_nil_r in Ht. subst. lia.
      - destruct (decide (length h < length g)%nat) as [Hlt|Hge'].
        + exfalso. symmetry in Heq. apply (f_equal (take (length g))) in Heq as Ht. rewrite take_app in Ht.
          rewrite take_app_ge in Ht by lia.
          destruct (take (length g - length h) (concat hs)) as [|x k] eqn:E; [|by eapply (Hcases h g)].
          rewrite app_nil_r in Ht. subst. lia.
        + apply app_inj_1 in Heq as [? _]; [done|lia]. }
    apply app_inv_head in Heq. f_equal. apply IH; [| |done].
    + destruct H as [H1 H2]. apply Forall_cons in H1 as [_ H1]. split; [done|by eapply adjacent_cons_inv].
    + destruct H' as [H1 H2]. apply Forall_cons in H1 as [_ H1]. split; [done|by eapply adjacent_cons_inv].
Qed.

Definition joined (b : behaviour) (x y : bool) : Prop :=
  match b with
  | Removed | Isolated => False
  | Contiguous => x = y
  | MergedWithPrevious => x = false ∧ y = true
  | MergedWithNext => x = true ∧ y = false
  end.

Lemma adjacent_impl {A} (R S : A → A → Prop) l : (∀ x y, R x y → S x y) → adjacent R l → adjacent S l.
Proof. intros H Hl i x y Hx Hy. eauto. Qed.

Lemma grouping_cut_by b gs : grouping b gs → cut_by (joined b) gs.
Proof.
  assert (Htwo : ∀ (R : bool → bool → Prop) x y, R x y → adjacent R [x; y]).
  { intros R x y H [|[|i]] a c Ha Hc; cbn in *; naive_solver. }
  destruct b; cbn [grouping joined].
  - intros H. split; [|intros i x y _ _ a c _ _ []]. eapply Forall_impl; [exact H|].
    intros g [->| ->]; (split; [done|apply adjacent_one]).
  - intros H. split; [|intros i x y _ _ a c _ _ []]. eapply Forall_impl; [exact H|].
    intros g [->| ->]; (split; [done|apply adjacent_one]).
  - intros [H1 H2]. split.
    + eapply Forall_impl; [exact H1|]. intros g [->|[->| ->]]; (split; [done|]);
        [apply adjacent_one|apply adjacent_one|by apply Htwo].
    + eapply adjacent_impl; [|exact H2]. intros g h Hn x y Hx Hy [-> ->]. by apply Hn.
  - intros [H1 H2]. split.
    + eapply Forall_impl; [exact H1|]. intros g [->|[->| ->]]; (split; [done|]);
        [apply adjacent_one|apply adjacent_one|by apply Htwo].
    + eapply adjacent_impl; [|exact H2]. intros g h Hn x y Hx Hy [-> ->]. by apply Hn.
  - intros [H1 H2]. split.
    + eapply Forall_impl; [exact H1|]. intros g [Hne (k & Hk)]. split; [done|]. intros i x y Hx Hy.
      rewrite Forall_forall in Hk. rewrite <- (Hk x), <- (Hk y); [done| |]; by eapply elem_of_list_lookup_2.
    + eapply adjacent_impl; [|exact H2]. intros g h Hn x y Hx Hy <-. apply Hn. by rewrite Hx, Hy.
Qed.

Lemma grouping_unique b gs gs' : grouping b gs → grouping b gs' → concat gs = concat gs' → gs = gs'.
Proof. intros H H'. apply (cut_by_unique (joined b)); by apply grouping_cut_by. Qed.

(** The same for groups of segments. *)
Lemma grouped_unique b segs gs gs' : grouped b segs gs → grouped b segs gs' → gs = gs'.
Proof.
  intros [H1 H2] [H3 H4].
  assert (Hk : map (λ g : asegments, g.*2) gs = map (λ g : asegments, g.*2) gs').
  { apply (grouping_unique b); [done|done|].
    assert (Hc : ∀ l : list asegments, concat (map (λ g : asegments, g.*2) l) = (concat l).*2).
    { induction l as [|g l IH]; [done|]. cbn [map concat]. by rewrite fmap_app, IH. }
    by rewrite !Hc, H1, H3. }
  clear H2 H4. rewrite <- H3 in H1. clear H3. revert gs' H1 Hk.
  induction gs as [|g gs IH]; intros [|g' gs'] H1 Hk; [done|done|done|]. cbn [map] in Hk. injection Hk as Hg Hk.
  cbn [concat] in H1. apply app_inj_1 in H1 as [-> H1]; [|apply (f_equal length) in Hg; by rewrite !fmap_length in Hg].
  f_equal. by apply IH.
Qed.
