(** Split. *)
From Coq Require Import ZifyBool Sorted.
From Verif Require Import GoBase Utf8Facts Strutils SplitPattern NormString SpecText SpecNorm SpecSplit SliceFacts
  StrutilsFacts PatternFacts NormFacts NormEdits NormInv NormReplace NormSlice.

(** ** Groups of captures *)
Definition kinds (g : list capture) : list bool := map c_match g.
Definition group_match (g : list capture) : split_match :=
  match g with
  | [] => (0, 0, false)
  | c :: _ => (c_start c, match last g with Some d => c_end d | None => 0 end, false)
  end.

Lemma group_match_snoc g c : g ≠ [] → group_match (g ++ [c]) = (((group_match g).1).1, c_end c, false).
Proof. destruct g as [|d g]; [done|]. intros _. cbn [group_match app]. by rewrite app_comm_cons, last_snoc. Qed.

Lemma group_match_cons g c : g ≠ [] → group_match (c :: g) = (c_start c, ((group_match g).1).2, false).
Proof. destruct g as [|d g]; [done|]. intros _. cbn [group_match]. by rewrite last_cons_cons. Qed.

Lemma group_match_rm g : (group_match g).2 = false.
Proof. by destruct g. Qed.

Lemma adjacent_snoc {A} (R : A → A → Prop) l x :
  adjacent R l → (∀ y, last l = Some y → R y x) → adjacent R (l ++ [x]).
Proof.
  intros Hl Hx i a b Ha Hb. destruct (decide (S i < length l)%nat) as [Hlt|Hge].
  - rewrite lookup_app_l in Ha by lia. rewrite lookup_app_l in Hb by lia. by eapply Hl.
  - apply lookup_lt_Some in Hb as Hlen. rewrite app_length in Hlen. cbn in Hlen.
    rewrite lookup_app_r in Hb by lia. replace (S i - length l)%nat with 0%nat in Hb by lia. injection Hb as <-.
    rewrite lookup_app_l in Ha by lia. apply Hx. rewrite last_lookup. by replace (pred (length l)) with i by lia.
Qed.

Lemma adjacent_cons {A} (R : A → A → Prop) x l :
  adjacent R l → (∀ y, head l = Some y → R x y) → adjacent R (x :: l).
Proof.
  intros Hl Hx [|i] a b Ha Hb; cbn in *.
  - injection Ha as <-. apply Hx. by rewrite head_lookup.
  - by eapply Hl.
Qed.

Lemma adjacent_app_inv {A} (R : A → A → Prop) l1 l2 : adjacent R (l1 ++ l2) → adjacent R l1.
Proof.
  intros H i a b Ha Hb. eapply (H i); rewrite lookup_app_l; try done; by eapply lookup_lt_Some.
Qed.

Lemma adjacent_cons_inv {A} (R : A → A → Prop) x l : adjacent R (x :: l) → adjacent R l.
Proof. intros H i a b Ha Hb. by eapply (H (S i)). Qed.

Lemma adjacent_last2 {A} (R : A → A → Prop) l x y : adjacent R (l ++ [x]) → last l = Some y → R y x.
Proof.
  intros H Hl. destruct l as [|z l] using rev_ind; [done|]. rewrite last_snoc in Hl. injection Hl as ->.
  eapply (H (length l)).
  - rewrite lookup_app_l by (rewrite app_length; cbn; lia). rewrite lookup_app_r, Nat.sub_diag by lia. done.
  - rewrite lookup_app_r by (rewrite app_length; cbn; lia). rewrite app_length. cbn.
    by replace (S (length l) - (length l + 1))%nat with 0%nat by lia.
Qed.

Lemma last_concat {A} (gs : list (list A)) g :
  g ≠ [] → last (concat (gs ++ [g])) = last g.
Proof.
  intros H. rewrite concat_app. cbn. rewrite app_nil_r. destruct (exists_last H) as (g' & x & ->).
  by rewrite app_assoc, !last_snoc.
Qed.

Lemma concat_snoc {A} (gs : list (list A)) g : concat (gs ++ [g]) = concat gs ++ g.
Proof. rewrite concat_app. cbn. by rewrite app_nil_r. Qed.

(** The loops build the groups one capture at a time. *)
Lemma mwp_loop_spec cs prev gs :
  grouping MergedWithPrevious (map kinds gs) →
  (gs ≠ [] → Some prev = last (kinds (concat gs))) →
  ∃ gs', mwp_loop cs prev (rev (map group_match gs)) = rev (map group_match gs')
       ∧ concat gs' = concat gs ++ cs ∧ grouping MergedWithPrevious (map kinds gs').
Proof.
  revert prev gs. induction cs as [|c cs IH]; intros prev gs Hg Hp.
  { exists gs. by rewrite app_nil_r. }
  cbn [mwp_loop].
  (* starting a new group with c *)
  assert (Hnew : (gs ≠ [] → ¬ (c_match c = true ∧ prev = false)) →
     ∃ gs', mwp_loop cs (c_match c) ((c_start c, c_end c, false) :: rev (map group_match gs))
            = rev (map group_match gs')
       ∧ concat gs' = concat gs ++ c :: cs ∧ grouping MergedWithPrevious (map kinds gs')).
  { intros Hc. destruct (IH (c_match c) (gs ++ [[c]])) as (gs' & H1 & H2 & H3).
    - rewrite map_app. cbn [map]. destruct Hg as [G1 G2]. split.
      + apply Forall_app. split; [done|]. constructor; [|done]. cbn. destruct (c_match c); tauto.
      + apply adjacent_snoc; [done|]. intros y Hy [HA HB]. cbn in HB. injection HB as HB.
        destruct gs as [|g0 gs _] using rev_ind; [done|].
        rewrite map_app in Hy. cbn [map] in Hy. rewrite last_snoc in Hy. injection Hy as <-.
        apply Hc; [by destruct gs|]. split; [done|].
        assert (g0 ≠ []) by (intros ->; done).
        specialize (Hp ltac:(by destruct gs)). rewrite concat_snoc in Hp.
        unfold kinds in Hp, HA. rewrite map_app in Hp.
        destruct (exists_last H) as (g' & d & ->). rewrite map_app in Hp, HA. cbn in Hp, HA.
        rewrite last_snoc in HA. rewrite app_assoc, last_snoc in Hp. congruence.
    - intros _. rewrite concat_snoc. unfold kinds. rewrite map_app. cbn. by rewrite last_snoc.
    - exists gs'. rewrite map_app in H1. cbn [map] in H1. rewrite rev_unit in H1. split; [done|].
      split; [|done]. rewrite H2, concat_snoc, <- app_assoc. done. }
  destruct gs as [|g gs _] using rev_ind.
  { cbn [map rev]. apply Hnew. done. }
  rewrite map_app, rev_app_distr. cbn [map rev app].
  destruct (group_match g) as [[s e] rm] eqn:Hgm.
  destruct (c_match c && negb prev) eqn:E.
  - (* c joins the last group *)
    assert (Hcm : c_match c = true) by (by destruct (c_match c)).
    assert (Hpv : prev = false) by (by destruct (c_match c), prev).
    rewrite map_app in Hg. cbn [map] in Hg. destruct Hg as [G1 G2]. apply Forall_app in G1 as [G1 G1'].
    inversion G1' as [|? ? G3 _]; subst. clear G1'.
    assert (Hne : g ≠ []) by (intros ->; destruct G3 as [?|[?|?]]; done).
    assert (Hk : kinds g = [false]).
    { specialize (Hp ltac:(by destruct gs)). rewrite concat_snoc in Hp. unfold kinds in *. rewrite map_app in Hp.
      destruct G3 as [G3|[G3|G3]]; rewrite G3 in Hp; [|done|].
      - by rewrite last_snoc in Hp.
      - change [false; true] with ([false] ++ [true]) in Hp. by rewrite app_assoc, last_snoc in Hp. }
    destruct (IH (c_match c) (gs ++ [g ++ [c]])) as (gs' & H1 & H2 & H3).
    + rewrite map_app. cbn [map]. split.
      * apply Forall_app. split; [done|]. constructor; [|done]. right. right. unfold kinds in *. rewrite map_app, Hk.
        cbn. by rewrite Hcm.
      * apply adjacent_snoc; [by apply adjacent_app_inv in G2|]. intros y Hy [HA HB].
        unfold kinds in HB. rewrite map_app in HB. fold (kinds g) in HB. rewrite Hk in HB. done.
    + intros _. rewrite concat_snoc. unfold kinds. rewrite !map_app. cbn. by rewrite app_assoc, last_snoc.
    + exists gs'. rewrite map_app, rev_app_distr in H1. cbn [map rev app] in H1.
      rewrite group_match_snoc, Hgm in H1 by done. cbn [fst] in H1.
      assert (rm = false) as ->. { pose proof (group_match_rm g) as Hrm. by rewrite Hgm in Hrm. }
      split; [done|]. split; [|done]. rewrite H2, !concat_snoc, <- !app_assoc. done.
  - rewrite map_app, rev_app_distr in Hnew. cbn [map rev app] in Hnew. rewrite Hgm in Hnew.
    apply Hnew. intros _ [Hcm Hpv]. by rewrite Hcm, Hpv in E.
Qed.

Lemma mwn_loop_spec cs prev gs :
  grouping MergedWithNext (map kinds gs) →
  (gs ≠ [] → Some prev = head (kinds (concat gs))) →
  ∃ gs', mwn_loop cs prev (map group_match gs) = map group_match gs'
       ∧ concat gs' = rev cs ++ concat gs ∧ grouping MergedWithNext (map kinds gs').
Proof.
  revert prev gs. induction cs as [|c cs IH]; intros prev gs Hg Hp.
  { by exists gs. }
  cbn [mwn_loop].
  assert (Hnew : (gs ≠ [] → ¬ (c_match c = true ∧ prev = false)) →
     ∃ gs', mwn_loop cs (c_match c) ((c_start c, c_end c, false) :: map group_match gs) = map group_match gs'
       ∧ concat gs' = rev (c :: cs) ++ concat gs ∧ grouping MergedWithNext (map kinds gs')).
  { intros Hc. destruct (IH (c_match c) ([c] :: gs)) as (gs' & H1 & H2 & H3).
    - cbn [map]. destruct Hg as [G1 G2]. split.
      + constructor; [|done]. cbn. destruct (c_match c); tauto.
      + apply adjacent_cons; [done|]. intros y Hy [HA HB]. cbn in HA. injection HA as HA.
        destruct gs as [|g0 gs]; [done|]. cbn in Hy. injection Hy as <-. apply Hc; [done|]. split; [done|].
        specialize (Hp ltac:(done)). cbn [concat] in Hp. unfold kinds in *. rewrite map_app in Hp.
        destruct g0 as [|d g0]; [done|]. cbn in *. congruence.
    - done.
    - exists gs'. split; [done|]. split; [|done]. rewrite H2. cbn. by rewrite <- app_assoc. }
  destruct gs as [|g gs].
  { cbn [map]. apply Hnew. done. }
  cbn [map] in *. destruct (group_match g) as [[s e] rm] eqn:Hgm.
  destruct (c_match c && negb prev) eqn:E.
  - assert (Hcm : c_match c = true) by (by destruct (c_match c)).
    assert (Hpv : prev = false) by (by destruct (c_match c), prev).
    destruct Hg as [G1 G2]. inversion G1 as [|? ? G3 G1']; subst.
    assert (Hne : g ≠ []) by (intros ->; destruct G3 as [?|[?|?]]; done).
    assert (Hk : kinds g = [false]).
    { specialize (Hp ltac:(done)). cbn [concat] in Hp. unfold kinds in *. rewrite map_app in Hp.
      destruct G3 as [G3|[G3|G3]]; rewrite G3 in Hp; done. }
    destruct (IH (c_match c) ((c :: g) :: gs)) as (gs' & H1 & H2 & H3).
    + cbn [map]. split.
      * constructor; [|done]. right. right. unfold kinds in *. cbn. by rewrite Hk, Hcm.
      * apply adjacent_cons; [by apply adjacent_cons_inv in G2|]. intros y Hy [HA HB].
        unfold kinds in HA. cbn in HA. fold (kinds g) in HA. rewrite Hk in HA. done.
    + done.
    + exists gs'. cbn [map] in H1. rewrite group_match_cons, Hgm in H1 by done. cbn [fst snd] in H1.
      assert (rm = false) as ->. { pose proof (group_match_rm g) as Hrm. by rewrite Hgm in Hrm. }
      split; [done|]. split; [|done]. rewrite H2. cbn. by rewrite <- app_assoc.
  - apply Hnew. intros _ [Hcm Hpv]. by rewrite Hcm, Hpv in E.
Qed.

Lemma contiguous_loop_spec cs prev gs :
  grouping Contiguous (map kinds gs) →
  (gs ≠ [] → Some prev = last (kinds (concat gs))) →
  ∃ gs', contiguous_loop cs prev (rev (map group_match gs)) = rev (map group_match gs')
       ∧ concat gs' = concat gs ++ cs ∧ grouping Contiguous (map kinds gs').
Proof.
  revert prev gs. induction cs as [|c cs IH]; intros prev gs Hg Hp.
  { exists gs. by rewrite app_nil_r. }
  cbn [contiguous_loop].
  assert (Hnew : (gs ≠ [] → c_match c ≠ prev) →
     ∃ gs', contiguous_loop cs (c_match c) ((c_start c, c_end c, false) :: rev (map group_match gs))
            = rev (map group_match gs')
       ∧ concat gs' = concat gs ++ c :: cs ∧ grouping Contiguous (map kinds gs')).
  { intros Hc. destruct (IH (c_match c) (gs ++ [[c]])) as (gs' & H1 & H2 & H3).
    - rewrite map_app. cbn [map]. destruct Hg as [G1 G2]. split.
      + apply Forall_app. split; [done|]. constructor; [|done]. split; [done|]. exists (c_match c). by repeat constructor.
      + apply adjacent_snoc; [done|]. intros y Hy HA. cbn in HA.
        destruct gs as [|g0 gs _] using rev_ind; [done|].
        rewrite map_app in Hy. cbn [map] in Hy. rewrite last_snoc in Hy. injection Hy as <-.
        apply Hc; [by destruct gs|].
        assert (g0 ≠ []) by (intros ->; done).
        specialize (Hp ltac:(by destruct gs)). rewrite concat_snoc in Hp.
        unfold kinds in Hp, HA. rewrite map_app in Hp.
        destruct (exists_last H) as (g' & d & ->). rewrite map_app in Hp, HA. cbn in Hp, HA.
        rewrite last_snoc in HA. rewrite app_assoc, last_snoc in Hp. congruence.
    - intros _. rewrite concat_snoc. unfold kinds. rewrite map_app. cbn. by rewrite last_snoc.
    - exists gs'. rewrite map_app in H1. cbn [map] in H1. rewrite rev_unit in H1. split; [done|].
      split; [|done]. rewrite H2, concat_snoc, <- app_assoc. done. }
  destruct gs as [|g gs _] using rev_ind.
  { cbn [map rev]. apply Hnew. done. }
  rewrite map_app, rev_app_distr. cbn [map rev app].
  destruct (group_match g) as [[s e] rm] eqn:Hgm.
  destruct (Bool.eqb (c_match c) prev) eqn:E.
  - apply Bool.eqb_prop in E as Hcm.
    rewrite map_app in Hg. cbn [map] in Hg. destruct Hg as [G1 G2]. apply Forall_app in G1 as [G1 G1'].
    inversion G1' as [|? ? [G3 (k & G4)] _]; subst. clear G1'.
    assert (Hne : g ≠ []) by (intros ->; done).
    assert (Hk : k = c_match c).
    { specialize (Hp ltac:(by destruct gs)). rewrite concat_snoc in Hp. unfold kinds in *. rewrite map_app in Hp.
      destruct (exists_last Hne) as (g' & d & ->). rewrite map_app in Hp, G4. cbn in Hp, G4.
      rewrite app_assoc, last_snoc in Hp. apply Forall_app in G4 as [_ G4]. inversion G4; subst. congruence. }
    destruct (IH (c_match c) (gs ++ [g ++ [c]])) as (gs' & H1 & H2 & H3).
    + rewrite map_app. cbn [map]. split.
      * apply Forall_app. split; [done|]. constructor; [|done]. unfold kinds in *. rewrite map_app.
        split; [by destruct g|]. exists k. apply Forall_app. split; [done|]. by repeat constructor.
      * apply adjacent_snoc; [by apply adjacent_app_inv in G2|]. intros y Hy.
        pose proof (adjacent_last2 _ _ _ _ G2 Hy) as HR. cbn in HR. unfold kinds in *. rewrite map_app.
        by destruct g.
    + intros _. rewrite concat_snoc. unfold kinds. rewrite !map_app. cbn. by rewrite app_assoc, last_snoc.
    + exists gs'. rewrite map_app, rev_app_distr in H1. cbn [map rev app] in H1.
      rewrite group_match_snoc, Hgm in H1 by done. cbn [fst] in H1.
      assert (rm = false) as ->. { pose proof (group_match_rm g) as Hrm. by rewrite Hgm in Hrm. }
      split; [done|]. split; [|done]. rewrite H2, !concat_snoc, <- !app_assoc. done.
  - rewrite map_app, rev_app_distr in Hnew. cbn [map rev app] in Hnew. rewrite Hgm in Hnew.
    apply Hnew. intros _ Hc. rewrite Hc, Bool.eqb_reflx in E. done.
Qed.

(** What the matches computed by Split are, for each behaviour. *)
Definition removable (b : behaviour) (g : list capture) : bool :=
  match b, g with Removed, [c] => c_match c | _, _ => false end.

Lemma split_matches_spec b cs :
  ∃ gs, concat gs = cs ∧ grouping b (map kinds gs)
      ∧ split_matches b cs = map (λ g, ((group_match g).1, removable b g)) gs.
Proof.
  assert (Hone : concat (map (λ c, [c]) cs) = cs) by (induction cs as [|c cs IH]; cbn; congruence).
  assert (Hk : Forall (λ g, g = [true] ∨ g = [false]) (map kinds (map (λ c, [c]) cs))).
  { rewrite map_map. apply Forall_map, Forall_forall. intros c _. cbn. destruct (c_match c); tauto. }
  assert (Hpair : ∀ g : list capture, group_match g = ((group_match g).1, false)).
  { intros g. pose proof (group_match_rm g). by destruct (group_match g); cbn in *; subst. }
  destruct b.
  - exists (map (λ c, [c]) cs). split; [done|]. split; [done|]. cbn. by rewrite map_map.
  - exists (map (λ c, [c]) cs). split; [done|]. split; [done|]. cbn. by rewrite map_map.
  - destruct (mwp_loop_spec cs false []) as (gs & H1 & H2 & H3).
    { split; [constructor|]. by intros [|i] x y H. } { done. }
    exists gs. split; [done|]. split; [done|]. cbn in H1 |- *. rewrite H1, rev_involutive.
    apply map_ext. intros g. apply Hpair.
  - destruct (mwn_loop_spec (rev cs) false []) as (gs & H1 & H2 & H3).
    { split; [constructor|]. by intros [|i] x y H. } { done. }
    exists gs. rewrite rev_involutive, app_nil_r in H2. split; [done|]. split; [done|]. cbn in H1 |- *. rewrite H1.
    apply map_ext. intros g. apply Hpair.
  - destruct (contiguous_loop_spec cs false []) as (gs & H1 & H2 & H3).
    { split; [constructor|]. by intros [|i] x y H. } { done. }
    exists gs. split; [done|]. split; [done|]. cbn in H1 |- *. rewrite H1, rev_involutive.
    apply map_ext. intros g. apply Hpair.
Qed.

(** ** From groups of captures to groups of characters *)
Fixpoint place_groups (i : Z) (sgs : list asegments) : list (list capture) :=
  match sgs with
  | [] => []
  | sg :: sgs' => place i (texts_of sg) :: place_groups (i + alen (group_text sg)) sgs'
  end.

Lemma texts_of_alen sg : zlen (encode (concat (texts_of sg).*1)) = alen (group_text sg).
Proof. by rewrite texts_of_concat. Qed.

Lemma place_app_inv segs i a b :
  place i (texts_of segs) = a ++ b →
  ∃ s1 s2, segs = s1 ++ s2 ∧ a = place i (texts_of s1) ∧ b = place (i + alen (group_text s1)) (texts_of s2).
Proof.
  revert i a. induction segs as [|[t m] segs IH]; intros i a H.
  - cbn in H. symmetry in H. apply app_nil in H as [-> ->]. by exists [], [].
  - destruct a as [|c a].
    + cbn [app] in H. subst b. exists [], ((t, m) :: segs). cbn [app]. split; [done|]. split; [done|].
      cbn [group_text fmap list_fmap concat]. by rewrite alen_nil, Z.add_0_r.
    + cbn [texts_of map place fst snd app] in H. injection H as <- H. apply IH in H as (s1 & s2 & -> & -> & ->).
      exists ((t, m) :: s1), s2. split; [done|]. split; [done|]. f_equal.
      unfold group_text. rewrite fmap_cons. cbn [concat fst]. rewrite alen_app. unfold alen at 2. lia.
Qed.

Lemma place_groups_inv gs segs i :
  concat gs = place i (texts_of segs) → ∃ sgs, concat sgs = segs ∧ gs = place_groups i sgs.
Proof.
  revert i segs. induction gs as [|g gs IH]; intros i segs H.
  - destruct segs as [|[t m] segs]; [|done]. by exists [].
  - cbn [concat] in H. symmetry in H. apply place_app_inv in H as (s1 & s2 & -> & -> & H).
    destruct (IH _ _ H) as (sgs & <- & ->). by exists (s1 :: sgs).
Qed.

Lemma kinds_place i sg : kinds (place i (texts_of sg)) = sg.*2.
Proof.
  revert i. induction sg as [|[t m] sg IH]; intros i; [done|]. cbn [texts_of map place kinds fst snd c_match].
  rewrite fmap_cons. cbn [snd]. f_equal. apply IH.
Qed.

Lemma kinds_place_groups i sgs : map kinds (place_groups i sgs) = map (λ g, g.*2) sgs.
Proof.
  revert i. induction sgs as [|sg sgs IH]; intros i; [done|]. cbn [place_groups map]. by rewrite kinds_place, IH.
Qed.

Lemma group_match_place i sg : sg ≠ [] → (group_match (place i (texts_of sg))).1 = (i, i + alen (group_text sg)).
Proof.
  revert i. induction sg as [|[t m] sg IH]; intros i; [done|]. intros _.
  assert (Ht : alen (group_text ((t, m) :: sg)) = zlen (encode t.*1) + alen (group_text sg)).
  { unfold group_text. rewrite fmap_cons. cbn [concat fst]. by rewrite alen_app. }
  cbn [texts_of map place fst snd]. fold (texts_of sg). destruct (decide (sg = [])) as [->|Hne].
  - cbn [texts_of map place group_match last fst c_start c_end]. rewrite Ht. unfold group_text.
    cbn [fmap list_fmap concat]. rewrite alen_nil. f_equal. lia.
  - rewrite group_match_cons.
    + rewrite (IH _ Hne). cbn [fst snd c_start]. rewrite Ht. f_equal. lia.
    + by destruct sg as [|[t' m'] sg].
Qed.

Lemma grouping_nonempty b gs g : grouping b gs → g ∈ gs → g ≠ [].
Proof.
  intros H Hg ->. destruct b; cbn in H; try destruct H as [H _]; rewrite Forall_forall in H; apply H in Hg;
    naive_solver.
Qed.

Lemma removable_place b i sg :
  (b = Removed → sg.*2 = [true] ∨ sg.*2 = [false]) →
  removable b (place i (texts_of sg)) = negb (bool_decide (kept b sg.*2)).
Proof.
  intros H. destruct b; cbn [removable kept]; try (by rewrite bool_decide_true).
  destruct (H eq_refl) as [Hk|Hk]; rewrite Hk; destruct sg as [|[t m] [|]]; try done; cbn in Hk; by injection Hk as ->.
Qed.

Lemma piece_of_empty n i : piece_of n [] (NS [] [] [] i).
Proof. split; [repeat split; constructor|]. done. Qed.

Lemma cut_spec n b sgs pre v :
  wf_as n v → v = pre ++ concat (map group_text sgs) →
  Forall (λ g : asegments, g ≠ []) sgs →
  (b = Removed → Forall (λ g : asegments, g.*2 = [true] ∨ g.*2 = [false]) sgs) →
  Forall (λ c, c_start c = c_end c → (b = Removed ∧ c_match c = true) ∨ c_end c <= zlen (ns_orig n))
         (concat (place_groups (alen pre) sgs)) →
  ∃ ps, cut n (map (λ g, ((group_match g).1, removable b g)) (place_groups (alen pre) sgs)) = Ret (Ok ps)
      ∧ Forall2 (λ g p, piece_of n (group_text g) p) (kept_groups b sgs) ps.
Proof.
  intros Hwf Hv Hne Hrm Hemp. revert pre Hv Hemp. induction sgs as [|sg sgs IH]; intros pre Hv Hemp.
  { exists []. split; [done|]. constructor. }
  inversion Hne as [|? ? Hsg Hne']; subst x l.
  assert (Hrm' : b = Removed → Forall (λ g : asegments, g.*2 = [true] ∨ g.*2 = [false]) sgs).
  { intros Hb. specialize (Hrm Hb). by inversion Hrm. }
  specialize (IH Hne' Hrm' (pre ++ group_text sg)). rewrite alen_app in IH.
  cbn [place_groups concat] in Hemp. apply Forall_app in Hemp as [Hemp1 Hemp2].
  destruct IH as (ps & Hcut & Hps); [|done|].
  { rewrite Hv. cbn [map concat]. by rewrite app_assoc. }
  cbn [place_groups map cut]. rewrite removable_place; [|intros Hb; specialize (Hrm Hb); by inversion Hrm].
  rewrite (group_match_place _ _ Hsg). unfold kept_groups. rewrite filter_cons.
  destruct (decide (kept b sg.*2)) as [Hk|Hk].
  - rewrite bool_decide_true by done. cbn [negb].
    assert (∃ p, slice n (NRange (alen pre) (alen pre + alen (group_text sg))) = Ret (Some p)
               ∧ piece_of n (group_text sg) p) as (p & Hp & Hpo).
    { destruct (decide (group_text sg = [])) as [He|He].
      - rewrite He, alen_nil, Z.add_0_r. pose proof Hwf as (Hr & _).
        exists (NS [] [] [] (ns_shift n + alen pre)). split; [|apply piece_of_empty].
        eapply slice_empty; [done| |].
        + destruct Hr as (Hs & Hn & _). rewrite Hn, Hv. rewrite Hv in Hs. by apply aboundary_app.
        + destruct sg as [|[t m] sg]; [done|]. cbn [texts_of map place] in Hemp1. apply Forall_cons in Hemp1 as [Hc _].
          cbn [c_start c_end c_match fst snd] in Hc. unfold group_text in He. rewrite fmap_cons in He.
          cbn [concat fst] in He. apply app_nil in He as [-> He2]. change (encode [].*1) with (@nil Z) in Hc.
          rewrite zlen_nil, Z.add_0_r in Hc. destruct (Hc eq_refl) as [[-> ->]|?]; [|done].
          cbn in Hk. done.
      - rewrite <- alen_app. apply (slice_chars n pre (group_text sg) (concat (map group_text sgs))); [|done].
        rewrite Hv in Hwf. cbn [map concat] in Hwf. done. }
    rewrite Hp. cbn [mbind outcome_bind]. rewrite Hcut. cbn [mbind outcome_bind]. exists (p :: ps).
    split; [done|]. by constructor.
  - rewrite bool_decide_false by done. cbn [negb]. by exists ps.
Qed.

Lemma concat_group_text sgs : concat (map group_text sgs) = concat (concat sgs).*1.
Proof.
  induction sgs as [|sg sgs IH]; [done|]. cbn [map concat]. rewrite fmap_app, concat_app, IH. done.
Qed.

Lemma split_spec n v (p : pattern) b cs :
  wf_as n v → p (ns_norm n) = Ret (Ok cs) → boundary_cover (ns_norm n) cs → empties_ok b (ns_orig n) cs →
  ∃ segs gs ps, concat segs.*1 = v ∧ cs = place 0 (texts_of segs) ∧ grouped b segs gs
    ∧ split n p b = Ret (Ok ps)
    ∧ Forall2 (λ g p, piece_of n (group_text g) p) (kept_groups b gs) ps.
Proof.
  intros Hwf Hp Hcov Hemp. pose proof Hwf as (Hr & _).
  apply (cover_segments n v cs Hr) in Hcov as (segs & Hsegs & ->).
  destruct (split_matches_spec b (place 0 (texts_of segs))) as (cgs & Hc & Hg & Hm).
  destruct (place_groups_inv cgs segs 0 Hc) as (sgs & Hcs & ->).
  rewrite kinds_place_groups in Hg.
  assert (Hne : Forall (λ g : asegments, g ≠ []) sgs).
  { apply Forall_forall. intros g Hin ->. eapply (grouping_nonempty b _ []); [exact Hg| |done].
    apply elem_of_list_fmap. by exists []. }
  destruct (cut_spec n b sgs [] v Hwf) as (ps & Hcut & Hps).
  - cbn. rewrite concat_group_text, Hcs. done.
  - done.
  - intros ->. cbn in Hg. by rewrite Forall_map in Hg.
  - rewrite alen_nil, Hc. done.
  - exists segs, sgs, ps. split; [done|]. split; [done|]. split; [done|]. split; [|done].
    unfold split. rewrite Hp. cbn [mbind outcome_bind]. rewrite Hm. by rewrite alen_nil in Hcut.
Qed.

Lemma pieces_text n b gs ps :
  Forall2 (λ g p, piece_of n (group_text g) p) (kept_groups b gs) ps →
  concat (map ns_norm ps) = encode (concat (map group_text (kept_groups b gs))).*1.
Proof.
  intros H. induction H as [|g p gs' ps Hp H IH]; [done|]. cbn [map concat].
  rewrite fmap_app, encode_app, IH. f_equal. destruct Hp as ((_ & Hn & _) & _). by rewrite Hn, shift_spans_chars.
Qed.

Lemma kept_groups_all b gs : b ≠ Removed → kept_groups b gs = gs.
Proof.
  intros Hb. unfold kept_groups. induction gs as [|g gs IH]; [done|]. rewrite filter_cons_True; [by rewrite IH|].
  by destruct b.
Qed.

Lemma kept_groups_removed gs :
  grouping Removed (map (λ g : asegments, g.*2) gs) →
  concat (map group_text (kept_groups Removed gs))
  = concat (base.filter (λ s : _ * bool, s.2 = false) (concat gs)).*1.
Proof.
  induction gs as [|g gs IH]; [done|]. cbn [map]. intros H. inversion H as [|? ? Hg Hgs]; subst.
  unfold kept_groups. rewrite filter_cons. cbn [concat]. rewrite filter_app, fmap_app, concat_app.
  rewrite <- (IH Hgs). destruct g as [|[t m] [|]]; try (cbn in Hg; destruct Hg; done).
  cbn in Hg. destruct m.
  - rewrite decide_False by done. rewrite filter_cons_False by done. done.
  - rewrite decide_True by done. rewrite filter_cons_True by done. cbn [map concat]. done.
Qed.
