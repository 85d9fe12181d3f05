(** MergeAll on a word that has been merged before. *)
From Coq Require Import ZifyBool ZifyNat QArith.
From stdpp Require Import relations.
From Verif Require Import GoBase Vocab MergeMap Heap Bpe HeapFacts SpecBpe SpecAgain SliceFacts BpeWord BpeLoop BpeFacts.
#[local] Open Scope Z_scope.

(** * What is left, with its links *)
Lemma remove_empty_live (g : nat → nat * (Z * Z) → wsym) w v :
  (∀ k x, v !! k = Some x → w !! x.1 = Some (g k x) ∧ ws_len (g k x) ≠ 0) →
  (∀ j k x y, (j < k)%nat → v !! j = Some x → v !! k = Some y → (x.1 < y.1)%nat) →
  (∀ i s, w !! i = Some s → ws_len s ≠ 0 → i ∈ v.*1) → remove_empty w = imap g v.
Proof.
  revert v. induction w as [|s w IH] using rev_ind; intros v H1 H2 H3.
  { destruct v as [|x v]; [done|]. destruct (H1 0%nat x eq_refl) as [Hs _]. by rewrite lookup_nil in Hs. }
  rewrite remove_empty_app.
  assert (Hws : (w ++ [s]) !! length w = Some s) by (by rewrite lookup_app_r, Nat.sub_diag by lia).
  destruct (Z.eqb_spec (ws_len s) 0) as [Hs|Hs].
  - assert (remove_empty [s] = []) as ->.
    { unfold remove_empty. rewrite filter_cons, decide_False; [done|]. rewrite Hs. cbn. auto. }
    rewrite app_nil_r. apply IH; [|done|].
    + intros k x Hk. destruct (H1 k x Hk) as (Hs' & Hne). split; [|done].
      destruct (decide (x.1 < length w)%nat); [by rewrite lookup_app_l in Hs'|]. exfalso.
      pose proof (lookup_lt_Some _ _ _ Hs') as Hp. rewrite app_length in Hp. cbn in Hp. assert (E : x.1 = length w) by lia.
      rewrite E, Hws in Hs'. injection Hs' as Hs'. rewrite <- Hs' in Hne. done.
    + intros i s' Hi. apply H3. by apply lookup_app_l_Some.
  - assert (remove_empty [s] = [s]) as ->.
    { unfold remove_empty. rewrite filter_cons, decide_True; [done|]. apply Z.eqb_neq in Hs. rewrite Hs. done. }
    assert (length w ∈ v.*1) as Hin by (by eapply H3).
    apply elem_of_list_fmap in Hin as (z & Hp & Hk). apply elem_of_list_lookup in Hk as [k Hk].
    assert (Hlast : ∀ j y, v !! j = Some y → (j <= k)%nat ∧ (j < k → y.1 < length w)%nat).
    { intros j y Hj. destruct (H1 _ _ Hj) as (Hs' & _). apply lookup_lt_Some in Hs'. rewrite app_length in Hs'. cbn in Hs'.
      split.
      - destruct (decide (j <= k)%nat); [done|]. pose proof (H2 k j _ _ ltac:(lia) Hk Hj) as H. cbn in H. lia.
      - intros Hjk. pose proof (H2 j k _ _ Hjk Hj Hk) as H. lia. }
    assert (v = take k v ++ [z]) as Hv.
    { rewrite <- (take_S_r _ _ _ Hk). rewrite take_ge; [done|]. destruct (decide (length v <= S k)%nat); [done|].
      destruct (lookup_lt_is_Some_2 v (S k)) as [y Hy]; [lia|]. apply Hlast in Hy. lia. }
    rewrite Hv, imap_app. pose proof (lookup_lt_Some _ _ _ Hk) as Hlt. cbn [imap]. rewrite take_length_le by lia. unfold compose. rewrite Nat.add_0_r. f_equal.
    + apply IH.
      * intros j y Hj. apply lookup_take_Some in Hj as [Hj Hjk]. destruct (H1 _ _ Hj) as (Hs' & Hrest). split; [|done].
        rewrite lookup_app_l in Hs'; [done|]. by apply (Hlast j y Hj).
      * intros i j y y' Hij Hy Hz. apply lookup_take_Some in Hy as [Hy _]. apply lookup_take_Some in Hz as [Hz _]. by eapply H2.
      * intros i s' Hi Hs'. assert (i ∈ v.*1) as Hin. { eapply H3; [|done]. by apply lookup_app_l_Some. }
        rewrite Hv, fmap_app in Hin. apply elem_of_app in Hin as [?|Hin]; [done|]. cbn in Hin.
        apply elem_of_list_singleton in Hin. apply lookup_lt_Some in Hi. lia.
    + destruct (H1 _ _ Hk) as (Hs' & _). rewrite <- Hp, Hws in Hs'. by injection Hs' as ->.
Qed.

Definition linked (v : list (nat * (Z * Z))) : word := imap (λ k x, WSym x.2.1 x.2.2 (prevz v k) (pz v (S k))) v.
Lemma remove_empty_linked w v : rep w v → remove_empty w = linked v.
Proof.
  intros R. unfold linked. apply (remove_empty_live (λ k x, WSym x.2.1 x.2.2 (prevz v k) (pz v (S k)))); [|apply (rep_sorted _ _ R)|apply (rep_all _ _ R)].
  intros k [p [a la]] Hk. destruct (rep_at _ _ R _ _ _ _ Hk) as [H E]. cbn [fst snd ws_len]. split; [done|lia].
Qed.

Section all.
  Context (mm : merge_map) (drop : nat → bool) (ss : list (Z * Z)).
  Context (I : list (nat * (Z * Z)) → list word_merge → list word_merge → nat → Prop).
  Context (Istep : ∀ v q skip n v' q' skip', I v q skip n → iter_to mm v q skip (drop n) v' q' skip' → I v' q' skip' (S n)).
  Context (Istart : ∀ q, q ≡ₚ all_entries mm (placed_from 0 ss) → I (placed_from 0 ss) q [] 0).

  Lemma merge_all_linked : Forall (λ s, 0 < s.2) ss →
    ∃ v' skip n, merge_all_with (word_of ss) mm drop = Some (Ret (linked v')) ∧ I v' [] skip n.
  Proof.
    intros Hpos. unfold merge_all_with. destruct (initial_queue_spec mm 0 (word_of ss) [] heap_nil) as (q & E & Hq & P).
    rewrite app_nil_r, word_syms_of in P. change (Z.of_nat 0) with 0 in E. rewrite E. pose proof (rep_start ss Hpos) as R.
    set (n := length ss). assert (length (placed_from 0 ss) = n) as Hn. { unfold placed_from. by rewrite imap_length. }
    assert (length q <= n)%nat as Hql. { rewrite P, <- Hn. apply all_entries_length. }
    destruct (merge_loop_spec mm drop I Istep (4 * n) (merge_fuel (word_of ss)) (MState (word_of ss) q [] 0) (placed_from 0 ss))
      as (st' & v' & -> & R' & _ & HI).
    - done.
    - done.
    - cbn. rewrite app_nil_r, Forall_forall. intros e He. rewrite P in He.
      assert (Hall : ∀ v e, e ∈ all_entries mm v → ∃ x, x ∈ v ∧ wm_pos e = Z.of_nat x.1).
      { clear. induction v as [|x [|y v] IH]; intros e; [by intros ?%elem_of_nil..|]. cbn [all_entries]. rewrite elem_of_app.
        intros [H%pair_entry_pos|H]; [exists x; split; [by left|done]|]. apply IH in H as (z & Hz & ?). exists z. split; [by right|done]. }
      apply Hall in He as (x & Hx & Ex). by eapply rep_in_word.
    - cbn. by apply Istart.
    - cbn. unfold weight. cbn. lia.
    - cbn. unfold weight, merge_fuel. rewrite word_of_length. fold n. cbn [length]. rewrite Hn. nia.
    - exists v', (m_skip st'), (m_draws st'). split; [|done]. by rewrite (remove_empty_linked _ v').
  Qed.
End all.

(** * Groups *)
Lemma merge_step_around mm l r s t : merge_step mm s t → merge_step mm (l ++ s ++ r) (l ++ t ++ r).
Proof.
  intros [l' a la b lb r' m Hm]. replace (l ++ (l' ++ (a, la) :: (b, lb) :: r') ++ r) with ((l ++ l') ++ (a, la) :: (b, lb) :: (r' ++ r)) by (by rewrite <- !app_assoc).
  replace (l ++ (l' ++ (mv_id m, la + lb) :: r') ++ r) with ((l ++ l') ++ (mv_id m, la + lb) :: (r' ++ r)) by (by rewrite <- !app_assoc). by apply merge_step_intro.
Qed.
Lemma merge_steps_around mm l r s t : rtc (merge_step mm) s t → rtc (merge_step mm) (l ++ s ++ r) (l ++ t ++ r).
Proof. induction 1 as [|s1 s2 s3 H _ IH]; [done|]. eapply rtc_l; [by apply merge_step_around|done]. Qed.

Definition grouped (mm : merge_map) (ss : list (Z * Z)) (v : list (nat * (Z * Z))) : Prop :=
  ∃ gs, concat gs = ss ∧ merged_groups mm gs v.*2 ∧ ∀ k x, v !! k = Some x → x.1 = length (concat (take k gs)).

Lemma grouped_start mm ss : grouped mm ss (placed_from 0 ss).
Proof.
  exists (map (λ s, [s]) ss). split; [induction ss as [|s ss IH]; [done|]; cbn; by f_equal|]. split.
  - unfold merged_groups. rewrite placed_snd. induction ss as [|s ss IH]; constructor; [by split|done].
  - intros k x Hx. rewrite placed_lookup in Hx. destruct (ss !! k) as [y|] eqn:E; [|done]. injection Hx as <-. cbn [fst].
    assert (H : ∀ k, (k <= length ss)%nat → length (concat (take k (map (λ s, [s]) ss))) = k).
    { clear. induction ss as [|s ss IH]; intros [|k] Hk; cbn in *; [lia..|]. rewrite IH; lia. }
    rewrite H; [done|]. apply lookup_lt_Some in E. lia.
Qed.

Lemma grouped_merge mm ss l p a la n b lb r m : mm !! (a, b) = Some m →
  grouped mm ss (l ++ (p, (a, la)) :: (n, (b, lb)) :: r) → grouped mm ss (l ++ (p, (mv_id m, la + lb)) :: r).
Proof.
  intros Hm (gs & Hc & Hg & Hp). unfold merged_groups in Hg. rewrite fmap_app in Hg. cbn [fmap list_fmap snd] in Hg.
  apply Forall2_app_inv_r in Hg as (gl & gr0 & Hgl & Hg & ->). apply Forall2_cons_inv_r in Hg as (gx & gr1 & [Hx Hxs] & Hg & ->).
  apply Forall2_cons_inv_r in Hg as (gy & gr & [Hy Hys] & Hgr & ->).
  pose proof (Forall2_length _ _ _ Hgl) as Hl. rewrite fmap_length in Hl.
  exists (gl ++ (gx ++ gy) :: gr). split; [|split].
  - rewrite <- Hc. rewrite !concat_app. cbn. by rewrite <- !app_assoc.
  - unfold merged_groups. rewrite fmap_app. cbn [fmap list_fmap snd]. apply Forall2_app; [done|]. constructor; [|done]. split; [by destruct gx|].
    etrans; [apply (merge_steps_around mm [] gy gx [(a, la)] Hxs)|]. cbn [app].
    etrans; [|apply rtc_once, (merge_step_intro mm [] a la b lb [] m Hm)]. cbn [app].
    pose proof (merge_steps_around mm [(a, la)] [] gy [(b, lb)] Hys) as H. by rewrite !app_nil_r in H.
  - intros k x Hk. destruct (decide (k < length l)%nat) as [Hlt|Hge].
    + rewrite lookup_app_l in Hk by done. rewrite take_app_le by lia. specialize (Hp k x). rewrite lookup_app_l, take_app_le in Hp by lia. by apply Hp.
    + destruct (decide (k = length l)) as [->|Hne].
      * rewrite lookup_app_r, Nat.sub_diag in Hk by lia. injection Hk as <-. specialize (Hp (length l) (p, (a, la))).
        rewrite lookup_app_r, Nat.sub_diag in Hp by lia. rewrite take_app_le in Hp |- * by lia. by apply Hp.
      * specialize (Hp (S k) x). rewrite lookup_app_r in Hk by lia. rewrite lookup_app_r in Hp by lia.
        replace (S k - length l)%nat with (S (S (k - length l - 1))) in Hp by lia. replace (k - length l)%nat with (S (k - length l - 1)) in Hk by lia. cbn in Hk, Hp.
        rewrite (Hp Hk). rewrite !take_app_ge, !concat_app, !app_length by lia. rewrite Hl.
        replace (S k - length l)%nat with (S (S (k - length l - 1))) by lia. replace (k - length l)%nat with (S (k - length l - 1)) by lia. cbn.
        rewrite !app_length, ?Nat.sub_0_r. lia.
Qed.

Lemma linked_left gs v mm : merged_groups mm gs v.*2 → (∀ k x, v !! k = Some x → x.1 = length (concat (take k gs))) → linked v = left_by gs v.*2.
Proof.
  intros Hg Hp. pose proof (Forall2_length _ _ _ Hg) as Hl. rewrite fmap_length in Hl.
  assert (Hpz : ∀ k, pz v k = place gs k).
  { intros k. unfold pz, place. destruct (v !! k) as [x|] eqn:E.
    - rewrite decide_True by (apply lookup_lt_Some in E; lia). by rewrite (Hp k x E).
    - rewrite decide_False; [done|]. apply lookup_ge_None in E. lia. }
  unfold linked, left_by. rewrite imap_fmap. apply imap_ext. intros k x _. unfold compose. rewrite Hpz. f_equal. destruct k; [done|]. apply Hpz.
Qed.

Lemma merge_all_groups mm drop ss : Forall (λ s, 0 < s.2) ss →
  ∃ gs ts, merge_all_with (word_of ss) mm drop = Some (Ret (left_by gs ts)) ∧ concat gs = ss ∧ merged_groups mm gs ts.
Proof.
  intros Hpos. destruct (merge_all_linked mm drop ss (λ v _ _ _, grouped mm ss v)) as (v & skip & n & E & gs & Hc & Hg & Hp).
  - intros v q skip n v' q' skip' H [top rest q1 Hd P _ P'|top rest q1 Hd P _ P' _|top rest q1 l p a la n' b lb r m Hd P _ -> _ Hm _ P']; [done..|].
    by eapply grouped_merge.
  - intros q _. apply grouped_start.
  - done.
  - exists gs, v.*2. rewrite <- (linked_left gs v mm) by done. done.
Qed.

Lemma left_by_syms gs ts : word_syms (left_by gs ts) = ts.
Proof.
  unfold word_syms, left_by. apply list_eq. intros k. rewrite list_lookup_fmap, list_lookup_imap. destruct (ts !! k) as [[a la]|]; done.
Qed.

(** * Words that are as Add makes them *)
Lemma concat_take_ge (gs : list (list (Z * Z))) k : Forall (λ g, g ≠ []) gs → (k <= length gs)%nat → (k <= length (concat (take k gs)))%nat.
Proof.
  revert k. induction gs as [|g gs IH]; intros [|k] Hg Hk; cbn in *; [lia..|]. apply Forall_cons in Hg as [Hn Hg]. specialize (IH k Hg ltac:(lia)).
  rewrite app_length. destruct g; [done|]. cbn. lia.
Qed.
Lemma left_fresh gs ts : Forall (λ g, g ≠ []) gs → length gs = length ts →
  (left_by gs ts = word_of ts ↔ ∀ k g, (S k < length gs)%nat → gs !! k = Some g → length g = 1%nat).
Proof.
  intros Hn Hl. assert (Hpl : (∀ k g, (S k < length gs)%nat → gs !! k = Some g → length g = 1%nat) ↔ ∀ k, (k < length gs)%nat → place gs k = Z.of_nat k).
  { unfold place. split.
    - intros H k Hk. rewrite decide_True by done. f_equal. induction k as [|k IH]; [done|].
      destruct (lookup_lt_is_Some_2 gs k) as [g Hg]; [lia|]. rewrite (take_S_r _ _ _ Hg), concat_app, app_length. cbn. rewrite app_nil_r.
      rewrite (H k g) by done. rewrite IH by lia. lia.
    - intros H k g Hk Hg. pose proof (H k ltac:(lia)) as H1. pose proof (H (S k) ltac:(lia)) as H2. rewrite decide_True in H1 by lia. rewrite decide_True in H2 by lia.
      rewrite (take_S_r _ _ _ Hg), concat_app, app_length in H2. cbn in H2. rewrite app_nil_r in H2. lia. }
  rewrite Hpl. clear Hpl. split.
  - intros E [|k] Hk; [unfold place; by rewrite decide_True|]. destruct (lookup_lt_is_Some_2 ts k) as [t Ht]; [lia|].
    apply (f_equal (lookup k)) in E. rewrite word_of_lookup in E. unfold left_by in E. rewrite list_lookup_imap, Ht in E. cbn in E. injection E as _ E.
    rewrite E, decide_False by lia. lia.
  - intros H. apply list_eq. intros k. rewrite word_of_lookup. unfold left_by. rewrite list_lookup_imap. destruct (ts !! k) as [t|] eqn:Ht; [|done]. cbn.
    apply lookup_lt_Some in Ht. do 2 f_equal.
    + destruct k; [done|]. rewrite H by lia. lia.
    + destruct (decide (S k = length ts)); [unfold place; by rewrite decide_False by lia|]. rewrite H by lia. lia.
Qed.

(** * Saturated words stay as they are *)
Lemma merge_all_nothing mm drop w : Forall (λ s, ws_len s ≠ 0) w → saturated mm (word_syms w) → merge_all_with w mm drop = Some (Ret w).
Proof.
  intros Hl Hs. unfold merge_all_with. destruct (initial_queue_spec mm 0 w [] heap_nil) as (q & E & Hq & P). change (Z.of_nat 0) with 0 in E. rewrite E.
  assert (all_entries mm (placed_from 0 (word_syms w)) = []) as E0.
  { destruct (all_entries mm (placed_from 0 (word_syms w))) as [|e es] eqn:Ee; [done|]. exfalso.
    assert (He : e ∈ all_entries mm (placed_from 0 (word_syms w))) by (rewrite Ee; by left). apply all_entries_elem in He as (k & x & y & m & Hx & Hy & Hm & _).
    apply (Hs k m), pair_at_lookup. rewrite placed_lookup in Hx, Hy. destruct (word_syms w !! k) as [a|]; [|done]. destruct (word_syms w !! S k) as [b|]; [|done].
    injection Hx as <-. injection Hy as <-. by exists a, b. }
  rewrite E0 in P. cbn in P. symmetry in P. apply Permutation_nil in P as ->.
  assert (remove_empty w = w) as Er. { clear -Hl. induction Hl as [|s w H _ IH]; [done|]. unfold remove_empty in *. rewrite filter_cons, decide_True; [by rewrite IH|]. destruct (Z.eqb_spec (ws_len s) 0); [done|]. done. }
  destruct (merge_fuel w); cbn [merge_loop m_q m_w]; by rewrite Er.
Qed.

(** * Other words: a second call that panics *)
Lemma drop_until mm drop w z es q skip d fuel : is_heap q → q ≡ₚ z :: es → Forall (λ e, ¬ wm_le z e) es →
  (∀ k, (d <= k < d + length es)%nat → drop k = true) → (length es <= fuel)%nat →
  ∃ skip', merge_loop fuel mm drop (MState w q skip d) = merge_loop (fuel - length es) mm drop (MState w [z] skip' (d + length es)).
Proof.
  revert es q skip d. induction fuel as [|fuel IH]; intros es q skip d Hq P Hz Hd Hf.
  - destruct es; [|cbn in Hf; lia]. apply Permutation_singleton_r in P as ->. exists skip. cbn [length]. by rewrite Nat.add_0_r.
  - destruct es as [|e0 es0] eqn:Ees; [apply Permutation_singleton_r in P as ->; exists skip; cbn [length]; by rewrite Nat.add_0_r|]. rewrite <- Ees in *.
    assert (Hl : (0 < length es)%nat) by (rewrite Ees; cbn; lia). assert (He0 : e0 ∈ es) by (rewrite Ees; by left). clear Ees es0.
    destruct (heap_pop_spec q Hq) as (x & q' & Ep & Hq' & P' & Hx). { intros ->. apply Permutation_length in P. done. }
    assert (x ∈ es) as Hin.
    { assert (x ∈ z :: es) as Hi by (rewrite <- P, P'; by left). apply elem_of_cons in Hi as [->|?]; [|done]. exfalso.
      assert (q' ≡ₚ es) as Pq by (apply (Permutation_cons_inv (a := z)); by rewrite <- P', P). rewrite Forall_forall in Hx, Hz. apply (Hz e0 He0), Hx. by rewrite Pq. }
    apply elem_of_Permutation in Hin as (es' & Pe).
    assert (q' ≡ₚ z :: es') as Pq. { apply (Permutation_cons_inv (a := x)). rewrite <- P', P, Pe. constructor. }
    pose proof (Permutation_length Pe) as Hlen. cbn [length] in Hlen.
    cbn [merge_loop m_q]. destruct q as [|q0 q1]; [by apply Permutation_length in P|]. cbn [m_draws]. rewrite (Hd d) by lia. unfold merge_iter. cbn [m_q]. rewrite Ep.
    cbn [mbind outcome_bind m_w m_skip m_draws].
    destruct (IH es' q' (skip ++ [x]) (d + 1)%nat Hq' Pq) as (skip' & E).
    + rewrite Pe in Hz. by apply Forall_cons in Hz as [_ ?].
    + intros k Hk. apply Hd. lia.
    + lia.
    + exists skip'. rewrite E. rewrite Hlen. f_equal. f_equal. lia.
Qed.

Lemma second_panics gs l a la b lb : Forall (λ g, g ≠ []) gs → length gs = S (S (length l)) → la ≠ 0 → place gs (S (length l)) ≠ Z.of_nat (S (length l)) →
  ∃ n, merge_all_with (left_by gs (l ++ [(a, la); (b, lb)])) {[ (a, b) := MergeValue 0 0 ]} (λ k, bool_decide (k < n)%nat) = Some Panic.
Proof.
  intros Hn Hl Hla Hpl. set (ts := l ++ [(a, la); (b, lb)]). set (w := left_by gs ts). set (mm := {[ (a, b) := MergeValue 0 0 ]} : merge_map).
  assert (Hab : mm !! (a, b) = Some (MergeValue 0 0)) by exact (lookup_singleton (M := gmap (Z * Z)) (a, b) (MergeValue 0 0)).
  assert (Hne : ∀ k, k ≠ (a, b) → mm !! k = None) by (intros k Hk; apply (lookup_singleton_ne (M := gmap (Z * Z))); congruence). clearbody mm.
  destruct (initial_queue_spec mm 0 w [] heap_nil) as (q & E & Hq & P). change (Z.of_nat 0) with 0 in E. rewrite app_nil_r in P.
  unfold w in P. rewrite left_by_syms in P. set (z := WordMerge 0 0 (Z.of_nat (length l))).
  assert (∃ es, all_entries mm (placed_from 0 ts) ≡ₚ z :: es ∧ Forall (λ e, ¬ wm_le z e) es) as (es & Pe & Hes).
  { assert (Hpt : placed_from 0 ts = placed_from 0 l ++ (length l, (a, la)) :: [(S (length l), (b, lb))]).
    { unfold ts, placed_from. rewrite imap_app. f_equal. cbn. f_equal; [f_equal; lia|]. f_equal. f_equal. lia. }
    rewrite Hpt. exists (all_entries mm (placed_from 0 l) ++ match last (placed_from 0 l) with Some y => pair_entry mm y (length l, (a, la)) | None => [] end). split.
    - rewrite all_entries_app. unfold new_entries. cbn [head all_entries]. rewrite app_nil_r.
      assert (pair_entry mm (length l, (a, la)) (S (length l), (b, lb)) = [z]) as ->. { unfold pair_entry. cbn [fst snd]. by rewrite Hab. }
      rewrite app_assoc. by rewrite <- Permutation_cons_append.
    - assert (Hpos : ∀ e y x, y ∈ placed_from 0 l → e ∈ pair_entry mm y x → ¬ wm_le z e).
      { intros e y x Hy He. assert (wm_rank e = 0) as Hr. { unfold pair_entry in He. destruct (decide ((y.2.1, x.2.1) = (a, b))) as [Ed|Ed].
          - rewrite Ed, Hab in He. by apply elem_of_list_singleton in He as ->.
          - rewrite Hne in He by done. by apply elem_of_nil in He. }
        apply pair_entry_pos in He. apply elem_of_list_lookup in Hy as [k Hk]. rewrite placed_lookup in Hk. destruct (l !! k) as [s|] eqn:Es; [|done]. injection Hk as <-.
        apply lookup_lt_Some in Es. cbn in He. unfold wm_le, wm_less. rewrite Hr. cbn. rewrite He. destruct (Z.ltb_spec (Z.of_nat k) (Z.of_nat (length l))); [done|lia]. }
      apply Forall_app. split.
      + apply Forall_forall. intros e He. apply all_entries_elem in He as (k & x & y & m & Hx & Hy & Hm & ->).
        eapply (Hpos _ x y); [by eapply elem_of_list_lookup_2|]. unfold pair_entry. rewrite Hm. by left.
      + destruct (last (placed_from 0 l)) as [y|] eqn:Ey; [|constructor]. apply Forall_forall. intros e He. eapply Hpos; [|exact He].
        apply last_Some in Ey as [l' ->]. set_solver. }
  exists (length es). unfold merge_all_with. rewrite E.
  assert (Hlw : length w = S (S (length l))). { unfold w, left_by, ts. rewrite imap_length, app_length. cbn. lia. }
  assert (Hle : (length es < length w)%nat).
  { pose proof (all_entries_length mm (placed_from 0 ts)) as Ha. rewrite Pe in Ha. cbn [length] in Ha. unfold placed_from in Ha. rewrite imap_length in Ha.
    unfold ts in Ha. rewrite app_length in Ha. cbn in Ha. lia. }
  assert (Hf : (length es < merge_fuel w)%nat) by (unfold merge_fuel; nia).
  destruct (drop_until mm (λ k, bool_decide (k < length es)%nat) w z es q [] 0 (merge_fuel w) Hq) as (skip' & ->).
  - by rewrite P.
  - done.
  - intros k Hk. apply bool_decide_eq_true. lia.
  - lia.
  - destruct (merge_fuel w - length es)%nat as [|f] eqn:Ef; [lia|]. cbn [merge_loop m_q m_draws]. rewrite bool_decide_eq_false_2 by lia.
    unfold merge_iter. cbn [m_q m_w m_skip m_draws]. assert (heap_pop [z] = Ret (z, [])) as -> by done. cbn [mbind outcome_bind].
    destruct (heap_push_all_spec skip' [] heap_nil) as (q1 & -> & _ & _). cbn [mbind outcome_bind wm_pos z].
    assert (Hw : w !! length l = Some (WSym a la (match length l with O => -1 | S k' => place gs k' end) (place gs (S (length l))))).
    { unfold w, left_by, ts. by rewrite list_lookup_imap, lookup_app_r, Nat.sub_diag by lia. }
    rewrite (idx_nat _ _ _ Hw). cbn [mbind outcome_bind ws_len ws_next]. destruct (Z.eqb_spec la 0); [done|]. cbn [orb].
    assert (Hp : Z.of_nat (S (S (length l))) <= place gs (S (length l))).
    { unfold place in *. rewrite decide_True in * by lia. pose proof (concat_take_ge gs (S (length l)) Hn ltac:(lia)). lia. }
    destruct (Z.eqb_spec (place gs (S (length l))) (-1)); [lia|]. cbn [negb].
    assert (idx w (place gs (S (length l))) = Panic) as ->; [|done].
    unfold idx. destruct (0 <=? _); [|done]. rewrite lookup_ge_None_2; [done|]. lia.
Qed.
