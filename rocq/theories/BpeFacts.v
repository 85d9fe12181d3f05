(** MergeAll is byte pair encoding. *)
From Coq Require Import ZifyBool ZifyNat.
From stdpp Require Import relations.
From Verif Require Import GoBase Vocab MergeMap Heap Bpe HeapFacts SpecBpe SliceFacts BpeWord BpeLoop.

Lemma placed_snd i ss : (placed_from i ss).*2 = ss.
Proof. apply list_eq. intros k. rewrite list_lookup_fmap, placed_lookup. by destruct (ss !! k). Qed.

(** Adjacent symbols by index. *)
Lemma pair_at_lookup mm ss k m :
  pair_at mm ss k m ↔ ∃ x y, ss !! k = Some x ∧ ss !! S k = Some y ∧ mm !! (x.1, y.1) = Some m.
Proof.
  split.
  - intros (l & a & la & b & lb & r & -> & <- & Hm). exists (a, la), (b, lb). split; [|split; [|done]].
    + by rewrite lookup_app_r, Nat.sub_diag by lia.
    + rewrite lookup_app_r by lia. by replace (S (length l) - length l)%nat with 1%nat by lia.
  - intros ([a la] & [b lb] & Hx & Hy & Hm). exists (take k ss), a, la, b, lb, (drop (S (S k)) ss).
    split; [|split; [|done]].
    + rewrite <- (take_drop k ss) at 1. f_equal. rewrite (drop_S _ _ _ Hx). f_equal. by rewrite (drop_S _ _ _ Hy).
    + apply take_length_le. apply lookup_lt_Some in Hx. lia.
Qed.

Lemma merge_all_steps mm drop ss : Forall (λ s, 0 < s.2) ss →
  ∃ w', merge_all_with (word_of ss) mm drop = Some (Ret w') ∧ rtc (merge_step mm) ss (word_syms w').
Proof.
  intros Hpos. destruct (merge_all_spec mm drop ss (λ v _ _ _, rtc (merge_step mm) ss v.*2)) as (w' & v' & skip & n & E & Ew & H).
  - intros v q skip n v' q' skip' H [top rest q1 Hd P _ P'|top rest q1 Hd P _ P' _|top rest q1 l p a la n' b lb r m Hd P _ -> _ Hm _ P']; [done..|].
    eapply rtc_r; [exact H|]. rewrite !fmap_app, !fmap_cons. cbn [snd]. by apply merge_step_intro.
  - intros q _. by rewrite placed_snd.
  - done.
  - exists w'. rewrite Ew. done.
Qed.

(** * Completeness of the queue, without dropout *)

Lemma all_entries_elem mm v e : e ∈ all_entries mm v ↔
  ∃ k x y m, v !! k = Some x ∧ v !! S k = Some y ∧ mm !! (x.2.1, y.2.1) = Some m ∧ e = WordMerge (mv_rank m) (mv_id m) (Z.of_nat x.1).
Proof.
  induction v as [|x v IH]; [split; [by intros ?%elem_of_nil|naive_solver]|].
  destruct v as [|y v]; [split; [by intros ?%elem_of_nil|intros ([|k] & ? & ? & ? & _ & ? & _); done]|].
  change (all_entries mm (x :: y :: v)) with (pair_entry mm x y ++ all_entries mm (y :: v)). rewrite elem_of_app, IH. split.
  - intros [H|(k & x' & y' & m & H)]; [|by exists (S k), x', y', m].
    unfold pair_entry in H. destruct (mm !! _) as [m|] eqn:E; [|by apply elem_of_nil in H]. apply elem_of_list_singleton in H.
    exists 0%nat, x, y, m. done.
  - intros ([|k] & x' & y' & m & Hx & Hy & Hm & ->).
    + left. cbn in Hx, Hy. simplify_eq. unfold pair_entry. rewrite Hm. by left.
    + right. by exists k, x', y', m.
Qed.

Definition sorted_v (v : list (nat * (Z * Z))) : Prop :=
  ∀ j k x y, (j < k)%nat → v !! j = Some x → v !! k = Some y → (x.1 < y.1)%nat.
Lemma sorted_inj v j k x y : sorted_v v → v !! j = Some x → v !! k = Some y → x.1 = y.1 → j = k.
Proof.
  intros R Hj Hk E. destruct (lt_eq_lt_dec j k) as [[H|H]|H]; [|done|].
  - pose proof (R j k x y H Hj Hk). lia.
  - pose proof (R k j y x H Hk Hj). lia.
Qed.
Lemma sorted_placed i ss : sorted_v (placed_from i ss).
Proof.
  intros j k x y Hjk Hx Hy. rewrite placed_lookup in Hx, Hy. destruct (ss !! j), (ss !! k); try done. cbn in *. simplify_eq. cbn. lia.
Qed.
Lemma sorted_merge l r p n a la b lb c : sorted_v (l ++ (p, (a, la)) :: (n, (b, lb)) :: r) → sorted_v (l ++ (p, (c, la + lb)) :: r).
Proof.
  intros R j k x y Hjk Hx Hy.
  assert (Hold : ∀ i z, (l ++ (p, (c, la + lb)) :: r) !! i = Some z →
    ∃ z', (l ++ (p, (a, la)) :: (n, (b, lb)) :: r) !! (if decide (i <= length l)%nat then i else S i) = Some z' ∧ z'.1 = z.1).
  { intros i z Hz. destruct (lt_eq_lt_dec i (length l)) as [[Hlt|Heq]|Hgt]; [|subst|].
    - rewrite (v'_lt l r p n a la b lb c) in Hz by done. rewrite decide_True by lia. eauto.
    - rewrite v'_p in Hz. injection Hz as <-. rewrite decide_True by lia. rewrite v_p. eauto.
    - rewrite (v'_gt l r p n a la b lb c) in Hz by done. rewrite decide_False by lia. eauto. }
  destruct (Hold _ _ Hx) as (x' & Hx' & <-). destruct (Hold _ _ Hy) as (y' & Hy' & <-).
  eapply R; [|exact Hx'|exact Hy']. repeat case_decide; lia.
Qed.

Definition complete (mm : merge_map) (v : list (nat * (Z * Z))) (q : list word_merge) : Prop :=
  ∀ e, e ∈ all_entries mm v → e ∈ q.

Lemma iter_complete mm v q v' q' skip' :
  sorted_v v → complete mm v q → iter_to mm v q [] false v' q' skip' → sorted_v v' ∧ complete mm v' q' ∧ skip' = [].
Proof.
  intros Hs Hc [top rest q1 [=]|top rest q1 _ P _ P' Hst|top rest q1 l p a la n b lb r m _ P _ -> Hpos Hm Hid P'].
  - split; [done|]. split; [|done]. intros e He. rewrite P'. cbn. pose proof (Hc e He) as Hq. rewrite P in Hq.
    apply elem_of_cons in Hq as [->|Hq]; [|done]. exfalso. apply all_entries_elem in He as (k & x & y & m & Hx & Hy & Hm & ->).
    refine (Hst (take k v) x y (drop (S (S k)) v) m _ _ Hm _); [|done|done].
    rewrite <- (take_drop k v) at 1. f_equal. rewrite (drop_S _ _ _ Hx). f_equal. by rewrite (drop_S _ _ _ Hy).
  - split; [by eapply sorted_merge|]. split; [|done]. intros e He. rewrite P'. rewrite all_entries_app in He.
    rewrite !elem_of_app in He |- *. cbn [app].
    destruct He as [He|[He|He]]; [|by left|].
    + right. right. assert (e ∈ q) as Hq. { apply Hc. rewrite all_entries_app. rewrite elem_of_app. by left. }
      rewrite P in Hq. apply elem_of_cons in Hq as [->|Hq]; [|done]. exfalso.
      apply all_entries_elem in He as (k & x & y & m' & Hx & Hy & Hm' & Ee). rewrite Ee in Hpos. cbn in Hpos.
      assert (k = length l) as ->.
      { eapply (sorted_inj _ k (length l) x); [exact Hs|by apply lookup_app_l_Some|apply v_p|cbn; lia]. }
      rewrite lookup_ge_None_2 in Hx; [done|lia].
    + right. right. assert (e ∈ all_entries mm ((n, (b, lb)) :: r)) as He'.
      { destruct r; [by apply elem_of_nil in He|]. cbn [all_entries]. rewrite elem_of_app. by right. }
      assert (e ∈ q) as Hq. { apply Hc. rewrite all_entries_app. rewrite !elem_of_app. right. right. done. }
      rewrite P in Hq. apply elem_of_cons in Hq as [->|Hq]; [|done]. exfalso.
      apply all_entries_elem in He' as (k & x & y & m' & Hx & Hy & Hm' & Ee). rewrite Ee in Hpos. cbn in Hpos.
      assert ((length l + S k)%nat = length l); [|lia].
      eapply (sorted_inj _ _ (length l) x); [exact Hs| |apply v_p|cbn; lia].
      rewrite lookup_app_r by lia. replace (length l + S k - length l)%nat with (S k) by lia. exact Hx.
Qed.

Lemma complete_start mm v q : q ≡ₚ all_entries mm v → complete mm v q.
Proof. intros P e He. by rewrite P. Qed.
Lemma complete_end mm v : complete mm v [] → saturated mm v.*2.
Proof.
  intros Hc k m (x & y & Hx & Hy & Hm)%pair_at_lookup. rewrite list_lookup_fmap in Hx, Hy.
  destruct (v !! k) as [x'|] eqn:Hx'; [|done]. destruct (v !! S k) as [y'|] eqn:Hy'; [|done]. cbn in Hx, Hy. simplify_eq.
  assert (WordMerge (mv_rank m) (mv_id m) (Z.of_nat x'.1) ∈ ([] : list word_merge)) as H.
  { apply Hc, all_entries_elem. by exists k, x', y', m. }
  by apply elem_of_nil in H.
Qed.

Lemma merge_all_saturates mm drop ss : (∀ k, drop k = false) → Forall (λ s, 0 < s.2) ss →
  ∃ w', merge_all_with (word_of ss) mm drop = Some (Ret w') ∧ saturated mm (word_syms w').
Proof.
  intros Hd Hpos. destruct (merge_all_spec mm drop ss (λ v q skip _, sorted_v v ∧ complete mm v q ∧ skip = [])) as (w' & v' & skip & n & E & Ew & H).
  - intros v q skip n v' q' skip' (Hs & Hc & ->) Hit. rewrite Hd in Hit. exact (iter_complete _ _ _ _ _ _ Hs Hc Hit).
  - intros q P. split; [apply sorted_placed|]. split; [by apply complete_start|done].
  - done.
  - exists w'. split; [done|]. rewrite Ew. apply complete_end. apply H.
Qed.

(** * The textbook, for merges that concatenate *)

(** What an old queue entry still says about the symbol it is for. *)
Definition valid_entry (mm : merge_map) (size : Z → Z) (v : list (nat * (Z * Z))) (e : word_merge) : Prop :=
  ∃ a b m, mm !! (a, b) = Some m ∧ wm_rank e = mv_rank m ∧ wm_id e = mv_id m ∧ 0 < size a ∧ 0 < size b
    ∧ ∀ k x y, v !! k = Some x → wm_pos e = Z.of_nat x.1 → v !! S k = Some y →
        (x.2.1 = a ∧ (y.2.1 = b ∨ size b < size y.2.1)) ∨ size a + size b <= size x.2.1.

Definition sized (size : Z → Z) (v : list (nat * (Z * Z))) : Prop := ∀ k x, v !! k = Some x → 0 < size x.2.1.

Lemma valid_new mm size v e : sorted_v v → sized size v → e ∈ all_entries mm v → valid_entry mm size v e.
Proof.
  intros Hs Hz (k & x & y & m & Hx & Hy & Hm & ->)%all_entries_elem. exists x.2.1, y.2.1, m. split; [done|].
  split; [done|]. split; [done|]. split; [by eapply Hz|]. split; [by eapply Hz|]. intros k' x' y' Hx' Hpos Hy'. cbn in Hpos.
  assert (k' = k) as -> by (eapply (sorted_inj v k' k x' x); [done..|lia]). left. simplify_eq. auto.
Qed.

Lemma iter_textbook mm size v q v' q' skip' :
  additive mm size → sorted_v v → complete mm v q → sized size v → Forall (valid_entry mm size v) q →
  iter_to mm v q [] false v' q' skip' → sized size v' ∧ Forall (valid_entry mm size v') q' ∧ rtc (bpe_step mm) v.*2 v'.*2.
Proof.
  intros Ha Hs Hc Hz Hv Hit. pose proof (iter_complete _ _ _ _ _ _ Hs Hc Hit) as (Hs' & _ & _).
  destruct Hit as [top rest q1 [=]|top rest q1 _ P _ P' Hst|top rest q1 l p a la n b lb r m _ P Hmin -> Hpos Hm Hid P'].
  - split; [done|]. split; [|done]. rewrite P'. rewrite P in Hv. by apply Forall_cons in Hv as [_ ?].
  - pose proof (v_p l r p n a la b lb) as Vp. pose proof (v_n l r p n a la b lb) as Vn.
    pose proof (Hz _ _ Vp) as Za. pose proof (Hz _ _ Vn) as Zb. cbn in Za, Zb.
    pose proof (Ha a b m Hm Za Zb) as Zc. set (c := mv_id m) in *.
    assert (Hz' : sized size (l ++ (p, (c, la + lb)) :: r)).
    { intros k x Hk. destruct (lt_eq_lt_dec k (length l)) as [[H|H]|H].
      - rewrite (v'_lt l r p n a la b lb c) in Hk by done. by eapply Hz.
      - subst k. rewrite v'_p in Hk. injection Hk as <-. cbn. lia.
      - rewrite (v'_gt l r p n a la b lb c) in Hk by done. by eapply Hz. }
    split; [done|]. split.
    + rewrite P'. cbn [app]. apply Forall_app. split.
      * rewrite Forall_forall. intros e He. apply valid_new; [done|done|]. rewrite all_entries_app, !elem_of_app. auto.
      * assert (Hvr : Forall (valid_entry mm size (l ++ (p, (a, la)) :: (n, (b, lb)) :: r)) rest).
        { rewrite P in Hv. by apply Forall_cons in Hv as [_ ?]. }
        eapply Forall_impl; [exact Hvr|]. intros e (a1 & b1 & m1 & Hm1 & Hr1 & Hid1 & Za1 & Zb1 & Hk1).
        exists a1, b1, m1. split; [done|]. split; [done|]. split; [done|]. split; [done|]. split; [done|].
        intros k x y Hx Hpe Hy. destruct (lt_eq_lt_dec k (length l)) as [[H|H]|H].
        -- rewrite (v'_lt l r p n a la b lb c) in Hx by done. destruct (decide (S k = length l)) as [Ek|Ek].
           ++ rewrite Ek, v'_p in Hy. injection Hy as <-. cbn. rewrite <- Ek in Vp. destruct (Hk1 k x _ Hx Hpe Vp) as [[-> Hy]|Hy]; [|by right].
              cbn in Hy. left. split; [done|]. right. destruct Hy as [->|Hy]; lia.
           ++ rewrite (v'_lt l r p n a la b lb c) in Hy by lia. by eapply Hk1.
        -- subst k. rewrite v'_p in Hx. injection Hx as <-. cbn in Hpe |- *. right.
           destruct (Hk1 _ _ _ Vp Hpe Vn) as [[Ea Hb]|Hsz]; cbn in *; [|lia]. subst a1. destruct Hb as [->|Hb]; lia.
        -- rewrite (v'_gt l r p n a la b lb c) in Hx, Hy by lia. by eapply Hk1.
    + apply rtc_once. rewrite !fmap_app, !fmap_cons. cbn [snd].
      assert (Hvt : valid_entry mm size (l ++ (p, (a, la)) :: (n, (b, lb)) :: r) top).
      { rewrite Forall_forall in Hv. apply Hv. rewrite P. by left. }
      assert (Hrank : wm_rank top = mv_rank m).
      { destruct Hvt as (a1 & b1 & m1 & Hm1 & Hr1 & Hid1 & Za1 & Zb1 & Hk1). pose proof (Ha a1 b1 m1 Hm1 Za1 Zb1) as Zc1.
        rewrite <- Hid1, <- Hid in Zc1. fold c in Zc1.
        destruct (Hk1 _ _ _ Vp Hpos Vn) as [[Ea Hb]|Hsz]; cbn in *; [|lia]. subst a1. destruct Hb as [->|Hb]; [|lia]. congruence. }
      apply bpe_step_intro; [done|]. intros k m' (x & y & Hx & Hy & Hm')%pair_at_lookup.
      assert (Hfm : l.*2 ++ (a, la) :: (b, lb) :: r.*2 = (l ++ (p, (a, la)) :: (n, (b, lb)) :: r).*2) by (by rewrite fmap_app, !fmap_cons).
      rewrite Hfm in Hx, Hy. rewrite list_lookup_fmap in Hx, Hy.
      destruct ((l ++ (p, (a, la)) :: (n, (b, lb)) :: r) !! k) as [x'|] eqn:Hx'; [|done].
      destruct ((l ++ (p, (a, la)) :: (n, (b, lb)) :: r) !! S k) as [y'|] eqn:Hy'; [|done]. cbn in Hx, Hy. simplify_eq.
      assert (Hin : WordMerge (mv_rank m') (mv_id m') (Z.of_nat x'.1) ∈ q).
      { apply Hc, all_entries_elem. by exists k, x', y', m'. }
      assert (Hle : wm_le top (WordMerge (mv_rank m') (mv_id m') (Z.of_nat x'.1))).
      { rewrite P in Hin. apply elem_of_cons in Hin as [->|Hin]; [apply wm_le_refl|]. rewrite Forall_forall in Hmin. by apply Hmin. }
      unfold wm_le, wm_less in Hle. cbn in Hle. rewrite Hrank, Hpos in Hle. rewrite fmap_length.
      destruct (Z.eqb_spec (mv_rank m') (mv_rank m)) as [Er|Er]; cbn in Hle; [|lia]. right. split; [done|].
      destruct (decide (length l <= k)%nat); [done|]. pose proof (Hs k (length l) _ _ ltac:(lia) Hx' Vp) as H. cbn in H. lia.
Qed.

Lemma merge_all_textbook mm size drop ss :
  additive mm size → (∀ k, drop k = false) → Forall (λ s, 0 < s.2 ∧ 0 < size s.1) ss →
  ∃ w', merge_all_with (word_of ss) mm drop = Some (Ret w') ∧ rtc (bpe_step mm) ss (word_syms w') ∧ saturated mm (word_syms w').
Proof.
  intros Ha Hd Hpos. destruct (merge_all_spec mm drop ss (λ v q skip _, (sorted_v v ∧ complete mm v q ∧ skip = [])
     ∧ sized size v ∧ Forall (valid_entry mm size v) q ∧ rtc (bpe_step mm) ss v.*2)) as (w' & v' & skip & n & E & Ew & (Hs & Hc & _) & _ & _ & Hr).
  - intros v q skip n v' q' skip' ((Hs & Hc & ->) & Hz & Hv & Hr) Hit. rewrite Hd in Hit. split; [exact (iter_complete _ _ _ _ _ _ Hs Hc Hit)|].
    destruct (iter_textbook mm size v q v' q' skip' Ha Hs Hc Hz Hv Hit) as (H1 & H2 & H3). split; [done|]. split; [done|]. by etrans.
  - intros q P. assert (Hz : sized size (placed_from 0 ss)).
    { intros k x Hk. rewrite placed_lookup in Hk. destruct (ss !! k) as [s|] eqn:Hs; [|done]. cbn in Hk. injection Hk as <-. cbn.
      eapply Forall_lookup in Hpos; [|exact Hs]. by destruct Hpos. }
    split; [split; [apply sorted_placed|split; [by apply complete_start|done]]|]. split; [done|]. split.
    + rewrite Forall_forall. intros e He. rewrite P in He. apply valid_new; [apply sorted_placed|done|done].
    + by rewrite placed_snd.
  - eapply Forall_impl; [exact Hpos|]. cbn. tauto.
  - exists w'. rewrite Ew. split; [done|]. split; [done|]. by apply complete_end.
Qed.

(** The textbook procedure is deterministic. *)
Lemma bpe_step_pair mm s s' : bpe_step mm s s' → ∃ k m, pair_at mm s k m ∧ (∀ k' m', pair_at mm s k' m' → mv_rank m < mv_rank m' ∨ (mv_rank m = mv_rank m' ∧ (k <= k')%nat))
  ∧ ∃ x y, s !! k = Some x ∧ s !! S k = Some y ∧ s' = take k s ++ (mv_id m, x.2 + y.2) :: drop (S (S k)) s.
Proof.
  intros [l a la b lb r m Hm Hmin]. exists (length l), m. split; [by exists l, a, la, b, lb, r|]. split; [done|]. exists (a, la), (b, lb).
  split; [by rewrite lookup_app_r, Nat.sub_diag by lia|].
  split. { rewrite lookup_app_r by lia. by replace (S (length l) - length l)%nat with 1%nat by lia. }
  cbn. rewrite take_app. f_equal. f_equal. rewrite drop_app_ge by lia. by replace (S (S (length l)) - length l)%nat with 2%nat by lia.
Qed.
Lemma bpe_step_det mm s s1 s2 : bpe_step mm s s1 → bpe_step mm s s2 → s1 = s2.
Proof.
  intros (k & m & P & Hmin & x & y & Hx & Hy & ->)%bpe_step_pair (k' & m' & P' & Hmin' & x' & y' & Hx' & Hy' & ->)%bpe_step_pair.
  pose proof (Hmin _ _ P'). pose proof (Hmin' _ _ P). assert (k = k') as -> by lia. simplify_eq.
  apply pair_at_lookup in P as (? & ? & ? & ? & ?). apply pair_at_lookup in P' as (? & ? & ? & ? & ?). by simplify_eq.
Qed.
Lemma bpe_step_unsat mm s s' : bpe_step mm s s' → ¬ saturated mm s.
Proof. intros (k & m & P & _)%bpe_step_pair Hsat. by eapply Hsat. Qed.
Lemma bpe_result_unique mm s s1 s2 :
  rtc (bpe_step mm) s s1 → saturated mm s1 → rtc (bpe_step mm) s s2 → saturated mm s2 → s1 = s2.
Proof.
  intros H1 Hs1. revert s2. induction H1 as [s|s t s1 Hst H1 IH]; intros s2 H2 Hs2.
  - inversion H2 as [|? t ? Hst]; [done|]. exfalso. by eapply bpe_step_unsat.
  - inversion H2 as [|? t' ? Hst' H2']; subst; [exfalso; by eapply bpe_step_unsat|].
    rewrite (bpe_step_det _ _ _ _ Hst Hst') in *. by apply IH.
Qed.

(** Dropping everything. *)
Lemma merge_all_dropped mm drop ss : (∀ k, drop k = true) → Forall (λ s, 0 < s.2) ss →
  ∃ w', merge_all_with (word_of ss) mm drop = Some (Ret w') ∧ word_syms w' = ss.
Proof.
  intros Hd Hpos. destruct (merge_all_spec mm drop ss (λ v _ _ _, v.*2 = ss)) as (w' & v' & skip & n & E & Ew & H).
  - intros v q skip n v' q' skip' H Hit. rewrite Hd in Hit. inversion Hit; subst; done.
  - intros q _. apply placed_snd.
  - done.
  - exists w'. split; [done|]. congruence.
Qed.

(** Lengths. *)
Lemma sym_bytes_app a b : sym_bytes (a ++ b) = sym_bytes a + sym_bytes b.
Proof. unfold sym_bytes. induction a as [|s a IH]; cbn; [done|]. rewrite IH. lia. Qed.
Lemma merge_step_total mm s s' : merge_step mm s s' → sym_bytes s' = sym_bytes s.
Proof. intros [l a la b lb r m _]. rewrite !sym_bytes_app. cbn. lia. Qed.
Lemma merge_steps_total mm s s' : rtc (merge_step mm) s s' → sym_bytes s' = sym_bytes s.
Proof. induction 1 as [|s t s' H _ IH]; [done|]. rewrite IH. by eapply merge_step_total. Qed.
