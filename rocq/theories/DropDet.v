(** Byte pair encoding with dropout: the draws determine the outcome. *)
From Coq Require Import ZifyBool ZifyNat QArith.
From stdpp Require Import relations.
From Verif Require Import GoBase Strutils Vocab MergeMap Heap Bpe SpecText SpecVocab SpecBpe SpecDrop SliceFacts VocabFacts BpeWord BpeLoop BpeFacts DropFacts.
#[local] Open Scope Z_scope.

Section list.
  Context (l r : list (Z * Z)) (a b c : Z * Z).
  Lemma old_p : (l ++ a :: b :: r) !! length l = Some a.
  Proof. by rewrite lookup_app_r, Nat.sub_diag by lia. Qed.
  Lemma old_n : (l ++ a :: b :: r) !! S (length l) = Some b.
  Proof. rewrite lookup_app_r by lia. by replace (S (length l) - length l)%nat with 1%nat by lia. Qed.
  Lemma new_lt k : (k < length l)%nat → (l ++ c :: r) !! k = (l ++ a :: b :: r) !! k.
  Proof. intros H. by rewrite !lookup_app_l by lia. Qed.
  Lemma new_p : (l ++ c :: r) !! length l = Some c.
  Proof. by rewrite lookup_app_r, Nat.sub_diag by lia. Qed.
  Lemma new_gt k : (length l < k)%nat → (l ++ c :: r) !! k = (l ++ a :: b :: r) !! S k.
  Proof.
    intros H. rewrite !lookup_app_r by lia. assert (∃ j, k - length l = S j)%nat as [j Ej] by (exists (k - length l - 1)%nat; lia).
    rewrite Ej. by replace (S k - length l)%nat with (S (S j)) by lia.
  Qed.
  Lemma new_take k : (k <= length l)%nat → take k (l ++ c :: r) = take k (l ++ a :: b :: r).
  Proof. intros H. rewrite !firstn_app. by replace (k - length l)%nat with 0%nat by lia. Qed.
  Lemma new_bytes k : c.2 = a.2 + b.2 → (length l < k)%nat → sym_bytes (take k (l ++ c :: r)) = sym_bytes (take (S k) (l ++ a :: b :: r)).
  Proof.
    intros Hc H. rewrite !firstn_app, !sym_bytes_app. rewrite !(take_ge l) by lia. f_equal.
    assert (∃ j, k - length l = S j)%nat as [j Ej] by (exists (k - length l - 1)%nat; lia).
    rewrite Ej. replace (S k - length l)%nat with (S (S j)) by lia. cbn [take sym_bytes foldr]. unfold sym_bytes. lia.
  Qed.
End list.

Lemma bytes_inj ss j k : Forall (λ s, 0 < s.2) ss → (j < length ss)%nat → (k < length ss)%nat → sym_bytes (take j ss) = sym_bytes (take k ss) → j = k.
Proof.
  intros Hp Hj Hk E. destruct (lt_eq_lt_dec j k) as [[H|H]|H]; [|done|].
  - pose proof (bytes_lt ss j k Hp). lia.
  - pose proof (bytes_lt ss k j Hp). lia.
Qed.

(** A request whose symbols have grown or gone. *)
Definition stale (mm : merge_map) (size : Z → Z) (ss : list (Z * Z)) (q : Z * Z) : Prop :=
  ∃ a b m, mm !! (a, b) = Some m ∧ q.1 = mv_rank m ∧ ∀ k x y, ss !! k = Some x → ss !! S k = Some y → sym_bytes (take k ss) = q.2 → size a + size b < size x.1 + size y.1.
Definition good (mm : merge_map) (size : Z → Z) (s : dstate) : Prop :=
  Forall (λ s, 0 < s.2 ∧ 0 < size s.1) (d_syms s) ∧ Forall (stale mm size (d_syms s)) (d_old s ++ d_old_out s).

Lemma good_pos size ss : Forall (λ s : Z * Z, 0 < s.2 ∧ 0 < size s.1) ss → Forall (λ s, 0 < s.2) ss.
Proof. intros H. eapply Forall_impl; [exact H|]. cbn. tauto. Qed.

Lemma request_at_Some mm ss k q : q ∈ request_at mm ss k → ∃ x y m, ss !! k = Some x ∧ ss !! S k = Some y ∧ mm !! (x.1, y.1) = Some m ∧ q = (mv_rank m, sym_bytes (take k ss)).
Proof.
  unfold request_at, merge_at. destruct (ss !! k) as [x|] eqn:Hx, (ss !! S k) as [y|] eqn:Hy; try by intros ?%elem_of_nil.
  destruct (mm !! _) as [m|] eqn:Hm; [|by intros ?%elem_of_nil]. intros ->%elem_of_list_singleton. by exists x, y, m.
Qed.

Section grow.
  Context (mm : merge_map) (size : Z → Z) (Ha : additive mm size) (l r : list (Z * Z)) (a la b lb : Z) (m : merge_value).
  Let ss := l ++ (a, la) :: (b, lb) :: r.
  Let ss' := l ++ (mv_id m, la + lb) :: r.
  Context (Hg : Forall (λ s, 0 < s.2 ∧ 0 < size s.1) ss) (Hm : mm !! (a, b) = Some m).

  Lemma grow_sizes : 0 < la ∧ 0 < lb ∧ 0 < size a ∧ 0 < size b ∧ size (mv_id m) = size a + size b.
  Proof using Ha Hg Hm.
    pose proof Hg as H. unfold ss in H. rewrite Forall_app, !Forall_cons in H. destruct H as (_ & [H1 H2] & [H3 H4] & _). cbn in *. rewrite (Ha _ _ _ Hm); auto.
  Qed.
  Lemma grow_good : Forall (λ s, 0 < s.2 ∧ 0 < size s.1) ss'.
  Proof using Ha Hg Hm.
    pose proof grow_sizes as (H1 & H2 & H3 & H4 & H5). pose proof Hg as H. unfold ss in H. rewrite Forall_app, !Forall_cons in H. destruct H as (Hl & _ & _ & Hr).
    unfold ss'. rewrite Forall_app, Forall_cons. cbn. split; [done|]. split; [lia|done].
  Qed.
  Lemma grow_stale q : stale mm size ss q → stale mm size ss' q.
  Proof using Ha Hg Hm.
    pose proof grow_sizes as (H1 & H2 & H3 & H4 & H5). pose proof grow_good as Hg'.
    intros (a1 & b1 & m1 & Hm1 & Eq & Hk). exists a1, b1, m1. split; [done|]. split; [done|].
    pose proof (old_p l r (a, la) (b, lb)) as Vp. pose proof (old_n l r (a, la) (b, lb)) as Vn. intros k x y Hx Hy Ho. unfold ss' in *.
    destruct (lt_eq_lt_dec k (length l)) as [[H|H]|H].
    - rewrite (new_lt l r (a, la) (b, lb)) in Hx by done. rewrite (new_take l r (a, la) (b, lb)) in Ho by lia. destruct (decide (S k = length l)) as [Ek|Ek].
      + rewrite Ek, new_p in Hy. injection Hy as <-. cbn. rewrite <- Ek in Vp. pose proof (Hk k x _ Hx Vp Ho) as H'. cbn in H'. lia.
      + rewrite (new_lt l r (a, la) (b, lb)) in Hy by lia. by eapply Hk.
    - subst k. rewrite (new_take l r (a, la) (b, lb)) in Ho by lia. rewrite new_p in Hx. injection Hx as <-. pose proof (Hk _ _ _ Vp Vn Ho) as H'. cbn in *.
      eapply Forall_lookup in Hg'; [|exact Hy]. lia.
    - rewrite (new_gt l r (a, la) (b, lb)) in Hx, Hy by lia. rewrite (new_bytes l r (a, la) (b, lb)) in Ho by done. by eapply Hk.
  Qed.
  Lemma grow_beside : Forall (stale mm size ss') (beside mm ss (length l)).
  Proof using Ha Hg Hm.
    pose proof grow_sizes as (H1 & H2 & H3 & H4 & H5). pose proof grow_good as Hg'. pose proof (good_pos _ _ Hg) as Hp. pose proof (good_pos _ _ Hg') as Hp'.
    pose proof (old_p l r (a, la) (b, lb)) as Vp. pose proof (old_n l r (a, la) (b, lb)) as Vn. fold ss in Vp, Vn.
    apply Forall_forall. intros q Hq. unfold beside in Hq. apply elem_of_app in Hq as [Hq|Hq].
    - destruct (length l) as [|j] eqn:Hl; [by apply elem_of_nil in Hq|]. apply request_at_Some in Hq as (x & y & m1 & Hx & Hy & Hm1 & ->).
      exists x.1, y.1, m1. split; [done|]. split; [done|]. cbn [snd]. intros k x' y' Hx' Hy' Ho.
      rewrite Vp in Hy. injection Hy as <-. unfold ss in Hx, Ho. rewrite <- (new_lt l r (a, la) (b, lb) (mv_id m, la + lb)) in Hx by lia.
      rewrite <- (new_take l r (a, la) (b, lb) (mv_id m, la + lb)) in Ho by lia. fold ss' in Hx, Ho.
      assert (k = j) as -> by (eapply (bytes_inj ss'); [done|by eapply lookup_lt_Some|by eapply lookup_lt_Some|done]).
      rewrite <- Hl in Hy'. unfold ss' in Hy'. rewrite new_p in Hy'. injection Hy' as <-. cbn. rewrite Hx in Hx'. injection Hx' as ->. lia.
    - apply request_at_Some in Hq as (x & y & m1 & Hx & Hy & Hm1 & ->). exists x.1, y.1, m1. split; [done|]. split; [done|]. cbn [snd].
      intros k x' y' Hx' Hy' Ho. exfalso.
      assert (Hlen : (S (length l) < length ss)%nat) by (unfold ss; rewrite app_length; cbn; lia).
      destruct (le_lt_dec k (length l)) as [H|H].
      + unfold ss' in Ho. rewrite (new_take l r (a, la) (b, lb)) in Ho by lia. fold ss in Ho.
        pose proof (bytes_lt ss k (S (length l)) Hp ltac:(lia)). lia.
      + unfold ss' in Ho, Hx'. rewrite (new_bytes l r (a, la) (b, lb)) in Ho by done. rewrite (new_gt l r (a, la) (b, lb)) in Hx' by lia. fold ss in Ho, Hx'.
        apply lookup_lt_Some in Hx'. pose proof (bytes_lt ss (S (length l)) (S k) Hp ltac:(lia)). lia.
  Qed.
End grow.

Lemma step_good mm size d s s' : additive mm size → good mm size s → drop_step mm d s s' → good mm size s'.
Proof.
  intros Ha Hgd Hd. destruct Hd as [ss out f g k q _ _ _ _|l a la b lb r out f g m ss q Hm _ _ _|ss out f1 q f2 g _ _|ss out f1 q f2 g _ _];
    destruct Hgd as [H1 H2]; unfold good; cbn [d_syms d_old d_old_out] in *.
  - done.
  - split; [by eapply grow_good|]. rewrite app_nil_r. rewrite !Forall_app in *. destruct H2 as [H2 H3].
    split; [|split]; [eapply Forall_impl; [exact H2|]; intros ?; by eapply grow_stale|eapply Forall_impl; [exact H3|]; intros ?; by eapply grow_stale|by eapply grow_beside].
  - split; [done|]. rewrite !Forall_app, !Forall_cons in *. tauto.
  - split; [done|]. rewrite app_nil_r. rewrite !Forall_app, Forall_cons in H2. rewrite !Forall_app. tauto.
Qed.

(** The same state, but for the order in which old requests are listed. *)
Definition same (s t : dstate) : Prop :=
  d_syms s = d_syms t ∧ d_out s = d_out t ∧ d_old s ≡ₚ d_old t ∧ d_old_out s ≡ₚ d_old_out t.

Lemma no_later_both p q : no_later p q → no_later q p → p = q.
Proof. unfold no_later. destruct p, q. cbn. intros. f_equal; lia. Qed.

Lemma stale_live mm size ss k q : additive mm size → ranks_differ mm → Forall (λ s, 0 < s.2 ∧ 0 < size s.1) ss → stale mm size ss q → q ∈ request_at mm ss k → False.
Proof.
  intros Ha Hr Hg (a & b & m & Hm & Eq & Hk) (x & y & m' & Hx & Hy & Hm' & ->)%request_at_Some. cbn in *. specialize (Hk k x y Hx Hy eq_refl).
  pose proof (Hr _ _ _ _ Hm Hm' (eq_sym Eq)) as E. injection E as -> ->. lia.
Qed.
Lemma merge_request mm l a la b lb r m : mm !! (a, b) = Some m → request_at mm (l ++ (a, la) :: (b, lb) :: r) (length l) = [(mv_rank m, sym_bytes l)].
Proof. intros Hm. unfold request_at, merge_at. rewrite old_p, old_n. cbn. rewrite Hm. by rewrite take_app. Qed.

Lemma first_pair mm ss out k q q' : first_of mm ss out q → k ∉ out → request_at mm ss k = [q'] → no_later q q'.
Proof. intros H Hk E. specialize (H k Hk). rewrite E in H. by apply Forall_cons in H as [? _]. Qed.

Lemma step_det mm size d s t s' t' : additive mm size → ranks_differ mm → good mm size s → same s t →
  drop_step mm d s s' → drop_step mm d t t' → same s' t'.
Proof.
  intros Ha Hr Hgd Hsame H1 H2.
  destruct H1 as [ss out f g k q Hk Hq Hf Ho|l a la b lb r out f g m ss q Hm Hk Hf Ho|ss out f1 q f2 g Hf Ho|ss out f1 q f2 g Hf Ho];
    destruct Hgd as [Hg Hst]; destruct Hsame as (E1 & E2 & E3 & E4); cbn [d_syms d_out d_old d_old_out] in *.
  - inversion H2 as [ss0 out0 f0 g0 k0 q0 Hk0 Hq0 Hf0 Ho0| |ss0 out0 f10 q0 f20 g0 Hf0 Ho0|]; subst; cbn [d_syms d_out d_old d_old_out] in *.
    + pose proof (no_later_both _ _ (first_pair _ _ _ _ _ _ Hf Hk0 Hq0) (first_pair _ _ _ _ _ _ Hf0 Hk Hq)) as <-.
      assert (Hin : q ∈ request_at mm ss0 k) by (rewrite Hq; by left). assert (Hin0 : q ∈ request_at mm ss0 k0) by (rewrite Hq0; by left).
      apply request_at_Some in Hin as (x & y & m & Hx & Hy & _ & ->). apply request_at_Some in Hin0 as (x' & y' & m' & Hx' & Hy' & _ & E).
      injection E as _ E. assert (k = k0) as -> by (eapply (bytes_inj ss0); [by eapply good_pos|by eapply lookup_lt_Some|by eapply lookup_lt_Some|done]). done.
    + exfalso. assert (Hq0 : q0 ∈ f) by (rewrite E3; apply elem_of_app; right; by left).
      rewrite Forall_forall in Ho. pose proof (no_later_both _ _ (Ho _ Hq0) (first_pair _ _ _ _ _ _ Hf0 Hk Hq)) as <-.
      apply Forall_app in Hst as [Hst _]. rewrite Forall_forall in Hst. eapply stale_live; [done..|exact (Hst _ Hq0)|]. rewrite Hq. by left.
  - pose proof (merge_request mm l a la b lb r m Hm) as Hq. fold ss q in Hq.
    inversion H2 as [|l0 a0 la0 b0 lb0 r0 out0 f0 g0 m0 ss0 q0 Hm0 Hk0 Hf0 Ho0| |ss0 out0 f10 q0 f20 g0 Hf0 Ho0]; subst; cbn [d_syms d_out d_old d_old_out] in *.
    + pose proof (merge_request mm l0 a0 la0 b0 lb0 r0 m0 Hm0) as Hq0. fold ss0 q0 in Hq0. rewrite <- E1 in Hf0, Hq0.
      pose proof (no_later_both _ _ (first_pair _ _ _ _ _ _ Hf Hk0 Hq0) (first_pair _ _ _ _ _ _ Hf0 Hk Hq)) as E. unfold q, q0 in E. injection E as _ E.
      assert (Hl : length l = length l0).
      { eapply (bytes_inj ss); [by eapply good_pos|unfold ss; rewrite app_length; cbn; lia|rewrite E1; unfold ss0; rewrite app_length; cbn; lia|].
        rewrite E1 at 2. unfold ss, ss0. by rewrite !take_app. }
      assert (E' : l = l0 ∧ (a, la) :: (b, lb) :: r = (a0, la0) :: (b0, lb0) :: r0) by (apply app_inj_1; done).
      destruct E' as [<- E']. injection E' as <- <- <- <- <-. assert (m = m0) as <- by congruence. unfold same. cbn. split; [done|]. split; [done|]. split; [|done].
      by rewrite E3, E4.
    + exfalso. assert (Hq0 : q0 ∈ f) by (rewrite E3; apply elem_of_app; right; by left).
      rewrite <- E1 in Hf0. rewrite Forall_forall in Ho. pose proof (no_later_both _ _ (Ho _ Hq0) (first_pair _ _ _ _ _ _ Hf0 Hk Hq)) as E.
      apply Forall_app in Hst as [Hst _]. rewrite Forall_forall in Hst. eapply stale_live; [done|done|exact Hg|exact (Hst _ Hq0)|]. rewrite <- E, Hq. by left.
  - inversion H2 as [ss0 out0 f0 g0 k0 q0 Hk0 Hq0 Hf0 Ho0| |ss0 out0 f10 q0 f20 g0 Hf0 Ho0|]; subst; cbn [d_syms d_out d_old d_old_out] in *.
    + exfalso. assert (Hq : q ∈ f0) by (rewrite <- E3; apply elem_of_app; right; by left).
      rewrite Forall_forall in Ho0. pose proof (no_later_both _ _ (Ho0 _ Hq) (first_pair _ _ _ _ _ _ Hf Hk0 Hq0)) as <-.
      apply Forall_app in Hst as [Hst _]. rewrite Forall_forall in Hst. eapply stale_live; [done|done|exact Hg| |by rewrite Hq0; left]. apply Hst. apply elem_of_app. right. by left.
    + assert (q = q0) as <-.
      { rewrite <- !Permutation_middle in E3. assert (Hq : q ∈ q0 :: f10 ++ f20) by (rewrite <- E3; by left). assert (Hq0 : q0 ∈ q :: f1 ++ f2) by (rewrite E3; by left).
        apply elem_of_cons in Hq as [?|Hq]; [done|]. apply elem_of_cons in Hq0 as [?|Hq0]; [done|]. rewrite Forall_forall in Ho, Ho0. apply no_later_both; auto. }
      unfold same. cbn. split; [done|]. split; [done|]. rewrite <- !Permutation_middle in E3. apply Permutation_cons_inv in E3. by rewrite E3, E4.
  - inversion H2 as [|l0 a0 la0 b0 lb0 r0 out0 f0 g0 m0 ss0 q0 Hm0 Hk0 Hf0 Ho0| |ss0 out0 f10 q0 f20 g0 Hf0 Ho0]; subst; cbn [d_syms d_out d_old d_old_out] in *.
    + exfalso. pose proof (merge_request mm l0 a0 la0 b0 lb0 r0 m0 Hm0) as Hq0. fold ss0 q0 in Hq0. assert (Hq : q ∈ f0) by (rewrite <- E3; apply elem_of_app; right; by left).
      rewrite Forall_forall in Ho0. pose proof (no_later_both _ _ (Ho0 _ Hq) (first_pair _ _ _ _ _ _ Hf Hk0 Hq0)) as E.
      apply Forall_app in Hst as [Hst _]. rewrite Forall_forall in Hst. apply (stale_live mm size ss0 (length l0) q Ha Hr Hg); [|rewrite Hq0, E; by left]. apply Hst. apply elem_of_app. right. by left.
    + assert (q = q0) as <-.
      { rewrite <- !Permutation_middle in E3. assert (Hq : q ∈ q0 :: f10 ++ f20) by (rewrite <- E3; by left). assert (Hq0 : q0 ∈ q :: f1 ++ f2) by (rewrite E3; by left).
        apply elem_of_cons in Hq as [?|Hq]; [done|]. apply elem_of_cons in Hq0 as [?|Hq0]; [done|]. rewrite Forall_forall in Ho, Ho0. apply no_later_both; auto. }
      unfold same. cbn. split; [done|]. split; [done|]. split; [|done]. rewrite <- !Permutation_middle in E3. apply Permutation_cons_inv in E3. by rewrite !app_assoc, E3, E4.
Qed.

Lemma left_out_stops mm d s s' : all_left_out mm s → drop_step mm d s s' → False.
Proof.
  intros Hlo Hd. destruct Hd as [ss out f g k q Hk Hq _ _|l a la b lb r out f g m ss q Hm Hk _ _|ss out f1 q f2 g _ _|ss out f1 q f2 g _ _]; destruct Hlo as [Ho Hl]; cbn in *.
  - apply Hk. assert (Hin : q ∈ request_at mm ss k) by (rewrite Hq; by left). unfold request_at in Hin. destruct (merge_at mm ss k) eqn:E; [by eapply Hl|by apply elem_of_nil in Hin].
  - apply Hk, (Hl _ m). unfold ss, merge_at. by rewrite old_p, old_n.
  - by destruct f1.
  - by destruct f1.
Qed.
Lemma same_left_out mm s t : same s t → all_left_out mm s → all_left_out mm t.
Proof. intros (E1 & E2 & E3 & _) [H1 H2]. split; [rewrite H1 in E3; by apply Permutation_nil in E3|]. rewrite <- E1, <- E2. done. Qed.

Lemma run_det mm size ds1 ds2 s t s' t' : additive mm size → ranks_differ mm → good mm size s → same s t →
  drop_run mm ds1 s s' → drop_run mm ds2 t t' → all_left_out mm s' → all_left_out mm t' → (ds1 `prefix_of` ds2 ∨ ds2 `prefix_of` ds1) →
  ds1 = ds2 ∧ same s' t'.
Proof.
  intros Ha Hr Hg Hs H1. revert ds2 t Hg Hs. induction H1 as [s|d ds s s1 s' Hd H1 IH]; intros ds2 t Hg Hs H2 L1 L2 Hp.
  - inversion H2 as [|d2 ds2' ? t1 ? Hd2 H2']; subst; [done|]. exfalso. eapply left_out_stops; [|exact Hd2]. by eapply same_left_out.
  - inversion H2 as [|d2 ds2' ? t1 ? Hd2 H2']; subst.
    { exfalso. eapply left_out_stops; [|exact Hd]. eapply (same_left_out _ t'); [|done]. destruct Hs as (? & ? & ? & ?). by unfold same. }
    assert (d2 = d) as ->. { destruct Hp as [[k Hp]|[k Hp]]; by injection Hp. }
    destruct (IH ds2' t1) as [<- E]; [by eapply step_good|by eapply step_det|done..| |done].
    destruct Hp as [[k Hp]|[k Hp]]; injection Hp as ->; [left|right]; by exists k.
Qed.

(** Merges from a file have one rank each. *)
Lemma loaded_ranks file v k mm : merge_map_from_file file v k = Ret (Ok mm) → ranks_differ mm.
Proof.
  intros H. apply from_file_ok in H as [_ H]. apply (merges_loop_ok v k _ 1 ∅ [] mm) in H as (ms & _ & Hms).
  - intros p p' m m' Hp Hp' E. apply Hms in Hp as (H1 & H2 & _). apply Hms in Hp' as (_ & H2' & _). rewrite <- E, H2 in H2'. by injection H2'.
  - intros p x. unfold merge_map. rewrite lookup_empty. split; [done|]. intros (_ & Hx & _). by rewrite lookup_nil in Hx.
Qed.

Lemma decisions_prefix dropout draws n1 n2 ds1 ds2 : (n1 <= n2)%nat → decisions dropout draws n1 ds1 → decisions dropout draws n2 ds2 → ds1 `prefix_of` ds2.
Proof.
  intros Hn H1 H2. unfold decisions in *. replace n2 with (n1 + (n2 - n1))%nat in H2 by lia. rewrite seq_app in H2. apply Forall2_app_inv_l in H2 as (k1 & k2 & H2 & _ & ->).
  exists k2. f_equal. clear k2 Hn. revert k1 H2. induction H1 as [|k d ks ds Hd _ IH]; intros k1 H2.
  - by inversion H2.
  - inversion H2 as [|? d' ? k1' Hd' H2']; subst. f_equal; [|by rewrite (IH k1')]. destruct d, d'; try done.
    + by apply Hd', Hd.
    + symmetry. by apply Hd, Hd'.
Qed.

(** * How many draws *)
Definition opens_pair (mm : merge_map) (x y : Z * Z) : nat := match mm !! (x.1, y.1) with Some _ => 1 | None => 0 end.
Fixpoint opens (mm : merge_map) (ss : list (Z * Z)) : nat :=
  match ss with
  | x :: (y :: _) as ss' => opens_pair mm x y + opens mm ss'
  | _ => 0
  end.
Definition joint (mm : merge_map) (l r : list (Z * Z)) : nat := match last l, head r with Some x, Some y => opens_pair mm x y | _, _ => 0 end.
Lemma opens_app mm l r : opens mm (l ++ r) = (opens mm l + joint mm l r + opens mm r)%nat.
Proof.
  induction l as [|x l IH]; [done|]. destruct l as [|y l].
  - unfold joint. destruct r; cbn; lia.
  - change (opens_pair mm x y + opens mm ((y :: l) ++ r) = opens_pair mm x y + opens mm (y :: l) + joint mm (x :: y :: l) r + opens mm r)%nat.
    rewrite IH. unfold joint. change (last (x :: y :: l)) with (last (y :: l)). lia.
Qed.
Lemma opens_le mm ss : (opens mm ss <= length ss - 1)%nat.
Proof. induction ss as [|x [|y ss] IH]; [done|done|].
  change (opens_pair mm x y + opens mm (y :: ss) <= S (length (y :: ss)) - 1)%nat. cbn [length] in IH |- *. unfold opens_pair. destruct (mm !! _); lia. Qed.
Lemma joint_le mm l r : (joint mm l r <= 1)%nat.
Proof. unfold joint, opens_pair. destruct (last l), (head r); try lia. destruct (mm !! _); lia. Qed.

Lemma request_at_length mm ss k : length (request_at mm ss k) = match ss !! k, ss !! S k with Some x, Some y => opens_pair mm x y | _, _ => 0%nat end.
Proof. unfold request_at, merge_at, opens_pair. destruct (ss !! k), (ss !! S k); try done. by destruct (mm !! _). Qed.

Lemma beside_length mm l a la b lb r m : mm !! (a, b) = Some m →
  (opens mm (l ++ (a, la) :: (b, lb) :: r) = opens mm l + length (beside mm (l ++ (a, la) :: (b, lb) :: r) (length l)) + 1 + opens mm r)%nat.
Proof.
  intros Hm. rewrite opens_app. change ((a, la) :: (b, lb) :: r) with ([(a, la)] ++ [(b, lb)] ++ r) at 2. rewrite !opens_app. unfold beside. rewrite app_length, request_at_length.
  rewrite old_n. change (opens mm [(a, la)]) with 0%nat. change (opens mm [(b, lb)]) with 0%nat.
  assert (E1 : joint mm [(a, la)] ([(b, lb)] ++ r) = 1%nat) by (unfold joint, opens_pair; cbn; by rewrite Hm).
  assert (E2 : joint mm [(b, lb)] r = match (l ++ (a, la) :: (b, lb) :: r) !! S (S (length l)) with Some y => opens_pair mm (b, lb) y | None => 0%nat end).
  { rewrite lookup_app_r by lia. replace (S (S (length l)) - length l)%nat with 2%nat by lia. cbn. unfold joint. by destruct r. }
  assert (E3 : joint mm l ((a, la) :: (b, lb) :: r) = length (match length l with O => [] | S j => request_at mm (l ++ (a, la) :: (b, lb) :: r) j end)).
  { destruct l as [|x l] using rev_ind; [done|]. rewrite app_length. cbn [length]. replace (length l + 1)%nat with (S (length l)) by lia. rewrite request_at_length.
    rewrite <- app_assoc. cbn [app]. rewrite old_p, old_n. unfold joint. by rewrite last_snoc. }
  rewrite E1, E2, E3. lia.
Qed.

Lemma opens_seq mm ss : open_pairs mm ss = opens mm ss.
Proof.
  unfold open_pairs. induction ss as [|x ss IH]; [done|]. cbn [length seq]. rewrite <- fmap_S_seq. rewrite filter_cons.
  assert (E : length (base.filter (λ k, is_Some (merge_at mm (x :: ss) k)) (S <$> seq 0 (length ss))) = opens mm ss).
  { rewrite <- IH. clear IH. induction (seq 0 (length ss)) as [|k ks IH]; [done|]. rewrite fmap_cons, !filter_cons.
    change (merge_at mm (x :: ss) (S k)) with (merge_at mm ss k). destruct (decide _); cbn [length]; by rewrite IH. }
  destruct ss as [|y ss].
  - destruct (decide _) as [[? Hd]|]; [done|exact E].
  - change (opens mm (x :: y :: ss)) with (opens_pair mm x y + opens mm (y :: ss))%nat. unfold opens_pair. destruct (decide _) as [Hd|Hd].
    + rewrite <- E. cbn [length]. change (is_Some (mm !! (x.1, y.1))) in Hd. destruct (mm !! (x.1, y.1)); [lia|by destruct Hd].
    + rewrite E. change (¬ is_Some (mm !! (x.1, y.1))) in Hd. destruct (mm !! (x.1, y.1)) as [z|]; [|lia]. destruct Hd. by exists z.
Qed.

Definition requests (mm : merge_map) (s : dstate) : nat := (opens mm (d_syms s) + length (d_old s) + length (d_old_out s))%nat.
Definition work (mm : merge_map) (s : dstate) : nat := (requests mm s + 2 * length (d_syms s))%nat.
Definition out_ok (mm : merge_map) (s : dstate) : Prop := NoDup (d_out s) ∧ Forall (λ k, is_Some (merge_at mm (d_syms s) k)) (d_out s).

Lemma out_ok_le mm s : out_ok mm s → (length (d_out s) + length (d_old_out s) <= work mm s)%nat.
Proof.
  intros [H1 H2]. unfold work, requests. enough (length (d_out s) <= opens mm (d_syms s))%nat by lia. rewrite <- opens_seq. unfold open_pairs.
  apply submseteq_length, NoDup_submseteq; [done|]. intros k Hk. apply elem_of_list_filter. rewrite Forall_forall in H2. specialize (H2 k Hk). split; [done|].
  apply elem_of_seq. split; [lia|]. unfold merge_at in H2. destruct (d_syms s !! k) eqn:E; [|by destruct H2]. apply lookup_lt_Some in E. lia.
Qed.

Lemma step_work mm d s s' : drop_step mm d s s' → out_ok mm s →
  out_ok mm s' ∧ (if d then work mm s' = work mm s ∧ (length (d_out s') + length (d_old_out s') = S (length (d_out s) + length (d_old_out s)))%nat
                  else (work mm s' < work mm s)%nat ∧ (length (d_out s') + length (d_old_out s') = 0)%nat).
Proof.
  intros Hd Hs. destruct Hd as [ss out f g k q Hk Hq _ _|l a la b lb r out f g m ss q Hm _ _ _|ss out f1 q f2 g _ _|ss out f1 q f2 g _ _];
    destruct Hs as [H1 H2]; unfold out_ok, work, requests; cbn [d_syms d_old d_old_out d_out] in *.
  - split; [|cbn; lia]. split; [by constructor|]. constructor; [|done]. assert (Hin : q ∈ request_at mm ss k) by (rewrite Hq; by left).
    unfold request_at in Hin. destruct (merge_at mm ss k) as [m|]; [by exists m|by apply elem_of_nil in Hin].
  - split; [split; constructor|]. split; [|done]. pose proof (beside_length mm l a la b lb r m Hm) as E. fold ss in E. rewrite E. rewrite opens_app.
    change ((mv_id m, la + lb) :: r) with ([(mv_id m, la + lb)] ++ r) at 2. rewrite opens_app. change (opens mm [_]) with 0%nat.
    pose proof (joint_le mm l ((mv_id m, la + lb) :: r)). pose proof (joint_le mm [(mv_id m, la + lb)] r).
    assert (El : length ss = (length l + S (S (length r)))%nat) by (unfold ss; rewrite app_length; done). rewrite El, !app_length. cbn [length]. lia.
  - split; [done|]. rewrite !app_length. cbn [length]. lia.
  - split; [split; constructor|]. rewrite !app_length. cbn [length]. lia.
Qed.

Lemma run_work mm ds s s' : drop_run mm ds s s' → out_ok mm s →
  ∃ c, (c + work mm s' <= work mm s ∧ (length ds + (length (d_out s) + length (d_old_out s)) <= (c + 1) * work mm s + c) ∧ (Forall (eq false) ds → length ds = c))%nat.
Proof.
  induction 1 as [s|d ds s s1 s2 H1 _ IH]; intros Hs.
  - exists 0%nat. pose proof (out_ok_le mm s Hs). cbn [length]. split; [lia|]. split; [lia|done].
  - destruct (step_work mm d s s1 H1 Hs) as [Hs1 Hd]. destruct (IH Hs1) as (c & Hc1 & Hc2 & Hc3). destruct d.
    + destruct Hd as [E1 E2]. exists c. rewrite E1, E2 in *. cbn [length]. split; [lia|]. split; [lia|]. intros [? _]%Forall_cons. done.
    + destruct Hd as [E1 E2]. exists (S c). rewrite E2 in Hc2. pose proof (out_ok_le mm s Hs). cbn [length]. split; [lia|]. split; [|intros [_ Hf]%Forall_cons; by rewrite Hc3].
      assert ((c + 1) * work mm s1 <= (c + 1) * work mm s)%nat by (apply Nat.mul_le_mono_l; lia). lia.
Qed.

Lemma run_draws mm ds ss s : drop_run mm ds (DState ss [] [] []) s → (length ds <= (3 * length ss) * (3 * length ss))%nat ∧ (Forall (eq false) ds → length ds <= 3 * length ss)%nat.
Proof.
  intros H. destruct (run_work mm ds _ s H) as (c & H1 & H2 & H3); [split; constructor|]. cbn [d_out d_old_out length] in *.
  assert (Hw : (work mm (DState ss [] [] []) <= 3 * length ss - 1)%nat). { unfold work, requests. cbn [d_syms d_old d_old_out length]. pose proof (opens_le mm ss). lia. }
  split; [|intros Hf; rewrite (H3 Hf); lia]. set (w := work mm (DState ss [] [] [])) in *. assert (Hc : (c <= w)%nat) by lia.
  assert ((c + 1) * w <= (w + 1) * w)%nat by (apply Nat.mul_le_mono_r; lia). destruct (decide (length ss = 0%nat)) as [E|E]; [rewrite E in *; assert (w = 0%nat) by lia; nia|].
  assert ((w + 1) * (w + 1) <= (3 * length ss) * (3 * length ss))%nat by (apply Nat.mul_le_mono; lia). lia.
Qed.
