(** Proofs about Heap.v: container/heap keeps the heap order and the entries. *)
From Coq Require Import ZifyBool ZifyNat.
From Verif Require Import GoBase MergeMap Heap.

Definition wm_le (a b : word_merge) : Prop := wm_less b a = false.
Lemma wm_le_refl a : wm_le a a.
Proof. unfold wm_le, wm_less. rewrite Z.eqb_refl. cbn. lia. Qed.
Lemma wm_le_trans a b c : wm_le a b → wm_le b c → wm_le a c.
Proof.
  unfold wm_le, wm_less.
  destruct (Z.eqb_spec (wm_rank b) (wm_rank a)), (Z.eqb_spec (wm_rank c) (wm_rank b)), (Z.eqb_spec (wm_rank c) (wm_rank a)); cbn; lia.
Qed.
Lemma wm_less_le a b : wm_less a b = true → wm_le a b.
Proof.
  unfold wm_le, wm_less. destruct (Z.eqb_spec (wm_rank b) (wm_rank a)), (Z.eqb_spec (wm_rank a) (wm_rank b)); cbn; lia.
Qed.

Definition parent (k : nat) : nat := Nat.div2 (k - 1).
Lemma parent_lt k : (0 < k → parent k < k)%nat.
Proof. unfold parent. rewrite Nat.div2_div. intros. apply Nat.le_lt_trans with (k-1)%nat; [|lia]. apply Nat.div_le_upper_bound; lia. Qed.
Lemma parent_children k i : (0 < k → parent k = i ↔ k = 2 * i + 1 ∨ k = 2 * i + 2)%nat.
Proof. unfold parent. rewrite Nat.div2_div. intros. lia. Qed.

(** The first [n] entries are in heap order. *)
Definition heap_n (h : list word_merge) (n : nat) : Prop :=
  ∀ k a b, (0 < k < n)%nat → h !! k = Some a → h !! parent k = Some b → wm_le b a.

Lemma heap_root h n r k a : heap_n h n → (k < n)%nat → (n <= length h)%nat → h !! 0%nat = Some r → h !! k = Some a → wm_le r a.
Proof.
  intros Hh. revert a. induction k as [k IH] using lt_wf_ind. intros a Hk Hn Hr Ha.
  destruct (decide (k = 0%nat)) as [->|Hk0]; [rewrite Hr in Ha; injection Ha as <-; apply wm_le_refl|].
  pose proof (parent_lt k ltac:(lia)) as Hp. destruct (lookup_lt_is_Some_2 h (parent k)) as [b Hb]; [lia|].
  eapply wm_le_trans; [apply (IH (parent k) Hp b); [lia|done..]|]. apply (Hh k a b); [lia|done..].
Qed.

Lemma swap_perm (h : list word_merge) i j a b : h !! i = Some a → h !! j = Some b → <[i := b]> (<[j := a]> h) ≡ₚ h.
Proof.
  intros Hi Hj. apply Permutation_inj. split; [by rewrite !insert_length|].
  exists (λ k, if decide (k = i) then j else if decide (k = j) then i else k). split.
  - intros x y. repeat case_decide; lia.
  - intros k. destruct (decide (k = i)) as [->|Hki].
    + rewrite list_lookup_insert; [done|]. rewrite insert_length. by eapply lookup_lt_Some.
    + rewrite list_lookup_insert_ne by done. destruct (decide (k = j)) as [->|Hkj].
      * rewrite list_lookup_insert; [done|]. by eapply lookup_lt_Some.
      * by rewrite list_lookup_insert_ne.
Qed.

Lemma swap_lookup (h : list word_merge) i j a b k : h !! i = Some a → h !! j = Some b →
  <[i := b]> (<[j := a]> h) !! k = if decide (k = i) then Some b else if decide (k = j) then Some a else h !! k.
Proof.
  intros Hi Hj. destruct (decide (k = i)) as [->|Hki].
  - rewrite list_lookup_insert; [done|]. rewrite insert_length. by eapply lookup_lt_Some.
  - rewrite list_lookup_insert_ne by done. destruct (decide (k = j)) as [->|Hkj].
    + rewrite list_lookup_insert; [done|]. by eapply lookup_lt_Some.
    + by rewrite list_lookup_insert_ne.
Qed.

(** Heap order but for [j] and its parent. *)
Definition up_inv (h : list word_merge) (j : nat) : Prop :=
  (∀ k a b, (0 < k)%nat → k ≠ j → h !! k = Some a → h !! parent k = Some b → wm_le b a)
  ∧ (∀ k a b, (0 < k)%nat → (0 < j)%nat → parent k = j → h !! k = Some a → h !! parent j = Some b → wm_le b a).

Lemma h_up_spec fuel h j :
  (j < fuel)%nat → (j < length h)%nat → up_inv h j → ∃ h', h_up fuel h j = Ret h' ∧ h' ≡ₚ h ∧ heap_n h' (length h').
Proof.
  revert h j. induction fuel as [|fuel IH]; intros h j Hf Hj [H1 H2]; [lia|]. cbn [h_up]. fold (parent j).
  destruct (Nat.eqb_spec (parent j) j) as [E|E].
  { assert (j = 0)%nat as ->. { destruct (decide (j = 0%nat)) as [->|Hn]; [done|]. pose proof (parent_lt j ltac:(lia)). lia. }
    exists h. split; [done|]. split; [done|]. intros k a b Hk. apply H1; lia. }
  assert (0 < j)%nat as Hj0. { destruct (decide (j = 0%nat)) as [->|Hn]; [done|]. lia. }
  pose proof (parent_lt j Hj0) as Hp.
  destruct (lookup_lt_is_Some_2 h j Hj) as [x Hx]. destruct (lookup_lt_is_Some_2 h (parent j)) as [p Hpj]; [lia|].
  unfold h_less at 1. rewrite Hx, Hpj. cbn [mbind outcome_bind]. destruct (wm_less x p) eqn:Hl; cbn [negb].
  - unfold h_swap. rewrite Hx, Hpj. cbn [mbind outcome_bind].
    destruct (IH (<[parent j:=x]> (<[j:=p]> h)) (parent j)) as (h' & E' & P' & Hh').
    + lia.
    + rewrite !insert_length. lia.
    + split.
      * intros k a b Hk Hkp. rewrite !(swap_lookup _ _ _ _ _ _ Hpj Hx).
        rewrite (decide_False (P:= k = parent j)) by done.
        destruct (decide (k = j)) as [->|Hkj].
        { rewrite decide_True by done. intros [= <-] [= <-]. by apply wm_less_le. }
        destruct (decide (parent k = parent j)) as [Ep|Ep].
        { intros Ha [= <-]. eapply wm_le_trans; [by apply wm_less_le|]. eapply (H1 k); [done|done|done|by rewrite Ep]. }
        destruct (decide (parent k = j)) as [Ej|Ej].
        { intros Ha [= <-]. by eapply (H2 k). }
        by apply H1.
      * intros k a b Hk Hpj0 Hpk. rewrite !(swap_lookup _ _ _ _ _ _ Hpj Hx).
        pose proof (parent_lt (parent j) Hpj0) as Hlt. pose proof (parent_lt k Hk).
        rewrite (decide_False (P:= k = parent j)) by lia.
        rewrite (decide_False (P:= parent (parent j) = parent j)) by lia.
        rewrite (decide_False (P:= parent (parent j) = j)) by lia.
        intros Ha Hb. assert (Hbp : wm_le b p). { by apply (H1 (parent j)); [lia|lia| |]. }
        destruct (decide (k = j)) as [->|Hkj]; [injection Ha as <-; done|].
        eapply wm_le_trans; [exact Hbp|]. eapply (H1 k); [done|done|done|by rewrite Hpk].
    + exists h'. split; [done|]. split; [|done]. rewrite P'. by apply swap_perm.
  - exists h. split; [done|]. split; [done|]. intros k a b Hk Ha Hb. destruct (decide (k = j)) as [->|Hkj].
    + rewrite Hx in Ha. rewrite Hpj in Hb. by simplify_eq.
    + eapply (H1 k); [lia|done..].
Qed.

(** Heap order of the first [n] but for [i] and its children. *)
Definition down_inv (h : list word_merge) (i n : nat) : Prop :=
  (∀ k a b, (0 < k < n)%nat → parent k ≠ i → h !! k = Some a → h !! parent k = Some b → wm_le b a)
  ∧ (∀ k a b, (0 < k < n)%nat → (0 < i)%nat → parent k = i → h !! k = Some a → h !! parent i = Some b → wm_le b a).

Lemma h_down_spec fuel h i n :
  (n < fuel + i)%nat → (i <= n)%nat → (n <= length h)%nat → down_inv h i n →
  ∃ h', h_down fuel h i n = Ret h' ∧ h' ≡ₚ h ∧ heap_n h' n ∧ ∀ k, (n <= k)%nat → h' !! k = h !! k.
Proof.
  revert h i. induction fuel as [|fuel IH]; intros h i Hf Hi Hn [H1 H2]; [lia|].
  cbn [h_down]. destruct (Nat.leb_spec n (2 * i + 1)) as [Hle|Hlt].
  { exists h. split; [done|]. split; [done|]. split; [|done]. intros k a b Hk. apply H1; [lia|].
    pose proof (parent_children k i ltac:(lia)). lia. }
  destruct (lookup_lt_is_Some_2 h i) as [x Hx]; [lia|]. destruct (lookup_lt_is_Some_2 h (2 * i + 1)) as [c1 Hc1]; [lia|].
  (* the child that is swapped with its parent *)
  assert (∃ l2, (if (2 * i + 1 + 1 <? n)%nat then h_less h (2 * i + 1 + 1) (2 * i + 1) else Ret false) = Ret l2
    ∧ ∃ j c, j = (if (l2 : bool) then (2 * i + 1 + 1)%nat else (2 * i + 1)%nat) ∧ (0 < j < n)%nat ∧ parent j = i ∧ h !! j = Some c
       ∧ ∀ k a, (0 < k < n)%nat → parent k = i → h !! k = Some a → wm_le c a) as (l2 & E2 & j & c & Ej & Hj & Hpj & Hc & Hmin).
  { destruct (Nat.ltb_spec (2 * i + 1 + 1) n) as [H|H].
    - destruct (lookup_lt_is_Some_2 h (2 * i + 1 + 1)) as [c2 Hc2]; [lia|]. unfold h_less. rewrite Hc1, Hc2.
      eexists. split; [done|]. destruct (wm_less c2 c1) eqn:E.
      + exists (2 * i + 1 + 1)%nat, c2. split; [done|]. split; [lia|]. split; [apply parent_children; lia|]. split; [done|].
        intros k a Hk Hpk Ha. apply parent_children in Hpk; [|lia]. destruct Hpk as [->| ->].
        * rewrite Hc1 in Ha. injection Ha as <-. by apply wm_less_le.
        * replace (2 * i + 1 + 1)%nat with (2 * i + 2)%nat in Hc2 by lia. rewrite Hc2 in Ha. injection Ha as <-. apply wm_le_refl.
      + exists (2 * i + 1)%nat, c1. split; [done|]. split; [lia|]. split; [apply parent_children; lia|]. split; [done|].
        intros k a Hk Hpk Ha. apply parent_children in Hpk; [|lia]. destruct Hpk as [->| ->].
        * rewrite Hc1 in Ha. injection Ha as <-. apply wm_le_refl.
        * replace (2 * i + 1 + 1)%nat with (2 * i + 2)%nat in Hc2 by lia. rewrite Hc2 in Ha. injection Ha as <-. done.
    - exists false. split; [done|]. exists (2 * i + 1)%nat, c1. split; [done|]. split; [lia|]. split; [apply parent_children; lia|].
      split; [done|]. intros k a Hk Hpk Ha. apply parent_children in Hpk; [|lia].
      assert (k = 2 * i + 1)%nat as -> by lia. rewrite Hc1 in Ha. injection Ha as <-. apply wm_le_refl. }
  rewrite E2. cbn [mbind outcome_bind]. rewrite <- Ej. clear E2 Ej l2 Hc1 c1.
  unfold h_less. rewrite Hc, Hx. cbn [mbind outcome_bind]. pose proof (parent_lt j ltac:(lia)) as Hji. destruct (wm_less c x) eqn:Hl; cbn [negb].
  - unfold h_swap. rewrite Hx, Hc. cbn [mbind outcome_bind].
    destruct (IH (<[i:=c]> (<[j:=x]> h)) j) as (h' & E' & P' & Hh' & Hfr).
    + lia.
    + lia.
    + rewrite !insert_length. lia.
    + split.
      * intros k a b Hk Hkp. rewrite !(swap_lookup _ _ _ _ _ _ Hx Hc). rewrite (decide_False (P:= parent k = j)) by done.
        destruct (decide (k = i)) as [->|Hki].
        { pose proof (parent_lt i ltac:(lia)). rewrite decide_False by lia. intros [= <-] Hb. eapply (H2 j); [lia|lia|done..]. }
        destruct (decide (parent k = i)) as [Ep|Ep].
        { destruct (decide (k = j)) as [->|Hkj].
          - intros [= <-] [= <-]. by apply wm_less_le.
          - intros Ha [= <-]. by eapply Hmin. }
        destruct (decide (k = j)) as [->|Hkj]; [done|]. by apply H1.
      * intros k a b Hk Hj0 Hpk. rewrite !(swap_lookup _ _ _ _ _ _ Hx Hc). pose proof (parent_lt k ltac:(lia)).
        rewrite (decide_False (P:= k = i)) by lia. rewrite (decide_False (P:= k = j)) by lia.
        rewrite (decide_True (P:= parent j = i)) by done.
        intros Ha [= <-]. eapply (H1 k); [done|lia|done|]. by rewrite Hpk.
    + exists h'. split; [done|]. split; [rewrite P'; by apply swap_perm|]. split; [done|]. intros k Hk. rewrite Hfr by done.
      rewrite (swap_lookup _ _ _ _ _ _ Hx Hc). rewrite !decide_False by lia. done.
  - exists h. split; [done|]. split; [done|]. split; [|done]. intros k a b Hk Ha Hb. destruct (decide (parent k = i)) as [Ep|Ep].
    + rewrite Ep, Hx in Hb. injection Hb as <-. eapply wm_le_trans; [exact Hl|]. by eapply Hmin.
    + by eapply (H1 k).
Qed.

(** The order container/heap keeps. *)
Definition is_heap (h : list word_merge) : Prop := heap_n h (length h).

Lemma heap_push_spec h x : is_heap h → ∃ h', heap_push h x = Ret h' ∧ is_heap h' ∧ h' ≡ₚ x :: h.
Proof.
  intros Hh. unfold heap_push. destruct (h_up_spec (S (length h)) (h ++ [x]) (length h)) as (h' & E & P & H').
  - lia.
  - rewrite app_length. cbn. lia.
  - split.
    + intros k a b Hk Hkj Ha Hb. assert (k < length h)%nat as Hkl.
      { apply lookup_lt_Some in Ha. rewrite app_length in Ha. cbn in Ha. lia. }
      pose proof (parent_lt k Hk). rewrite lookup_app_l in Ha, Hb by lia. by apply (Hh k a b).
    + intros k a b Hk Hj Hpk Ha. exfalso. apply lookup_lt_Some in Ha. rewrite app_length in Ha. cbn in Ha.
      pose proof (parent_lt k Hk). lia.
  - exists h'. split; [done|]. split; [done|]. rewrite P. by rewrite Permutation_app_comm.
Qed.

Lemma heap_pop_spec h : is_heap h → h ≠ [] →
  ∃ x h', heap_pop h = Ret (x, h') ∧ is_heap h' ∧ h ≡ₚ x :: h' ∧ Forall (wm_le x) h'.
Proof.
  intros Hh Hne. unfold heap_pop. destruct (length h) as [|n] eqn:Hlen; [by destruct h|].
  destruct (lookup_lt_is_Some_2 h 0) as [x Hx]; [lia|]. destruct (lookup_lt_is_Some_2 h n) as [l Hl]; [lia|].
  unfold h_swap. rewrite Hx, Hl. cbn [mbind outcome_bind].
  destruct (h_down_spec (S n) (<[0%nat:=l]> (<[n:=x]> h)) 0 n) as (h2 & E2 & P2 & Hh2 & Hfr).
  - lia.
  - lia.
  - rewrite !insert_length. lia.
  - split; [|lia]. intros k a b Hk Hpk. rewrite !(swap_lookup _ _ _ _ _ _ Hx Hl). pose proof (parent_lt k ltac:(lia)).
    rewrite !decide_False by lia. apply Hh. lia.
  - rewrite E2. cbn [mbind outcome_bind]. assert (h2 !! n = Some x) as Hn.
    { rewrite Hfr by lia. rewrite (swap_lookup _ _ _ _ _ _ Hx Hl). destruct (decide (n = 0%nat)) as [->|]; [congruence|]. by rewrite decide_True. }
    rewrite Hn. cbn [mbind outcome_bind]. exists x, (take n h2). split; [done|].
    assert (h2 ≡ₚ h) as P. { rewrite P2. by apply swap_perm. }
    assert (length h2 = S n) as Hl2 by (rewrite P; done).
    assert (h2 = take n h2 ++ [x]) as Hsp.
    { rewrite <- (take_S_r h2 n x Hn). symmetry. apply take_ge. lia. }
    assert (h ≡ₚ x :: take n h2) as Ph. { rewrite <- P. rewrite Hsp at 1. by rewrite Permutation_app_comm. }
    split; [|split; [done|]].
    + unfold is_heap. rewrite take_length_le by lia. intros k a b Hk. pose proof (parent_lt k ltac:(lia)).
      rewrite !lookup_take by lia. by apply Hh2.
    + rewrite Forall_forall. intros y Hy. assert (y ∈ h) as Hy' by (rewrite Ph; by right).
      apply elem_of_list_lookup in Hy' as [k Hk]. eapply (heap_root h (length h)); [done| |done|done|exact Hk].
      by eapply lookup_lt_Some.
Qed.

Lemma heap_push_all_spec xs h : is_heap h → ∃ h', heap_push_all h xs = Ret h' ∧ is_heap h' ∧ h' ≡ₚ xs ++ h.
Proof.
  revert h. induction xs as [|x xs IH]; intros h Hh; [by exists h|]. cbn [heap_push_all].
  destruct (heap_push_spec h x Hh) as (h1 & -> & Hh1 & P1). cbn [mbind outcome_bind]. destruct (IH h1 Hh1) as (h' & E & Hh' & P').
  exists h'. split; [done|]. split; [done|]. rewrite P', P1. cbn. by rewrite Permutation_middle.
Qed.

Lemma heap_nil : is_heap [].
Proof. intros k a b Hk. cbn in Hk. lia. Qed.
