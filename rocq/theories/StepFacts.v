(** Proofs about the number of iterations of MergeAll. *)
From Coq Require Import ZifyBool ZifyNat.
From Verif Require Import GoBase Vocab MergeMap Heap Bpe HeapFacts SpecBpe SliceFacts BpeWord BpeLoop.
Import GoBase.
#[local] Open Scope Z_scope.

(** [m_draws] counts the iterations, and that many are enough. *)
Lemma merge_iter_draws mm d st st' : merge_iter mm d st = Ret st' → m_draws st' = S (m_draws st).
Proof.
  unfold merge_iter. intros H. apply bind_Ret in H as ([top q] & _ & H).
  destruct d; [injection H as <-; cbn; lia|]. apply bind_Ret in H as (q1 & _ & H). cbv zeta in H. apply bind_Ret in H as (cur & _ & H).
  destruct (_ || _); [injection H as <-; cbn; lia|]. apply bind_Ret in H as (right & _ & H).
  destruct (mm_get _ _ _) as [m|]; [|injection H as <-; cbn; lia]. destruct (negb _); [injection H as <-; cbn; lia|].
  apply bind_Ret in H as (w' & _ & H). apply bind_Ret in H as (q2 & _ & H). injection H as <-. cbn. lia.
Qed.
Lemma merge_loop_draws fuel mm drop st st' : merge_loop fuel mm drop st = Some (Ret st') → (m_draws st <= m_draws st')%nat.
Proof.
  revert st. induction fuel as [|fuel IH]; intros st; cbn [merge_loop]; destruct (m_q st); intros H; try (injection H as <-; lia); [done|].
  destruct (merge_iter _ _ _) as [st1|] eqn:E; [|done]. apply merge_iter_draws in E. apply IH in H. lia.
Qed.
Lemma merge_loop_enough fuel k mm drop st st' : merge_loop fuel mm drop st = Some (Ret st') → (m_draws st' - m_draws st <= k)%nat →
  merge_loop k mm drop st = Some (Ret st').
Proof.
  revert k st. induction fuel as [|fuel IH]; intros k st H Hk.
  - destruct k; cbn [merge_loop] in *; by destruct (m_q st).
  - destruct k as [|k]; cbn [merge_loop] in *; destruct (m_q st) eqn:E; try done.
    + destruct (merge_iter _ _ _) as [st1|] eqn:E1; [|done]. apply merge_iter_draws in E1. apply merge_loop_draws in H. lia.
    + destruct (merge_iter _ _ _) as [st1|] eqn:E1; [|done]. apply IH; [done|]. apply merge_iter_draws in E1. lia.
Qed.
Lemma merge_loop_short fuel k mm drop st st' : merge_loop fuel mm drop st = Some (Ret st') → (k < m_draws st' - m_draws st)%nat →
  merge_loop k mm drop st = None.
Proof.
  revert k st. induction fuel as [|fuel IH]; intros k st H Hk.
  - cbn [merge_loop] in H. destruct (m_q st); [|done]. injection H as <-. lia.
  - cbn [merge_loop] in H. destruct (m_q st) eqn:E; [injection H as <-; lia|].
    destruct (merge_iter _ _ _) as [st1|] eqn:E1; [|done]. destruct k as [|k]; cbn [merge_loop]; rewrite E; [done|]. rewrite E1.
    apply merge_iter_draws in E1. apply IH; [done|lia].
Qed.

(** What is left to do. *)
Definition todo (v : list (nat * (Z * Z))) (q skip : list word_merge) : nat := (length q + length skip + (2 * length v - 5))%nat.
Lemma new_entries_few mm l x r : (length (new_entries mm l x r) <= length l + length r)%nat.
Proof.
  unfold new_entries. rewrite app_length.
  assert (H1 : (length (match last l with Some y => pair_entry mm y x | None => [] end) <= length l)%nat).
  { destruct l as [|z l] using rev_ind; [done|]. rewrite last_snoc, app_length. pose proof (pair_entry_length mm z x). cbn [length]. lia. }
  assert (H2 : (length (match head r with Some y => pair_entry mm x y | None => [] end) <= length r)%nat).
  { destruct r as [|z r]; [done|]. cbn [head length]. pose proof (pair_entry_length mm x z). lia. }
  lia.
Qed.
Lemma iter_todo mm v q skip d v' q' skip' : iter_to mm v q skip d v' q' skip' → (1 <= length q)%nat ∧
  ((d = true ∧ todo v' q' skip' = todo v q skip ∧ S (length q') = length q) ∨ (todo v' q' skip' < todo v q skip)%nat).
Proof.
  intros [top rest q1 -> P _ P'|top rest q1 -> P _ P' _|top rest q1 l p a la n b lb r m -> P _ -> _ _ _ P'];
    unfold todo; rewrite P', P; cbn [length].
  - split; [lia|]. left. rewrite app_length. cbn [length]. lia.
  - split; [lia|]. right. rewrite app_length. lia.
  - split; [lia|]. right. rewrite !app_length. pose proof (new_entries_few mm l (p, (mv_id m, la + lb)) r).
    pose proof (new_entries_length mm l (p, (mv_id m, la + lb)) r). cbn [length]. lia.
Qed.
Lemma all_entries_pairs mm v : (length (all_entries mm v) <= length v - 1)%nat.
Proof.
  induction v as [|x [|y v] IH]; [cbn; lia..|]. cbn [all_entries]. rewrite app_length.
  pose proof (pair_entry_length mm x y). cbn [length] in *. change (match v with [] => [] | _ => _ end) with (all_entries mm (y :: v)) in *.
  lia.
Qed.

Lemma merge_run mm drop ss
    (I : list (nat * (Z * Z)) → list word_merge → list word_merge → nat → Prop) :
  (∀ v q skip n v' q' skip', I v q skip n → iter_to mm v q skip (drop n) v' q' skip' → I v' q' skip' (S n)) →
  (∀ q, (length q <= length ss - 1)%nat → I (placed_from 0 ss) q [] 0%nat) →
  Forall (λ s, 0 < s.2) ss →
  ∃ q st v, initial_queue mm 0 (word_of ss) [] = Ret q
    ∧ merge_loop (merge_fuel (word_of ss)) mm drop (MState (word_of ss) q [] 0) = Some (Ret st)
    ∧ I v [] (m_skip st) (m_draws st).
Proof.
  intros Istep Istart Hpos. destruct (initial_queue_spec mm 0 (word_of ss) [] heap_nil) as (q & E & Hq & P).
  rewrite app_nil_r, word_syms_of in P. change (Z.of_nat 0) with 0 in E. pose proof (rep_start ss Hpos) as R.
  set (n := length ss). assert (length (placed_from 0 ss) = n) as Hn. { unfold placed_from. by rewrite imap_length. }
  assert (length q <= n - 1)%nat as Hql. { rewrite P, <- Hn. apply all_entries_pairs. }
  destruct (merge_loop_spec mm drop I Istep (4 * n) (merge_fuel (word_of ss)) (MState (word_of ss) q [] 0) (placed_from 0 ss))
    as (st' & v' & E' & R' & _ & HI).
  - done.
  - done.
  - cbn. rewrite app_nil_r, Forall_forall. intros e He. rewrite P in He.
    assert (Hall : ∀ v e, e ∈ all_entries mm v → ∃ x, x ∈ v ∧ wm_pos e = Z.of_nat x.1).
    { clear. induction v as [|x [|y v] IH]; intros e; [by intros ?%elem_of_nil..|]. cbn [all_entries]. rewrite elem_of_app.
      intros [H%pair_entry_pos|H]; [exists x; split; [by left|done]|]. apply IH in H as (z & Hz & ?). exists z. split; [by right|done]. }
    apply Hall in He as (x & Hx & Ex). by eapply rep_in_word.
  - cbn. by apply Istart.
  - cbn. unfold weight. cbn. lia.
  - cbn. unfold weight, merge_fuel. rewrite word_of_length. fold n. cbn [length]. rewrite Hn. nia.
  - by exists q, st', v'.
Qed.

Lemma merge_steps mm drop ss : Forall (λ s, 0 < s.2) ss → (∀ k, drop k = false) →
  ∃ q st, initial_queue mm 0 (word_of ss) [] = Ret q
    ∧ merge_loop (merge_fuel (word_of ss)) mm drop (MState (word_of ss) q [] 0) = Some (Ret st)
    ∧ (m_draws st <= (length ss - 1) + (2 * length ss - 5))%nat.
Proof.
  intros Hpos Hd.
  destruct (merge_run mm drop ss (λ v q skip n, (n + todo v q skip <= (length ss - 1) + (2 * length ss - 5))%nat)) as (q & st & v & E1 & E2 & H).
  - intros v q skip n v' q' skip' H Hit. rewrite Hd in Hit. apply iter_todo in Hit as (Hb & [(? & _)|Hc]); [done|]. lia.
  - intros q Hq. unfold todo, placed_from. rewrite imap_length. cbn [length]. lia.
  - done.
  - exists q, st. split; [done|]. split; [done|]. lia.
Qed.

Lemma merge_steps_dropout mm drop ss : Forall (λ s, 0 < s.2) ss →
  ∀ k, k = ((length ss - 1) + (2 * length ss - 5))%nat →
  ∃ q st, initial_queue mm 0 (word_of ss) [] = Ret q
    ∧ merge_loop (merge_fuel (word_of ss)) mm drop (MState (word_of ss) q [] 0) = Some (Ret st)
    ∧ (2 * m_draws st <= k * (k - 1) + 2 * (length ss - 1))%nat.
Proof.
  intros Hpos k Hk.
  destruct (merge_run mm drop ss (λ v q skip n,
     let t := todo v q skip in (2 * n + t * (t - 1) + 2 * length q <= k * (k - 1) + 2 * (length ss - 1))%nat)) as (q & st & v & E1 & E2 & H2).
  - intros v q skip n v' q' skip' H2 Hit. apply iter_todo in Hit as (Hb & Hc). cbv zeta in *.
    assert (Hq' : (length q' <= todo v' q' skip')%nat) by (unfold todo; lia).
    destruct Hc as [(_ & -> & E)|Hc]; [lia|].
    remember (todo v' q' skip')%nat as t' eqn:Et'. remember (todo v q skip)%nat as t eqn:Et. clear Et Et'.
    assert (t' * (t' - 1) + 2 * t' <= t * (t - 1))%nat; [|lia].
    destruct t' as [|t']; [lia|]. destruct t as [|t]; [lia|]. cbn [Nat.sub]. rewrite !Nat.sub_0_r. nia.
  - intros q Hq. unfold todo, placed_from. rewrite imap_length. cbn [length]. cbv zeta.
    remember (length q + 0 + (2 * length ss - 5))%nat as t. assert (t <= k)%nat by lia.
    assert (t * (t - 1) <= k * (k - 1))%nat by (apply Nat.mul_le_mono; lia). lia.
  - done.
  - exists q, st. split; [done|]. split; [done|]. cbv zeta in H2. cbn [length] in H2.
    generalize dependent (todo v [] (m_skip st) * (todo v [] (m_skip st) - 1))%nat. intros x Hx. lia.
Qed.

Lemma group_count fuse ou cs ss : group_syms fuse ou cs ss → (length ss <= length cs)%nat.
Proof.
  intros G. induction G as [|i n cs ss G IH|n cs ss Hou G IH|u n cs ss Hou _ G IH|u ns cs ss Hou _ Hne _ G IH]; cbn [length]; try lia.
  rewrite app_length, map_length. destruct ns; [done|]. cbn [length]. lia.
Qed.
