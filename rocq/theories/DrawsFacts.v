(** Proofs for C107. *)
From Coq Require Import ZifyBool ZifyNat QArith.
From stdpp Require Import relations.
From Verif Require Import GoBase Utf8Facts Vocab MergeMap Heap Bpe HeapFacts SpecBpe SpecDrop SpecDraws SliceFacts BpeWord BpeLoop BpeTok DropDet.
Import GoBase.
#[local] Open Scope Z_scope.

Section run.
  Context (mm : merge_map) (drop : nat → bool) (ss : list (Z * Z)).
  Context (I : list (nat * (Z * Z)) → list word_merge → list word_merge → nat → Prop).
  Context (Istep : ∀ v q skip n v' q' skip', I v q skip n → iter_to mm v q skip (drop n) v' q' skip' → I v' q' skip' (S n)).
  Context (Istart : ∀ q, q ≡ₚ all_entries mm (placed_from 0 ss) → I (placed_from 0 ss) q [] 0).

  Lemma iterations_spec : Forall (λ s, 0 < s.2) ss →
    ∃ v' skip n, iterations (word_of ss) mm drop = Some (Ret n) ∧ I v' [] skip n.
  Proof.
    intros Hpos. unfold iterations. destruct (initial_queue_spec mm 0 (word_of ss) [] heap_nil) as (q & E & Hq & P).
    rewrite app_nil_r, word_syms_of in P. change (Z.of_nat 0) with 0 in E. rewrite E. pose proof (rep_start ss Hpos) as R.
    set (n := length ss). assert (length (placed_from 0 ss) = n) as Hn. { unfold placed_from. by rewrite imap_length. }
    assert (length q <= n)%nat as Hql. { rewrite P, <- Hn. apply all_entries_length. }
    destruct (merge_loop_spec mm drop I Istep (4 * n) (merge_fuel (word_of ss)) (MState (word_of ss) q [] 0) (placed_from 0 ss))
      as (st' & v' & -> & R' & _ & HI).
    - done.
    - done.
    - cbn. rewrite app_nil_r, Forall_forall. intros e He. rewrite P in He.
      assert (Hall : ∀ v e, e ∈ all_entries mm v → ∃ x, x ∈ v ∧ wm_pos e = Z.of_nat x.1).
      { clear. induction v as [|x [|y v] IH]; intros e; [by intros ?%elem_of_nil..|]. cbn [all_entries]. rewrite elem_of_app.
        intros [H%pair_entry_pos|H]; [exists x; split; [by left|done]|]. apply IH in H as (z & Hz & ?). exists z. split; [by right|done]. }
      apply Hall in He as (x & Hx & Ex). by eapply rep_in_word.
    - cbn. by apply Istart.
    - cbn. unfold weight. cbn. lia.
    - cbn. unfold weight, merge_fuel. rewrite word_of_length. fold n. cbn [length]. rewrite Hn. nia.
    - by exists v', (m_skip st'), (m_draws st').
  Qed.
End run.

(** * How many entries there can be *)
Lemma all_entries_pairs mm v : (length (all_entries mm v) <= length v - 1)%nat.
Proof.
  induction v as [|x [|y v] IH]; [cbn; lia..|]. cbn [all_entries]. rewrite app_length.
  pose proof (pair_entry_length mm x y). cbn [length] in *. change (match v with [] => [] | _ => _ end) with (all_entries mm (y :: v)) in *.
  lia.
Qed.
(** A merge that leaves [s] symbols. *)
Definition pushed (s : nat) : nat := match s with O | 1 => 0 | 2 => 1 | _ => 2 end%nat.
Lemma new_entries_pushed mm l x r : (length (new_entries mm l x r) <= pushed (length (l ++ x :: r)))%nat.
Proof.
  unfold new_entries. rewrite !app_length. destruct (last l) as [y|] eqn:E1, r as [|z r]; cbn [head length];
    try pose proof (pair_entry_length mm y x); try pose proof (pair_entry_length mm x z).
  - apply last_Some in E1 as [l' ->]. rewrite app_length. cbn [length]. replace (length l' + 1 + 1)%nat with (S (S (length l'))) by lia. destruct l'; cbn; lia.
  - apply last_Some in E1 as [l' ->]. rewrite app_length. cbn [length]. replace (length l' + 1 + S (S (length r)))%nat with (S (S (S (length l' + length r)))) by lia.
    cbn [pushed]. lia.
  - lia.
  - apply last_None in E1 as ->. cbn [length]. destruct r; cbn; lia.
Qed.

Lemma iter_counts mm v q skip d v' q' skip' : iter_to mm v q skip d v' q' skip' →
  if d then length v' = length v ∧ S (length q') = length q ∧ length skip' = S (length skip)
  else skip' = [] ∧ (0 < length q)%nat ∧
    ((length v' = length v ∧ S (length q') = length q + length skip)%nat
     ∨ (S (length v') = length v ∧ (1 <= length v')%nat ∧ (S (length q') <= length q + length skip + pushed (length v'))%nat)).
Proof.
  intros [top rest q1 -> P _ P'|top rest q1 -> P _ P' _|top rest q1 l p a la n b lb r m -> P _ -> _ _ _ P'].
  - rewrite P, P', app_length. cbn. lia.
  - rewrite P, P'. cbn [length]. rewrite app_length. split; [done|]. split; [lia|]. left. lia.
  - rewrite P. cbn [length]. pose proof (new_entries_pushed mm l (p, (mv_id m, la + lb)) r) as Hn. split; [done|]. split; [lia|]. right.
    rewrite P'. rewrite !app_length in *. cbn [length] in *. lia.
Qed.

(** * Without dropout *)
Definition future (s : nat) : nat := match s with O | 1 | 2 => 0 | _ => 2 * s - 5 end%nat.
Lemma future_step s : (1 <= s)%nat → (future (S s) = future s + pushed s)%nat.
Proof. intros H. destruct s as [|[|[|s]]]; cbn; lia. Qed.

Lemma plain_bound mm ss : Forall (λ s, 0 < s.2) ss →
  ∃ n, iterations (word_of ss) mm (λ _, false) = Some (Ret n) ∧ (n <= most_plain (length ss))%nat.
Proof.
  intros Hpos.
  destruct (iterations_spec mm (λ _, false) ss (λ v q skip n, n + length q + length skip + future (length v) <= most_plain (length ss))%nat) as (v' & skip & n & E & H).
  - intros v q skip n v' q' skip' HI Hit. apply iter_counts in Hit as (-> & H & [[H1 H2]|(H1 & H2 & H3)]).
    + cbn [length]. rewrite H1. lia.
    + cbn [length]. rewrite <- H1, future_step in HI by done. lia.
  - intros q P. rewrite P. pose proof (all_entries_pairs mm (placed_from 0 ss)) as H. unfold placed_from in *. rewrite imap_length in *.
    cbn [length]. destruct ss as [|? [|? [|? ss]]]; cbn [length] in *; cbn [most_plain future]; lia.
  - done.
  - exists n. split; [done|]. lia.
Qed.

(** * With dropout *)
Definition tri (a : nat) : nat := Nat.div2 (a * S a).
Lemma tri_S a : tri (S a) = (tri a + S a)%nat.
Proof. unfold tri. rewrite !Nat.div2_div. replace (S a * S (S a))%nat with (a * S a + S a * 2)%nat by lia. by rewrite Nat.div_add. Qed.
(** With [s] symbols and [a] entries, all in the queue. *)
Fixpoint most (s a : nat) : nat :=
  match s with
  | S ((S (S (S _))) as s') => a + most s' (S a)
  | 3 => a + tri a
  | _ => tri a
  end%nat.
Lemma most_step s a : (most s a + S a <= most s (S a))%nat.
Proof.
  revert a. induction s as [|s IH]; intros a; [cbn [most]; rewrite tri_S; lia|]. destruct s as [|[|[|s]]]; try (cbn [most]; rewrite ?tri_S; lia).
  change (most (S (S (S (S s)))) a) with (a + most (S (S (S s))) (S a))%nat.
  change (most (S (S (S (S s)))) (S a)) with (S a + most (S (S (S s))) (S (S a)))%nat. specialize (IH (S a)). lia.
Qed.
Lemma most_mono s a b : (a <= b)%nat → (most s a <= most s b)%nat.
Proof. intros H. induction H as [|b H IH]; [lia|]. pose proof (most_step s b). lia. Qed.
Lemma most_merge s a a' : (1 <= s)%nat → (1 <= a)%nat → (S a' <= a + pushed s)%nat → (a + most s a' <= most (S s) a)%nat.
Proof.
  intros Hs Ha H. destruct s as [|[|[|s]]]; [lia|..].
  - cbn [pushed] in H. change (most 2 a) with (tri a). change (most 1 a') with (tri a'). destruct a as [|a]; [lia|]. rewrite tri_S.
    assert (a' <= a)%nat as H' by lia. pose proof (most_mono 1 _ _ H') as M. change (most 1 a') with (tri a') in M. change (most 1 a) with (tri a) in M. lia.
  - cbn [pushed] in H. change (most 3 a) with (a + tri a)%nat. change (most 2 a') with (tri a'). assert (a' <= a)%nat as H' by lia.
    pose proof (most_mono 1 _ _ H') as M. change (most 1 a') with (tri a') in M. change (most 1 a) with (tri a) in M. lia.
  - cbn [pushed] in H. change (most (S (S (S (S s)))) a) with (a + most (S (S (S s))) (S a))%nat.
    pose proof (most_mono (S (S (S s))) a' (S a) ltac:(lia)). lia.
Qed.
Lemma most_closed s a : (2 * most (S (S (S s))) a = 2 * (S s * a) + s * S s + (a + s) * S (a + s))%nat.
Proof.
  assert (T : ∀ a, (2 * tri a = a * S a)%nat). { clear. induction a as [|a IH]; [done|]. rewrite tri_S. lia. }
  revert a. induction s as [|s IH]; intros a.
  - change (most 3 a) with (a + tri a)%nat. specialize (T a). lia.
  - change (most (S (S (S (S s)))) a) with (a + most (S (S (S s))) (S a))%nat. specialize (IH (S a)). lia.
Qed.
Lemma most_start n : most n (n - 1) = most_drawn n.
Proof.
  destruct n as [|[|[|n]]]; [done..|]. unfold most_drawn. pose proof (most_closed n (S (S (S n)) - 1)) as H.
  apply (Nat.mul_cancel_l _ _ 2); [done|]. rewrite H. set (d := ((S (S (S n)) - 2) * (7 * S (S (S n)) - 11))%nat).
  assert (d = 2 * (S n * S (S n)) + n * S n + (S (S n) + n) * S (S (S n) + n))%nat as E by (unfold d; lia).
  replace (S (S (S n)) - 1)%nat with (S (S n)) by lia. rewrite <- E.
  assert (∃ k, d = k * 2)%nat as [k Hk]. { exists (most (S (S (S n))) (S (S n))). replace (S (S (S n)) - 1)%nat with (S (S n)) in H by lia. lia. }
  rewrite Hk, Nat.div_mul by done. lia.
Qed.

Lemma drawn_bound mm drop ss : Forall (λ s, 0 < s.2) ss →
  ∃ n, iterations (word_of ss) mm drop = Some (Ret n) ∧ (n <= most_drawn (length ss))%nat.
Proof.
  intros Hpos. rewrite <- most_start.
  destruct (iterations_spec mm drop ss (λ v q skip n, n + most (length v) (length q + length skip) <= most (length ss) (length ss - 1) + length skip)%nat) as (v' & skip & n & E & H).
  - intros v q skip n v' q' skip' HI Hit. apply iter_counts in Hit. destruct (drop n).
    + destruct Hit as (H1 & H2 & H3). rewrite H1, H3. replace (length q' + S (length skip))%nat with (length q + length skip)%nat by lia. lia.
    + destruct Hit as (-> & H & [[H1 H2]|(H1 & H2 & H3)]); cbn [length]; rewrite Nat.add_0_r.
      * rewrite H1. pose proof (most_step (length v) (length q')) as M. rewrite H2 in M. lia.
      * pose proof (most_merge (length v') (length q + length skip) (length q') H2 ltac:(lia) ltac:(lia)) as M. rewrite H1 in M. lia.
  - intros q P. rewrite P. pose proof (all_entries_pairs mm (placed_from 0 ss)) as H. unfold placed_from in *. rewrite imap_length in *.
    cbn [length]. rewrite !Nat.add_0_r. cbn. by apply most_mono.
  - done.
  - exists n. split; [done|]. cbn [length] in H. revert H. pose proof (most_mono (length v') 0 (length skip)) as M.
    assert (length skip <= most (length v') (length skip))%nat; [|cbn [Nat.add]; lia].
    clear. destruct (length skip) as [|a]; [lia|]. pose proof (most_step (length v') a). lia.
Qed.

(** * Everything dropped *)
Lemma open_pairs_entries mm i ss : length (all_entries mm (placed_from i ss)) = open_pairs mm ss.
Proof.
  rewrite opens_seq. revert i. induction ss as [|x ss IH]; intros i; [done|]. destruct ss as [|y ss]; [done|].
  assert (E : all_entries mm (placed_from i (x :: y :: ss)) = pair_entry mm (i, x) (S i, y) ++ all_entries mm (placed_from (S i) (y :: ss))) by (by rewrite !placed_cons).
  rewrite E, app_length, IH.
  change (opens mm (x :: y :: ss)) with (opens_pair mm x y + opens mm (y :: ss))%nat. f_equal. unfold pair_entry, opens_pair. cbn [fst snd]. by destruct (mm !! _).
Qed.
Lemma dropped_count mm ss : Forall (λ s, 0 < s.2) ss → iterations (word_of ss) mm (λ _, true) = Some (Ret (open_pairs mm ss)).
Proof.
  intros Hpos. destruct (iterations_spec mm (λ _, true) ss (λ v q skip n, n + length q = open_pairs mm ss)%nat) as (v' & skip & n & E & H).
  - intros v q skip n v' q' skip' HI Hit. apply iter_counts in Hit as (_ & H2 & _). lia.
  - intros q P. rewrite P. apply open_pairs_entries.
  - done.
  - cbn [length] in H. rewrite E. do 2 f_equal. lia.
Qed.

(** * Only these numbers matter *)
Lemma merge_loop_agrees fuel mm d1 d2 st st' : merge_loop fuel mm d1 st = Some (Ret st') →
  (∀ k, (m_draws st <= k < m_draws st')%nat → d1 k = d2 k) → merge_loop fuel mm d2 st = Some (Ret st') ∧ (m_draws st <= m_draws st')%nat.
Proof.
  revert st. induction fuel as [|fuel IH]; intros st H Hd; cbn [merge_loop] in *; destruct (m_q st) eqn:E; try (by injection H as <-).
  { done. }
  destruct (merge_iter mm (d1 (m_draws st)) st) as [st1|] eqn:E1; [|done].
  assert (m_draws st1 = S (m_draws st)) as Es.
  { unfold merge_iter in E1. apply bind_Ret in E1 as ([top q] & _ & E1). destruct (d1 (m_draws st)); [injection E1 as <-; cbn; lia|].
    apply bind_Ret in E1 as (q1 & _ & E1). apply bind_Ret in E1 as (cur & _ & E1). destruct (_ || _); [injection E1 as <-; cbn; lia|].
    apply bind_Ret in E1 as (rt & _ & E1). destruct (mm_get _ _ _); [|injection E1 as <-; cbn; lia]. destruct (negb _); [injection E1 as <-; cbn; lia|].
    apply bind_Ret in E1 as (w' & _ & E1). apply bind_Ret in E1 as (q2 & _ & E1). injection E1 as <-. cbn. lia. }
  assert (Hle : ∀ f d s s', merge_loop f mm d s = Some (Ret s') → (m_draws s <= m_draws s')%nat).
  { clear. induction f as [|f IH]; intros d s s' H; cbn [merge_loop] in *; destruct (m_q s) eqn:E; try (by injection H as <-); [done|].
    destruct (merge_iter mm (d (m_draws s)) s) as [s1|] eqn:E1; [|done]. apply IH in H.
    unfold merge_iter in E1. apply bind_Ret in E1 as ([top q] & _ & E1). destruct (d (m_draws s)); [injection E1 as <-; cbn in *; lia|].
    apply bind_Ret in E1 as (q1 & _ & E1). apply bind_Ret in E1 as (cur & _ & E1). destruct (_ || _); [injection E1 as <-; cbn in *; lia|].
    apply bind_Ret in E1 as (rt & _ & E1). destruct (mm_get _ _ _); [|injection E1 as <-; cbn in *; lia]. destruct (negb _); [injection E1 as <-; cbn in *; lia|].
    apply bind_Ret in E1 as (w' & _ & E1). apply bind_Ret in E1 as (q2 & _ & E1). injection E1 as <-. cbn in *. lia. }
  pose proof (Hle _ _ _ _ H) as Hl. rewrite <- (Hd (m_draws st)) by lia. rewrite E1. destruct (IH st1 H) as [H1 H2]; [|split; [done|lia]].
  intros k Hk. apply Hd. lia.
Qed.
Lemma merge_all_agrees w mm d1 d2 n : iterations w mm d1 = Some (Ret n) → (∀ k, (k < n)%nat → d1 k = d2 k) →
  merge_all_with w mm d1 = merge_all_with w mm d2 ∧ iterations w mm d2 = Some (Ret n).
Proof.
  unfold iterations, merge_all_with. destruct (initial_queue mm 0 w []) as [q|]; [|done]. intros H Hd.
  destruct (merge_loop _ mm d1 _) as [[st|]|] eqn:E; [|done..]. injection H as <-.
  destruct (merge_loop_agrees _ _ d1 d2 _ _ E) as [-> _]; [|done]. intros k Hk. apply Hd. cbn in Hk. lia.
Qed.

Lemma most_drawn_mono a b : (a <= b)%nat → (most_drawn a <= most_drawn b)%nat.
Proof.
  intros H. induction H as [|b H IH]; [lia|]. etrans; [exact IH|]. rewrite <- !most_start. destruct b as [|b]; [done|].
  replace (S (S b) - 1)%nat with (S b) by lia. replace (S b - 1)%nat with b by lia.
  pose proof (most_merge (S b) (S b) b ltac:(lia) ltac:(lia) ltac:(lia)). lia.
Qed.
Lemma group_length fuse ou cs ss : group_syms fuse ou cs ss → (length ss <= length cs)%nat.
Proof.
  induction 1 as [|i n cs ss G IH|n cs ss _ G IH|u n cs ss _ _ G IH|u ns cs ss _ _ Hne _ G IH]; cbn [length]; try lia.
  rewrite app_length, map_length. destruct ns; [done|]. cbn. lia.
Qed.
Lemma tokenize_agrees m s d1 d2 : (∀ k, (k < most_drawn (length (runes s)))%nat → d1 k = d2 k) → bpe_tokenize m s d1 = bpe_tokenize m s d2.
Proof.
  intros Hd. unfold bpe_tokenize. destruct (zlen s =? 0); [done|]. unfold merge_word, merge_all.
  assert (Hgo : ∀ u, merge_all_with (symbols_loop m u (runes s) 0 (zlen (runes s) - 1) None []) (b_merges m) (dropped_at (b_dropout m) d1)
                = merge_all_with (symbols_loop m u (runes s) 0 (zlen (runes s) - 1) None []) (b_merges m) (dropped_at (b_dropout m) d2)).
  { intros u. destruct (symbols_loop_spec m u (runes s) 0 (zlen (runes s) - 1) None []) as (ss & E & G); [done|].
    rewrite classes_spec in G. assert (E' : symbols_loop m u (runes s) 0 (zlen (runes s) - 1) None [] = word_of ss) by exact E. rewrite E'.
    destruct (drawn_bound (b_merges m) (dropped_at (b_dropout m) d1) ss) as (n & Hn & Hb).
    { eapply group_pos; [apply classes_pos|exact G]. }
    apply (merge_all_agrees _ _ _ _ _ Hn). intros k Hk. unfold dropped_at. rewrite Hd; [done|].
    apply group_length in G. assert (length (char_classes m (runes s)) <= length (runes s))%nat. { unfold char_classes. rewrite zip_with_length. lia. }
    assert (length ss <= length (runes s))%nat as Hle by lia. apply most_drawn_mono in Hle. lia. }
  destruct (has_unk m); [destruct (get_id _ _); [|done]|]; by rewrite Hgo.
Qed.
