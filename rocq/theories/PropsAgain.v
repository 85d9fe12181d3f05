(** Property theorem C106: words that are merged more than once. *)
From Coq Require Import ZifyBool QArith.
From stdpp Require Import relations.
From Verif Require Import GoBase MergeMap Bpe SpecBpe SpecAgain BpeWord BpeLoop BpeFacts BpeTok AgainFacts PropsBpe.
#[local] Open Scope Z_scope.

(** MergeAll without dropout changes nothing the second time. *)
Theorem C106_again :
  ∀ ss mm dropout draws draws', Forall (λ s, 0 < s.2) ss → (dropout <= 0)%Q →
  ∃ w, merge_all (word_of ss) mm dropout draws = Some (Ret w) ∧ merge_all w mm dropout draws' = Some (Ret w).
Proof.
  intros ss mm d r r' Hp Hd. destruct (merge_all_saturates mm (dropped_at d r) ss) as (w & E & Hs); [intros k; by apply dropped_none|done|].
  exists w. split; [done|]. apply merge_all_nothing; [|done].
  destruct (merge_all_steps mm (dropped_at d r) ss Hp) as (w' & E' & Hst). rewrite E in E'. injection E' as <-.
  assert (H : Forall (λ s : Z * Z, 0 < s.2) (word_syms w)).
  { clear -Hst Hp. induction Hst as [|s1 s2 s3 [l a la b lb r m Hm] _ IH]; [done|]. apply IH. apply Forall_app in Hp as [H1 H2].
    apply Forall_cons in H2 as [H2 H3]. apply Forall_cons in H3 as [H3 H4]. apply Forall_app. split; [done|]. constructor; [cbn in *; lia|done]. }
  unfold word_syms in H. rewrite Forall_fmap in H. eapply Forall_impl; [exact H|]. intros s Hs'. cbn in Hs'. lia.
Qed.
Print Assumptions C106_again.

(** What MergeAll leaves: every symbol stands for a group of the symbols before, and still says of its neighbours where they were
    before. *)
Theorem C106_links :
  ∀ ss mm dropout draws, Forall (λ s, 0 < s.2) ss →
  ∃ gs ts, merge_all (word_of ss) mm dropout draws = Some (Ret (left_by gs ts)) ∧ concat gs = ss ∧ merged_groups mm gs ts
    ∧ (left_by gs ts = word_of ts ↔ ∀ k g, (S k < length gs)%nat → gs !! k = Some g → length g = 1%nat).
Proof.
  intros ss mm d r Hp. destruct (merge_all_groups mm (dropped_at d r) ss Hp) as (gs & ts & E & Hc & Hg). exists gs, ts. split_and!; [done..|].
  apply left_fresh; [|by eapply Forall2_length]. clear -Hg. induction Hg as [|g t gs ts [H _] _ IH]; by constructor.
Qed.
Print Assumptions C106_links.

(** If only the last symbol is a merged one, then the word can be used as one that Add has made of its symbols.  Partial.
    Missing for the full claim: other words, for which it is false (below). *)
Theorem C106_second_partial :
  ∀ ss mm dropout draws mm' dropout' draws' w t x, Forall (λ s, 0 < s.2) ss →
  merge_all (word_of ss) mm dropout draws = Some (Ret w) → word_syms w = t ++ [x] → t `prefix_of` ss →
  merge_all w mm' dropout' draws' = merge_all (word_of (t ++ [x])) mm' dropout' draws'.
Proof.
  intros ss mm d r mm' d' r' w t x Hp E Ew Ht. destruct (C106_links ss mm d r Hp) as (gs & ts & E' & Hc & Hg & Hf). rewrite E in E'. injection E' as ->.
  rewrite left_by_syms in Ew. subst ts. enough (left_by gs (t ++ [x]) = word_of (t ++ [x])) as -> by done. apply Hf. clear Hf E.
  revert gs ss Hc Hg Hp Ht. induction t as [|s t IH]; intros gs ss Hc Hg Hp Ht k g Hk Hkg.
  - apply Forall2_length in Hg. cbn in Hg. lia.
  - apply Forall2_cons_inv_r in Hg as (g0 & gs' & [Hn Hst] & Hg & ->). destruct Ht as [u ->]. destruct g0 as [|s' g0]; [done|]. cbn in Hc. injection Hc as -> Hc.
    pose proof (merge_steps_total _ _ _ Hst) as Hb. cbn in Hp. apply Forall_cons in Hp as [H0 Hp].
    assert (g0 = []) as ->. { destruct g0 as [|s1 g0]; [done|]. rewrite <- Hc in Hp. cbn in Hp. apply Forall_cons in Hp as [H1 Hp]. apply Forall_app in Hp as [Hp _].
      assert (0 <= sym_bytes g0). { clear -Hp. induction Hp as [|y l Hy _ IH]; [cbn; lia|]. change (sym_bytes (y :: l)) with (y.2 + sym_bytes l). lia. }
      change (sym_bytes (s :: s1 :: g0)) with (s.2 + (s1.2 + sym_bytes g0)) in Hb. cbn in Hb. lia. }
    destruct k as [|k]; [by injection Hkg as <-|]. cbn in Hk, Hkg, Hc. apply (IH gs' (t ++ u)) with (k := k); [done|done|done|by exists u|lia|done].
Qed.
Print Assumptions C106_second_partial.

(** Exactly: a merged word can be used so if and only if its links are those that Add makes (by C106_links: if only the last symbol
    is merged). For every other word there are merges, a dropout and random numbers with which the second call panics. *)
Theorem C106_second_iff :
  ∀ ss mm dropout draws w, Forall (λ s, 0 < s.2) ss → merge_all (word_of ss) mm dropout draws = Some (Ret w) →
  (∀ mm' dropout' draws', merge_all w mm' dropout' draws' = merge_all (word_of (word_syms w)) mm' dropout' draws') ↔ w = word_of (word_syms w).
Proof.
  intros ss mm d r w Hp E. split; [|intros <-; done]. intros H. destruct (C106_links ss mm d r Hp) as (gs & ts & E' & Hc & Hg & Hf). rewrite E in E'. injection E' as ->.
  rewrite left_by_syms in *. assert (Hn : Forall (λ g, g ≠ []) gs) by (clear -Hg; induction Hg as [|g t gs ts [? _] _ IH]; by constructor).
  pose proof (Forall2_length _ _ _ Hg) as Hl.
  assert (Hpt : Forall (λ s, 0 < s.2) ts).
  { apply Forall_forall. intros t Ht. apply elem_of_list_lookup in Ht as [k Hk]. destruct (Forall2_lookup_r _ _ _ _ _ Hg Hk) as (g & Hgk & Hne & Hst).
    assert (Hgp : Forall (λ s : Z * Z, 0 < s.2) g). { apply Forall_forall. intros s Hs. rewrite Forall_forall in Hp. apply Hp. rewrite <- Hc. apply elem_of_list_In, in_concat.
      exists g. split; apply elem_of_list_In; [by eapply elem_of_list_lookup_2|done]. }
    apply merge_steps_total in Hst. destruct g as [|s g]; [done|]. apply Forall_cons in Hgp as [H1 H2].
    assert (0 <= sym_bytes g). { clear -H2. induction H2 as [|y l Hy _ IH]; [cbn; lia|]. change (sym_bytes (y :: l)) with (y.2 + sym_bytes l). lia. }
    change (sym_bytes (s :: g)) with (s.2 + sym_bytes g) in Hst. cbn in Hst. lia. }
  destruct ts as [|[b lb] ts _] using rev_ind; [done|]. destruct ts as [|[a la] l _] using rev_ind.
  { apply Hf. cbn in Hl. intros. lia. }
  rewrite <- app_assoc in *. cbn [app] in *. rewrite app_length in Hl. cbn [length] in Hl.
  destruct (decide (place gs (S (length l)) = Z.of_nat (S (length l)))) as [He|He].
  - apply Hf. clear -He Hn Hl. intros k g Hk Hgk. unfold place in He. rewrite decide_True in He by lia.
    assert (Hlen : (length g <= 1)%nat); [|rewrite Forall_forall in Hn; destruct g; [by destruct (Hn []); [by eapply elem_of_list_lookup_2|]|cbn in *; lia]].
    rewrite <- (take_drop_middle (take (S (length l)) gs) k g) in He by (rewrite lookup_take by lia; done).
    rewrite concat_app in He. cbn [concat] in He. rewrite !app_length in He. rewrite take_take in He.
    pose proof (concat_take_ge gs (min k (S (length l))) Hn ltac:(lia)) as H1.
    pose proof (concat_take_ge (drop (S k) (take (S (length l)) gs)) (length (drop (S k) (take (S (length l)) gs)))) as H2.
    rewrite (take_ge (drop (S k) (take (S (length l)) gs))) in H2 by lia. rewrite drop_length, take_length in H2. feed specialize H2; [by apply Forall_drop, Forall_take|lia|]. lia.
  - exfalso. destruct (second_panics gs l a la b lb Hn ltac:(lia)) as (n & Hpan); [|done|].
    { apply Forall_app in Hpt as [_ Hpt]. apply Forall_cons in Hpt as [Hpt _]. cbn in Hpt. lia. }
    specialize (H {[ (a, b) := MergeValue 0 0 ]} (1 # 2)%Q (λ k, if bool_decide (k < n)%nat then 0%Q else (3 # 4)%Q)).
    assert (Hd : ∀ k, dropped_at (1 # 2) (λ k, if bool_decide (k < n)%nat then 0%Q else (3 # 4)%Q) k = bool_decide (k < n)%nat).
    { intros k. unfold dropped_at. by destruct (bool_decide _). }
    unfold merge_all in H. rewrite !(merge_all_with_ext _ _ _ _ Hd), Hpan in H.
    destruct (merge_all_steps {[ (a, b) := MergeValue 0 0 ]} (λ k, bool_decide (k < n)%nat) (l ++ [(a, la); (b, lb)]) Hpt) as (w' & E' & _). rewrite E' in H. done.
Qed.
Print Assumptions C106_second_iff.

(** Otherwise not: "abc" with the merges "a b" and "ab c", where the second one is dropped the first time.  The second time MergeAll
    looks for the neighbour of "ab" at its old place, where there is none: it panics. *)
Theorem C106_second_refuted :
  ¬ ∀ ss mm dropout draws mm' dropout' draws' w, Forall (λ s, 0 < s.2) ss →
  merge_all (word_of ss) mm dropout draws = Some (Ret w) →
  merge_all w mm' dropout' draws' = merge_all (word_of (word_syms w)) mm' dropout' draws'.
Proof.
  intros H. set (mm := {[ (0, 1) := MergeValue 0 3; (3, 2) := MergeValue 1 4 ]} : merge_map).
  specialize (H [(0, 1); (1, 1); (2, 1)] mm (1 # 2)%Q (λ k, match k with O => 3 # 4 | _ => 1 # 4 end)%Q mm 0%Q (λ _, 0%Q) [WSym 3 2 (-1) 2; WSym 2 1 0 (-1)] ltac:(repeat constructor)).
  specialize (H ltac:(by vm_compute)). vm_compute in H. done.
Qed.
Print Assumptions C106_second_refuted.

(** And where there is a symbol at that place, it is taken for the neighbour: after "a b", the word ab c d has the merge "ab d". *)
Example C106_example :
  let mm := {[ (0, 1) := MergeValue 0 5; (5, 2) := MergeValue 1 6 ]} : merge_map in
  let mm' := {[ (5, 2) := MergeValue 0 6; (5, 3) := MergeValue 1 6 ]} : merge_map in
  let draws k := match k with O => 3 # 4 | _ => 1 # 4 end%Q in
  let syms r := match r with Some (Ret w) => Some (word_syms w) | _ => None end in
  match merge_all (word_of [(0, 1); (1, 1); (2, 1); (3, 1); (4, 1)]) mm (1 # 2) draws with
  | Some (Ret w) =>
      w = [WSym 5 2 (-1) 2; WSym 2 1 0 3; WSym 3 1 2 4; WSym 4 1 3 (-1)]
      ∧ syms (merge_all w mm' 0 draws) = Some [(6, 3); (2, 1); (4, 1)]
      ∧ syms (merge_all (word_of (word_syms w)) mm' 0 draws) = Some [(6, 3); (3, 1); (4, 1)]
      ∧ syms (merge_all w mm 0 draws) = Some [(5, 2); (2, 1); (3, 1); (4, 1)]
  | _ => False
  end
  ∧ (* only the last symbol is merged *)
    (match merge_all (word_of [(4, 1); (0, 1); (1, 1)]) mm 0 draws with
     | Some (Ret w) => w = word_of [(4, 1); (5, 2)] ∧ syms (merge_all w {[ (4, 5) := MergeValue 0 7 ]} 0 draws) = Some [(7, 3)]
     | _ => False
     end).
Proof. vm_compute. auto 10. Qed.
