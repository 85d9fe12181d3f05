(** Property theorem C97: byte pair encoding with dropout. *)
From Coq Require Import ZifyBool QArith String.
From stdpp Require Import relations.
From Verif Require Import GoBase Strutils Vocab MergeMap Heap Bpe SpecText SpecVocab SpecBpe SpecDrop Utf8Facts VocabFacts
  HeapFacts BpeWord BpeLoop BpeFacts BpeTok DropFacts DropDet Lit.
Import GoBase.
#[local] Open Scope Z_scope.

Lemma decisions_drop dropout draws n : decisions dropout draws n (map (dropped_at dropout draws) (seq 0 n)).
Proof. unfold decisions. induction (seq 0 n) as [|k ks IH]; [constructor|]. constructor; [apply dropped_iff|exact IH]. Qed.

(** For every dropout and every random stream: the draws are spent as the specification says, until every
    pair that could still be merged is left out. *)
Theorem C97_dropout :
  ∀ ss mm size dropout draws,
  Forall (λ s, 0 < s.2 ∧ 0 < size s.1) ss → additive mm size →
  ∃ w n ds s, merge_all (word_of ss) mm dropout draws = Some (Ret w)
    ∧ decisions dropout draws n ds ∧ drop_run mm ds (DState ss [] [] []) s ∧ all_left_out mm s ∧ d_syms s = word_syms w.
Proof.
  intros ss mm size dropout draws Hss Ha. destruct (merge_all_drop mm size (dropped_at dropout draws) ss Ha Hss) as (w & n & s & E & H1 & H2 & H3).
  exists w, n, (map (dropped_at dropout draws) (seq 0 n)), s. split_and!; [done|apply decisions_drop|done..].
Qed.
Print Assumptions C97_dropout.

(** The pairs that could still be merged are no more than the draws since the last one that was not dropped. *)
Theorem C97_left_over :
  ∀ ss mm size dropout draws,
  Forall (λ s, 0 < s.2 ∧ 0 < size s.1) ss → additive mm size →
  ∃ w n k, merge_all (word_of ss) mm dropout draws = Some (Ret w)
    ∧ (open_pairs mm (word_syms w) <= k <= n)%nat
    ∧ ∀ i, (n - k <= i < n)%nat → (0 < dropout ∧ draws i < dropout)%Q.
Proof.
  intros ss mm size dropout draws Hss Ha. destruct (C97_dropout ss mm size dropout draws Hss Ha) as (w & n & ds & s & E & Hd & Hr & Hl & Es).
  exists w, n. rewrite <- Es. destruct (drop_out_run _ _ _ _ Hr ltac:(constructor)) as [Hnd Hcase]. pose proof (left_out_count _ _ Hnd Hl) as Hc.
  unfold decisions in Hd. pose proof (Forall2_length _ _ _ Hd) as Hlen. rewrite seq_length in Hlen.
  assert (Hdec : ∀ i, ds !! i = Some true → (0 < dropout ∧ draws i < dropout)%Q).
  { intros i Hi. destruct (Forall2_lookup_r _ _ _ _ _ Hd Hi) as (x & Hx & Hix). apply lookup_seq in Hx as [-> _]. by apply Hix. }
  destruct Hcase as [[Hall Hle]|(ds1 & ds2 & -> & Hall & Hle)].
  - exists n. cbn in Hle. split; [done|]. split; [lia|]. intros i Hi. apply Hdec. destruct (lookup_lt_is_Some_2 ds i) as [d Hi']; [lia|].
    rewrite Hi'. f_equal. symmetry. by eapply Forall_lookup in Hall.
  - exists (length ds2). rewrite app_length in Hlen. cbn in Hlen. split; [done|]. split; [lia|]. intros i Hi. apply Hdec.
    rewrite lookup_app_r by lia. destruct (i - length ds1)%nat as [|j] eqn:Ej; [lia|]. change ((false :: ds2) !! S j) with (ds2 !! j). destruct (lookup_lt_is_Some_2 ds2 j) as [d Hj]; [lia|].
    rewrite Hj. f_equal. symmetry. by eapply Forall_lookup in Hall.
Qed.
Print Assumptions C97_left_over.

(** The draws that are spent are at most quadratic in the number of symbols, and at most linear without dropout. *)
Theorem C97_draws :
  ∀ ss mm size dropout draws,
  Forall (λ s, 0 < s.2 ∧ 0 < size s.1) ss → additive mm size →
  ∃ w n ds s, merge_all (word_of ss) mm dropout draws = Some (Ret w)
    ∧ decisions dropout draws n ds ∧ drop_run mm ds (DState ss [] [] []) s ∧ all_left_out mm s ∧ d_syms s = word_syms w
    ∧ (n <= (3 * length ss) * (3 * length ss))%nat ∧ ((dropout <= 0)%Q → (n <= 3 * length ss)%nat).
Proof.
  intros ss mm size dropout draws Hss Ha. destruct (C97_dropout ss mm size dropout draws Hss Ha) as (w & n & ds & s & E & Hd & Hr & Hl & Es).
  exists w, n, ds, s. split_and!; try done; destruct (run_draws mm ds ss s Hr) as [H1 H2]; pose proof (Forall2_length _ _ _ Hd) as Hlen; rewrite seq_length in Hlen; rewrite Hlen; [done|].
  intros Hq. apply H2. apply Forall_forall. intros d Hd'. apply elem_of_list_lookup in Hd' as [i Hi]. destruct (Forall2_lookup_r _ _ _ _ _ Hd Hi) as (x & _ & Hix).
  destruct d; [|done]. destruct (proj1 Hix eq_refl) as [Hp _]. exfalso. by apply (Qlt_not_le _ _ Hp).
Qed.
Print Assumptions C97_draws.

(** The specification without drops is that of C34. *)
Theorem C97_no_drops :
  ∀ mm ss n s, Forall (λ s, 0 < s.2) ss → drop_run mm (replicate n false) (DState ss [] [] []) s → all_left_out mm s →
  rtc (bpe_step mm) ss (d_syms s) ∧ saturated mm (d_syms s).
Proof.
  intros mm ss n s Hp Hr [_ Hl]. destruct (drop_run_textbook _ _ _ _ Hr) as [H1 H2]; [|done..|].
  { apply Forall_forall. intros b Hb. by apply elem_of_replicate in Hb as [-> _]. }
  split; [done|]. intros k m Hk%merge_at_pair. specialize (Hl k m Hk). rewrite H2 in Hl. by apply elem_of_nil in Hl.
Qed.
Print Assumptions C97_no_drops.

(** Where no two merges share a rank, the draws determine how many of them are spent and what comes out. *)
Theorem C97_determined :
  ∀ ss mm size dropout draws n1 n2 ds1 ds2 s1 s2,
  Forall (λ s, 0 < s.2 ∧ 0 < size s.1) ss → additive mm size → ranks_differ mm →
  decisions dropout draws n1 ds1 → drop_run mm ds1 (DState ss [] [] []) s1 → all_left_out mm s1 →
  decisions dropout draws n2 ds2 → drop_run mm ds2 (DState ss [] [] []) s2 → all_left_out mm s2 →
  n1 = n2 ∧ d_syms s1 = d_syms s2.
Proof.
  intros ss mm size dropout draws n1 n2 ds1 ds2 s1 s2 Hss Ha Hr D1 R1 L1 D2 R2 L2.
  destruct (run_det mm size ds1 ds2 (DState ss [] [] []) (DState ss [] [] []) s1 s2) as [<- (E & _)]; try done.
  - by split; [|constructor].
  - destruct (le_lt_dec n1 n2); [left|right].
    + by eapply (decisions_prefix _ _ n1 n2).
    + eapply (decisions_prefix _ _ n2 n1); [lia|done..].
  - split; [|done]. apply Forall2_length in D1, D2. rewrite seq_length in D1, D2. congruence.
Qed.
Print Assumptions C97_determined.

(** In Tokenize: for merges from a file, over a consistent vocabulary. *)
Theorem C97_tokenize :
  ∀ m file s draws, consistent (b_vocab m) → merge_map_from_file file (b_vocab m) 0 = Ret (Ok (b_merges m)) →
  s ≠ [] → (b_unk m ≠ [] → is_Some (get_id (b_vocab m) (b_unk m))) →
  ∃ ss n ds d res, group_syms (b_fuse m) (unk_id m) (char_classes m (runes s)) ss
    ∧ decisions (b_dropout m) draws n ds ∧ drop_run (b_merges m) ds (DState ss [] [] []) d ∧ all_left_out (b_merges m) d
    ∧ bpe_tokenize m s draws = Some (Ret res) ∧ answer m (d_syms d) res
    (* and nothing else meets the specification *)
    ∧ ∀ n' ds' d', decisions (b_dropout m) draws n' ds' → drop_run (b_merges m) ds' (DState ss [] [] []) d' → all_left_out (b_merges m) d' →
        n' = n ∧ d_syms d' = d_syms d.
Proof.
  intros m file s draws Hc Hf Hs Hu. destruct (tokenize_split m s draws Hs) as (ss & G & Hp & H).
  { intros E. apply Hu. intros E'. unfold has_unk in E. by rewrite E' in E. }
  pose proof (group_sized m s ss Hc G Hp) as Hsz. pose proof (loaded_additive _ _ Hc (loaded_concat _ _ _ Hf)) as Ha.
  destruct (C97_dropout ss (b_merges m) (term_size (b_vocab m)) (b_dropout m) draws Hsz Ha) as (w & n & ds & d & E & H1 & H2 & H3 & H4).
  destruct (H (word_syms w)) as (res & E1 & E2); [by exists w|]. exists ss, n, ds, d, res. rewrite H4. split_and!; try done.
  intros n' ds' d' D R L. rewrite <- H4. eapply C97_determined; [done|done|by eapply loaded_ranks|done..].
Qed.
Print Assumptions C97_tokenize.

(** Merges a b -> ab (rank 1), ab a -> aba (rank 0), b a -> ba (rank 2), IDs 0 1 2 3 4, on "ababa". The first draw leaves out
    the first "a b", the second merges the second one: the first "a b" may be merged again, and the requests for the two
    "b a" are old ones. Then "ab a" and the first "a b" are merged, and two draws are spent on the old requests. If instead
    the last four draws are dropped, two pairs are left. *)
Example C97_example :
  let mm : merge_map := {[ (0, 1) := MergeValue 1 2; (2, 0) := MergeValue 0 3; (1, 0) := MergeValue 2 4 ]} in
  let ss := [(0, 1); (1, 1); (0, 1); (1, 1); (0, 1)] in
  let run ds := match merge_all (word_of ss) mm (1 # 2) (λ k, nth k ds 1%Q) with Some (Ret w) => word_syms w | _ => [] end in
  run [1 # 4; 3 # 4]%Q = [(2, 2); (3, 3)]
  ∧ drop_run mm [true; false; false; false; false; false] (DState ss [] [] []) (DState [(2, 2); (3, 3)] [] [] [])
  ∧ run [1 # 4; 3 # 4; 1 # 4; 1 # 4; 1 # 4; 1 # 4]%Q = [(0, 1); (1, 1); (2, 2); (0, 1)]
  ∧ open_pairs mm [(0, 1); (1, 1); (2, 2); (0, 1)] = 2%nat
  ∧ run [1 # 4; 1 # 4; 3 # 4; 1 # 4; 1 # 4; 1 # 4]%Q = [(0, 1); (4, 2); (1, 1); (0, 1)].
Proof.
  intros mm ss run. split; [vm_compute; reflexivity|]. split; [|vm_compute; auto].
  Local Ltac solve_first := intros k' Hk; destruct k' as [|[|[|[|[|[|k']]]]]];
    try (exfalso; apply Hk; by left);
    match goal with |- Forall _ ?l => let l' := eval vm_compute in l in change l with l' end;
    repeat constructor; unfold no_later; cbn; lia.
  eapply dr_draw; [apply (ds_leave mm ss [] [] [] 0 (1, 0)); [set_solver|done|solve_first|constructor]|].
  eapply dr_draw; [apply (ds_merge mm [(0, 1); (1, 1)] 0 1 1 1 [(0, 1)] [0%nat] [] [] (MergeValue 1 2)); [done|set_solver|solve_first|constructor]|].
  eapply dr_draw; [apply (ds_merge mm [(0, 1); (1, 1)] 2 2 0 1 [] [] [(2, 1); (2, 3)] [] (MergeValue 0 3)); [done|set_solver|solve_first|repeat constructor; unfold no_later; cbn; lia]|].
  eapply dr_draw; [apply (ds_merge mm [] 0 1 1 1 [(3, 3)] [] [(2, 1); (2, 3)] [] (MergeValue 1 2)); [done|set_solver|solve_first|repeat constructor; unfold no_later; cbn; lia]|].
  eapply dr_draw; [apply (ds_old mm _ _ [] (2, 1) [(2, 3)] []); [solve_first|repeat constructor; unfold no_later; cbn; lia]|].
  eapply dr_draw; [apply (ds_old mm _ _ [] (2, 3) [] []); [solve_first|repeat constructor]|]. apply dr_none.
Qed.
