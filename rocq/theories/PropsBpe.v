(** Property theorems C33-C42 (the merge queue and BPE). *)
From Coq Require Import ZifyBool QArith String.
From stdpp Require Import relations.
From Verif Require Import GoBase Strutils Vocab MergeMap Heap Bpe SpecText SpecVocab SpecBpe Utf8Facts VocabFacts
  HeapFacts BpeWord BpeLoop BpeFacts BpeTok Lit.
Import GoBase.
#[local] Open Scope Z_scope.

(** * C33 *)
Lemma not_before x y : wm_le x y ↔ ¬ before y x.
Proof.
  unfold wm_le, wm_less, before. destruct (Z.eqb_spec (wm_rank y) (wm_rank x)); cbn; lia.
Qed.
Lemma heap_run_spec ops h s : is_heap h → s ≡ₚ h →
  if pops_fit (length h) ops then ∃ out h' s', heap_run h ops = Ret (out, h') ∧ pq_run s ops out s' ∧ s' ≡ₚ h'
  else heap_run h ops = Panic.
Proof.
  revert h s. induction ops as [|[x|] ops IH]; intros h s Hh Ps; cbn [pops_fit heap_run].
  - exists [], h, s. split; [done|]. split; [constructor|done].
  - destruct (heap_push_spec h x Hh) as (h1 & -> & Hh1 & P1). cbn [mbind outcome_bind].
    assert (length h1 = S (length h)) as Hl by (by rewrite P1). specialize (IH h1 (x :: s) Hh1). rewrite Hl in IH.
    destruct (pops_fit (S (length h)) ops); [|apply IH; by rewrite P1, Ps].
    destruct IH as (out & h' & s' & E & R & P'); [by rewrite P1, Ps|]. exists out, h', s'. split; [done|]. split; [by constructor|done].
  - destruct (length h) as [|n] eqn:Hl; [by destruct h|].
    destruct (heap_pop_spec h Hh) as (x & h1 & -> & Hh1 & P1 & Hmin); [by destruct h|]. cbn [mbind outcome_bind fst snd].
    assert (length h1 = n) as Hl1. { rewrite P1 in Hl. cbn in Hl. lia. }
    specialize (IH h1 h1 Hh1 ltac:(done)). rewrite Hl1 in IH. destruct (pops_fit n ops).
    + destruct IH as (out & h' & s' & -> & R & P'). cbn [mbind outcome_bind fst snd]. exists (x :: out), h', s'. split; [done|].
      split; [|done]. apply pq_pop with h1; [by rewrite Ps|..|done]. intros y Hy. rewrite Forall_forall in Hmin. by apply not_before, Hmin.
    + by rewrite IH.
Qed.

Theorem C33_priority_queue :
  ∀ ops, if pops_fit 0 ops then ∃ popped h s, heap_run [] ops = Ret (popped, h) ∧ pq_run [] ops popped s ∧ s ≡ₚ h
         else heap_run [] ops = Panic.
Proof. intros ops. exact (heap_run_spec ops [] [] heap_nil ltac:(done)). Qed.
Print Assumptions C33_priority_queue.

(** Ties in rank go by position. *)
Example C33_example :
  let a := WordMerge 3 30 0 in let b := WordMerge 1 10 7 in let c := WordMerge 1 11 2 in
  heap_run [] [Push a; Push b; Push c; Pop; Push c; Pop; Pop; Pop] = Ret ([c; c; b; a], []).
Proof. vm_compute. reflexivity. Qed.

(** * C34 *)
Theorem C34_textbook :
  ∀ ss mm size dropout draws,
  Forall (λ s, 0 < s.2 ∧ 0 < size s.1) ss → additive mm size → (dropout <= 0)%Q →
  ∃ w, merge_all (word_of ss) mm dropout draws = Some (Ret w)
     ∧ rtc (bpe_step mm) ss (word_syms w) ∧ saturated mm (word_syms w).
Proof.
  intros ss mm size dropout draws Hss Ha Hd. apply (merge_all_textbook mm size); [done| |done]. intros k. by apply dropped_none.
Qed.
Print Assumptions C34_textbook.

(** The textbook has only one answer. *)
Theorem C34_textbook_unique :
  ∀ mm ss t1 t2, rtc (bpe_step mm) ss t1 → saturated mm t1 → rtc (bpe_step mm) ss t2 → saturated mm t2 → t1 = t2.
Proof. exact bpe_result_unique. Qed.
Print Assumptions C34_textbook_unique.

(** In Tokenize: for merges from a file, over a consistent vocabulary. *)
Theorem C34_tokenize :
  ∀ m file s draws, consistent (b_vocab m) → merge_map_from_file file (b_vocab m) 0 = Ret (Ok (b_merges m)) →
  (b_dropout m <= 0)%Q → s ≠ [] → (b_unk m ≠ [] → is_Some (get_id (b_vocab m) (b_unk m))) →
  ∃ ss ts res, group_syms (b_fuse m) (unk_id m) (char_classes m (runes s)) ss
    ∧ rtc (bpe_step (b_merges m)) ss ts ∧ saturated (b_merges m) ts
    ∧ bpe_tokenize m s draws = Some (Ret res) ∧ answer m ts res.
Proof.
  intros m file s draws Hc Hf Hd Hs Hu. destruct (tokenize_split m s draws Hs) as (ss & G & Hp & H).
  { intros E. apply Hu. intros E'. unfold has_unk in E. by rewrite E' in E. }
  assert (Hsz : Forall (λ s, 0 < s.2 ∧ 0 < term_size (b_vocab m) s.1) ss).
  { (* every symbol is a non-empty term *)
    assert (Hcl : Forall (λ c, ∀ i, c.1 = Some i → 0 < term_size (b_vocab m) i) (char_classes m (runes s))).
    { apply Forall_lookup. intros k [o n] Hk. unfold char_classes in Hk. rewrite lookup_zip_with in Hk. unfold char_terms in Hk.
      rewrite list_lookup_imap in Hk. destruct (runes s !! k) as [r|]; [|done]. cbn in Hk. injection Hk as <- _.
      intros i Hi. cbn in Hi. apply Hc in Hi. unfold term_size. rewrite Hi. rewrite !zlen_app.
      pose proof (rune_len_bounds r). unfold rune_len in *.
      match goal with |- 0 < zlen ?a + (_ + zlen ?b) => pose proof (zlen_nonneg a); pose proof (zlen_nonneg b); lia end. }
    assert (Hus : ∀ u, unk_id m = Some u → 0 < term_size (b_vocab m) u).
    { intros u. unfold unk_id. destruct (decide (b_unk m = [])) as [|Hne]; [done|]. intros E%Hc. unfold term_size. rewrite E.
      destruct (b_unk m); [done|]. rewrite zlen_cons. pose proof (zlen_nonneg l). lia. }
    clear H. induction G as [|i n cs ss G IH|n cs ss _ G IH|u n cs ss Eu _ G IH|u ns cs ss Eu _ Hne _ G IH].
    - constructor.
    - apply Forall_cons in Hcl as [Hi Hcl]. apply Forall_cons in Hp as [Hn Hp]. constructor; [split; [done|by apply Hi]|by apply IH].
    - apply Forall_cons in Hcl as [_ Hcl]. by apply IH.
    - apply Forall_cons in Hcl as [_ Hcl]. apply Forall_cons in Hp as [Hn Hp]. constructor; [split; [done|by apply Hus]|by apply IH].
    - apply Forall_app in Hcl as [_ Hcl]. apply Forall_cons in Hp as [Hn Hp]. constructor; [split; [done|by apply Hus]|by apply IH]. }
  pose proof (loaded_concat _ _ _ Hf) as Hm.
  destruct (C34_textbook ss (b_merges m) (term_size (b_vocab m)) (b_dropout m) draws Hsz (loaded_additive _ _ Hc Hm) Hd) as (w & E & H1 & H2).
  destruct (H (word_syms w)) as (res & E1 & E2); [by exists w|]. exists ss, (word_syms w), res. done.
Qed.
Print Assumptions C34_tokenize.

(** Merges a b -> ab (rank 1), ab a -> aba (rank 0), b a -> ba (rank 2), with IDs 0 1 2 3 4, on "abab a". *)
Definition ex_merges : merge_map :=
  {[ (0, 1) := MergeValue 1 2; (2, 0) := MergeValue 0 3; (1, 0) := MergeValue 2 4 ]}.
Example C34_example :
  let ss := [(0, 1); (1, 1); (0, 1); (1, 1); (0, 1)] in
  let size i := if i =? 3 then 3 else if (i =? 2) || (i =? 4) then 2 else 1 in
  additive ex_merges size ∧
  (match merge_all (word_of ss) ex_merges 0 (λ _, 0%Q) with Some (Ret w) => word_syms w = [(3, 3); (4, 2)] | _ => False end).
Proof.
  split; [|vm_compute; reflexivity]. intros a b m. unfold ex_merges, merge_map. rewrite !lookup_insert_Some, lookup_singleton_Some.
  naive_solver.
Qed.

(** A stale entry that must not be used: 0 1 -> 4 (rank 1) after 1 2 -> 3 (rank 0); and a merge to the left of a symbol
    whose left neighbour was merged: 4 6 -> 7 after 0 1 -> 4 and 2 5 -> 6. *)
Example C34_links_example :
  (match merge_all (word_of [(0, 1); (1, 1); (2, 1)]) {[ (1, 2) := MergeValue 0 3; (0, 1) := MergeValue 1 4; (0, 3) := MergeValue 2 5 ]} 0 (λ _, 0%Q) with
   | Some (Ret w) => word_syms w = [(5, 3)] | _ => False end)
  ∧ (match merge_all (word_of [(0, 1); (1, 1); (2, 1); (5, 1)]) {[ (0, 1) := MergeValue 0 4; (2, 5) := MergeValue 1 6; (4, 6) := MergeValue 2 7 ]} 0 (λ _, 0%Q) with
   | Some (Ret w) => word_syms w = [(7, 4)] | _ => False end).
Proof. vm_compute. auto. Qed.

(** Without such sizes it fails: the entry for 0 1 -> 2 (rank 5) is stale after 1 4 -> 5 and 0 5 -> 3, but passes for one of
    3 6 -> 2 (rank 9), which is then merged before 6 7 -> 11 (rank 8). *)
Example C34_sizes_needed_example :
  let mm : merge_map := {[ (0, 1) := MergeValue 5 2; (1, 4) := MergeValue 0 5; (0, 5) := MergeValue 1 3;
                           (3, 6) := MergeValue 9 2; (6, 7) := MergeValue 8 11 ]} in
  let ss := [(0, 1); (1, 1); (4, 1); (6, 1); (7, 1)] in
  (match merge_all (word_of ss) mm 0 (λ _, 0%Q) with Some (Ret w) => word_syms w = [(2, 4); (7, 1)] | _ => False end)
  ∧ rtc (bpe_step mm) ss [(3, 3); (11, 2)] ∧ saturated mm [(3, 3); (11, 2)].
Proof.
  intros mm ss. split; [vm_compute; reflexivity|].
  Local Ltac solve_min mm :=
    intros k m' (x & y & Hx & Hy & Hm)%pair_at_lookup;
    destruct k as [|[|[|[|k]]]]; cbn in Hx, Hy; simplify_eq; try (vm_compute in Hm; simplify_eq; cbn; lia).
  split.
  - eapply rtc_l; [apply (bpe_step_intro mm [(0, 1)] 1 1 4 1 [(6, 1); (7, 1)] (MergeValue 0 5)); [reflexivity|solve_min mm]|].
    eapply rtc_l; [apply (bpe_step_intro mm [] 0 1 5 2 [(6, 1); (7, 1)] (MergeValue 1 3)); [reflexivity|solve_min mm]|].
    eapply rtc_l; [apply (bpe_step_intro mm [(3, 3)] 6 1 7 1 [] (MergeValue 8 11)); [reflexivity|solve_min mm]|]. done.
  - solve_min mm.
Qed.

(** * C35 *)
Theorem C35_merges_only :
  ∀ ss mm dropout draws, Forall (λ s, 0 < s.2) ss →
  ∃ w, merge_all (word_of ss) mm dropout draws = Some (Ret w)
     ∧ rtc (merge_step mm) ss (word_syms w) ∧ sym_bytes (word_syms w) = sym_bytes ss.
Proof.
  intros ss mm dropout draws Hp. destruct (merge_all_steps mm (dropped_at dropout draws) ss Hp) as (w & E & H).
  exists w. split; [done|]. split; [done|]. by eapply merge_steps_total.
Qed.
Print Assumptions C35_merges_only.

(** Tokenize always returns, for every text (also invalid UTF-8), model, dropout and random stream. *)
Theorem C35_tokenize_total :
  ∀ m s draws, ∃ res, bpe_tokenize m s draws = Some (Ret res).
Proof. exact tokenize_total. Qed.
Print Assumptions C35_tokenize_total.

(** Half of the merges dropped. *)
Example C35_example :
  let ss := [(0, 1); (1, 1); (0, 1); (1, 1); (0, 1)] in
  let draws k := if Nat.even k then (1 # 4)%Q else (3 # 4)%Q in
  (match merge_all (word_of ss) ex_merges (1 # 2) draws with Some (Ret w) => word_syms w = [(2, 2); (2, 2); (0, 1)] | _ => False end).
Proof. vm_compute. reflexivity. Qed.

(** * C36 *)
Theorem C36_saturates :
  ∀ ss mm dropout draws, Forall (λ s, 0 < s.2) ss → (dropout <= 0)%Q →
  ∃ w, merge_all (word_of ss) mm dropout draws = Some (Ret w) ∧ saturated mm (word_syms w).
Proof. intros ss mm dropout draws Hp Hd. apply merge_all_saturates; [|done]. intros k. by apply dropped_none. Qed.
Print Assumptions C36_saturates.

(** Merges that are no concatenations: 0 0 -> 0. *)
Example C36_example :
  (match merge_all (word_of [(0, 1); (0, 1); (1, 2); (0, 1); (0, 1); (0, 1)]) {[ (0, 0) := MergeValue 0 0 ]} 0 (λ _, 0%Q) with
   | Some (Ret w) => word_syms w = [(0, 2); (1, 2); (0, 3)]
   | _ => False end).
Proof. vm_compute. reflexivity. Qed.

(** * C37 *)
Theorem C37_dropout_one :
  ∀ ss mm dropout draws, Forall (λ s, 0 < s.2) ss → (1 <= dropout)%Q → (∀ k, draws k < 1)%Q →
  ∃ w, merge_all (word_of ss) mm dropout draws = Some (Ret w) ∧ word_syms w = ss.
Proof. intros ss mm dropout draws Hp Hd Hr. apply merge_all_dropped; [|done]. intros k. by apply dropped_all. Qed.
Print Assumptions C37_dropout_one.

Theorem C37_tokenize :
  ∀ m s draws, (1 <= b_dropout m)%Q → (∀ k, draws k < 1)%Q → s ≠ [] → (b_unk m ≠ [] → is_Some (get_id (b_vocab m) (b_unk m))) →
  ∃ ss res, group_syms (b_fuse m) (unk_id m) (char_classes m (runes s)) ss
    ∧ bpe_tokenize m s draws = Some (Ret res) ∧ answer m ss res.
Proof.
  intros m s draws Hd Hr Hs Hu. destruct (tokenize_split m s draws Hs) as (ss & G & Hp & H).
  { intros E. apply Hu. intros E'. unfold has_unk in E. by rewrite E' in E. }
  destruct (C37_dropout_one ss (b_merges m) (b_dropout m) draws Hp Hd Hr) as (w & E & Ew).
  destruct (H ss) as (res & E1 & E2); [by exists w|]. by exists ss, res.
Qed.
Print Assumptions C37_tokenize.

(** A merge is dropped iff the draw is less than the (positive) probability; nothing else depends on the draws. *)
Theorem C37_decisions :
  ∀ w mm dropout draws dropout' draws',
  (∀ k, (0 < dropout ∧ draws k < dropout)%Q ↔ (0 < dropout' ∧ draws' k < dropout')%Q) →
  merge_all w mm dropout draws = merge_all w mm dropout' draws'.
Proof.
  intros w mm d r d' r' H. assert (He : ∀ k, dropped_at d r k = dropped_at d' r' k).
  { intros k. apply eq_iff_eq_true. rewrite !dropped_iff. apply H. }
  unfold merge_all, merge_all_with. destruct (initial_queue mm 0 w []) as [q|]; [|done]. by rewrite (merge_loop_ext _ _ _ _ _ He).
Qed.
Print Assumptions C37_decisions.
(** In particular without dropout. *)
Theorem C37_nothing_dropped :
  ∀ w mm dropout draws draws', (∀ k, dropout <= draws k)%Q → merge_all w mm dropout draws = merge_all w mm 0 draws'.
Proof.
  intros w mm d r r' H. apply C37_decisions. intros k. split; intros [H1 H2]; [by destruct (Qlt_not_le _ _ H2)|by destruct (Qlt_irrefl 0)].
Qed.
Print Assumptions C37_nothing_dropped.

Example C37_example :
  (match merge_all (word_of [(0, 1); (1, 1); (0, 1)]) ex_merges 1 (λ _, (99 # 100)%Q) with
   | Some (Ret w) => word_syms w = [(0, 1); (1, 1); (0, 1)]
   | _ => False end)
  (* a draw equal to the probability does not drop *)
  ∧ (match merge_all (word_of [(0, 1); (1, 1); (0, 1)]) ex_merges (1 # 2) (λ _, (1 # 2)%Q) with
   | Some (Ret w) => word_syms w = [(3, 3)]
   | _ => False end).
Proof. vm_compute. auto. Qed.

(** * C38 *)
Definition ex_vocab (ts : list (list Z)) : vocab := match add_terms new_vocab ts with Ret v => v | Panic => new_vocab end.

(** The full statement is false: without unknown token, unknown characters are left out and the offsets
    of what follows shift ("xa" gives the token a at 0..1). *)
Theorem C38_offsets_refuted :
  ∃ m s draws t, valid_utf8 s = true ∧ bpe_tokenize m s draws = Some (Ret (Ok [t]))
    ∧ t_offsets t = Offsets 0 1 ∧ zlen s = 2 ∧ ¬ text_at s 0 1 (t_value t).
Proof.
  exists (Bpe (ex_vocab [[97]]) ∅ 0 [] [] [] false), [120; 97], (λ _, 0%Q), (Token 0 [97] (Offsets 0 1)).
  split; [done|]. split; [vm_compute; reflexivity|]. split; [done|]. split; [done|].
  intros (a & b & E & Ea & _). destruct a; [by cbn in E|]. rewrite zlen_cons in Ea. pose proof (zlen_nonneg a). lia.
Qed.
Print Assumptions C38_offsets_refuted.

(** Proved if there is an unknown token or all characters are known. *)
Theorem C38_offsets_partial :
  ∀ m s draws toks, valid_utf8 s = true →
  (b_unk m ≠ [] ∨ Forall (λ c, c.1 ≠ None) (char_classes m (runes s))) →
  bpe_tokenize m s draws = Some (Ret (Ok toks)) →
  toks_tile 0 toks (zlen s)
  ∧ Forall (λ t, boundary s (o_start (t_offsets t)) ∧ boundary s (o_end (t_offsets t))) toks.
Proof.
  intros m s draws toks Hv Hk E. destruct (decide (s = [])) as [->|Hs]; [by injection E as <-|].
  destruct (decide (has_unk m = true ∧ get_id (b_vocab m) (b_unk m) = None)) as [[Hu Hn]|Hu].
  { exfalso. unfold bpe_tokenize, merge_word in E. rewrite Hu, Hn in E. destruct s; [done|]. rewrite zlen_cons in E.
    pose proof (zlen_nonneg s). destruct (Z.eqb_spec (1 + zlen s) 0); [lia|done]. }
  destruct (tokenize_split m s draws Hs) as (ss & G & Hp & H).
  { intros E'. destruct (get_id (b_vocab m) (b_unk m)) eqn:E''; [eauto|]. by destruct Hu. }
  destruct (merge_all_steps (b_merges m) (dropped_at (b_dropout m) draws) ss Hp) as (w' & Ew & Hst).
  destruct (H (word_syms w')) as (res & E' & A); [by exists w'|]. rewrite E in E'. injection E' as <-. cbn in A.
  apply valid_utf8_spec in Hv as (rs & Hrs & ->). rewrite runes_encode_scalars in * by done.
  assert (Hou : unk_id m ≠ None ∨ Forall (λ c, c.1 ≠ None) (char_classes m rs)).
  { destruct Hk as [Hne|]; [|by right]. left. unfold unk_id. rewrite decide_False by done. intros E'. apply Hu. split; [|done].
    unfold has_unk. destruct (b_unk m); [done|]. rewrite zlen_cons. pose proof (zlen_nonneg l). destruct (Z.eqb_spec (1 + zlen l) 0); [lia|done]. }
  assert (Hcut : ∀ a b, word_syms w' = a ++ b → boundary (encode rs) (sym_bytes a) ∧ (b = [] → sym_bytes a = zlen (encode rs))).
  { intros a b Eab. destruct (steps_cuts _ _ _ Hst a b Eab) as (a1 & b1 & E1 & H1 & Hb1).
    destruct (group_cuts _ _ _ _ Hou G a1 b1 E1) as (ca & cb & E2 & H2 & Hb2). rewrite <- H1, <- H2. split; [by eapply class_boundary|].
    intros Hb. rewrite (Hb2 (Hb1 Hb)), app_nil_r in E2. rewrite <- E2, class_bytes_snd, char_classes_snd. apply rune_lens. }
  assert (Hpos : Forall (λ s, 0 < s.2) (word_syms w')).
  { clear -Hst Hp. induction Hst as [|s t s' [l a la b lb r m0 _] _ IH]; [done|]. apply IH. apply Forall_app in Hp as [Hl Hp].
    apply Forall_cons in Hp as [Ha Hp]. apply Forall_cons in Hp as [Hb Hr]. apply Forall_app. split; [done|]. constructor; [cbn in *; lia|done]. }
  split.
  - replace (zlen (encode rs)) with (0 + sym_bytes (word_syms w')).
    + by eapply toks_tile_of.
    + cbn. apply (Hcut (word_syms w') []); [by rewrite app_nil_r|done].
  - rewrite Forall_forall. intros t Ht. destruct (toks_cuts _ _ _ _ _ A Ht) as (a & x & b & Eab & _ & _ & -> & ->).
    split; [apply (Hcut a (x :: b) Eab)|]. apply (Hcut (a ++ [x]) b). by rewrite Eab, <- app_assoc.
Qed.
Print Assumptions C38_offsets_partial.

(** "aéx" with unknown token "?" and merge a é. *)
Example C38_example :
  let v := ex_vocab [[97]; [195; 169]; [97; 195; 169]; [63]] in
  let m := Bpe v {[ (0, 1) := MergeValue 0 2 ]} 0 [63] [] [] false in
  bpe_tokenize m [97; 195; 169; 120] (λ _, 0%Q)
  = Some (Ret (Ok [Token 2 [97; 195; 169] (Offsets 0 3); Token 3 [63] (Offsets 3 4)])).
Proof. vm_compute. reflexivity. Qed.

(** * C39 *)
Theorem C39_faithful :
  ∀ m file s draws, consistent (b_vocab m) → merge_map_from_file file (b_vocab m) 0 = Ret (Ok (b_merges m)) →
  b_prefix m = [] → b_suffix m = [] → (b_unk m ≠ [] → is_Some (get_id (b_vocab m) (b_unk m))) →
  valid_utf8 s = true → Forall (λ r, is_Some (get_id (b_vocab m) (encode_rune r))) (runes s) →
  ∃ toks, bpe_tokenize m s draws = Some (Ret (Ok toks))
    ∧ concat (map t_value toks) = s
    ∧ Forall (λ t, text_at s (o_start (t_offsets t)) (o_end (t_offsets t)) (t_value t)
        ∧ get_id (b_vocab m) (t_value t) = Some (t_id t) ∧ get_string (b_vocab m) (t_id t) = Some (t_value t)) toks.
Proof.
  intros m file s draws Hc Hf Hpre Hsuf Hu Hv Hk. destruct (decide (s = [])) as [->|Hs]; [by exists []|].
  destruct (tokenize_split m s draws Hs) as (ss & G & Hp & H).
  { intros E. apply Hu. intros E'. unfold has_unk in E. by rewrite E' in E. }
  destruct (merge_all_steps (b_merges m) (dropped_at (b_dropout m) draws) ss Hp) as (w' & Ew & Hst).
  destruct (H (word_syms w')) as (res & E & A); [by exists w'|].
  pose proof (spells_start m (runes s) ss _ Hpre Hsuf Hk G) as Hsp.
  destruct (spells_steps _ _ _ _ _ Hc (loaded_concat _ _ _ Hf) Hst Hsp) as (txt & Etxt & Hsp').
  destruct (toks_quote _ [] _ _ Hc Hsp') as (toks & Ht & Hval & Hq). cbn [app] in Hq.
  assert (concat txt = s) as Es.
  { rewrite Etxt. rewrite <- (valid_encode_runes s Hv) at 2. unfold encode. rewrite flat_map_concat_map. done. }
  rewrite Es in Hq. exists toks. rewrite E. split; [|split; [by rewrite Hval|done]]. do 2 f_equal.
  destruct res as [toks'|e]; cbn in A.
  - f_equal. by eapply toks_of_fun.
  - exfalso. destruct A as (a & x & b & Ex & _ & Hx & _). destruct (toks_of_some _ _ _ _ x Ht) as [y Hy]; [|congruence].
    rewrite Ex. apply elem_of_app. right. by left.
Qed.
Print Assumptions C39_faithful.

(** "abé" with the merges a b and ab é, loaded from a file. *)
Example C39_example :
  let v := ex_vocab [[97]; [98]; [195; 169]; [97; 98]; [97; 98; 195; 169]] in
  match merge_map_from_file ([97; 32; 98; 10; 97; 98; 32; 195; 169]) v 0 with
  | Ret (Ok mm) =>
    bpe_tokenize (Bpe v mm 0 [] [] [] false) [97; 98; 195; 169; 97] (λ _, 0%Q)
    = Some (Ret (Ok [Token 4 [97; 98; 195; 169] (Offsets 0 4); Token 0 [97] (Offsets 4 5)]))
  | _ => False
  end.
Proof. vm_compute. reflexivity. Qed.

(** * C40 *)
(** The documented terms: every character but the first with the prefix. *)
Definition documented_terms (pre suf : list Z) (rs : list Z) : list (list Z) :=
  imap (λ i r, (if decide (i = 0%nat) then [] else pre) ++ encode_rune r
               ++ (if decide (S i = length rs) then suf else [])) rs.

(** The full statement is false: the prefix goes to the first character and to no other. With the prefix
    ## and the vocabulary a, ##b all documented terms of "ab" are known, but no token is found. *)
Theorem C40_prefix_refuted :
  ∃ m s draws, b_prefix m ≠ [] ∧ valid_utf8 s = true ∧ consistent (b_vocab m)
    ∧ Forall (λ t, is_Some (get_id (b_vocab m) t)) (documented_terms (b_prefix m) (b_suffix m) (runes s))
    ∧ s ≠ [] ∧ bpe_tokenize m s draws = Some (Ret (Ok [])).
Proof.
  exists (Bpe (ex_vocab [[97]; [35; 35; 98]]) ∅ 0 [] [35; 35] [] false), [97; 98], (λ _, 0%Q).
  split; [done|]. split; [done|]. split.
  { destruct (grown_add_terms [] new_vocab [[97]; [35; 35; 98]] grown_new) as (v & E & G & _). unfold ex_vocab. rewrite E. apply (gr_cons _ _ G). }
  split; [|split; [done|vm_compute; reflexivity]].
  cbn. repeat constructor; vm_compute; eauto.
Qed.
Print Assumptions C40_prefix_refuted.

(** What the code does instead, for every prefix and suffix: [char_terms] puts the prefix on the first
    character only.
    What is missing: the documented behaviour for any non-empty prefix. *)
Theorem C40_prefix_partial :
  ∀ m s draws, s ≠ [] → (b_unk m ≠ [] → is_Some (get_id (b_vocab m) (b_unk m))) →
  ∃ ss ts res, group_syms (b_fuse m) (unk_id m)
      (zip_with (λ t r, (get_id (b_vocab m) t, rune_len r)) (char_terms (b_prefix m) (b_suffix m) (runes s)) (runes s)) ss
    ∧ rtc (merge_step (b_merges m)) ss ts ∧ bpe_tokenize m s draws = Some (Ret res) ∧ answer m ts res
    ∧ (b_prefix m = [] → char_terms (b_prefix m) (b_suffix m) (runes s) = documented_terms (b_prefix m) (b_suffix m) (runes s)).
Proof.
  intros m s draws Hs Hu. destruct (tokenize_split m s draws Hs) as (ss & G & Hp & H).
  { intros E. apply Hu. intros E'. unfold has_unk in E. by rewrite E' in E. }
  destruct (merge_all_steps (b_merges m) (dropped_at (b_dropout m) draws) ss Hp) as (w' & Ew & Hst).
  destruct (H (word_syms w')) as (res & E & A); [by exists w'|]. exists ss, (word_syms w'), res.
  split; [done|]. split; [done|]. split; [done|]. split; [done|]. intros ->. unfold char_terms, documented_terms. apply imap_ext.
  intros i x _. by destruct (decide (i = 0%nat)).
Qed.
Print Assumptions C40_prefix_partial.

Example C40_example :
  char_terms [35; 35] [47] [97; 98; 99] = [[35; 35; 97]; [98]; [99; 47]]
  ∧ documented_terms [35; 35] [47] [97; 98; 99] = [[97]; [35; 35; 98]; [35; 35; 99; 47]]
  ∧ bpe_tokenize (Bpe (ex_vocab [[35; 35; 97]; [98]; [99; 47]]) ∅ 0 [] [35; 35] [47] false) [97; 98; 99] (λ _, 0%Q)
    = Some (Ret (Ok [Token 0 [35; 35; 97] (Offsets 0 1); Token 1 [98] (Offsets 1 2); Token 2 [99; 47] (Offsets 2 3)]))
  ∧ bpe_tokenize (Bpe (ex_vocab [[97]; [35; 35; 98]; [35; 35; 99; 47]]) ∅ 0 [] [35; 35] [47] false) [97; 98; 99] (λ _, 0%Q) = Some (Ret (Ok []))
  ∧ bpe_tokenize (Bpe (ex_vocab [[97]; [98; 47]]) ∅ 0 [] [] [47] false) [97; 98] (λ _, 0%Q)
    = Some (Ret (Ok [Token 0 [97] (Offsets 0 1); Token 1 [98; 47] (Offsets 1 2)])).
Proof. vm_compute. auto 10. Qed.

(** * C41 *)
Theorem C41_unknown :
  ∀ m s draws, b_unk m ≠ [] → s ≠ [] →
  match get_id (b_vocab m) (b_unk m) with
  | None => bpe_tokenize m s draws = Some (Ret (Err EUnknownTokenOutOfVocabulary))
  | Some u =>
    ∃ ss ts res, group_syms (b_fuse m) (Some u) (char_classes m (runes s)) ss
      ∧ (∀ ss', group_syms (b_fuse m) (Some u) (char_classes m (runes s)) ss' → ss' = ss)
      ∧ rtc (merge_step (b_merges m)) ss ts ∧ bpe_tokenize m s draws = Some (Ret res) ∧ answer m ts res
  end.
Proof.
  intros m s draws Hun Hs. assert (has_unk m = true) as Hh.
  { unfold has_unk. destruct (b_unk m); [done|]. rewrite zlen_cons. pose proof (zlen_nonneg l). destruct (Z.eqb_spec (1 + zlen l) 0); [lia|done]. }
  destruct (get_id (b_vocab m) (b_unk m)) as [u|] eqn:E.
  - destruct (tokenize_split m s draws Hs) as (ss & G & Hp & H); [rewrite E; eauto|].
    destruct (merge_all_steps (b_merges m) (dropped_at (b_dropout m) draws) ss Hp) as (w' & Ew & Hst).
    destruct (H (word_syms w')) as (res & E' & A); [by exists w'|]. exists ss, (word_syms w'), res.
    assert (unk_id m = Some u) as EU by (unfold unk_id; by rewrite decide_False). rewrite EU in G.
    split; [done|]. split; [intros ss' G'; by eapply group_unique|]. done.
  - unfold bpe_tokenize, merge_word. rewrite Hh, E. destruct s; [done|]. rewrite zlen_cons. pose proof (zlen_nonneg s).
    destruct (Z.eqb_spec (1 + zlen s) 0); [lia|done].
Qed.
Print Assumptions C41_unknown.

(** "xéaé" with only a and ? known, fused and not. *)
Example C41_example :
  let v := ex_vocab [[97]; [63]] in
  let s := [120; 195; 169; 97; 195; 169] in
  bpe_tokenize (Bpe v ∅ 0 [63] [] [] true) s (λ _, 0%Q)
  = Some (Ret (Ok [Token 1 [63] (Offsets 0 3); Token 0 [97] (Offsets 3 4); Token 1 [63] (Offsets 4 6)]))
  ∧ bpe_tokenize (Bpe v ∅ 0 [63] [] [] false) s (λ _, 0%Q)
  = Some (Ret (Ok [Token 1 [63] (Offsets 0 1); Token 1 [63] (Offsets 1 3); Token 0 [97] (Offsets 3 4); Token 1 [63] (Offsets 4 6)]))
  ∧ bpe_tokenize (Bpe v ∅ 0 [33] [] [] false) [97] (λ _, 0%Q) = Some (Ret (Err EUnknownTokenOutOfVocabulary))
  ∧ bpe_tokenize (Bpe v {[ (0, 0) := MergeValue 0 7 ]} 0 [] [] [] false) [97; 97; 97] (λ _, 0%Q) = Some (Ret (Err (EIDNotFound 7))).
Proof. vm_compute. auto. Qed.

(** * C42 *)
(** The answer is that of the uncached function, after any earlier calls, for the cache of wordcache.go and
    for every other one that returns only what was stored. *)
Theorem C42_cache_transparent :
  ∀ ci m c0 calls s draws draws', cache_sound ci → (∀ k, ca_get ci c0 k = None) → (b_dropout m <= 0)%Q →
  ∃ c' res, bpe_tokenize_cached ci m s draws (after_calls ci m calls c0) = Some (Ret (res, c'))
    ∧ bpe_tokenize m s draws' = Some (Ret res).
Proof.
  intros ci m c0 calls s draws draws' Hsound Hempty Hd.
  assert (has_dropout m = false) as Hnd. { unfold has_dropout. apply Qle_bool_iff in Hd. by rewrite Hd. }
  set (good := λ c, ∀ k w, ca_get ci c k = Some w → ∀ dr, merge_word m k dr = Some (Ret (Ok w))).
  assert (Hone : ∀ c x dr dr', good c → ∃ c' res, bpe_tokenize_cached ci m x dr c = Some (Ret (res, c')) ∧ bpe_tokenize m x dr' = Some (Ret res) ∧ good c').
  { intros c x dr dr' Hg. destruct (tokenize_total m x dr') as [res Hres]. unfold bpe_tokenize_cached.
    pose proof Hres as Hres'. unfold bpe_tokenize in Hres. destruct (zlen x =? 0) eqn:Ex; [injection Hres as <-; by exists c, (Ok [])|].
    rewrite Hnd. destruct (ca_get ci c x) as [w|] eqn:Eg.
    - rewrite (Hg _ _ Eg dr') in Hres. injection Hres as <-. by exists c, (word_to_tokens m w 0).
    - rewrite (merge_word_draws m x dr dr' Hd). destruct (merge_word m x dr') as [[[w|e]|]|] eqn:Em; try done.
      + injection Hres as <-. eexists _, _. split; [done|]. split; [done|]. destruct (word_to_tokens m w 0); [|done].
        intros k w' Hk dr2. destruct (Hsound _ _ _ _ _ Hk) as [[-> ->]|Hold]; [|by apply (Hg k)].
        by rewrite (merge_word_draws m x dr2 dr' Hd).
      + injection Hres as <-. by exists c, (Err e). }
  assert (Hall : ∀ c, good c → good (after_calls ci m calls c)).
  { induction calls as [|[x dr] calls IH]; intros c Hg; [done|]. cbn [after_calls].
    destruct (Hone c x dr dr Hg) as (c' & res & -> & _ & Hg'). by apply IH. }
  assert (Hg0 : good c0). { intros k w Hk. by rewrite Hempty in Hk. }
  destruct (Hone _ s draws draws' (Hall c0 Hg0)) as (c' & res & H1 & H2 & _). by exists c', res.
Qed.
Print Assumptions C42_cache_transparent.

(** With dropout the cache is neither asked nor filled, whatever it holds. *)
Theorem C42_dropout :
  ∀ ci m s draws (c : ca_state ci), (0 < b_dropout m)%Q →
  ∃ res, bpe_tokenize_cached ci m s draws c = Some (Ret (res, c)) ∧ bpe_tokenize m s draws = Some (Ret res).
Proof.
  intros ci m s draws c Hd. destruct (tokenize_total m s draws) as [res Hres]. exists res. split; [|done].
  assert (has_dropout m = true) as Hh. { unfold has_dropout. destruct (Qle_bool (b_dropout m) 0) eqn:E; [|done]. apply Qle_bool_iff in E. by destruct (Qlt_not_le _ _ Hd). }
  unfold bpe_tokenize, bpe_tokenize_cached in *. rewrite Hh. destruct (zlen s =? 0); [by injection Hres as <-|].
  destruct (merge_word m s draws) as [[[w|e]|]|]; [by injection Hres as <-|by injection Hres as <-|done|done].
Qed.
Print Assumptions C42_dropout.

Theorem C42_stub :
  cache_sound stub_cache
  ∧ ∀ m s draws c, ∃ res, bpe_tokenize_cached stub_cache m s draws c = Some (Ret (res, c)) ∧ bpe_tokenize m s draws = Some (Ret res).
Proof.
  split; [by intros c k w k' w' H|]. intros m s draws c. destruct (tokenize_total m s draws) as [res Hres]. exists res. split; [|done].
  unfold bpe_tokenize, bpe_tokenize_cached in *. destruct (zlen s =? 0); [by injection Hres as <-|].
  assert ((if has_dropout m then None else ca_get stub_cache c s) = None) as -> by (by destruct (has_dropout m)).
  destruct (merge_word m s draws) as [[[w|e]|]|]; try done; injection Hres as <-; [|done].
  destruct (has_dropout m); [done|]. by destruct (word_to_tokens m w 0).
Qed.
Print Assumptions C42_stub.

(** A cache that keeps one entry. *)
Definition one_entry_cache : cache_impl :=
  CacheImpl (option (list Z * word)) (λ c k, match c with Some (k', w) => if decide (k = k') then Some w else None | None => None end)
    (λ _ k w, Some (k, w)).
Example C42_example :
  let m := Bpe (ex_vocab [[97]; [98]; [97; 98]]) {[ (0, 1) := MergeValue 0 2 ]} 0 [] [] [] false in
  let c := after_calls one_entry_cache m [([97], (λ _, 0%Q)); ([97; 98], (λ _, 0%Q))] None in
  ca_get one_entry_cache c [97; 98] = Some [WSym 2 2 (-1) (-1)]
  ∧ (match bpe_tokenize_cached one_entry_cache m [97; 98] (λ _, 0%Q) c with
     | Some (Ret (res, _)) => res = Ok [Token 2 [97; 98] (Offsets 0 2)] | _ => False end)
  ∧ cache_sound one_entry_cache
  ∧ (let m' := Bpe (b_vocab m) (b_merges m) 1 [] [] [] false in
     match bpe_tokenize_cached one_entry_cache m' [97; 98] (λ _, 0%Q) c with
     | Some (Ret (res, c')) => res = Ok [Token 0 [97] (Offsets 0 1); Token 1 [98] (Offsets 1 2)] ∧ c' = c | _ => False end).
Proof.
  split; [vm_compute; reflexivity|]. split; [vm_compute; reflexivity|]. split; [|vm_compute; auto].
  intros c k w k' w'. cbn. case_decide; [|done]. intros [= ->]. auto.
Qed.
