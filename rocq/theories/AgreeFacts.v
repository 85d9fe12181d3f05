(** Proofs about models that differ only in what a text cannot reach. *)
From Coq Require Import ZifyBool ZifyNat QArith.
From stdpp Require Import relations.
From Verif Require Import GoBase Strutils Vocab MergeMap Heap Bpe WordPiece HeapFacts SpecText SpecVocab SpecBpe SpecAgree SliceFacts Utf8Facts
  VocabFacts BpeWord BpeLoop BpeFacts BpeTok.
Import GoBase.
#[local] Open Scope Z_scope.

(** * MergeAll *)

Lemma agree_placed mm mm' (v : list (nat * (Z * Z))) k p a la n b lb : agree_on mm mm' v.*2 → v !! k = Some (p, (a, la)) → v !! S k = Some (n, (b, lb)) →
  mm !! (a, b) = mm' !! (a, b).
Proof. intros H H1 H2. apply (H k (a, la) (b, lb)); by rewrite list_lookup_fmap, ?H1, ?H2. Qed.

Lemma push_neighbours_agree mm mm' w l x r q :
  rep w (l ++ x :: r) → agree_on mm mm' (l ++ x :: r).*2 → push_neighbours mm w (Z.of_nat x.1) q = push_neighbours mm' w (Z.of_nat x.1) q.
Proof.
  intros R Ha. destruct x as [p [c lc]]. cbn [fst].
  assert (Hx : (l ++ (p, (c, lc)) :: r) !! length l = Some (p, (c, lc))) by (rewrite lookup_app_r, Nat.sub_diag by lia; done).
  destruct (rep_at _ _ R _ _ _ _ Hx) as [Hlc Hp]. unfold push_neighbours. rewrite (idx_nat _ _ _ Hp).
  cbn [mbind outcome_bind ws_prev ws_next ws_id].
  match goal with |- mbind _ ?e = mbind _ ?e' => assert (e = e') as -> end.
  { destruct (last l) as [[y [d ld]]|] eqn:El.
    - apply last_Some in El as [l0 ->]. rewrite app_length in *. cbn [length] in *. rewrite Nat.add_1_r in *. cbn [prevz] in *.
      assert (Hy : ((l0 ++ [(y, (d, ld))]) ++ (p, (c, lc)) :: r) !! length l0 = Some (y, (d, ld))).
      { rewrite <- app_assoc. rewrite lookup_app_r, Nat.sub_diag by lia. done. }
      rewrite (pz_nonneg _ _ _ Hy). cbn [fst]. destruct (Z.eqb_spec (Z.of_nat y) (-1)); [lia|]. cbn [negb].
      destruct (rep_at _ _ R _ _ _ _ Hy) as [_ Hwy]. rewrite (idx_nat _ _ _ Hwy). cbn [mbind outcome_bind ws_id].
      unfold mm_get. by rewrite (agree_placed _ _ _ _ _ _ _ _ _ _ Ha Hy Hx).
    - apply last_None in El as ->. done. }
  match goal with |- mbind _ ?e = _ => destruct e as [q1|]; [|done] end. cbn [mbind outcome_bind].
  destruct r as [|[y [d ld]] r].
  - assert (pz (l ++ [(p, (c, lc))]) (S (length l)) = -1) as ->; [|done].
    unfold pz. rewrite lookup_ge_None_2; [done|]. rewrite app_length. cbn. lia.
  - assert (Hy : (l ++ (p, (c, lc)) :: (y, (d, ld)) :: r) !! S (length l) = Some (y, (d, ld))).
    { rewrite lookup_app_r by lia. by replace (S (length l) - length l)%nat with 1%nat by lia. }
    rewrite (pz_nonneg _ _ _ Hy). cbn [fst]. destruct (Z.eqb_spec (Z.of_nat y) (-1)); [lia|]. cbn [negb andb].
    destruct (rep_at _ _ R _ _ _ _ Hy) as [_ Hwy].
    destruct (Z.ltb_spec (Z.of_nat y) (zlen w)) as [_|Hge]; [|done].
    rewrite (idx_nat _ _ _ Hwy). cbn [mbind outcome_bind ws_id].
    unfold mm_get. by rewrite (agree_placed _ _ _ _ _ _ _ _ _ _ Ha Hx Hy).
Qed.

Lemma merge_iter_agree mm mm' d st v :
  rep (m_w st) v → agree_on mm mm' v.*2 → (∀ ss', merge_step mm v.*2 ss' → agree_on mm mm' ss') →
  merge_iter mm d st = merge_iter mm' d st.
Proof.
  intros R Ha Hs. unfold merge_iter. destruct (heap_pop (m_q st)) as [[top q]|]; [|done]. cbn [mbind outcome_bind].
  destruct d; [done|]. destruct (heap_push_all q (m_skip st)) as [q1|]; [|done]. cbn [mbind outcome_bind].
  destruct (idx (m_w st) (wm_pos top)) as [cur|] eqn:Hcur; [|done]. cbn [mbind outcome_bind].
  apply idx_lookup in Hcur as [Hp0 Hcur].
  destruct (Z.eqb_spec (ws_len cur) 0) as [Hl0|Hl0]; cbn [orb]; [done|].
  destruct (Z.eqb_spec (ws_next cur) (-1)) as [Hn|Hn]; cbn [negb orb]; [done|].
  destruct (rep_live _ _ _ _ R Hcur Hl0) as (k & Hk & Ecur).
  assert (∃ y, v !! S k = Some y) as [[n [b lb]] Hy].
  { rewrite Ecur in Hn. cbn in Hn. unfold pz in Hn. destruct (v !! S k); [eauto|done]. }
  destruct (rep_at _ _ R _ _ _ _ Hy) as [Hlb Hwy]. cbn [prevz] in Hwy. rewrite (pz_nonneg _ _ _ Hk) in Hwy. cbn [fst] in Hwy.
  assert (ws_next cur = Z.of_nat n) as En. { rewrite Ecur. cbn. by rewrite (pz_nonneg _ _ _ Hy). }
  rewrite En, (idx_nat _ _ _ Hwy). cbn [mbind outcome_bind ws_id]. unfold mm_get.
  rewrite <- (agree_placed _ _ _ _ _ _ _ _ _ _ Ha Hk Hy).
  destruct (mm !! (ws_id cur, b)) as [m|] eqn:Hm; [|done].
  destruct (Z.eqb_spec (mv_id m) (wm_id top)) as [Hid|Hid]; cbn [negb]; [|done].
  assert (v = take k v ++ (Z.to_nat (wm_pos top), (ws_id cur, ws_len cur)) :: (n, (b, lb)) :: drop (S (S k)) v) as Hv.
  { rewrite <- (take_drop k v) at 1. f_equal. rewrite (drop_S _ _ _ Hk). f_equal. by rewrite (drop_S _ _ _ Hy). }
  assert (Hlen : length (take k v) = k). { rewrite take_length. apply lookup_lt_Some in Hk. lia. }
  pose proof R as R0. rewrite Hv in R0.
  destruct (rep_merge (take k v) (drop (S (S k)) v) (Z.to_nat (wm_pos top)) n (ws_id cur) (ws_len cur) b lb (wm_id top) (m_w st) R0) as (w' & E & _ & R').
  rewrite <- Hv, Hlen, Z2Nat.id in E by done. rewrite Z2Nat.id by done. rewrite E. cbn [mbind outcome_bind].
  assert (push_neighbours mm w' (wm_pos top) q1 = push_neighbours mm' w' (wm_pos top) q1) as ->; [|done].
  rewrite <- (Z2Nat.id (wm_pos top)) by done.
  apply (push_neighbours_agree mm mm' w' (take k v) (Z.to_nat (wm_pos top), (wm_id top, ws_len cur + lb)) (drop (S (S k)) v) q1 R').
  apply Hs. rewrite Hv at 1. rewrite !fmap_app, !fmap_cons. cbn [snd]. rewrite <- Hid. by apply merge_step_intro.
Qed.

Lemma iter_in_word mm w w' v q skip d v' q' skip' : rep w' v' → zlen w' = zlen w → iter_to mm v q skip d v' q' skip' →
  Forall (in_word w) (q ++ skip) → Forall (in_word w') (q' ++ skip').
Proof.
  intros R' Hlen Hit Hin. rewrite Forall_forall in Hin |- *. intros e He. unfold in_word. rewrite Hlen. fold (in_word w e).
  destruct Hit as [top rest q1 Hd P _ P'|top rest q1 Hd P _ P' _|top rest q1 l p a la n b lb r m Hd P _ Hv _ _ _ P'].
  - apply Hin. rewrite P. rewrite P' in He. set_solver.
  - apply Hin. rewrite P. rewrite P' in He. set_solver.
  - rewrite app_nil_r, P' in He. apply elem_of_app in He as [He|He].
    + apply new_entries_pos in He as (y & Hy & Ey). pose proof (rep_in_word _ _ _ _ R' Hy Ey) as H. unfold in_word in *. by rewrite <- Hlen.
    + apply Hin. rewrite P. set_solver.
Qed.

Lemma merge_loop_agree mm mm' drop fuel st v ss :
  rep (m_w st) v → is_heap (m_q st) → Forall (in_word (m_w st)) (m_q st ++ m_skip st) →
  agree_from mm mm' ss → rtc (merge_step mm) ss v.*2 →
  merge_loop fuel mm drop st = merge_loop fuel mm' drop st.
Proof.
  intros R Hq Hin Ha Hr. revert st v R Hq Hin Hr. induction fuel as [|fuel IH]; intros st v R Hq Hin Hr; [done|].
  cbn [merge_loop]. destruct (m_q st) as [|e q0] eqn:E; [done|].
  assert (Hne : m_q st ≠ []) by (by rewrite E). rewrite <- E in *. clear E e q0.
  rewrite <- (merge_iter_agree mm mm' _ st v R).
  2:{ by apply Ha. }
  2:{ intros ss' Hs. apply Ha. by eapply rtc_r. }
  destruct (merge_iter_spec mm (drop (m_draws st)) st v R Hq Hne) as (st' & v' & -> & R' & Hq' & Hlen & Hdr & Hit).
  { by apply Forall_app in Hin as [? _]. }
  apply (IH st' v'); [done|done| |].
  - by eapply iter_in_word.
  - destruct Hit as [| |top rest q1 l p a la n b lb r m Hd P _ -> _ Hm _ P']; [done|done|].
    eapply rtc_r; [exact Hr|]. rewrite !fmap_app, !fmap_cons. cbn [snd]. by apply merge_step_intro.
Qed.

Lemma initial_queue_agree mm mm' i w q : agree_on mm mm' (word_syms w) → initial_queue mm i w q = initial_queue mm' i w q.
Proof.
  revert i q. induction w as [|a w IH]; intros i q Ha; [done|]. destruct w as [|b w]; [done|]. cbn [initial_queue].
  pose proof (Ha 0%nat (ws_id a, ws_len a) (ws_id b, ws_len b) eq_refl eq_refl) as H0. cbn [fst] in H0. unfold mm_get. rewrite H0.
  match goal with |- mbind _ ?e = _ => destruct e as [q1|]; [|done] end. cbn [mbind outcome_bind]. apply IH.
  intros k x y Hx Hy. by apply (Ha (S k)).
Qed.

Lemma merge_all_agree mm mm' drop ss : Forall (λ s, 0 < s.2) ss → agree_from mm mm' ss →
  merge_all_with (word_of ss) mm drop = merge_all_with (word_of ss) mm' drop.
Proof.
  intros Hpos Ha. unfold merge_all_with. rewrite <- (initial_queue_agree mm mm').
  2:{ rewrite word_syms_of. apply Ha. done. }
  destruct (initial_queue_spec mm 0 (word_of ss) [] heap_nil) as (q & E & Hq & P).
  rewrite app_nil_r, word_syms_of in P. change (Z.of_nat 0) with 0 in E. rewrite E. pose proof (rep_start ss Hpos) as R.
  rewrite (merge_loop_agree mm mm' drop _ _ (placed_from 0 ss) ss); [done|done|done| |done|].
  - cbn. rewrite app_nil_r, Forall_forall. intros e He. rewrite P in He.
    assert (Hall : ∀ v e, e ∈ all_entries mm v → ∃ x, x ∈ v ∧ wm_pos e = Z.of_nat x.1).
    { clear. induction v as [|x [|y v] IH]; intros e; [by intros ?%elem_of_nil..|]. cbn [all_entries]. rewrite elem_of_app.
      intros [H%pair_entry_pos|H]; [exists x; split; [by left|done]|]. apply IH in H as (z & Hz & ?). exists z. split; [by right|done]. }
    apply Hall in He as (x & Hx & Ex). by eapply rep_in_word.
  - assert ((placed_from 0 ss).*2 = ss) as ->; [apply placed_snd|done].
Qed.

(** * Tokenize of the BPE model *)

Lemma symbols_loop_agree m m' u rs i last unk w :
  same_settings m m' → (∀ k r, rs !! k = Some r →
    get_id (b_vocab m) (symbol_term m (i + Z.of_nat k) last r) = get_id (b_vocab m') (symbol_term m (i + Z.of_nat k) last r)) →
  symbols_loop m u rs i last unk w = symbols_loop m' u rs i last unk w.
Proof.
  intros (Hd & Hu & Hp & Hs & Hf). assert (Hst : ∀ i last r, symbol_term m' i last r = symbol_term m i last r).
  { intros. unfold symbol_term, has_prefix_opt, has_suffix_opt. by rewrite Hp, Hs. }
  assert (Hhu : has_unk m' = has_unk m) by (unfold has_unk; by rewrite Hu).
  revert i unk w. induction rs as [|r rs IH]; intros i unk w H; [done|]. cbn [symbols_loop].
  rewrite Hst, Hhu, <- Hf. pose proof (H 0%nat r eq_refl) as H0. rewrite Z.add_0_r in H0. rewrite <- H0.
  assert (HIH : ∀ unk w, symbols_loop m u rs (i + 1) last unk w = symbols_loop m' u rs (i + 1) last unk w).
  { intros. apply IH. intros k x Hk. replace (i + 1 + Z.of_nat k) with (i + Z.of_nat (S k)) by lia. by apply (H (S k)). }
  destruct (get_id _ _); [apply HIH|]. destruct (has_unk m); [|apply HIH]. destruct unk as [[x n]|]; [|apply HIH].
  destruct (b_fuse m); apply HIH.
Qed.

Lemma word_to_tokens_agree m m' w o : Forall (λ x, get_string (b_vocab m) x.1 = get_string (b_vocab m') x.1) (word_syms w) →
  word_to_tokens m w o = word_to_tokens m' w o.
Proof.
  revert o. induction w as [|s w IH]; intros o H; [done|]. cbn [word_to_tokens]. apply Forall_cons in H as [H1 H2]. cbn [fst] in H1.
  rewrite H1. destruct (get_string (b_vocab m') (ws_id s)); [|done]. by rewrite IH.
Qed.

Lemma symbol_terms m rs k r : rs !! k = Some r → symbol_term m (Z.of_nat k) (zlen rs - 1) r ∈ char_terms (b_prefix m) (b_suffix m) rs.
Proof.
  intros Hk.
  apply elem_of_list_lookup. exists k. unfold char_terms. rewrite list_lookup_imap, Hk. cbn. f_equal.
  apply lookup_lt_Some in Hk. unfold symbol_term.
  destruct (decide (k = 0%nat)) as [->|Hk0].
  - change (Z.of_nat 0) with 0. rewrite Z.eqb_refl. cbn [andb]. destruct (decide (1%nat = length rs)) as [Hl|Hl].
    + assert ((0 =? zlen rs - 1) = true) as -> by (unfold zlen; lia). cbn [andb].
      destruct (has_prefix_opt m) eqn:Hp, (has_suffix_opt m) eqn:Hs; try apply has_opt_nil in Hp; try apply has_opt_nil in Hs;
        rewrite ?Hp, ?Hs, ?app_nil_r, <- ?app_assoc; done.
    + assert ((0 =? zlen rs - 1) = false) as -> by (unfold zlen; lia). cbn [andb]. rewrite app_nil_r.
      destruct (has_prefix_opt m) eqn:Hp; [done|]. apply has_opt_nil in Hp. by rewrite Hp.
  - assert ((Z.of_nat k =? 0) = false) as -> by lia. cbn [andb app].
    destruct (decide (S k = length rs)) as [Hl|Hl].
    + assert ((Z.of_nat k =? zlen rs - 1) = true) as -> by (unfold zlen; lia). cbn [andb].
      destruct (has_suffix_opt m) eqn:Hs; [done|]. apply has_opt_nil in Hs. by rewrite Hs, app_nil_r.
    + assert ((Z.of_nat k =? zlen rs - 1) = false) as -> by (unfold zlen; lia). cbn [andb]. by rewrite app_nil_r.
Qed.
Lemma add_syms_nil ss : add_syms [] ss = word_of ss.
Proof. done. Qed.

Lemma bpe_agree m m' s draws :
  same_settings m m' →
  (b_unk m ≠ [] → get_id (b_vocab m) (b_unk m) = get_id (b_vocab m') (b_unk m)) →
  Forall (λ t, get_id (b_vocab m) t = get_id (b_vocab m') t) (char_terms (b_prefix m) (b_suffix m) (runes s)) →
  (∀ ss ss', group_syms (b_fuse m) (unk_id m) (char_classes m (runes s)) ss → rtc (merge_step (b_merges m)) ss ss' →
     agree_on (b_merges m) (b_merges m') ss' ∧ Forall (λ x, get_string (b_vocab m) x.1 = get_string (b_vocab m') x.1) ss') →
  bpe_tokenize m s draws = bpe_tokenize m' s draws.
Proof.
  intros Hset Hunk Hterms Hreach. unfold bpe_tokenize. destruct (zlen s =? 0); [done|].
  assert (Hhu : has_unk m' = has_unk m) by (unfold has_unk; by destruct Hset as (_ & -> & _)).
  assert (Hgo : ∀ u, (if has_unk m then Some u else None) = unk_id m →
    let w := symbols_loop m u (runes s) 0 (zlen (runes s) - 1) None [] in
    symbols_loop m' u (runes s) 0 (zlen (runes s) - 1) None [] = w ∧
    merge_all w (b_merges m') (b_dropout m') draws = merge_all w (b_merges m) (b_dropout m) draws ∧
    ∀ w', merge_all w (b_merges m) (b_dropout m) draws = Some (Ret w') → word_to_tokens m w' 0 = word_to_tokens m' w' 0).
  { intros u Hu w. destruct (symbols_loop_spec m u (runes s) 0 (zlen (runes s) - 1) None []) as (ss & E & G); [done|].
    rewrite classes_spec, Hu in G. fold w in E. rewrite add_syms_nil in E.
    assert (Hpos : Forall (λ s, 0 < s.2) ss) by (eapply group_pos; [apply classes_pos|exact G]).
    split; [|split].
    - symmetry. apply symbols_loop_agree; [done|]. intros k r Hk. rewrite Z.add_0_l.
      rewrite Forall_forall in Hterms. by apply Hterms, symbol_terms.
    - unfold merge_all. destruct Hset as (<- & _). rewrite E. symmetry. apply merge_all_agree; [done|].
      intros ss' Hs'. by apply (Hreach ss ss').
    - intros w' Hw'. unfold merge_all in Hw'. rewrite E in Hw'.
      destruct (merge_all_steps (b_merges m) (dropped_at (b_dropout m) draws) ss Hpos) as (w0 & E0 & H0).
      rewrite E0 in Hw'. injection Hw' as ->. apply word_to_tokens_agree. by apply (Hreach ss). }
  unfold merge_word. rewrite Hhu. destruct (has_unk m) eqn:Hh.
  - assert (Hne : b_unk m ≠ []). { intros E'. unfold has_unk in Hh. by rewrite E' in Hh. }
    specialize (Hunk Hne). replace (b_unk m') with (b_unk m) by apply Hset. rewrite <- Hunk.
    destruct (get_id (b_vocab m) (b_unk m)) as [u|] eqn:Hu; [|done].
    destruct (Hgo u) as (-> & -> & H3). { rewrite unk_id_eq. by rewrite Hh, Hu. }
    destruct (merge_all _ _ _ _) as [[w'|]|]; [|done|done]. by rewrite H3.
  - destruct (Hgo 0) as (-> & -> & H3). { rewrite unk_id_eq. by rewrite Hh. }
    destruct (merge_all _ _ _ _) as [[w'|]|]; [|done|done]. by rewrite H3.
Qed.

(** * Larger vocabularies and longer merge files *)

Lemma file_merges file ls v k m : file_lines file ls → merge_map_from_file file v k = Ret (Ok m) →
  ∃ ms, Forall2 (merge_line v k) (merge_lines ls) ms ∧ ∀ p x, m !! p = Some x ↔ last_merge ms p x.
Proof.
  intros Hls H. apply from_file_ok in H as [_ H]. rewrite (all_lines_of _ _ Hls) in H.
  apply (merges_loop_ok v k ls 1 ∅ [] m) in H; [done|]. intros p x. unfold merge_map. rewrite lookup_empty. split; [done|].
  intros (_ & Hx & _). by rewrite lookup_nil in Hx.
Qed.

Lemma merge_line_extends v v' k l x x' : extends v v' → merge_line v k l x → merge_line v' k l x' → x' = x.
Proof.
  intros He (t0 & cut & t1 & H2 & Hk & Ha & Hb & Hc) (u0 & cut' & u1 & H2' & Hk' & Ha' & Hb' & Hc').
  destruct (two_terms_inj _ _ _ _ _ H2 H2') as [<- E]. apply app_inj_1 in E as [<- <-]; [|unfold zlen in *; lia].
  apply He in Ha, Hb, Hc. destruct x as [[a b] c], x' as [[a' b'] c']. cbn in *. congruence.
Qed.

Lemma get_string_extends v v' i t : consistent v → consistent v' → extends v v' → get_string v i = Some t → get_string v' i = Some t.
Proof. intros Hc Hc' He H. apply Hc'. apply He. by apply Hc. Qed.

Lemma files_agree f f' ls ls' v v' k mm mm' : consistent v → consistent v' → extends v v' →
  file_lines f ls → merge_map_from_file f v k = Ret (Ok mm) →
  file_lines f' (ls ++ ls') → Forall (foreign_line v) (merge_lines ls') → merge_map_from_file f' v' k = Ret (Ok mm') →
  ∀ a b, is_Some (get_string v a) → is_Some (get_string v b) → mm !! (a, b) = mm' !! (a, b).
Proof.
  intros Hc Hc' He Hf Hm Hf' Hfor Hm' a b Ha Hb.
  destruct (file_merges _ _ _ _ _ Hf Hm) as (ms & HF & Hmm). destruct (file_merges _ _ _ _ _ Hf' Hm') as (ms' & HF' & Hmm').
  unfold merge_lines in HF'. rewrite list.filter_app in HF'. apply Forall2_app_inv_l in HF' as (ms1 & ms2 & HF1 & HF2 & ->).
  assert (ms1 = ms) as ->.
  { clear -HF HF1 He. revert ms1 HF1. unfold merge_lines in HF. induction HF as [|l x ls0 ms Hx HF IH]; intros ms1 HF1.
    - by inversion HF1.
    - inversion HF1 as [|? x' ? ms1' Hx' HF1']; subst. f_equal; [by eapply merge_line_extends|by apply IH]. }
  assert (Hno : ∀ j c, ms2 !! j ≠ Some (a, b, c)).
  { intros j c Hj. destruct (Forall2_lookup_r _ _ _ _ _ HF2 Hj) as (l & Hl & (u0 & cut & u1 & H2 & Hk & Hu0 & Hu1 & Hcc)).
    assert (Hl' : foreign_line v l). { rewrite Forall_forall in Hfor. apply Hfor. unfold merge_lines. by eapply elem_of_list_lookup_2. }
    destruct Hl' as (t0 & t1 & H2' & Hor). destruct (two_terms_inj _ _ _ _ _ H2 H2') as [<- <-]. cbn in Hu0, Hu1.
    destruct Ha as [ta Hta], Hb as [tb Htb]. pose proof (get_string_extends _ _ _ _ Hc Hc' He Hta) as Hta'.
    pose proof (get_string_extends _ _ _ _ Hc Hc' He Htb) as Htb'. apply Hc' in Hu0, Hu1. apply Hc in Hta, Htb.
    destruct Hor as [Hn|Hn]; congruence. }
  apply option_eq. intros x. rewrite Hmm, Hmm'. unfold last_merge. split.
  - intros (H1 & H2 & H3). split; [done|]. split; [by apply lookup_app_l_Some|]. intros j q c Hj Hq ->.
    destruct (decide (j < length ms)%nat) as [Hl|Hl].
    + rewrite lookup_app_l in Hq by done. by apply (H3 j _ c Hj Hq).
    + rewrite lookup_app_r in Hq by lia. by apply Hno in Hq.
  - intros (H1 & H2 & H3). split; [done|].
    destruct (decide (Z.to_nat (mv_rank x) < length ms)%nat) as [Hl|Hl].
    2:{ rewrite lookup_app_r in H2 by lia. by apply Hno in H2. }
    rewrite lookup_app_l in H2 by done. split; [done|]. intros j q c Hj Hq. apply (H3 j q c Hj). by apply lookup_app_l_Some.
Qed.

(** All symbols of a text come from the vocabulary. *)
Lemma syms_known m s ss : consistent (b_vocab m) → group_syms (b_fuse m) (unk_id m) (char_classes m (runes s)) ss →
  Forall (λ x, is_Some (get_string (b_vocab m) x.1)) ss.
Proof.
  intros Hc G.
  assert (Hcl : Forall (λ c, ∀ i, c.1 = Some i → is_Some (get_string (b_vocab m) i)) (char_classes m (runes s))).
  { apply Forall_lookup. intros k [o n] Hk. unfold char_classes in Hk. rewrite lookup_zip_with in Hk.
    destruct (char_terms (b_prefix m) (b_suffix m) (runes s) !! k) as [t|]; [|done]. cbn in Hk. destruct (runes s !! k) as [r|]; [|done].
    cbn in Hk. injection Hk as <- <-. cbn. intros i Hi. apply Hc in Hi. eauto. }
  assert (Hu : ∀ u, unk_id m = Some u → is_Some (get_string (b_vocab m) u)).
  { intros u Hu. unfold unk_id in Hu. destruct (decide _); [done|]. apply Hc in Hu. eauto. }
  induction G as [|i n cs ss G IH|n cs ss Hou G IH|u n cs ss Hou _ G IH|u ns cs ss Hou _ Hne _ G IH].
  - done.
  - apply Forall_cons in Hcl as [H1 H2]. constructor; [by apply H1|by apply IH].
  - apply Forall_cons in Hcl as [H1 H2]. by apply IH.
  - apply Forall_cons in Hcl as [H1 H2]. constructor; [by apply Hu|by apply IH].
  - apply Forall_app in Hcl as [H1 H2]. constructor; [by apply Hu|by apply IH].
Qed.
Lemma steps_known m f k ss ss' : consistent (b_vocab m) → merge_map_from_file f (b_vocab m) k = Ret (Ok (b_merges m)) →
  rtc (merge_step (b_merges m)) ss ss' → Forall (λ x, is_Some (get_string (b_vocab m) x.1)) ss →
  Forall (λ x, is_Some (get_string (b_vocab m) x.1)) ss'.
Proof.
  intros Hc Hf Hr. induction Hr as [|ss s1 ss' Hs _ IH]; intros H; [done|]. apply IH. clear IH.
  destruct Hs as [l a la b lb r x Hx]. apply Forall_app in H as [H1 H]. apply Forall_cons in H as [_ H]. apply Forall_cons in H as [_ H].
  apply Forall_app. split; [done|]. constructor; [|done]. cbn.
  destruct (file_merges _ _ _ _ _ (lines_exist f) Hf) as (ms & HF & Hmm). apply Hmm in Hx as (_ & Hx & _).
  destruct (Forall2_lookup_r _ _ _ _ _ HF Hx) as (line & _ & (u0 & cut & u1 & _ & _ & _ & _ & Hid)). cbn in Hid. apply Hc in Hid. eauto.
Qed.

Lemma bpe_extend m m' s draws f f' ls ls' k :
  same_settings m m' → consistent (b_vocab m) → consistent (b_vocab m') → extends (b_vocab m) (b_vocab m') →
  file_lines f ls → merge_map_from_file f (b_vocab m) k = Ret (Ok (b_merges m)) →
  file_lines f' (ls ++ ls') → Forall (foreign_line (b_vocab m)) (merge_lines ls') → merge_map_from_file f' (b_vocab m') k = Ret (Ok (b_merges m')) →
  (b_unk m ≠ [] → is_Some (get_id (b_vocab m) (b_unk m))) →
  Forall (λ t, get_id (b_vocab m') t ≠ None → get_id (b_vocab m) t ≠ None) (char_terms (b_prefix m) (b_suffix m) (runes s)) →
  bpe_tokenize m s draws = bpe_tokenize m' s draws.
Proof.
  intros Hset Hc Hc' He Hf Hm Hf' Hfor Hm' Hu Hterms. apply bpe_agree; [done| | |].
  - intros Hne. destruct (Hu Hne) as [u Hu']. rewrite Hu'. symmetry. by apply He.
  - eapply Forall_impl; [exact Hterms|]. intros t Ht. cbn in Ht. destruct (get_id (b_vocab m) t) as [i|] eqn:E.
    + symmetry. by apply He.
    + destruct (get_id (b_vocab m') t); [|done]. by destruct Ht.
  - intros ss ss' G Hr. pose proof (steps_known m f k ss ss' Hc Hm Hr (syms_known m s ss Hc G)) as Hk. split.
    + intros j x y Hx Hy. rewrite Forall_lookup in Hk.
      exact (files_agree f f' ls ls' _ _ k _ _ Hc Hc' He Hf Hm Hf' Hfor Hm' x.1 y.1 (Hk _ _ Hx) (Hk _ _ Hy)).
    + eapply Forall_impl; [exact Hk|]. intros x [t Ht]. cbv beta in *. rewrite Ht. symmetry.
      exact (get_string_extends _ _ _ _ Hc Hc' He Ht).
Qed.

(** * WordPiece *)

Lemma wp_inner_agree m m' seq fuel start en : w_prefix m = w_prefix m' →
  (∀ t, wp_term (w_prefix m) seq t → get_id (w_vocab m) t = get_id (w_vocab m') t) →
  wp_inner fuel m seq start en = wp_inner fuel m' seq start en.
Proof.
  intros Hp Ht. revert en. induction fuel as [|fuel IH]; intros en; cbn [wp_inner]; destruct (Z.ltb_spec start en) as [Hlt|]; try done.
  destruct (sub seq start en) as [x|] eqn:Ex; [|done]. cbv zeta. rewrite <- Hp.
  assert (Hx : wp_term (w_prefix m) seq (if 0 <? start then w_prefix m ++ x else x)).
  { pose proof (sub_bounds _ _ _ _ Ex). apply sub_Ret in Ex as (a & b & -> & Ha & Hb). exists a, x, b. split; [done|]. split.
    - intros ->. rewrite zlen_nil in Hb. lia.
    - destruct (decide (a = [])) as [->|Hn].
      + rewrite zlen_nil in Ha. subst start. done.
      + destruct a as [|z a]; [done|]. rewrite zlen_cons in Ha. pose proof (zlen_nonneg a). by destruct (Z.ltb_spec 0 start); [|lia]. }
  rewrite <- (Ht _ Hx). generalize (if 0 <? start then w_prefix m ++ x else x). intros y.
  destruct (get_id _ _); [done|]. destruct (0 <? zlen y); [|apply IH].
  destruct (idx _ _); [apply IH|done].
Qed.
Lemma wp_agree m m' s : w_prefix m = w_prefix m' → w_unk m = w_unk m' → w_max m = w_max m' →
  get_id (w_vocab m) (w_unk m) = get_id (w_vocab m') (w_unk m) →
  (∀ t, wp_term (w_prefix m) s t → get_id (w_vocab m) t = get_id (w_vocab m') t) →
  wp_tokenize m s = wp_tokenize m' s.
Proof.
  intros Hp Hu Hm Hid Ht. unfold wp_tokenize. rewrite <- Hm.
  assert (wp_unknown m s = wp_unknown m' s) as -> by (unfold wp_unknown; by rewrite <- Hu, <- Hid).
  assert (Ho : ∀ fuel start, wp_outer fuel m s start = wp_outer fuel m' s start).
  { induction fuel as [|fuel IH]; intros start; cbn [wp_outer]; [done|]. destruct (start <? zlen s); [|done].
    rewrite (wp_inner_agree m m' s _ _ _ Hp Ht). destruct (wp_inner _ m' _ _ _) as [[[t|]|]|]; try done. by rewrite IH. }
  by rewrite Ho.
Qed.
