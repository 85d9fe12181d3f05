(** Facts about the models with nil pointers. *)
From Coq Require Import ZifyBool QArith.
From Verif Require Import GoBase Strutils Vocab MergeMap Heap Bpe WordPiece Nil SpecVocab SpecBpe Utf8Facts JsonFacts BpeTok.
Import GoBase.
#[local] Open Scope Z_scope.

(** ** Pointers that are not nil *)
Section same.
  Context (mm : merge_map) (p : merges_ptr).
  Hypothesis Hp : ∀ a b, mm_get_p p a b = Ret (mm_get mm a b).

  Lemma initial_queue_same syms i q : initial_queue_p p i syms q = initial_queue mm i syms q.
  Proof.
    revert i q. induction syms as [|a syms IH]; intros; [done|]. destruct syms as [|b rest]; [done|].
    cbn [initial_queue_p initial_queue]. rewrite Hp. cbn [mbind outcome_bind].
    destruct (mm_get mm (ws_id a) (ws_id b)) as [m|]; [destruct (heap_push _ _)|]; cbn [mbind outcome_bind]; [apply IH|done|apply IH].
  Qed.

  Lemma push_neighbours_same w pos q : push_neighbours_p p w pos q = push_neighbours mm w pos q.
  Proof.
    unfold push_neighbours_p, push_neighbours. destruct (idx w pos) as [c|]; [|done]. cbn [mbind outcome_bind].
    assert (E : ∀ x y (k : option merge_value → outcome (list word_merge)), (g ← mm_get_p p x y; k g) = k (mm_get mm x y)) by (intros; by rewrite Hp).
    destruct (negb (ws_prev c =? -1)).
    - destruct (idx w (ws_prev c)) as [ps|]; [|done]. cbn [mbind outcome_bind]. rewrite Hp. cbn [mbind outcome_bind].
      destruct (match mm_get mm (ws_id ps) (ws_id c) with Some m => _ | None => Ret q end) as [q1|]; [|done]. cbn [mbind outcome_bind].
      destruct (negb (ws_next c =? -1) && (ws_next c <? zlen w)); [|done]. destruct (idx w (ws_next c)); [|done]. cbn [mbind outcome_bind]. rewrite Hp. done.
    - cbn [mbind outcome_bind]. destruct (negb (ws_next c =? -1) && (ws_next c <? zlen w)); [|done]. destruct (idx w (ws_next c)); [|done]. cbn [mbind outcome_bind]. rewrite Hp. done.
  Qed.

  Lemma merge_iter_same d st : merge_iter_p p d st = merge_iter mm d st.
  Proof.
    unfold merge_iter_p, merge_iter. destruct (heap_pop (m_q st)) as [[top q]|]; [|done]. cbn [mbind outcome_bind]. destruct d; [done|].
    destruct (heap_push_all q (m_skip st)) as [q1|]; [|done]. cbn [mbind outcome_bind]. destruct (idx (m_w st) (wm_pos top)) as [cur|]; [|done]. cbn [mbind outcome_bind].
    destruct ((ws_len cur =? 0) || negb (negb (ws_next cur =? -1))); [done|]. destruct (idx (m_w st) (ws_next cur)) as [right|]; [|done]. cbn [mbind outcome_bind].
    rewrite Hp. cbn [mbind outcome_bind]. destruct (mm_get mm (ws_id cur) (ws_id right)) as [m|]; [|done]. destruct (negb (mv_id m =? wm_id top)); [done|].
    destruct (do_merge _ _ _ _ _) as [w'|]; [|done]. cbn [mbind outcome_bind]. by rewrite push_neighbours_same.
  Qed.

  Lemma merge_loop_same fuel drop st : merge_loop_p fuel p drop st = merge_loop fuel mm drop st.
  Proof.
    revert st. induction fuel as [|n IH]; intros; cbn [merge_loop_p merge_loop]; [done|]. destruct (m_q st); [done|]. rewrite merge_iter_same.
    destruct (merge_iter mm _ st); [apply IH|done].
  Qed.

  Lemma merge_all_same w d draws : merge_all_p w p d draws = merge_all w mm d draws.
  Proof.
    unfold merge_all_p, merge_all, merge_all_with. rewrite initial_queue_same. destruct (initial_queue mm 0 w []); [|done]. by rewrite merge_loop_same.
  Qed.
End same.

Lemma symbols_loop_same m p v unkID rs i last unk w : b_vocab m = v →
  symbols_loop_p (BpeP (Some v) p m) unkID rs i last unk w = Ret (symbols_loop m unkID rs i last unk w).
Proof.
  intros <-. revert i unk w. induction rs as [|r rs IH]; intros; [done|]. cbn [symbols_loop_p symbols_loop get_id_p p_vocab p_opts mbind outcome_bind].
  destruct (get_id (b_vocab m) _); [apply IH|]. destruct (has_unk m); [|apply IH]. destruct unk as [[u l]|]; [|apply IH]. destruct (b_fuse m); apply IH.
Qed.

Lemma word_to_tokens_same m p v w o : b_vocab m = v → word_to_tokens_p (BpeP (Some v) p m) w o = Ret (word_to_tokens m w o).
Proof.
  intros <-. revert o. induction w as [|s w IH]; intros; [done|]. cbn [word_to_tokens_p word_to_tokens get_string_p p_vocab mbind outcome_bind].
  destruct (get_string (b_vocab m) (ws_id s)); [|done]. rewrite IH. done.
Qed.

(** The whole model: with a map that reads as [mm]. *)
Lemma bpe_same m p s draws : (∀ a b, mm_get_p p a b = Ret (mm_get (b_merges m) a b)) →
  bpe_tokenize_p (BpeP (Some (b_vocab m)) p m) s draws = bpe_tokenize m s draws.
Proof.
  intros Hp. unfold bpe_tokenize_p, bpe_tokenize. destruct (zlen s =? 0); [done|].
  assert (E : merge_word_p (BpeP (Some (b_vocab m)) p m) s draws = merge_word m s draws).
  { unfold merge_word_p, merge_word. cbn [p_opts p_vocab p_merges get_id_p]. destruct (has_unk m).
    - destruct (get_id (b_vocab m) (b_unk m)); [|done]. rewrite symbols_loop_same by done. by rewrite (merge_all_same _ _ Hp).
    - rewrite symbols_loop_same by done. by rewrite (merge_all_same _ _ Hp). }
  rewrite E. destruct (merge_word m s draws) as [[[w|e]|]|]; [|done..]. by rewrite word_to_tokens_same.
Qed.

Lemma wp_inner_same m fuel seq a b : wp_inner_p fuel (WordPieceP (Some (w_vocab m)) m) seq a b = wp_inner fuel m seq a b.
Proof.
  revert b. induction fuel as [|n IH]; intros; cbn [wp_inner_p wp_inner q_opts q_vocab get_id_p]; [done|]. destruct (a <? b); [|done]. destruct (sub seq a b); [|done].
  cbv zeta. destruct (get_id _ _); [done|]. destruct (0 <? _); [|apply IH]. destruct (idx _ _); [apply IH|done].
Qed.
Lemma wp_outer_same m fuel seq a : wp_outer_p fuel (WordPieceP (Some (w_vocab m)) m) seq a = wp_outer fuel m seq a.
Proof.
  revert a. induction fuel as [|n IH]; intros; cbn [wp_outer_p wp_outer]; [done|]. destruct (a <? zlen seq); [|done]. rewrite wp_inner_same.
  destruct (wp_inner _ _ _ _ _) as [[[t|]|]|]; [|done..]. by rewrite IH.
Qed.
Lemma wordpiece_same m s : wp_tokenize_p (WordPieceP (Some (w_vocab m)) m) s = wp_tokenize m s.
Proof.
  unfold wp_tokenize_p, wp_tokenize. rewrite wp_outer_same. cbn [q_opts].
  assert (E : wp_unknown_p (WordPieceP (Some (w_vocab m)) m) s = Ret (wp_unknown m s)) by done. rewrite E. done.
Qed.

(** ** Nil vocabularies *)
Lemma bpe_nil_vocab p m s draws : bpe_tokenize_p (BpeP None p m) s draws = match s with [] => Some (Ret (Ok [])) | _ :: _ => Some Panic end.
Proof.
  unfold bpe_tokenize_p. destruct s as [|b s]; [done|]. replace (zlen (b :: s) =? 0) with false by (rewrite zlen_cons; pose proof (zlen_nonneg s); lia).
  unfold merge_word_p. cbn [p_opts p_vocab get_id_p]. destruct (has_unk m); [done|]. destruct (runes (b :: s)) as [|r rs] eqn:E; [by apply runes_nil_inv in E|]. done.
Qed.

Lemma wordpiece_nil_vocab m s : wp_tokenize_p (WordPieceP None m) s = if (zlen s =? 0) && (0 <=? w_max m) then Some (Ret (Ok [])) else Some Panic.
Proof.
  unfold wp_tokenize_p. cbn [q_opts q_vocab]. unfold wp_unknown_p. cbn [q_vocab get_id_p mbind outcome_bind]. destruct s as [|b s].
  - change (zlen (runes [])) with 0. change (zlen (@nil Z) =? 0) with true. cbn [andb]. destruct (w_max m <? 0) eqn:E; destruct (0 <=? w_max m) eqn:E'; [lia|done|done|lia].
  - assert (0 < zlen (b :: s)) by (rewrite zlen_cons; pose proof (zlen_nonneg s); lia). replace (zlen (b :: s) =? 0) with false by lia. cbn [andb].
    destruct (w_max m <? zlen (runes (b :: s))); [done|]. cbn [wp_outer_p]. replace (0 <? zlen (b :: s)) with true by lia.
    cbn [wp_inner_p]. replace (0 <? zlen (b :: s)) with true by lia. destruct (sub (b :: s) 0 (zlen (b :: s))); done.
Qed.

Lemma merges_loop_nil n ls c r mm :
  merges_loop_p None n ls c r mm = match merges_loop new_vocab n ls c r mm with Ret (Err (ELeftOOV _)) => Panic | x => x end.
Proof.
  revert c r mm. induction ls as [|l ls IH]; intros; [done|]. cbn [merges_loop_p merges_loop get_id_p]. destruct (has_prefix l version_prefix); [apply IH|].
  destruct (split_spaces l) as [|t0 [|t1 [|]]]; try done.
Qed.
Lemma merges_file_nil file n :
  merge_map_from_file_p file None n = match merge_map_from_file file new_vocab n with Ret (Err (ELeftOOV _)) => Panic | x => x end.
Proof.
  unfold merge_map_from_file_p, merge_map_from_file. destruct (scan_lines file) as [ls long]. rewrite merges_loop_nil.
  destruct (merges_loop new_vocab n ls 1 0 ∅) as [[mm|e]|]; [by destruct long|by destruct e|done].
Qed.
Lemma merges_file_same file v n : merge_map_from_file_p file (Some v) n = merge_map_from_file file v n.
Proof.
  unfold merge_map_from_file_p, merge_map_from_file. destruct (scan_lines file) as [ls long].
  assert (E : ∀ c r mm, merges_loop_p (Some v) n ls c r mm = merges_loop v n ls c r mm); [|by rewrite E].
  induction ls as [|l ls IH]; intros; [done|]. cbn [merges_loop_p merges_loop get_id_p mbind outcome_bind]. destruct (has_prefix l version_prefix); [apply IH|].
  destruct (split_spaces l) as [|t0 [|t1 [|]]]; try done. destruct (get_id v t0); [|done]. cbn [mbind outcome_bind]. destruct (get_id v t1); [|done]. cbn [mbind outcome_bind].
  destruct (sub t1 n (zlen t1)); [|done]. cbn [mbind outcome_bind]. destruct (get_id v _); [apply IH|done].
Qed.

(** ** Nil merges *)
(** Without merges nothing is queued. *)
Lemma mm_get_empty a b : mm_get ∅ a b = None.
Proof. apply (lookup_empty (M := gmap (Z * Z))). Qed.
Lemma initial_queue_empty i w q : initial_queue ∅ i w q = Ret q.
Proof.
  revert i. induction w as [|a w IH]; intros; [done|]. destruct w as [|b w]; [done|]. cbn [initial_queue]. rewrite mm_get_empty. apply IH.
Qed.
Lemma merge_all_empty w d draws : merge_all w ∅ d draws = Some (Ret (remove_empty w)).
Proof. unfold merge_all, merge_all_with. rewrite initial_queue_empty. by destruct (merge_fuel w). Qed.
Lemma merge_all_nil w d draws : merge_all_p w NilPointer d draws = match w with _ :: _ :: _ => Some Panic | _ => Some (Ret (remove_empty w)) end.
Proof. destruct w as [|a [|b w]]; [..|done]; unfold merge_all_p; cbn [initial_queue_p]; by destruct (merge_fuel _). Qed.

(** What the symbols of a word are. *)
Definition good_sym (v : vocab) (s : wsym) : Prop := 0 < ws_len s ∧ ∃ t, get_id v t = Some (ws_id s).
Lemma word_add_good v w i n : Forall (good_sym v) w → 0 < n → (∃ t, get_id v t = Some i) → Forall (good_sym v) (word_add w i n).
Proof.
  intros Hw Hn Hi. unfold word_add. apply Forall_app. split; [|by repeat constructor].
  destruct (zlen w - 1 =? -1); [done|]. apply Forall_alter; [done|]. intros x ? ?. done.
Qed.
Lemma symbols_good m unkID rs i last unk w : (has_unk m = true → get_id (b_vocab m) (b_unk m) = Some unkID) →
  Forall (good_sym (b_vocab m)) w → (∀ u n, unk = Some (u, n) → 0 < n ∧ ∃ t, get_id (b_vocab m) t = Some u) →
  Forall (good_sym (b_vocab m)) (symbols_loop m unkID rs i last unk w).
Proof.
  intros Hu. revert i unk w. induction rs as [|r rs IH]; intros i unk w Hw Hk; cbn [symbols_loop].
  - destruct unk as [[u n]|]; [|done]. destruct (Hk u n eq_refl). by apply word_add_good.
  - pose proof (rune_len_bounds r). destruct (get_id (b_vocab m) (symbol_term m i last r)) as [id|] eqn:E.
    + apply IH; [|done]. apply word_add_good; [|lia|eauto]. destruct unk as [[u n]|]; [|done]. destruct (Hk u n eq_refl). by apply word_add_good.
    + destruct (has_unk m) eqn:Hh; [|by apply IH]. specialize (Hu eq_refl). destruct unk as [[u n]|].
      * destruct (Hk u n eq_refl). destruct (b_fuse m).
        -- apply IH; [done|]. intros ? ? [= <- <-]. split; [lia|done].
        -- apply IH; [by apply word_add_good|]. intros ? ? [= <- <-]. split; [lia|eauto].
      * apply IH; [done|]. intros ? ? [= <- <-]. split; [lia|eauto].
Qed.
Lemma good_kept v w : Forall (good_sym v) w → remove_empty w = w.
Proof.
  unfold remove_empty. induction 1 as [|x w [? _] _ IH]; [done|]. rewrite filter_cons_True, IH; [done|]. destruct (ws_len x =? 0) eqn:E; [lia|done].
Qed.
Lemma good_tokens m w o : consistent (b_vocab m) → Forall (good_sym (b_vocab m)) w → ∃ l, word_to_tokens m w o = Ok l ∧ length l = length w.
Proof.
  intros Hc Hw. revert o. induction Hw as [|s w [_ [t Ht]] _ IH]; intros; [by exists []|]. cbn [word_to_tokens].
  assert (get_string (b_vocab m) (ws_id s) = Some t) as -> by (by apply Hc). destruct (IH (o + ws_len s)) as (l & -> & El). eexists. split; [done|]. cbn. by rewrite El.
Qed.

Lemma bpe_nil_merges v m s draws : consistent v → b_vocab m = v → b_merges m = ∅ →
  bpe_tokenize_p (BpeP (Some v) NilPointer m) s draws = match bpe_tokenize m s draws with Some (Ret (Ok (_ :: _ :: _))) => Some Panic | r => r end.
Proof.
  intros Hc <- Hm. unfold bpe_tokenize_p, bpe_tokenize. destruct (zlen s =? 0); [done|].
  assert (K : ∀ unkID, (has_unk m = true → get_id (b_vocab m) (b_unk m) = Some unkID) → let w := symbols_loop m unkID (runes s) 0 (zlen (runes s) - 1) None [] in
    match (match merge_all_p w NilPointer (b_dropout m) draws with Some (Ret w) => Some (Ret (Ok w)) | Some Panic => Some Panic | None => None end : option (outcome (result word))) with
    | None => None | Some Panic => Some Panic | Some (Ret (Err e)) => Some (Ret (Err e)) | Some (Ret (Ok w)) => Some (word_to_tokens_p (BpeP (Some (b_vocab m)) NilPointer m) w 0) end
    = match Some (Ret (word_to_tokens m w 0)) with Some (Ret (Ok (_ :: _ :: _))) => Some Panic | r => r end).
  { intros unkID Hu w. assert (Hw : Forall (good_sym (b_vocab m)) w) by (by apply symbols_good). destruct (good_tokens m w 0 Hc Hw) as (l & El & Hl).
    rewrite merge_all_nil. pose proof (good_kept _ _ Hw) as Hk. rewrite El. destruct w as [|a [|b w']] eqn:Ew.
    - rewrite Hk, word_to_tokens_same by done. rewrite El. destruct l as [|? [|]]; done.
    - rewrite Hk, word_to_tokens_same by done. rewrite El. destruct l as [|? [|]]; done.
    - destruct l as [|? [|]]; done. }
  unfold merge_word_p, merge_word. cbn [p_opts p_vocab p_merges get_id_p]. destruct (has_unk m) eqn:Hh.
  - destruct (get_id (b_vocab m) (b_unk m)) as [u|] eqn:Eu; [|done]. rewrite symbols_loop_same, Hm, merge_all_empty by done.
    rewrite (K u) by done. rewrite good_kept with (v := b_vocab m); [done|]. by apply symbols_good.
  - rewrite symbols_loop_same, Hm, merge_all_empty by done. rewrite (K 0) by done. rewrite good_kept with (v := b_vocab m); [done|]. apply symbols_good; [by rewrite Hh|done|done].
Qed.

(** For any vocabulary: as many symbols as there are. *)
Lemma add_syms_length w ss : length (add_syms w ss) = (length w + length ss)%nat.
Proof.
  revert w. induction ss as [|s ss IH]; intros; cbn [add_syms foldl length]; [lia|]. fold (add_syms (word_add w s.1 s.2) ss). rewrite IH.
  unfold word_add. cbv zeta. rewrite app_length. destruct (negb (zlen w - 1 =? -1)); [rewrite alter_length|]; cbn [length]; lia.
Qed.
Lemma bpe_nil_symbols m s draws : b_merges m = ∅ → (has_unk m = true → is_Some (get_id (b_vocab m) (b_unk m))) →
  ∃ ss, group_syms (b_fuse m) (unk_id m) (char_classes m (runes s)) ss
    ∧ bpe_tokenize_p (BpeP (Some (b_vocab m)) NilPointer m) s draws = if decide (2 <= length ss)%nat then Some Panic else bpe_tokenize m s draws.
Proof.
  intros Hm Hu. set (u := default 0 (unk_id m)).
  destruct (symbols_loop_spec m u (runes s) 0 (zlen (runes s) - 1) None []) as (ss & E & G); [done|].
  rewrite classes_spec in G. assert ((if has_unk m then Some u else None) = unk_id m) as EU.
  { unfold u. rewrite unk_id_eq. destruct (has_unk m) eqn:E'; [|done]. by destruct (Hu eq_refl) as [x ->]. }
  rewrite EU in G. exists ss. split; [done|]. pose proof (add_syms_length [] ss) as Hl. rewrite <- E in Hl. cbn [length Nat.add] in Hl.
  unfold bpe_tokenize_p, bpe_tokenize. destruct (Z.eqb_spec (zlen s) 0) as [Hz|_].
  { destruct s; [|rewrite zlen_cons in Hz; pose proof (zlen_nonneg s); lia]. change (runes []) with (@nil Z) in G. inversion G as [| | | |? ns ? ? ? ? Hns ? ? Ha]; [done|].
    destruct ns; done. }
  unfold merge_word_p, merge_word. cbn [p_opts p_vocab p_merges get_id_p].
  assert (K : ∀ u', u' = u → let w := symbols_loop m u' (runes s) 0 (zlen (runes s) - 1) None [] in
    match (match merge_all_p w NilPointer (b_dropout m) draws with Some (Ret w) => Some (Ret (Ok w)) | Some Panic => Some Panic | None => None end : option (outcome (result word))) with
    | None => None | Some Panic => Some Panic | Some (Ret (Err e)) => Some (Ret (Err e)) | Some (Ret (Ok w)) => Some (word_to_tokens_p (BpeP (Some (b_vocab m)) NilPointer m) w 0) end
    = if decide (2 <= length ss)%nat then Some Panic else Some (Ret (word_to_tokens m (remove_empty w) 0))).
  { intros u' -> w. rewrite merge_all_nil. fold w in Hl. rewrite <- Hl. destruct w as [|a [|b w']]; cbn [length].
    - by rewrite word_to_tokens_same.
    - rewrite word_to_tokens_same by done. done.
    - rewrite decide_True by lia. done. }
  destruct (has_unk m) eqn:Hh.
  - destruct (Hu eq_refl) as [x Hx]. rewrite Hx, symbols_loop_same, Hm, merge_all_empty by done. apply K. unfold u. rewrite unk_id_eq. by rewrite Hh, Hx.
  - rewrite symbols_loop_same, Hm, merge_all_empty by done. apply K. unfold u. rewrite unk_id_eq. by rewrite Hh.
Qed.
