(** Proofs for C75: vocabularies that differ only in their IDs. *)
From Coq Require Import ZifyBool QArith.
From Verif Require Import GoBase Strutils Vocab MergeMap Heap Bpe WordPiece Encodings PreTokString PreTokenizers SpecRename NormString.
#[local] Open Scope Z_scope.

Definition rmap {A B} (g : A → B) (o : outcome A) : outcome B := match o with Ret x => Ret (g x) | Panic => Panic end.
Lemma rmap_bind {A B C} (g : B → C) (m : outcome A) k : rmap g (x ← m; k x) = (x ← m; rmap g (k x)).
Proof. by destruct m. Qed.
Lemma bind_rmap {A B C} (g : A → B) (m : outcome A) (k : B → outcome C) : (x ← rmap g m; k x) = (x ← m; k (g x)).
Proof. by destruct m. Qed.

Lemma idx_map {A B} (g : A → B) l i : idx (map g l) i = rmap g (idx l i).
Proof. unfold idx. destruct (0 <=? i); [|done]. rewrite list_lookup_fmap. by destruct (l !! Z.to_nat i). Qed.
Lemma zlen_map {A B} (g : A → B) l : zlen (map g l) = zlen l.
Proof. unfold zlen. by rewrite map_length. Qed.

Section rename.
  Context (f : Z → Z) `{!Inj (=) (=) f}.

  (** ** The queue *)
  Definition wm_as (x : word_merge) : word_merge := WordMerge (wm_rank x) (f (wm_id x)) (wm_pos x).
  #[local] Notation qas := (map wm_as).

  Lemma h_less_as h i j : h_less (qas h) i j = h_less h i j.
  Proof. unfold h_less. rewrite !list_lookup_fmap. by destruct (h !! i), (h !! j). Qed.
  Lemma h_swap_as h i j : h_swap (qas h) i j = rmap qas (h_swap h i j).
  Proof.
    unfold h_swap. rewrite !list_lookup_fmap. destruct (h !! i), (h !! j); cbn; [|done..]. f_equal.
    change (map wm_as) with (fmap (M := list) wm_as). by rewrite !list_fmap_insert.
  Qed.
  Lemma h_up_as fuel h j : h_up fuel (qas h) j = rmap qas (h_up fuel h j).
  Proof.
    revert h j. induction fuel as [|fuel IH]; intros h j; [done|]. cbn [h_up]. destruct (Nat.div2 (j - 1) =? j)%nat; [done|]. rewrite h_less_as.
    destruct (h_less h j (Nat.div2 (j - 1))) as [[|]|]; cbn [mbind outcome_bind negb]; [|done..]. rewrite h_swap_as.
    destruct (h_swap h _ j); cbn [rmap mbind outcome_bind]; [apply IH|done].
  Qed.
  Lemma h_down_as fuel h i n : h_down fuel (qas h) i n = rmap qas (h_down fuel h i n).
  Proof.
    revert h i. induction fuel as [|fuel IH]; intros h i; [done|]. cbn [h_down]. destruct (n <=? 2 * i + 1)%nat; [done|]. rewrite !h_less_as.
    destruct (if (2 * i + 1 + 1 <? n)%nat then h_less h (2 * i + 1 + 1) (2 * i + 1) else Ret false) as [l2|]; cbn [mbind outcome_bind]; [|done].
    set (j := if l2 then _ else _). rewrite h_less_as. destruct (h_less h j i) as [[|]|]; cbn [mbind outcome_bind negb]; [|done..]. rewrite h_swap_as.
    destruct (h_swap h i j); cbn [rmap mbind outcome_bind]; [apply IH|done].
  Qed.
  Lemma heap_push_as h x : heap_push (qas h) (wm_as x) = rmap qas (heap_push h x).
  Proof. unfold heap_push. rewrite map_length, <- h_up_as, map_app. done. Qed.
  Lemma heap_pop_as h : heap_pop (qas h) = rmap (λ x, (wm_as x.1, qas x.2)) (heap_pop h).
  Proof.
    unfold heap_pop. rewrite map_length. destruct (length h) as [|n]; [done|]. rewrite h_swap_as. destruct (h_swap h 0 n) as [h1|]; cbn [rmap mbind outcome_bind]; [|done].
    rewrite h_down_as. destruct (h_down (S n) h1 0 n) as [h2|]; cbn [rmap mbind outcome_bind]; [|done].
    rewrite list_lookup_fmap. destruct (h2 !! n); cbn; [|done]. by rewrite <- fmap_take.
  Qed.
  Lemma heap_push_all_as h xs : heap_push_all (qas h) (qas xs) = rmap qas (heap_push_all h xs).
  Proof.
    revert h. induction xs as [|x xs IH]; intros h; [done|]. cbn [map heap_push_all]. rewrite heap_push_as.
    destruct (heap_push h x); cbn [rmap mbind outcome_bind]; [apply IH|done].
  Qed.

  (** ** Merging *)
  Definition ws_as (s : wsym) : wsym := WSym (f (ws_id s)) (ws_len s) (ws_prev s) (ws_next s).
  #[local] Notation was := (map ws_as).
  Definition ms_as (s : mstate) : mstate := MState (was (m_w s)) (qas (m_q s)) (qas (m_skip s)) (m_draws s).

  Lemma alter_as g g' i w : (∀ s, g' (ws_as s) = ws_as (g s)) → alter g' i (was w) = was (alter g i w).
  Proof.
    intros H. revert i. induction w as [|s w IH]; intros [|i]; [done..| |]; cbn.
    - by rewrite H.
    - f_equal. apply IH.
  Qed.
  Lemma upd_as w i g g' : (∀ s, g' (ws_as s) = ws_as (g s)) → upd (was w) i g' = rmap was (upd w i g).
  Proof. intros H. unfold upd. rewrite idx_map. destruct (idx w i); cbn; [|done]. f_equal. by apply alter_as. Qed.

  Lemma word_add_as w id len : word_add (was w) (f id) len = was (word_add w id len).
  Proof.
    unfold word_add. rewrite zlen_map, map_app. f_equal. destruct (negb _); [|done]. by apply alter_as.
  Qed.

  Section merges.
    Context (mm mm' : merge_map) (Hmm : same_merges f mm mm').

    Lemma mm_get_as a b : mm_get mm' (f a) (f b) = merge_as f <$> mm_get mm a b.
    Proof. apply Hmm. Qed.

    Lemma initial_queue_as i w q : initial_queue mm' i (was w) (qas q) = rmap qas (initial_queue mm i w q).
    Proof.
      revert i q. induction w as [|a [|b w] IH]; intros i q; [done..|]. cbn [map initial_queue] in *. change (ws_id (ws_as a)) with (f (ws_id a)). change (ws_id (ws_as b)) with (f (ws_id b)).
      rewrite mm_get_as. destruct (mm_get mm (ws_id a) (ws_id b)) as [m|]; cbn [fmap option_fmap option_map].
      - change (WordMerge (mv_rank (merge_as f m)) (mv_id (merge_as f m)) i) with (wm_as (WordMerge (mv_rank m) (mv_id m) i)). rewrite heap_push_as.
        destruct (heap_push q _); cbn [rmap mbind outcome_bind]; [apply IH|done].
      - cbn [mbind outcome_bind]. apply IH.
    Qed.

    Lemma push_neighbours_as w pos q : push_neighbours mm' (was w) pos (qas q) = rmap qas (push_neighbours mm w pos q).
    Proof.
      unfold push_neighbours. rewrite idx_map. destruct (idx w pos) as [c|]; cbn [rmap mbind outcome_bind]; [|done]. cbn [ws_as ws_prev ws_next ws_id]. rewrite !zlen_map.
      assert (∀ r1 r2, r1 = rmap qas r2 → (q1 ← r1; if negb (ws_next c =? -1) && (ws_next c <? zlen w) then nextSymbol ← idx (was w) (ws_next c);
        match mm_get mm' (f (ws_id c)) (ws_id nextSymbol) with Some m => heap_push q1 (WordMerge (mv_rank m) (mv_id m) pos) | None => Ret q1 end else Ret q1)
        = rmap qas (q1 ← r2; if negb (ws_next c =? -1) && (ws_next c <? zlen w) then nextSymbol ← idx w (ws_next c);
        match mm_get mm (ws_id c) (ws_id nextSymbol) with Some m => heap_push q1 (WordMerge (mv_rank m) (mv_id m) pos) | None => Ret q1 end else Ret q1)) as Hnext.
      { intros r1 [q1|] ->; cbn [rmap mbind outcome_bind]; [|done]. destruct (negb (ws_next c =? -1) && _); [|done]. rewrite idx_map.
        destruct (idx w (ws_next c)) as [s|]; cbn [rmap mbind outcome_bind]; [|done]. cbn [ws_as ws_id]. rewrite mm_get_as.
        destruct (mm_get mm (ws_id c) (ws_id s)) as [m|]; cbn [fmap option_fmap option_map]; [|done]. by rewrite <- heap_push_as. }
      apply Hnext. destruct (negb (ws_prev c =? -1)); [|done]. rewrite idx_map. destruct (idx w (ws_prev c)) as [s|]; cbn [rmap mbind outcome_bind]; [|done].
      cbn [ws_as ws_id]. rewrite mm_get_as. destruct (mm_get mm (ws_id s) (ws_id c)) as [m|]; cbn [fmap option_fmap option_map]; [|done]. by rewrite <- heap_push_as.
    Qed.

    Lemma do_merge_as w pos nextPos r id : do_merge (was w) pos nextPos (ws_as r) (f id) = rmap was (do_merge w pos nextPos r id).
    Proof.
      unfold do_merge. cbn [ws_as ws_len ws_next].
      rewrite (upd_as w pos (λ s, WSym id (ws_len s + ws_len r) (ws_prev s) (ws_next r))) by done. destruct (upd w pos _) as [w1|]; cbn [rmap mbind outcome_bind]; [|done].
      rewrite (upd_as w1 nextPos (λ s, WSym (ws_id s) 0 (ws_prev s) (ws_next s))) by done. destruct (upd w1 nextPos _) as [w2|]; cbn [rmap mbind outcome_bind]; [|done].
      rewrite zlen_map. destruct (negb (ws_next r =? -1) && _); [|done]. by apply upd_as.
    Qed.

    Lemma merge_iter_as dropped st : merge_iter mm' dropped (ms_as st) = rmap ms_as (merge_iter mm dropped st).
    Proof.
      unfold merge_iter. cbn [ms_as m_q m_w m_skip m_draws]. rewrite heap_pop_as. destruct (heap_pop (m_q st)) as [[top q]|]; cbn [rmap mbind outcome_bind fst snd]; [|done].
      destruct dropped.
      { cbn [rmap]. unfold ms_as at 1. cbn [m_q m_w m_skip m_draws]. by rewrite map_app. }
      rewrite heap_push_all_as. destruct (heap_push_all q (m_skip st)) as [q1|]; cbn [rmap mbind outcome_bind]; [|done]. cbn [wm_as wm_pos wm_id]. rewrite !idx_map.
      destruct (idx (m_w st) (wm_pos top)) as [cur|]; cbn [rmap mbind outcome_bind]; [|done]. cbn [ws_as ws_len ws_next ws_id].
      destruct ((ws_len cur =? 0) || _); [done|]. rewrite idx_map. destruct (idx (m_w st) (ws_next cur)) as [right|]; cbn [rmap mbind outcome_bind]; [|done].
      cbn [ws_as ws_id]. rewrite mm_get_as. destruct (mm_get mm (ws_id cur) (ws_id right)) as [m|]; cbn [fmap option_fmap option_map]; [|done].
      cbn [merge_as mv_id]. assert ((f (mv_id m) =? f (wm_id top)) = (mv_id m =? wm_id top)) as ->.
      { destruct (Z.eqb_spec (mv_id m) (wm_id top)) as [->|Hne]; [by rewrite Z.eqb_refl|]. apply Z.eqb_neq. intros E. by apply Hne, (inj f). }
      destruct (negb (mv_id m =? wm_id top)); [done|]. change (WSym (f (ws_id right)) (ws_len right) (ws_prev right) (ws_next right)) with (ws_as right).
      rewrite do_merge_as. destruct (do_merge (m_w st) _ _ right (wm_id top)) as [w'|]; cbn [rmap mbind outcome_bind]; [|done].
      rewrite push_neighbours_as. by destruct (push_neighbours mm w' (wm_pos top) q1) as [q2|].
    Qed.

    Lemma merge_loop_as fuel drop st : merge_loop fuel mm' drop (ms_as st) = rmap ms_as <$> merge_loop fuel mm drop st.
    Proof.
      revert st. induction fuel as [|fuel IH]; intros st; cbn [merge_loop]; cbn [ms_as m_q m_draws].
      - by destruct (m_q st).
      - destruct (m_q st) as [|x q] eqn:E; [done|]. cbn [map]. change (MState _ _ _ _) with (ms_as st). rewrite merge_iter_as.
        destruct (merge_iter mm (drop (m_draws st)) st) as [st'|]; cbn [rmap]; [apply IH|done].
    Qed.

    Lemma remove_empty_as w : remove_empty (was w) = was (remove_empty w).
    Proof. induction w as [|s w IH]; [done|]. unfold remove_empty in *. cbn [map]. rewrite !filter_cons. cbn [ws_as ws_len]. by destruct (decide _); cbn [map]; rewrite IH. Qed.

    Lemma merge_all_as w dropout draws : merge_all (was w) mm' dropout draws = rmap was <$> merge_all w mm dropout draws.
    Proof.
      unfold merge_all, merge_all_with. pose proof (initial_queue_as 0 w []) as Hq. cbn [map] in Hq. rewrite Hq. clear Hq. destruct (initial_queue mm 0 w []) as [q|]; cbn [rmap]; [|done].
      unfold merge_fuel. rewrite map_length. change (MState (was w) (qas q) [] 0) with (ms_as (MState w q [] 0)). rewrite merge_loop_as.
      destruct (merge_loop _ mm (dropped_at dropout draws) (MState w q [] 0)) as [[st|]|]; cbn; [|done..]. by rewrite remove_empty_as.
    Qed.
  End merges.

  (** ** The models *)
  Section bpe.
    Context (m m' : bpe) (Hv : same_terms f (b_vocab m) (b_vocab m')) (Hm : same_merges f (b_merges m) (b_merges m'))
      (Hd : b_dropout m' = b_dropout m) (Hu : b_unk m' = b_unk m) (Hp : b_prefix m' = b_prefix m) (Hs : b_suffix m' = b_suffix m) (Hf : b_fuse m' = b_fuse m).

    Lemma symbol_term_as i last r : symbol_term m' i last r = symbol_term m i last r.
    Proof. unfold symbol_term, has_prefix_opt, has_suffix_opt. by rewrite Hp, Hs. Qed.
    Lemma has_unk_as : has_unk m' = has_unk m.
    Proof. unfold has_unk. by rewrite Hu. Qed.

    Definition unk_as (u : option (Z * Z)) : option (Z * Z) := (λ x, (f x.1, x.2)) <$> u.
    Lemma symbols_loop_as unkID unkID' rs i last unk w : (has_unk m = true → unkID' = f unkID) →
      symbols_loop m' unkID' rs i last (unk_as unk) (was w) = was (symbols_loop m unkID rs i last unk w).
    Proof.
      intros Hid. revert i unk w. induction rs as [|r rs IH]; intros i unk w; cbn [symbols_loop].
      - destruct unk as [[u l]|]; [apply word_add_as|done].
      - rewrite symbol_term_as, has_unk_as, Hf. destruct Hv as [Hv1 _]. rewrite Hv1. destruct (get_id (b_vocab m) (symbol_term m i last r)) as [id|]; cbn [fmap option_fmap option_map].
        + rewrite <- IH. destruct unk as [[u l]|]; cbn [unk_as fmap option_fmap option_map fst snd]; by rewrite !word_add_as.
        + destruct (has_unk m) eqn:E; [|apply IH]. specialize (Hid eq_refl). subst unkID'. destruct unk as [[u l]|]; cbn [unk_as fmap option_fmap option_map fst snd].
          * destruct (b_fuse m); rewrite <- IH; [done|]. by rewrite word_add_as.
          * by rewrite <- IH.
    Qed.

    Lemma merge_word_as s draws : merge_word m' s draws = answer_as f was <$> merge_word m s draws.
    Proof.
      assert (H : ∀ u u', (has_unk m = true → u' = f u) →
        match merge_all (symbols_loop m' u' (runes s) 0 (zlen (runes s) - 1) None []) (b_merges m') (b_dropout m') draws with
        | None => None | Some Panic => Some Panic | Some (Ret w) => Some (Ret (Ok w)) end
        = answer_as f was <$> match merge_all (symbols_loop m u (runes s) 0 (zlen (runes s) - 1) None []) (b_merges m) (b_dropout m) draws with
        | None => None | Some Panic => Some Panic | Some (Ret w) => Some (Ret (Ok w)) end).
      { intros u u' Hid. pose proof (symbols_loop_as u u' (runes s) 0 (zlen (runes s) - 1) None [] Hid) as Hl. cbn [map] in Hl. change (unk_as None) with (@None (Z * Z)) in Hl. rewrite Hl, Hd.
        rewrite (merge_all_as _ _ Hm). by destruct (merge_all _ (b_merges m) (b_dropout m) draws) as [[w|]|]. }
      unfold merge_word. rewrite has_unk_as, Hu. destruct (has_unk m) eqn:E; [|by apply H].
      destruct Hv as [Hv1 _]. rewrite Hv1. destruct (get_id (b_vocab m) (b_unk m)) as [u|]; cbn [fmap option_fmap option_map]; [by apply H|done].
    Qed.

    Lemma word_to_tokens_as w o : word_to_tokens m' (was w) o = result_as f (tokens_as f) (word_to_tokens m w o).
    Proof.
      revert o. induction w as [|s w IH]; intros o; [done|]. cbn [map word_to_tokens]. cbn [ws_as ws_id ws_len]. destruct Hv as [_ Hv2]. rewrite Hv2.
      destruct (get_string (b_vocab m) (ws_id s)) as [t|]; [|done]. rewrite IH. by destruct (word_to_tokens m w (o + ws_len s)).
    Qed.

    Lemma bpe_as s draws : bpe_tokenize m' s draws = answer_as f (tokens_as f) <$> bpe_tokenize m s draws.
    Proof.
      unfold bpe_tokenize. destruct (zlen s =? 0); [done|]. rewrite merge_word_as. destruct (merge_word m s draws) as [[[w|e]|]|]; cbn [fmap option_fmap option_map answer_as result_as]; [|done..].
      by rewrite word_to_tokens_as.
    Qed.
  End bpe.

  Section wordpiece.
    Context (m m' : wordpiece) (Hv : same_terms f (w_vocab m) (w_vocab m')) (Hu : w_unk m' = w_unk m) (Hp : w_prefix m' = w_prefix m) (Hx : w_max m' = w_max m).

    Lemma wp_inner_as fuel s a b : wp_inner fuel m' s a b = rmap (option_map (token_as f)) <$> wp_inner fuel m s a b.
    Proof.
      revert b. induction fuel as [|fuel IH]; intros b; cbn [wp_inner]; destruct (a <? b); [done..| |done]. destruct (sub s a b) as [t|]; [|done]. rewrite Hp.
      destruct Hv as [Hv1 _]. rewrite Hv1. set (t' := if 0 <? a then _ else _). destruct (get_id (w_vocab m) t') as [id|]; cbn [fmap option_fmap option_map]; [done|].
      destruct (0 <? zlen t'); [|apply IH]. destruct (idx t' (zlen t' - 1)); [apply IH|done].
    Qed.
    Lemma wp_outer_as fuel s a : wp_outer fuel m' s a = rmap (option_map (tokens_as f)) <$> wp_outer fuel m s a.
    Proof.
      revert a. induction fuel as [|fuel IH]; intros a; cbn [wp_outer]; destruct (a <? zlen s); [done..| |done]. rewrite wp_inner_as.
      destruct (wp_inner (S (length s)) m s a (zlen s)) as [[[t|]|]|]; cbn [fmap option_fmap option_map rmap]; [|done..]. cbn [token_as t_offsets]. rewrite IH.
      by destruct (wp_outer fuel m s (o_end (t_offsets t))) as [[[l|]|]|].
    Qed.
    Lemma wp_as s : wp_tokenize m' s = answer_as f (tokens_as f) <$> wp_tokenize m s.
    Proof.
      assert (Hk : wp_unknown m' s = result_as f (tokens_as f) (wp_unknown m s)).
      { unfold wp_unknown. rewrite Hu. destruct Hv as [Hv1 _]. rewrite Hv1. by destruct (get_id (w_vocab m) (w_unk m)). }
      unfold wp_tokenize. rewrite Hx, Hk. destruct (w_max m <? zlen (runes s)); [done|]. rewrite wp_outer_as.
      by destruct (wp_outer (S (length s)) m s 0) as [[[l|]|]|].
    Qed.
  End wordpiece.

  (** ** Merge files *)
  Lemma merges_loop_as v v' px lines count rank mm mm' : same_terms f v v' → same_merges f mm mm' →
    match merges_loop v px lines count rank mm, merges_loop v' px lines count rank mm' with
    | Ret (Ok m), Ret (Ok m') => same_merges f m m'
    | Ret (Err e), Ret (Err e') => e' = e
    | Panic, Panic => True
    | _, _ => False
    end.
  Proof.
    intros [Hv _]. revert count rank mm mm'. induction lines as [|l lines IH]; intros count rank mm mm' Hm; [done|]. cbn [merges_loop].
    destruct (has_prefix l version_prefix); [by apply IH|]. destruct (split_spaces l) as [|t0 [|t1 [|]]]; [done..| |done]. rewrite !Hv.
    destruct (get_id v t0) as [i0|]; cbn [fmap option_fmap option_map]; [|done]. destruct (get_id v t1) as [i1|]; cbn [fmap option_fmap option_map]; [|done].
    destruct (sub t1 px (zlen t1)) as [tl|]; cbn [mbind outcome_bind]; [|done]. rewrite Hv. destruct (get_id v (t0 ++ tl)) as [i|]; cbn [fmap option_fmap option_map]; [|done].
    apply IH. intros a b. unfold mm_set, merge_map in *. destruct (decide ((a, b) = (i0, i1))) as [[= -> ->]|Hne].
    - by rewrite !lookup_insert.
    - rewrite !lookup_insert_ne; [apply Hm| |]; intros E; apply Hne; injection E as E1 E2; [congruence|]. apply (inj f) in E1, E2. by subst.
  Qed.
  Lemma merge_file_as file v v' px : same_terms f v v' →
    match merge_map_from_file file v px, merge_map_from_file file v' px with
    | Ret (Ok m), Ret (Ok m') => same_merges f m m'
    | Ret (Err e), Ret (Err e') => e' = e
    | Panic, Panic => True
    | _, _ => False
    end.
  Proof.
    intros Hv. unfold merge_map_from_file. destruct (scan_lines file) as [lines long].
    pose proof (merges_loop_as v v' px lines 1 0 ∅ ∅ Hv) as H. assert (H0 : same_merges f ∅ ∅) by (intros a b; unfold merge_map in *; by rewrite !lookup_empty).
    specialize (H H0). destruct (merges_loop v px lines 1 0 ∅) as [[m|e]|], (merges_loop v' px lines 1 0 ∅) as [[m'|e']|]; cbn [mbind outcome_bind]; try done. by destruct long.
  Qed.
End rename.

(** ** Encodings *)
From Verif Require Import SplitPattern SliceFacts SpecEnd PtsFacts PretokFacts EndFacts.
Import GoBase SplitPattern NormString.

Section encodings.
  Context (f : Z → Z) (model model' : a_model) (Hmod : ∀ k s, model' k s = answer_as f (tokens_as f) (model k s)).

  Definition split_as (x : psplit) : psplit := PSplit (sp_ns x) (tokens_as f <$> sp_tokens x).
  Definition et_as (t : enc_token) : enc_token := EncToken (f (et_id t)) (et_token t) (et_offsets t) (et_word t) (et_type t).

  Lemma tokenize_loop_as k l : Forall (λ x, sp_tokens x = None) l →
    tokenize_loop (calling model') k l = rmap (λ x, (x.1.1, map split_as x.1.2, err_as f <$> x.2)) (tokenize_loop (calling model) k l).
  Proof.
    intros H. revert k. induction H as [|[n ts] l Hx H IH]; intros k; [done|]. cbn in Hx. subst ts. cbn [tokenize_loop sp_tokens sp_ns]. rewrite !calling_eq, Hmod.
    destruct (model k (ns_norm n)) as [[ts|e]|]; cbn [answer_as result_as mbind outcome_bind rmap fst snd]; [| |done].
    - rewrite IH. by destruct (tokenize_loop (calling model) (S k) l) as [[[k' l'] e]|].
    - cbn [map split_as sp_ns sp_tokens fmap option_fmap option_map]. do 4 f_equal. clear -H. induction H as [|[n ts] l Hx H IH]; [done|]. cbn in *. subst ts. f_equal. done.
  Qed.

  Lemma encode_tokens_as n w t ts : encode_tokens n w t (tokens_as f ts) = rmap (map et_as) (encode_tokens n w t ts).
  Proof.
    induction ts as [|x ts IH]; [done|]. change (tokens_as f (x :: ts)) with (token_as f x :: tokens_as f ts). cbn [encode_tokens]. cbn [token_as t_offsets]. destruct (coerce_to_orig n _) as [[[a b] ok]|]; cbn [mbind outcome_bind]; [|done].
    rewrite IH. by destruct (encode_tokens n w t ts).
  Qed.
  Lemma encode_splits_as w t i l : encode_splits w t i (map split_as l) = rmap (map et_as) (encode_splits w t i l).
  Proof.
    revert i. induction l as [|x l IH]; intros i; [done|]. cbn [map encode_splits]. cbn [split_as sp_ns sp_tokens].
    replace (default [] (tokens_as f <$> sp_tokens x)) with (tokens_as f (default [] (sp_tokens x))) by (by destruct (sp_tokens x)). rewrite encode_tokens_as.
    destruct (encode_tokens (sp_ns x) _ t (default [] (sp_tokens x))) as [ts|]; cbn [mbind outcome_bind rmap]; [|done]. rewrite IH.
    destruct (encode_splits w t (i + 1) l) as [r|]; cbn [mbind outcome_bind rmap]; [|done]. by rewrite map_app.
  Qed.
  Lemma into_encoding_as p w t : into_encoding (Pts (p_original p) (map split_as (p_splits p))) w t = answer_as f (encoding_as f) (into_encoding p w t).
  Proof.
    unfold into_encoding. cbn [p_splits]. rewrite zlen_map. destruct (zlen (p_splits p) =? 0); [done|].
    assert (all_have_tokens (map split_as (p_splits p)) = all_have_tokens (p_splits p)) as ->.
    { unfold all_have_tokens. induction (p_splits p) as [|x l IH]; [done|]. cbn [map forallb]. rewrite IH. cbn. by destruct (sp_tokens x). }
    destruct (negb _); [done|]. rewrite encode_splits_as. destruct (encode_splits w t 0 (p_splits p)) as [ts|]; cbn [mbind outcome_bind rmap]; [|done]. cbn [answer_as result_as]. do 2 f_equal.
    rewrite !encoding_from_tokens_eq. unfold encoding_as. cbn. rewrite !map_map. done.
  Qed.

  Lemma encode_ns_as pre n w t : only_cuts pre → encode_ns pre model' n w t = answer_as f (encoding_as f) (encode_ns pre model n w t).
  Proof.
    intros Hpre. unfold encode_ns. destruct (pre (pts_from_ns n)) as [[p e]|] eqn:E; cbn [mbind outcome_bind]; [|done]. apply Hpre in E as [Hp He]. cbn [fst snd].
    destruct e as [e|]; [cbn; do 2 f_equal; destruct e; naive_solver|]. unfold pts_tokenize. rewrite tokenize_loop_as by done.
    destruct (tokenize_loop (calling model) 0%nat (p_splits p)) as [[[k l] [e|]]|]; cbn [mbind outcome_bind rmap fst snd fmap option_fmap option_map]; [done| |done].
    apply (into_encoding_as (Pts (p_original p) l)).
  Qed.
End encodings.

(** ** Pre-tokenizers *)
Definition plain_err (e : err) : Prop := ∀ i, e ≠ EIDNotFound i.
Lemma run_split_cuts g p p' e : (∀ n n' r, g n = Ret (n', r) → match r with Ok l => Forall (λ x, sp_tokens x = None) l | Err e => plain_err e end) →
  Forall (λ x, sp_tokens x = None) (p_splits p) → run_split g p = Ret (p', e) → Forall (λ x, sp_tokens x = None) (p_splits p') ∧ ∀ i, e ≠ Some (EIDNotFound i).
Proof.
  intros Hg Hp H. unfold run_split, pts_split in H. apply bind_Ret in H as ([[st q] e0] & H & E). injection E as -> ->.
  apply bind_Ret in H as ([[st' old] new] & H & E).
  assert (Hl : ∀ i st st' old new, split_loop (stateless g) st i (p_splits p) = Ret (st', old, new) →
    Forall (λ x, sp_tokens x = None) old ∧ match new with Ok l => Forall (λ x, sp_tokens x = None) l | Err e => plain_err e end).
  { clear H E. induction Hp as [|[n ts] l Hx Hp IH]; intros i st0 st1 old0 new0 H; cbn [split_loop] in H.
    - injection H as _ <- <-. by split.
    - cbn in Hx. subst ts. cbn [sp_tokens sp_ns] in H. rewrite stateless_eq in H. apply bind_Ret in H as ([[st2 n2] r] & H & E). apply bind_Ret in H as ([n3 r3] & Hn & E3).
      injection E3 as _ <- <-. cbn [fst snd] in *. apply Hg in Hn. destruct r3 as [items|er].
      + apply bind_Ret in E as ([[st4 old4] new4] & H & E). injection E as _ <- <-. apply IH in H as [H1 H2]. split; [by constructor|].
        destruct new4 as [l4|]; [|done]. apply Forall_app. split; [|done]. rewrite Forall_forall. intros x Hx. apply elem_of_list_filter in Hx as [_ Hx]. by apply (proj1 (Forall_forall _ _) Hn).
      + injection E as _ <- <-. split; [by constructor|done]. }
  apply Hl in H as [H1 H2]. destruct new as [l|er]; injection E as _ <- <-; cbn [p_splits]; split; try done. intros i [= ->]. by apply (H2 i).
Qed.

Definition plain_pattern (p : pattern) : Prop := ∀ s e, p s = Ret (Err e) → plain_err e.
Lemma func_plain g : plain_pattern (func_pattern g).
Proof. intros s e H. unfold func_pattern in H. by destruct (zlen s =? 0). Qed.
Lemma invert_plain p : plain_pattern p → plain_pattern (invert p).
Proof. intros Hp s e H. unfold invert in H. apply bind_Ret in H as ([l|e'] & H & E); [done|]. injection E as ->. by apply Hp in H. Qed.
Lemma regexp2_plain (engine : engine2) : (∀ s e, (engine s).2 = Some e → plain_err e) → plain_pattern (regexp2_pattern engine).
Proof.
  intros He s e H. unfold regexp2_pattern in H. destruct (zlen s =? 0); [done|]. destruct (engine s) as [ms oe] eqn:E. cbn [fst snd] in H.
  assert (∀ ms prev e, match2_loop (runes s) (zlen s) ms oe prev = Ret (Err e) → oe = Some e) as Hl.
  { clear. induction ms as [|m ms IH]; intros prev e H; cbn [match2_loop] in H; [destruct oe; [by injection H as ->|done]|].
    apply bind_Ret in H as (b & _ & H). apply bind_Ret in H as ([l|e1] & H & E1); [done|]. injection E1 as ->. by apply IH in H. }
  apply Hl in H. apply (He s e). by rewrite E.
Qed.
Lemma cut_plain n ms e : cut n ms = Ret (Err e) → plain_err e.
Proof.
  revert e. induction ms as [|[[a b] c] ms IH]; intros e H; cbn [cut] in H; [done|]. destruct c; [by apply IH|].
  apply bind_Ret in H as ([p|] & _ & H); [|by injection H as <-]. apply bind_Ret in H as ([l|e1] & H & E1); [done|]. injection E1 as ->. by apply IH.
Qed.
Lemma split_by_plain p b n n' r : plain_pattern p → split_by p b n = Ret (n', r) → match r with Ok l => Forall (λ x, sp_tokens x = None) l | Err e => plain_err e end.
Proof.
  intros Hp H. unfold split_by in H. apply bind_Ret in H as (r0 & H & E). injection E as _ <-. unfold split in H. apply bind_Ret in H as ([cs|e] & H & E).
  - destruct r0 as [l|e]; [|by apply cut_plain in E]. apply Forall_forall. intros x Hx. unfold splits_from_ns in Hx. by apply elem_of_list_fmap in Hx as (y & -> & _).
  - injection E as <-. by apply Hp in H.
Qed.
Lemma pts_from_ns_none n : Forall (λ x, sp_tokens x = None) (p_splits (pts_from_ns n)).
Proof. by repeat constructor. Qed.
Lemma split_cuts p b : plain_pattern p → only_cuts (run_split (split_by p b)).
Proof. intros Hp n q e H. eapply run_split_cuts; [|apply pts_from_ns_none|exact H]. intros n0 n' r. by apply split_by_plain. Qed.

Lemma bert_cuts u : only_cuts (bert_pretokenizer u).
Proof.
  intros n q e H. unfold bert_pretokenizer in H. apply bind_Ret in H as ([p1 e1] & H1 & H). apply split_cuts in H1 as [H1 H2]; [|apply func_plain].
  destruct e1 as [e1|]; [by injection H as <- <-|]. eapply run_split_cuts; [|exact H1|exact H]. intros n0 n' r. apply split_by_plain, func_plain.
Qed.
Lemma metaspace_cuts c b : only_cuts (metaspace c b).
Proof.
  intros n q e H. eapply run_split_cuts; [|apply pts_from_ns_none|exact H]. intros n0 n' r H0. unfold metaspace_split in H0. apply bind_Ret in H0 as (n1 & _ & H0).
  apply bind_Ret in H0 as ([n2|e2] & H2 & H0); [eapply split_by_plain; [|exact H0]; apply func_plain|]. injection H0 as _ <-.
  unfold replace in H2. apply bind_Ret in H2 as ([cs|e3] & H3 & H2); [by apply bind_Ret in H2 as (? & _ & [=])|]. injection H2 as ->. by apply func_plain in H3.
Qed.
Lemma normalize_cuts g l st l' e : Forall (λ x, sp_tokens x = None) l → normalize_loop (λ (_ : unit) n, n' ← g n; Ret (tt, n', None)) st l = Ret (tt, l', e) →
  Forall (λ x, sp_tokens x = None) l' ∧ e = None.
Proof.
  intros Hl. revert st l' e. induction Hl as [|[n ts] l Hx Hl IH]; intros st l' e H; cbn [normalize_loop] in H.
  - by injection H as _ <- <-.
  - cbn in Hx. subst ts. cbn [sp_tokens sp_ns] in H. apply bind_Ret in H as ([[st1 n1] e1] & H1 & H). apply bind_Ret in H1 as (n2 & _ & [= _ <- <-]).
    apply bind_Ret in H as ([[[] l2] e2] & H2 & H). injection H as <- <-. apply IH in H2 as [H2 ->]. split; [by constructor|done].
Qed.
Lemma byte_level_cuts engine b : (∀ s e, (engine s).2 = Some e → plain_err e) → only_cuts (byte_level engine b).
Proof.
  intros He n q e H. unfold byte_level in H. apply bind_Ret in H as ([p1 e1] & H1 & H). apply run_split_cuts in H1 as [H1 H2]; [| |apply pts_from_ns_none].
  - destruct e1 as [e1|]; [by injection H as <- <-|]. apply bind_Ret in H as ([[[] p2] e2] & H3 & H). injection H as -> ->. unfold pts_normalize in H3.
    apply bind_Ret in H3 as ([[[] l2] e3] & H3 & H4). injection H4 as <- <-. apply normalize_cuts in H3 as [H3 ->]; [by split|done].
  - intros n0 n' r H0. unfold byte_level_split in H0. apply bind_Ret in H0 as (n1 & _ & H0). eapply split_by_plain; [|exact H0]. by apply regexp2_plain.
Qed.

(** ** Any two vocabularies of the same terms *)
From Verif Require Import SpecVocab.
Lemma ids_bounded (v : vocab) : ∃ B, ∀ i t, get_string v i = Some t → i <= B.
Proof.
  unfold get_string. induction (v_terms v) as [|i t m Hi [B IH]] using map_ind; [exists 0; by intros i t ?%lookup_empty_Some|].
  exists (Z.max B i). intros j t' [[-> _]|[_ H]]%lookup_insert_Some; [lia|]. apply IH in H. lia.
Qed.

Definition above (B i : Z) : Z := B + 1 + (if 0 <=? i then 2 * i else - (2 * i) - 1).
Lemma above_gt B i : B < above B i.
Proof. unfold above. destruct (Z.leb_spec 0 i); lia. Qed.
Lemma above_inj B i j : above B i = above B j → i = j.
Proof. unfold above. destruct (Z.leb_spec 0 i), (Z.leb_spec 0 j); lia. Qed.
Lemma same_terms_exists v v' : consistent v → consistent v' → (∀ t, is_Some (get_id v t) ↔ is_Some (get_id v' t)) →
  ∃ f, Inj (=) (=) f ∧ same_terms f v v'.
Proof.
  intros Hc Hc' Hs. destruct (ids_bounded v') as [B HB].
  exists (λ i, match get_string v i with Some t => default 0 (get_id v' t) | None => above B i end).
  assert (Hin : ∀ i t, get_string v i = Some t → ∃ j, get_id v' t = Some j ∧ get_string v' j = Some t).
  { intros i t Ht. destruct (proj1 (Hs t)) as [j Hj]; [exists i; by apply Hc|]. exists j. split; [done|by apply Hc']. }
  split; [|split].
  - intros i j E. destruct (get_string v i) as [t|] eqn:Ei, (get_string v j) as [t'|] eqn:Ej.
    + destruct (Hin i t Ei) as (i' & Hi & Hi2), (Hin j t' Ej) as (j' & Hj & Hj2). rewrite Hi, Hj in E. cbn in E. subst j'. rewrite Hi2 in Hj2. injection Hj2 as <-.
      apply Hc in Ei, Ej. congruence.
    + destruct (Hin i t Ei) as (i' & Hi & Hi2). rewrite Hi in E. cbn in E. apply HB in Hi2. pose proof (above_gt B i). pose proof (above_gt B j). lia.
    + destruct (Hin j t' Ej) as (i' & Hi & Hi2). rewrite Hi in E. cbn in E. apply HB in Hi2. pose proof (above_gt B i). pose proof (above_gt B j). lia.
    + by apply above_inj in E.
  - intros t. destruct (get_id v t) as [i|] eqn:Ei; cbn [fmap option_fmap option_map].
    + assert (get_string v i = Some t) as Ht by (by apply Hc). rewrite Ht. destruct (Hin i t Ht) as (j & -> & _). done.
    + destruct (get_id v' t) eqn:E'; [|done]. destruct (proj2 (Hs t)) as [? ?]; [by eexists|congruence].
  - intros i. destruct (get_string v i) as [t|] eqn:Ei.
    + destruct (Hin i t Ei) as (j & -> & Hj). done.
    + destruct (get_string v' (above B i)) eqn:E; [|done]. apply HB in E. pose proof (above_gt B i). lia.
Qed.
