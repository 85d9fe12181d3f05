(** Proofs about BPEModel.Tokenize. *)
From Coq Require Import ZifyBool ZifyNat QArith.
From stdpp Require Import relations.
From Verif Require Import GoBase Strutils Vocab MergeMap Heap Bpe HeapFacts SpecText SpecVocab SpecBpe SliceFacts Utf8Facts VocabFacts
  BpeWord BpeLoop BpeFacts.
Import GoBase.
#[local] Open Scope Z_scope.

(** * From characters to symbols *)

Definition classes_from (m : bpe) (i last : Z) (rs : list Z) : list (option Z * Z) :=
  imap (λ k r, (get_id (b_vocab m) (symbol_term m (i + Z.of_nat k) last r), rune_len r)) rs.
Lemma classes_cons m i last r rs :
  classes_from m i last (r :: rs) = (get_id (b_vocab m) (symbol_term m i last r), rune_len r) :: classes_from m (i + 1) last rs.
Proof.
  unfold classes_from. cbn [imap]. rewrite Z.add_0_r. f_equal. apply imap_ext. intros k x _. cbn. do 3 f_equal. lia.
Qed.
Lemma has_opt_nil {A} (p : list A) : negb (zlen p =? 0) = false → p = [].
Proof. destruct p; [done|]. rewrite zlen_cons. pose proof (zlen_nonneg p). lia. Qed.
Lemma classes_spec m rs : classes_from m 0 (zlen rs - 1) rs = char_classes m rs.
Proof.
  unfold char_classes. apply list_eq. intros k. unfold classes_from. rewrite list_lookup_imap, lookup_zip_with.
  unfold char_terms. rewrite list_lookup_imap. destruct (rs !! k) as [r|] eqn:Hr; [|done]. cbn. f_equal. f_equal. f_equal.
  apply lookup_lt_Some in Hr. unfold symbol_term.
  destruct (decide (k = 0%nat)) as [->|Hk].
  - change (Z.of_nat 0) with 0. rewrite ?Z.add_0_l, Z.eqb_refl. cbn [andb]. destruct (decide (1%nat = length rs)) as [Hl|Hl].
    + assert ((0 =? zlen rs - 1) = true) as -> by (unfold zlen; lia). cbn [andb].
      destruct (has_prefix_opt m) eqn:Hp, (has_suffix_opt m) eqn:Hs; try apply has_opt_nil in Hp; try apply has_opt_nil in Hs;
        rewrite ?Hp, ?Hs, ?app_nil_r, <- ?app_assoc; done.
    + assert ((0 =? zlen rs - 1) = false) as -> by (unfold zlen; lia). cbn [andb]. rewrite app_nil_r.
      destruct (has_prefix_opt m) eqn:Hp; [done|]. apply has_opt_nil in Hp. by rewrite Hp.
  - rewrite ?Z.add_0_l. assert ((Z.of_nat k =? 0) = false) as -> by lia. cbn [andb app].
    destruct (decide (S k = length rs)) as [Hl|Hl].
    + assert ((Z.of_nat k =? zlen rs - 1) = true) as -> by (unfold zlen; lia). cbn [andb].
      destruct (has_suffix_opt m) eqn:Hs; [done|]. apply has_opt_nil in Hs. by rewrite Hs, app_nil_r.
    + assert ((Z.of_nat k =? zlen rs - 1) = false) as -> by (unfold zlen; lia). cbn [andb]. by rewrite app_nil_r.
Qed.

Definition add_syms (w : word) (ss : list (Z * Z)) : word := foldl (λ w s, word_add w s.1 s.2) w ss.

Lemma symbols_loop_spec m u rs i last unk w :
  (match unk with Some (x, _) => x = u ∧ has_unk m = true | None => True end) →
  let ou := if has_unk m then Some u else None in
  ∃ ss, symbols_loop m u rs i last unk w = add_syms w ss ∧
    match unk with
    | None => group_syms (b_fuse m) ou (classes_from m i last rs) ss
    | Some (_, n) =>
      ∃ ns cs ss', classes_from m i last rs = map (pair None) ns ++ cs ∧ ss = (u, n + foldr Z.add 0 ns) :: ss'
        ∧ group_syms (b_fuse m) ou cs ss' ∧ (if b_fuse m then ∀ n cs', cs ≠ (None, n) :: cs' else ns = [])
    end.
Proof.
  intros Hunk ou. revert i unk w Hunk. induction rs as [|r rs IH]; intros i unk w Hunk.
  - cbn [symbols_loop]. destruct unk as [[x n]|].
    + destruct Hunk as [-> _]. exists [(u, n)]. split; [done|]. exists [], [], []. split; [done|]. split; [cbn; f_equal; f_equal; lia|].
      split; [constructor|]. by destruct (b_fuse m).
    + exists []. split; [done|]. constructor.
  - cbn [symbols_loop]. rewrite classes_cons. destruct (get_id (b_vocab m) (symbol_term m i last r)) as [id|] eqn:Hid.
    + destruct (IH (i + 1) None (word_add (match unk with Some (uid, ulen) => word_add w uid ulen | None => w end) id (rune_len r))) as (ss & E & G); [done|].
      destruct unk as [[x n]|].
      * destruct Hunk as [-> _]. exists ((u, n) :: (id, rune_len r) :: ss). split; [by rewrite E|].
        exists [], ((Some id, rune_len r) :: classes_from m (i + 1) last rs), ((id, rune_len r) :: ss). split; [done|].
        split; [cbn; f_equal; f_equal; lia|]. split; [by constructor|]. by destruct (b_fuse m).
      * exists ((id, rune_len r) :: ss). split; [by rewrite E|]. by constructor.
    + destruct (has_unk m) eqn:Hu.
      * destruct unk as [[x n]|].
        -- destruct Hunk as [-> _]. destruct (b_fuse m) eqn:Hf.
           ++ destruct (IH (i + 1) (Some (u, n + rune_len r)) w) as (ss & E & ns & cs & ss' & E1 & E2 & G & H); [done|].
              exists ss. split; [done|]. exists (rune_len r :: ns), cs, ss'. split; [cbn; by rewrite E1|].
              split; [rewrite E2; cbn; f_equal; f_equal; lia|]. done.
           ++ destruct (IH (i + 1) (Some (u, rune_len r)) (word_add w u n)) as (ss & E & ns & cs & ss' & E1 & E2 & G & ->); [done|].
              exists ((u, n) :: ss). split; [by rewrite E|]. exists [], ((None, rune_len r) :: classes_from m (i + 1) last rs), ss.
              split; [done|]. split; [cbn; f_equal; f_equal; lia|]. split; [|done]. rewrite E1, E2. cbn. rewrite Z.add_0_r. by constructor.
        -- destruct (IH (i + 1) (Some (u, rune_len r)) w) as (ss & E & ns & cs & ss' & E1 & E2 & G & H); [done|].
           exists ss. split; [done|]. rewrite E1, E2. destruct (b_fuse m) eqn:Hf.
           ++ change ((None, rune_len r) :: map (pair None) ns ++ cs) with (map (pair (@None Z)) (rune_len r :: ns) ++ cs).
              change (rune_len r + foldr Z.add 0 ns) with (foldr Z.add 0 (rune_len r :: ns)). by constructor.
           ++ subst ns. cbn. rewrite Z.add_0_r. by constructor.
      * destruct unk as [[x n]|]; [by destruct Hunk|]. destruct (IH (i + 1) None w) as (ss & E & G); [done|].
        exists ss. split; [done|]. by constructor.
Qed.

Lemma group_pos fuse ou cs ss : Forall (λ c, 0 < c.2) cs → group_syms fuse ou cs ss → Forall (λ s, 0 < s.2) ss.
Proof.
  intros Hc G. induction G as [|i n cs ss G IH|n cs ss _ G IH|u n cs ss _ _ G IH|u ns cs ss _ _ Hne _ G IH].
  - done.
  - apply Forall_cons in Hc as [? ?]. constructor; [done|by apply IH].
  - apply Forall_cons in Hc as [? ?]. by apply IH.
  - apply Forall_cons in Hc as [? ?]. constructor; [done|by apply IH].
  - apply Forall_app in Hc as [Hn Hc]. constructor; [|by apply IH]. cbn. clear -Hne Hn.
    destruct ns as [|n ns]; [done|]. clear Hne. revert n Hn. induction ns as [|n' ns IH]; intros n Hn; cbn in *.
    + apply Forall_cons in Hn as [? _]. cbn in *. lia.
    + apply Forall_cons in Hn as [H Hn]. cbn in H. specialize (IH n' Hn). lia.
Qed.
Lemma classes_pos m rs : Forall (λ c, 0 < c.2) (char_classes m rs).
Proof.
  apply Forall_lookup. intros k [o n] Hk. unfold char_classes in Hk. rewrite lookup_zip_with in Hk.
  destruct (char_terms (b_prefix m) (b_suffix m) rs !! k) as [t|]; [|done]. cbn in Hk. destruct (rs !! k) as [r|]; [|done]. cbn in Hk. injection Hk as <- <-. cbn.
  pose proof (rune_len_bounds r). lia.
Qed.

(** * From symbols to tokens *)

Lemma word_to_tokens_ok m w o ts : word_to_tokens m w o = Ok ts ↔ toks_of (b_vocab m) o (word_syms w) ts.
Proof.
  revert o ts. induction w as [|s w IH]; intros o ts; cbn [word_to_tokens word_syms map].
  - split; [intros [= <-]; constructor|inversion 1; done].
  - destruct (get_string (b_vocab m) (ws_id s)) as [x|] eqn:Hx.
    + destruct (word_to_tokens m w (o + ws_len s)) as [l|e] eqn:E.
      * split.
        -- intros [= <-]. constructor; [done|]. by apply IH.
        -- inversion 1; subst. f_equal. simplify_eq. f_equal. assert (H' : toks_of (b_vocab m) (o + ws_len s) (word_syms w) ts0) by done.
           apply IH in H'. congruence.
      * split; [done|]. inversion 1; subst. assert (H' : toks_of (b_vocab m) (o + ws_len s) (word_syms w) ts0) by done.
        apply IH in H'. congruence.
    + split; [done|]. inversion 1; subst. congruence.
Qed.
Lemma word_to_tokens_err m w o e : word_to_tokens m w o = Err e ↔
  ∃ a s b, word_syms w = a ++ s :: b ∧ Forall (λ s, is_Some (get_string (b_vocab m) s.1)) a
    ∧ get_string (b_vocab m) s.1 = None ∧ e = EIDNotFound s.1.
Proof.
  revert o e. induction w as [|s w IH]; intros o e; cbn [word_to_tokens word_syms map].
  - split; [done|]. by intros ([|??] & ? & ? & ? & _).
  - destruct (get_string (b_vocab m) (ws_id s)) as [x|] eqn:Hx.
    + transitivity (word_to_tokens m w (o + ws_len s) = Err e).
      { destruct (word_to_tokens m w (o + ws_len s)); split; intros [= ->]; done. }
      rewrite IH. split.
      * intros (a & s' & b & E & Ha & Hs' & He). exists ((ws_id s, ws_len s) :: a), s', b. split; [unfold word_syms in E; by rewrite E|].
        split; [|done]. constructor; [eauto|done].
      * intros ([|y a] & s' & b & E & Ha & Hs' & He).
        -- injection E as <- _. cbn [fst] in Hs'. congruence.
        -- injection E as <- E. apply Forall_cons in Ha as [_ Ha]. by exists a, s', b.
    + split.
      * intros [= <-]. by exists [], (ws_id s, ws_len s), (word_syms w).
      * intros ([|y a] & s' & b & E & Ha & Hs' & ->).
        -- injection E as <- _. done.
        -- injection E as <- E. apply Forall_cons in Ha as [[z Hz] _]. cbn [fst] in Hz. congruence.
Qed.

(** * All of Tokenize *)


Lemma unk_id_eq m : unk_id m = if has_unk m then get_id (b_vocab m) (b_unk m) else None.
Proof.
  unfold unk_id, has_unk. destruct (b_unk m) as [|x l]; [done|]. rewrite zlen_cons. pose proof (zlen_nonneg l).
  destruct (Z.eqb_spec (1 + zlen l) 0); [lia|]. done.
Qed.

Lemma tokenize_split m s draws : s ≠ [] → (has_unk m = true → is_Some (get_id (b_vocab m) (b_unk m))) →
  ∃ ss, group_syms (b_fuse m) (unk_id m) (char_classes m (runes s)) ss ∧ Forall (λ s, 0 < s.2) ss ∧
    ∀ ts, (∃ w', merge_all_with (word_of ss) (b_merges m) (dropped_at (b_dropout m) draws) = Some (Ret w') ∧ word_syms w' = ts) →
    ∃ res, bpe_tokenize m s draws = Some (Ret res) ∧ answer m ts res.
Proof.
  intros Hs Hu. set (u := default 0 (unk_id m)).
  destruct (symbols_loop_spec m u (runes s) 0 (zlen (runes s) - 1) None []) as (ss & E & G); [done|].
  rewrite classes_spec in G. assert ((if has_unk m then Some u else None) = unk_id m) as EU.
  { unfold u. rewrite unk_id_eq. destruct (has_unk m) eqn:E'; [|done]. by destruct (Hu eq_refl) as [x ->]. }
  rewrite EU in G. exists ss. split; [done|]. split; [eapply group_pos; [apply classes_pos|exact G]|].
  intros ts (w' & Hw & <-). exists (word_to_tokens m w' 0). split.
  - unfold bpe_tokenize. destruct (Z.eqb_spec (zlen s) 0) as [H|_].
    { destruct s; [done|]. rewrite zlen_cons in H. pose proof (zlen_nonneg s). lia. }
    unfold merge_word, merge_all. assert (Hgo : ∀ u', u' = u →
      merge_all_with (symbols_loop m u' (runes s) 0 (zlen (runes s) - 1) None []) (b_merges m) (dropped_at (b_dropout m) draws) = Some (Ret w')).
    { intros u' ->. rewrite E. exact Hw. }
    destruct (has_unk m) eqn:Hh.
    + destruct (Hu eq_refl) as [x Hx]. rewrite Hx, (Hgo x); [done|]. unfold u. rewrite unk_id_eq. by rewrite Hh, Hx.
    + rewrite (Hgo 0); [done|]. unfold u. rewrite unk_id_eq. by rewrite Hh.
  - unfold answer. destruct (word_to_tokens m w' 0) as [toks|e] eqn:Et.
    + by apply word_to_tokens_ok.
    + by eapply word_to_tokens_err.
Qed.

(** Dropout decisions. *)
Lemma dropped_iff dropout draws k : dropped_at dropout draws k = true ↔ (0 < dropout ∧ draws k < dropout)%Q.
Proof.
  unfold dropped_at. rewrite andb_true_iff, !negb_true_iff.
  assert (Hn : ∀ a b, Qle_bool a b = false ↔ (b < a)%Q).
  { intros a b. split.
    - intros H. apply Qnot_le_lt. intros E%Qle_bool_iff. congruence.
    - intros H. destruct (Qle_bool a b) eqn:E; [|done]. apply Qle_bool_iff in E. by destruct (Qlt_not_le _ _ H). }
  by rewrite !Hn.
Qed.
Lemma dropped_none dropout draws k : (dropout <= 0)%Q → dropped_at dropout draws k = false.
Proof. intros H. unfold dropped_at. apply Qle_bool_iff in H. by rewrite H. Qed.
Lemma dropped_all dropout draws k : (1 <= dropout)%Q → (draws k < 1)%Q → dropped_at dropout draws k = true.
Proof.
  intros H1 H2. unfold dropped_at. apply andb_true_iff. split; apply negb_true_iff.
  - destruct (Qle_bool dropout 0) eqn:E; [|done]. apply Qle_bool_iff in E. exfalso. pose proof (Qle_trans _ _ _ H1 E). by apply (Qle_not_lt 1 0).
  - destruct (Qle_bool dropout (draws k)) eqn:E; [|done]. apply Qle_bool_iff in E. exfalso.
    apply (Qle_not_lt 1 (draws k)); [|done]. by eapply Qle_trans.
Qed.

(** The decisions matter only as far as they are made. *)
Lemma merge_loop_ext fuel mm d1 d2 st : (∀ k, d1 k = d2 k) → merge_loop fuel mm d1 st = merge_loop fuel mm d2 st.
Proof.
  intros H. revert st. induction fuel as [|fuel IH]; intros st; [done|]. cbn [merge_loop]. destruct (m_q st); [done|].
  rewrite H. destruct (merge_iter mm (d2 (m_draws st)) st); [apply IH|done].
Qed.
Lemma merge_all_with_ext w mm d1 d2 : (∀ k, d1 k = d2 k) → merge_all_with w mm d1 = merge_all_with w mm d2.
Proof. intros H. unfold merge_all_with. destruct (initial_queue mm 0 w []); [|done]. by rewrite (merge_loop_ext _ _ _ _ _ H). Qed.

(** * Offsets *)

Lemma toks_tile_of v o ss ts : Forall (λ s, 0 < s.2) ss → toks_of v o ss ts → toks_tile o ts (o + sym_bytes ss).
Proof.
  intros Hp H. induction H as [o|o i n x ss ts Hx H IH]; [cbn; lia|]. apply Forall_cons in Hp as [Hn Hp]. cbn in Hn.
  cbn [toks_tile t_offsets o_start o_end sym_bytes foldr]. split; [done|]. split; [lia|].
  replace (o + ((i, n).2 + foldr (λ s n, s.2 + n) 0 ss)) with (o + n + sym_bytes ss) by (cbn; unfold sym_bytes; lia). by apply IH.
Qed.

Definition class_bytes (cs : list (option Z * Z)) : Z := foldr (λ c n, c.2 + n) 0 cs.
Lemma class_bytes_app a b : class_bytes (a ++ b) = class_bytes a + class_bytes b.
Proof. unfold class_bytes. induction a as [|c a IH]; cbn; [done|]. rewrite IH. lia. Qed.

(** The cuts between symbols are cuts between characters. *)
Lemma group_cuts fuse ou cs ss : (ou ≠ None ∨ Forall (λ c, c.1 ≠ None) cs) → group_syms fuse ou cs ss →
  ∀ a b, ss = a ++ b → ∃ ca cb, cs = ca ++ cb ∧ class_bytes ca = sym_bytes a ∧ (b = [] → cb = []).
Proof.
  intros Hk G. induction G as [|i n cs ss G IH|n cs ss Hou G IH|u n cs ss Hou _ G IH|u ns cs ss Hou _ Hne _ G IH]; intros a b E.
  - symmetry in E. apply app_nil in E as [-> ->]. by exists [], [].
  - destruct a as [|s a].
    + cbn in E. subst b. by exists [], ((Some i, n) :: cs).
    + injection E as <- E. destruct (IH ltac:(destruct Hk as [?|Hk]; [by left|right; by apply Forall_cons in Hk as [_ ?]]) a b E) as (ca & cb & -> & Hs & Hb).
      exists ((Some i, n) :: ca), cb. split; [done|]. split; [|done]. cbn. unfold class_bytes, sym_bytes in Hs. lia.
  - destruct Hk as [?|Hk]; [done|]. apply Forall_cons in Hk as [? _]. done.
  - destruct a as [|s a].
    + cbn in E. subst b. by exists [], ((None, n) :: cs).
    + injection E as <- E. destruct (IH ltac:(left; congruence) a b E) as (ca & cb & -> & Hs & Hb).
      exists ((None, n) :: ca), cb. split; [done|]. split; [|done]. cbn. unfold class_bytes, sym_bytes in Hs. lia.
  - destruct a as [|s a].
    + cbn in E. subst b. by exists [], (map (pair None) ns ++ cs).
    + injection E as <- E. destruct (IH ltac:(left; congruence) a b E) as (ca & cb & -> & Hs & Hb).
      exists (map (pair None) ns ++ ca), cb. split; [by rewrite app_assoc|]. split; [|done]. rewrite class_bytes_app.
      assert (class_bytes (map (pair None) ns) = foldr Z.add 0 ns) as ->.
      { clear. induction ns as [|n ns IH]; [done|]. cbn. f_equal. exact IH. }
      cbn. unfold sym_bytes in Hs. lia.
Qed.
Lemma step_cuts mm s s' : merge_step mm s s' → ∀ a b, s' = a ++ b → ∃ a' b', s = a' ++ b' ∧ sym_bytes a' = sym_bytes a ∧ (b = [] → b' = []).
Proof.
  intros [l x lx y ly r m _] a b E.
  assert (Hle : ∀ d, l = a ++ d → ∃ a' b', l ++ (x, lx) :: (y, ly) :: r = a' ++ b' ∧ sym_bytes a' = sym_bytes a ∧ (b = [] → b' = [])).
  { intros d El. rewrite El in E |- *. exists a, (d ++ (x, lx) :: (y, ly) :: r). split; [by rewrite <- app_assoc|]. split; [done|].
    intros ->. exfalso. rewrite app_nil_r in E. apply (f_equal length) in E. rewrite !app_length in E. cbn in E. lia. }
  apply List.app_eq_app in E as E'. destruct E' as [d [[El Eb]|[Ea Er]]]; [by eapply Hle|].
  destruct d as [|c a2]; [apply (Hle []); by rewrite Ea, !app_nil_r|]. cbn in Er. injection Er as <- ->.
  exists (l ++ (x, lx) :: (y, ly) :: a2), b. split; [by rewrite <- app_assoc|]. split; [|done].
  rewrite Ea, !sym_bytes_app. cbn. lia.
Qed.
Lemma steps_cuts mm s s' : rtc (merge_step mm) s s' → ∀ a b, s' = a ++ b → ∃ a' b', s = a' ++ b' ∧ sym_bytes a' = sym_bytes a ∧ (b = [] → b' = []).
Proof.
  induction 1 as [s|s t s' Hst _ IH]; intros a b E; [by exists a, b|].
  destruct (IH a b E) as (a1 & b1 & E1 & H1 & Hb1). destruct (step_cuts _ _ _ Hst a1 b1 E1) as (a2 & b2 & E2 & H2 & Hb2).
  exists a2, b2. split; [done|]. split; [lia|]. auto.
Qed.

(** Each token is between two cuts. *)
Lemma toks_cuts v o ss ts t : toks_of v o ss ts → t ∈ ts →
  ∃ a x b, ss = a ++ x :: b ∧ t_id t = x.1 ∧ get_string v x.1 = Some (t_value t)
    ∧ o_start (t_offsets t) = o + sym_bytes a ∧ o_end (t_offsets t) = o + sym_bytes (a ++ [x]).
Proof.
  intros H. induction H as [o|o i n x ss ts Hx H IH]; [by intros ?%elem_of_nil|]. intros [->|Ht]%elem_of_cons.
  - exists [], (i, n), ss. split; [done|]. split; [done|]. split; [done|]. cbn. lia.
  - destruct (IH Ht) as (a & y & b & -> & Hi & Hy & H1 & H2). exists ((i, n) :: a), y, b. split; [done|]. split; [done|]. split; [done|].
    rewrite H1, H2. unfold sym_bytes. cbn. lia.
Qed.

Lemma char_terms_length pre suf rs : length (char_terms pre suf rs) = length rs.
Proof. unfold char_terms. apply imap_length. Qed.
Lemma char_classes_length m rs : length (char_classes m rs) = length rs.
Proof. unfold char_classes. rewrite zip_with_length_l; [apply char_terms_length|]. rewrite char_terms_length. lia. Qed.
Lemma char_classes_snd m rs : (char_classes m rs).*2 = map rune_len rs.
Proof.
  apply list_eq. intros k. rewrite list_lookup_fmap. unfold char_classes. rewrite lookup_zip_with. rewrite (list_lookup_fmap _ rs).
  destruct (rs !! k) as [r|] eqn:Hr.
  - destruct (lookup_lt_is_Some_2 (char_terms (b_prefix m) (b_suffix m) rs) k) as [t Ht].
    { rewrite char_terms_length. by eapply lookup_lt_Some. }
    by rewrite Ht.
  - by destruct (char_terms (b_prefix m) (b_suffix m) rs !! k).
Qed.
Lemma class_bytes_snd cs : class_bytes cs = foldr Z.add 0 cs.*2.
Proof. unfold class_bytes. induction cs as [|c cs IH]; [done|]. cbn. by rewrite IH. Qed.
Lemma rune_lens rs : foldr Z.add 0 (map rune_len rs) = zlen (encode rs).
Proof. induction rs as [|r rs IH]; [done|]. rewrite zlen_encode_cons. cbn. by rewrite IH. Qed.

Lemma class_boundary m rs ca cb : scalars rs → char_classes m rs = ca ++ cb → boundary (encode rs) (class_bytes ca).
Proof.
  intros Hrs E. assert (ca.*2 = map rune_len (take (length ca) rs)) as Hca.
  { pose proof (char_classes_snd m rs) as H. rewrite E, fmap_app in H.
    rewrite <- (take_app ca.*2 cb.*2), H, fmap_length. symmetry. apply fmap_take. }
  exists (take (length ca) rs), (drop (length ca) rs). split; [by apply Forall_take|]. split; [by apply Forall_drop|].
  split; [by rewrite <- encode_app, take_drop|]. by rewrite class_bytes_snd, Hca, rune_lens.
Qed.

(** * Faithful symbols *)

Definition spells (v : vocab) (ss : list (Z * Z)) (ts : list (list Z)) : Prop :=
  Forall2 (λ s t, get_id v t = Some s.1 ∧ s.2 = zlen t) ss ts.

(** All merges concatenate terms. *)
Definition merges_concat (v : vocab) (mm : merge_map) : Prop :=
  ∀ a b m, mm !! (a, b) = Some m → ∃ t0 t1, get_id v t0 = Some a ∧ get_id v t1 = Some b ∧ get_id v (t0 ++ t1) = Some (mv_id m).

Lemma loaded_concat file v mm : merge_map_from_file file v 0 = Ret (Ok mm) → merges_concat v mm.
Proof.
  intros H. apply from_file_ok in H as [_ H]. apply (merges_loop_ok v 0 (all_lines file) 1 ∅ [] mm) in H as (ms & Hms & Hmm).
  2:{ intros p x. unfold merge_map. rewrite lookup_empty. split; [done|]. intros (_ & Hx & _). by rewrite lookup_nil in Hx. }
  intros a b m Hm. apply Hmm in Hm as (_ & Hx & _). cbn in Hx. destruct (Forall2_lookup_r _ _ _ _ _ Hms Hx) as (l & _ & t0 & cut & t1 & _ & Hcut & H0 & H1 & H2).
  destruct cut as [|c cut]; [|rewrite zlen_cons in Hcut; pose proof (zlen_nonneg cut); lia]. exists t0, t1. done.
Qed.

Lemma get_id_inj v t u i : consistent v → get_id v t = Some i → get_id v u = Some i → t = u.
Proof. intros Hc H1%Hc H2%Hc. congruence. Qed.

Lemma spells_step v mm ss ss' ts : consistent v → merges_concat v mm → merge_step mm ss ss' → spells v ss ts →
  ∃ ts', concat ts' = concat ts ∧ spells v ss' ts'.
Proof.
  intros Hc Hm [l a la b lb r m Hab] H. apply Forall2_app_inv_l in H as (tl & tr & Hl & H & ->).
  apply Forall2_cons_inv_l in H as (ta & tr1 & [Ha Hla] & H & ->). apply Forall2_cons_inv_l in H as (tb & tr2 & [Hb Hlb] & Hr & ->).
  cbn in Ha, Hb, Hla, Hlb. destruct (Hm _ _ _ Hab) as (t0 & t1 & H0 & H1 & H01).
  rewrite (get_id_inj v t0 ta a Hc H0 Ha), (get_id_inj v t1 tb b Hc H1 Hb) in H01.
  exists (tl ++ (ta ++ tb) :: tr2). split; [rewrite !concat_app; cbn; by rewrite <- app_assoc|].
  apply Forall2_app; [done|]. constructor; [|done]. cbn. split; [done|]. rewrite zlen_app. lia.
Qed.
Lemma spells_steps v mm ss ss' ts : consistent v → merges_concat v mm → rtc (merge_step mm) ss ss' → spells v ss ts →
  ∃ ts', concat ts' = concat ts ∧ spells v ss' ts'.
Proof.
  intros Hc Hm H. revert ts. induction H as [ss|ss st ss' Hst _ IH]; intros ts Hs; [by exists ts|].
  destruct (spells_step _ _ _ _ _ Hc Hm Hst Hs) as (t1 & E1 & H1). destruct (IH t1 H1) as (t2 & E2 & H2). exists t2. split; [congruence|done].
Qed.

(** Known characters spell the text. *)
Lemma spells_start m rs ss ou : b_prefix m = [] → b_suffix m = [] → Forall (λ r, is_Some (get_id (b_vocab m) (encode_rune r))) rs →
  group_syms (b_fuse m) ou (char_classes m rs) ss → spells (b_vocab m) ss (map encode_rune rs).
Proof.
  intros Hp Hs. unfold char_classes, char_terms. rewrite Hp, Hs.
  assert (imap (λ i r, (if decide (i = 0%nat) then [] else []) ++ encode_rune r ++ (if decide (S i = length rs) then [] else [])) rs = map encode_rune rs) as ->.
  { apply list_eq. intros k. rewrite list_lookup_imap, (list_lookup_fmap _ rs). destruct (rs !! k); [|done]. cbn. f_equal.
    repeat case_decide; cbn; by rewrite app_nil_r. }
  revert ss. induction rs as [|r rs IH]; intros ss Hk G; cbn in *.
  - inversion G as [| | | |u ns cs ss' _ _ Hne _ _ E]; subst; [constructor|]. destruct ns; done.
  - apply Forall_cons in Hk as [[i Hi] Hk]. rewrite Hi in G. inversion G as [|i' n cs ss' G' E| | |u ns cs ss' _ _ Hne _ G' E]; subst.
    + constructor; [|by apply IH]. cbn. done.
    + destruct ns; done.
Qed.

(** Tokens of symbols that spell a text quote it. *)
Lemma toks_quote v pre ss txt : consistent v → spells v ss txt →
  ∃ ts, toks_of v (zlen pre) ss ts ∧ map t_value ts = txt ∧
  Forall (λ t, text_at (pre ++ concat txt) (o_start (t_offsets t)) (o_end (t_offsets t)) (t_value t)
     ∧ get_id v (t_value t) = Some (t_id t) ∧ get_string v (t_id t) = Some (t_value t)) ts.
Proof.
  intros Hc H. revert pre. induction H as [|[i n] t ss txt [Hi Hn] _ IH]; intros pre.
  - exists []. split; [constructor|]. split; [done|constructor].
  - cbn in Hi, Hn. destruct (IH (pre ++ t)) as (ts & H1 & H2 & H3). rewrite zlen_app, <- Hn in H1.
    exists (Token i t (Offsets (zlen pre) (zlen pre + n)) :: ts). split; [constructor; [by apply Hc|done]|]. split; [cbn; by f_equal|].
    constructor.
    + cbn. split; [|split; [done|by apply Hc]]. exists pre, (concat txt). split; [done|]. split; [done|]. lia.
    + eapply Forall_impl; [exact H3|]. cbn. rewrite <- app_assoc. done.
Qed.
Lemma toks_of_fun v o ss ts ts' : toks_of v o ss ts → toks_of v o ss ts' → ts = ts'.
Proof.
  intros H. revert ts'. induction H as [o|o i n x ss ts Hx H IH]; intros ts' H'; inversion H'; subst; [done|]. simplify_eq. f_equal. by apply IH.
Qed.
Lemma toks_of_some v o ss ts s : toks_of v o ss ts → s ∈ ss → is_Some (get_string v s.1).
Proof. induction 1 as [|o i n x ss ts Hx _ IH]; [by intros ?%elem_of_nil|]. intros [->|H]%elem_of_cons; [cbn; eauto|by apply IH]. Qed.

Lemma rtc_bpe_merge mm s s' : rtc (bpe_step mm) s s' → rtc (merge_step mm) s s'.
Proof. induction 1 as [|s t s' [l a la b lb r m Hm _] _ IH]; [done|]. eapply rtc_l; [by constructor|done]. Qed.

(** The size of an ID: the length of its term. *)
Definition term_size (v : vocab) (i : Z) : Z := match get_string v i with Some t => zlen t | None => 0 end.
Lemma loaded_additive v mm : consistent v → merges_concat v mm → additive mm (term_size v).
Proof.
  intros Hc Hm a b m Hab _ _. destruct (Hm _ _ _ Hab) as (t0 & t1 & H0%Hc & H1%Hc & H2%Hc). unfold term_size.
  by rewrite H0, H1, H2, zlen_app.
Qed.

(** * Uniqueness of the grouping *)
Lemma none_run_unique ns ns' (cs cs' : list (option Z * Z)) :
  (∀ n r, cs ≠ (None, n) :: r) → (∀ n r, cs' ≠ (None, n) :: r) →
  map (pair None) ns ++ cs = map (pair None) ns' ++ cs' → ns = ns' ∧ cs = cs'.
Proof.
  intros H H'. revert ns'. induction ns as [|n ns IH]; intros [|n' ns'] E; cbn in E.
  - done.
  - by destruct (H n' _ E).
  - symmetry in E. by destruct (H' n _ E).
  - injection E as -> E. destruct (IH ns' E) as [-> ->]. done.
Qed.
Lemma group_unique fuse ou cs ss ss' : group_syms fuse ou cs ss → group_syms fuse ou cs ss' → ss = ss'.
Proof.
  intros G. revert ss'. induction G as [|i n cs ss G IH|n cs ss Hou G IH|u n cs ss Hou Hf G IH|u ns cs ss Hou Hf Hne Hcs G IH]; intros ss' G'.
  - inversion G' as [| | | |u ns cs ss'' _ _ Hne _ _ E]; subst; [done|]. by destruct ns.
  - inversion G' as [|i' n' cs' ss'' G'' E| | |u ns cs' ss'' _ _ Hne _ _ E]; subst; [by rewrite (IH _ G'')|]. by destruct ns.
  - inversion G' as [| |n' cs' ss'' _ G'' E|u n' cs' ss'' Hou' _ G'' E|u ns cs' ss'' Hou' _ Hne _ _ E]; subst; [by apply IH|done..].
  - inversion G' as [| |n' cs' ss'' Hou' G'' E|u' n' cs' ss'' Hou' _ G'' E|u' ns cs' ss'' Hou' Hf' Hne _ _ E]; subst; [done| |done].
    injection Hou' as ->. by rewrite (IH _ G'').
  - inversion G' as [E|i n' cs' ss'' G'' E|n' cs' ss'' Hou' G'' E|u' n' cs' ss'' Hou' Hf' G'' E|u' ns' cs' ss'' Hou' Hf' Hne' Hcs' G'' E]; subst.
    + by destruct ns.
    + by destruct ns.
    + done.
    + done.
    + injection Hou' as ->. destruct (none_run_unique _ _ _ _ Hcs Hcs' (eq_sym E)) as [-> ->]. by rewrite (IH _ G'').
Qed.

(** * Total *)
Lemma tokenize_total m s draws : ∃ res, bpe_tokenize m s draws = Some (Ret res).
Proof.
  destruct (decide (s = [])) as [->|Hs]; [by exists (Ok [])|].
  destruct (decide (has_unk m = true ∧ get_id (b_vocab m) (b_unk m) = None)) as [[Hu Hn]|Hu].
  - exists (Err EUnknownTokenOutOfVocabulary). unfold bpe_tokenize, merge_word. rewrite Hu, Hn.
    destruct s; [done|]. rewrite zlen_cons. pose proof (zlen_nonneg s). destruct (Z.eqb_spec (1 + zlen s) 0); [lia|done].
  - destruct (tokenize_split m s draws Hs) as (ss & _ & Hp & H).
    { intros E. destruct (get_id (b_vocab m) (b_unk m)) eqn:E'; [eauto|]. by destruct Hu. }
    destruct (merge_all_steps (b_merges m) (dropped_at (b_dropout m) draws) ss Hp) as (w' & E & _).
    destruct (H (word_syms w')) as (res & E' & _); eauto.
Qed.

(** * The cache *)
Lemma merge_word_draws m s d1 d2 : (b_dropout m <= 0)%Q → merge_word m s d1 = merge_word m s d2.
Proof.
  intros H. unfold merge_word, merge_all.
  assert (Hext : ∀ w, merge_all_with w (b_merges m) (dropped_at (b_dropout m) d1) = merge_all_with w (b_merges m) (dropped_at (b_dropout m) d2)).
  { intros w. apply merge_all_with_ext. intros k. by rewrite !dropped_none. }
  destruct (has_unk m); [destruct (get_id _ _); [|done]|]; by rewrite Hext.
Qed.
