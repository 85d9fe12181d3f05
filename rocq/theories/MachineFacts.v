(** Proofs for C108. *)
From Coq Require Import ZifyBool ZifyNat QArith.
From stdpp Require Import relations.
From Verif Require Import GoBase Utf8Facts Strutils Vocab MergeMap Heap Bpe NormString SpecBpe SpecDrop SpecMachine SpecInvalid Machine SliceFacts BpeWord BpeLoop BpeTok BpeFacts NormEdits.
Import GoBase.
#[local] Open Scope Z_scope.

Section int.
Context (h : Z) (Hh : 0 < h).

Lemma wrap_id z : fits h z → wrap h z = z.
Proof. unfold fits, wrap. intros H. rewrite Z.mod_small by lia. lia. Qed.
Lemma wrap_fits z : fits h (wrap h z).
Proof. unfold fits, wrap. pose proof (Z.mod_pos_bound (z + h) (2 * h) ltac:(lia)). lia. Qed.

(** * MergeAll *)
(** The lengths together, whatever the links are. *)
Definition mass (w : word) : Z := foldr (λ s a, Z.abs (ws_len s) + a) 0 w.
Lemma mass_cons s w : mass (s :: w) = Z.abs (ws_len s) + mass w.
Proof. done. Qed.
Lemma mass_nonneg w : 0 <= mass w.
Proof. induction w as [|s w IH]; [done|]. rewrite mass_cons. lia. Qed.
Lemma mass_alter w i s f : w !! i = Some s → mass (alter f i w) = mass w - Z.abs (ws_len s) + Z.abs (ws_len (f s)).
Proof.
  revert i. induction w as [|x w IH]; intros [|i] H; [done..| |].
  - injection H as ->. change (alter f 0%nat (s :: w)) with (f s :: w). rewrite !mass_cons. lia.
  - change (alter f (S i) (x :: w)) with (x :: alter f i w). rewrite !mass_cons, (IH _ H). lia.
Qed.
Lemma mass_one w i s : w !! i = Some s → Z.abs (ws_len s) <= mass w.
Proof.
  revert i. induction w as [|x w IH]; intros [|i] H; [done..| |]; rewrite mass_cons.
  - injection H as ->. pose proof (mass_nonneg w). lia.
  - specialize (IH _ H). lia.
Qed.
Lemma mass_two w i j s t : i ≠ j → w !! i = Some s → w !! j = Some t → Z.abs (ws_len s) + Z.abs (ws_len t) <= mass w.
Proof.
  revert i j. induction w as [|x w IH]; intros [|i] [|j] Hn H1 H2; try done; rewrite mass_cons.
  - injection H1 as ->. pose proof (mass_one w j t H2). lia.
  - injection H2 as ->. pose proof (mass_one w i s H1). lia.
  - specialize (IH i j ltac:(lia) H1 H2). lia.
Qed.

Lemma idx_Ret {A} (l : list A) i x : idx l i = Ret x → 0 <= i ∧ l !! Z.to_nat i = Some x.
Proof. unfold idx. destruct (0 <=? i) eqn:E; [|done]. destruct (l !! _) eqn:E'; [|done]. intros [= ->]. split; [lia|done]. Qed.
Lemma upd_Ret w i f w' : upd w i f = Ret w' → ∃ s, 0 <= i ∧ w !! Z.to_nat i = Some s ∧ w' = alter f (Z.to_nat i) w.
Proof. unfold upd. intros H. apply bind_Ret in H as (s & H1 & H2). injection H2 as <-. apply idx_Ret in H1 as [H1 H3]. by exists s. Qed.

Definition link (pos : Z) (s : wsym) : wsym := WSym (ws_id s) (ws_len s) pos (ws_next s).
Lemma mass_link w i pos : mass (alter (link pos) i w) = mass w.
Proof.
  destruct (w !! i) as [s|] eqn:E; [rewrite (mass_alter _ _ _ _ E); cbn; lia|].
  rewrite (list_alter_ext (link pos) id w w i), list_alter_id; try done. intros x Hx. by rewrite E in Hx.
Qed.

Lemma do_merge_int_same w pos nextPos right newID : mass w < h → idx w nextPos = Ret right →
  do_merge_int h w pos nextPos right newID = do_merge w pos nextPos right newID
  ∧ ∀ w', do_merge w pos nextPos right newID = Ret w' → mass w' <= mass w.
Proof.
  intros Hm Hr. apply idx_Ret in Hr as [Hr0 Hr]. unfold do_merge_int, do_merge, upd.
  destruct (idx w pos) as [s|] eqn:Ep; [|by split]. cbn [mbind outcome_bind]. apply idx_Ret in Ep as [Hp0 Hp].
  set (f64 := λ s0 : wsym, WSym newID (wrap h (ws_len s0 + ws_len right)) (ws_prev s0) (ws_next right)).
  set (f := λ s0 : wsym, WSym newID (ws_len s0 + ws_len right) (ws_prev s0) (ws_next right)).
  set (g := λ s0 : wsym, WSym (ws_id s0) 0 (ws_prev s0) (ws_next s0)).
  change (λ s0 : wsym, WSym (ws_id s0) (ws_len s0) pos (ws_next s0)) with (link pos).
  destruct (decide (Z.to_nat pos = Z.to_nat nextPos)) as [E|E].
  - assert (pos = nextPos) as <- by lia. rewrite Hp in Hr. injection Hr as <-.
    assert (Ei : ∀ k, idx (alter k (Z.to_nat pos) w) pos = Ret (k s)).
    { intros k. unfold idx. destruct (Z.leb_spec 0 pos); [|lia]. by rewrite list_lookup_alter, Hp. }
    rewrite !Ei. cbn [mbind outcome_bind]. rewrite <- !list_alter_compose.
    assert (alter (g ∘ f64) (Z.to_nat pos) w = alter (g ∘ f) (Z.to_nat pos) w) as -> by (by apply list_alter_ext).
    split; [done|]. intros w' H.
    assert (Hle : mass (alter (g ∘ f) (Z.to_nat pos) w) <= mass w). { rewrite (mass_alter _ _ _ _ Hp). cbn. lia. }
    destruct (_ && _); [|by injection H as <-]. apply bind_Ret in H as (s' & _ & H). injection H as <-. by rewrite mass_link.
  - pose proof (mass_two _ _ _ _ _ E Hp Hr) as Hs.
    assert (alter f64 (Z.to_nat pos) w = alter f (Z.to_nat pos) w) as ->.
    { apply list_alter_ext; [|done]. intros x Hx. rewrite Hp in Hx. injection Hx as <-. unfold f64, f. rewrite wrap_id; [done|]. unfold fits. lia. }
    split; [done|]. intros w' H. set (w1 := alter f (Z.to_nat pos) w) in *.
    assert (E1 : w1 !! Z.to_nat nextPos = Some right). { unfold w1. by rewrite list_lookup_alter_ne. }
    assert (Ei : idx w1 nextPos = Ret right). { unfold idx. destruct (Z.leb_spec 0 nextPos); [|lia]. by rewrite E1. }
    rewrite Ei in H. cbn [mbind outcome_bind] in H.
    assert (Hle : mass (alter g (Z.to_nat nextPos) w1) <= mass w).
    { rewrite (mass_alter _ _ _ _ E1). unfold w1. rewrite (mass_alter _ _ _ _ Hp). cbn. lia. }
    destruct (_ && _); [|by injection H as <-]. apply bind_Ret in H as (s' & _ & H). injection H as <-. by rewrite mass_link.
Qed.

Lemma merge_iter_int_same mm d st : mass (m_w st) < h →
  merge_iter_int h mm d st = merge_iter mm d st ∧ ∀ st', merge_iter mm d st = Ret st' → mass (m_w st') <= mass (m_w st).
Proof.
  intros Hm. unfold merge_iter_int, merge_iter. destruct (heap_pop _) as [[top q]|]; [|done]. cbn [mbind outcome_bind].
  destruct d; [split; [done|]; intros st' H; by injection H as <-|]. destruct (heap_push_all _ _) as [q1|]; [|done]. cbn [mbind outcome_bind].
  destruct (idx (m_w st) (wm_pos top)) as [cur|]; [|done]. cbn [mbind outcome_bind].
  destruct (_ || _); [split; [done|]; intros st' H; by injection H as <-|].
  destruct (idx (m_w st) (ws_next cur)) as [right|] eqn:Er; [|done]. cbn [mbind outcome_bind].
  destruct (mm_get _ _ _) as [m|]; [|split; [done|]; intros st' H; by injection H as <-].
  destruct (negb _); [split; [done|]; intros st' H; by injection H as <-|].
  destruct (do_merge_int_same (m_w st) (wm_pos top) (ws_next cur) right (wm_id top) Hm Er) as [-> Hle]. split; [done|]. intros st' H.
  apply bind_Ret in H as (w' & Hw & H). apply bind_Ret in H as (q2 & _ & H). injection H as <-. by apply Hle.
Qed.

Lemma merge_loop_int_same fuel mm drop st : mass (m_w st) < h →
  merge_loop_int h fuel mm drop st = merge_loop fuel mm drop st ∧ ∀ st', merge_loop fuel mm drop st = Some (Ret st') → mass (m_w st') <= mass (m_w st).
Proof.
  revert st. induction fuel as [|fuel IH]; intros st Hm; cbn [merge_loop_int merge_loop]; destruct (m_q st); try (split; [done|]; intros st' H; by injection H as <-); [by split|].
  destruct (merge_iter_int_same mm (drop (m_draws st)) st Hm) as [-> Hle]. destruct (merge_iter _ _ _) as [st1|] eqn:E; [|by split].
  specialize (Hle _ eq_refl). destruct (IH st1) as [-> H]; [lia|]. split; [done|]. intros st' H'. apply H in H'. lia.
Qed.
Lemma mass_filter (P : wsym → Prop) `{∀ x, Decision (P x)} w : mass (filter P w) <= mass w.
Proof. induction w as [|s w IH]; [done|]. rewrite filter_cons, mass_cons. destruct (decide _); rewrite ?mass_cons; lia. Qed.
Lemma merge_all_int_same w mm drop : mass w < h →
  merge_all_int h w mm drop = merge_all_with w mm drop ∧ ∀ w', merge_all_with w mm drop = Some (Ret w') → mass w' <= mass w.
Proof.
  intros Hm. unfold merge_all_int, merge_all_with. destruct (initial_queue _ _ _ _) as [q|]; [|by split].
  destruct (merge_loop_int_same (merge_fuel w) mm drop (MState w q [] 0) Hm) as [-> H]. split; [done|]. intros w' H'.
  destruct (merge_loop _ _ _ _) as [[st|]|]; [|done..]. injection H' as <-. specialize (H _ eq_refl). cbn in H. unfold remove_empty.
  etrans; [apply mass_filter|done].
Qed.

(** With wrapping, nothing ever leaves the range. *)
Definition all_fit (w : word) : Prop := Forall (λ s, fits h (ws_len s)) w.
Lemma all_fit_alter w i f : (∀ s, fits h (ws_len s) → fits h (ws_len (f s))) → all_fit w → all_fit (alter f i w).
Proof. intros Hf H. unfold all_fit in *. rewrite Forall_forall in *. intros s Hs. apply elem_of_list_lookup in Hs as [k Hs].
  destruct (decide (i = k)) as [<-|Hn].
  - rewrite list_lookup_alter in Hs. destruct (w !! i) as [x|] eqn:E; [|done]. injection Hs as <-. apply Hf, H. by eapply elem_of_list_lookup_2.
  - rewrite list_lookup_alter_ne in Hs by done. apply H. by eapply elem_of_list_lookup_2.
Qed.
Lemma do_merge_int_fit w pos nextPos right newID w' : all_fit w → do_merge_int h w pos nextPos right newID = Ret w' → all_fit w'.
Proof.
  intros Hw H. unfold do_merge_int in H. apply bind_Ret in H as (w1 & H1 & H). apply bind_Ret in H as (w2 & H2 & H).
  apply upd_Ret in H1 as (s1 & _ & _ & ->). apply upd_Ret in H2 as (s2 & _ & _ & ->).
  assert (all_fit (alter (λ s, WSym (ws_id s) 0 (ws_prev s) (ws_next s)) (Z.to_nat nextPos)
    (alter (λ s, WSym newID (wrap h (ws_len s + ws_len right)) (ws_prev s) (ws_next right)) (Z.to_nat pos) w))) as H2.
  { apply all_fit_alter; [intros s _; cbn; unfold fits; lia|]. apply all_fit_alter; [intros s _; apply wrap_fits|done]. }
  destruct (_ && _); [|by injection H as <-]. apply upd_Ret in H as (s3 & _ & _ & ->). by apply all_fit_alter.
Qed.
Lemma merge_iter_int_fit mm d st st' : all_fit (m_w st) → merge_iter_int h mm d st = Ret st' → all_fit (m_w st').
Proof.
  intros Hw E1. unfold merge_iter_int in E1. apply bind_Ret in E1 as ([top q] & _ & E1). destruct d; [by injection E1 as <-|].
  apply bind_Ret in E1 as (q1 & _ & E1). apply bind_Ret in E1 as (cur & _ & E1). destruct (_ || _); [by injection E1 as <-|].
  apply bind_Ret in E1 as (rt & _ & E1). destruct (mm_get _ _ _); [|by injection E1 as <-]. destruct (negb _); [by injection E1 as <-|].
  apply bind_Ret in E1 as (w' & Hd & E1). apply bind_Ret in E1 as (q2 & _ & E1). injection E1 as <-. by eapply do_merge_int_fit.
Qed.
Lemma merge_all_int_fit w mm drop w' : all_fit w → merge_all_int h w mm drop = Some (Ret w') → all_fit w'.
Proof.
  intros Hw H. unfold merge_all_int in H. destruct (initial_queue _ _ _ _) as [q|]; [|done].
  assert (Hl : ∀ fuel st st', all_fit (m_w st) → merge_loop_int h fuel mm drop st = Some (Ret st') → all_fit (m_w st')).
  { clear -Hh. induction fuel as [|fuel IH]; intros st st' Hs H; cbn [merge_loop_int] in H; destruct (m_q st); try (by injection H as <-); [done|].
    destruct (merge_iter_int h mm (drop (m_draws st)) st) as [st1|] eqn:E; [|done]. eapply IH; [|done]. by eapply merge_iter_int_fit. }
  destruct (merge_loop_int h _ mm drop _) as [[st|]|] eqn:E; [|done..]. injection H as <-. apply Hl in E; [|done].
  unfold all_fit, remove_empty in *. rewrite Forall_forall in *. intros s Hs. apply elem_of_list_filter in Hs as [_ Hs]. by apply E.
Qed.

(** * Words and tokens *)
Lemma mass_app w w' : mass (w ++ w') = mass w + mass w'.
Proof. induction w as [|s w IH]; [done|]. cbn [app]. rewrite !mass_cons. lia. Qed.
Lemma mass_add w i len : mass (word_add w i len) = mass w + Z.abs len.
Proof.
  unfold word_add. rewrite mass_app, mass_cons. cbn [ws_len]. change (mass []) with 0.
  assert (mass (if negb (zlen w - 1 =? -1) then alter (λ s, WSym (ws_id s) (ws_len s) (ws_prev s) (zlen w)) (Z.to_nat (zlen w - 1)) w else w) = mass w); [|lia].
  destruct (negb _); [|done]. destruct (w !! Z.to_nat (zlen w - 1)) as [s|] eqn:E.
  - rewrite (mass_alter _ _ _ _ E). cbn. lia.
  - rewrite (list_alter_ext _ id w w), list_alter_id; try done. intros x Hx. by rewrite E in Hx.
Qed.
Lemma mass_word_of ss : Forall (λ s, 0 <= s.2) ss → mass (word_of ss) = sym_bytes ss.
Proof.
  intros H. unfold word_of. change (sym_bytes ss) with (mass [] + sym_bytes ss). generalize (@nil wsym). induction H as [|s ss Hs _ IH]; intros w; cbn [foldl].
  - cbn. lia.
  - rewrite IH, mass_add. change (sym_bytes (s :: ss)) with (s.2 + sym_bytes ss). lia.
Qed.

Definition pending (unk : option (Z * Z)) : Z := match unk with Some u => u.2 | None => 0 end.
Lemma symbols_loop_int_same m unkID rs i last unk w : 0 <= pending unk → mass w + pending unk + zlen (encode rs) < h →
  symbols_loop_int h m unkID rs i last unk w = symbols_loop m unkID rs i last unk w
  ∧ mass (symbols_loop m unkID rs i last unk w) <= mass w + pending unk + zlen (encode rs).
Proof.
  revert i unk w. induction rs as [|r rs IH]; intros i unk w Hu Hm; cbn [symbols_loop_int symbols_loop].
  - split; [done|]. change (zlen (encode [])) with 0 in *. destruct unk as [[uid ulen]|]; cbn [pending snd] in *; [rewrite mass_add|]; lia.
  - assert (E : zlen (encode (r :: rs)) = rune_len r + zlen (encode rs)).
    { unfold encode, rune_len, zlen. cbn [flat_map]. rewrite app_length. lia. }
    rewrite E in *. assert (0 <= rune_len r) by (unfold rune_len, zlen; lia). assert (0 <= zlen (encode rs)) by (unfold zlen; lia).
    pose proof (mass_nonneg w) as Hw. destruct (get_id _ _) as [id|].
    + destruct unk as [[uid ulen]|]; cbn [pending snd] in *.
      * destruct (IH (i + 1) None (word_add (word_add w uid ulen) id (rune_len r))) as [-> H']; cbn [pending snd] in *; rewrite ?mass_add in *; [lia..|]. split; [done|]. lia.
      * destruct (IH (i + 1) None (word_add w id (rune_len r))) as [-> H']; cbn [pending snd] in *; rewrite ?mass_add in *; [lia..|]. split; [done|]. lia.
    + destruct (has_unk m).
      * destruct unk as [[uid ulen]|]; cbn [pending snd] in *.
        -- destruct (b_fuse m).
           ++ rewrite wrap_id by (unfold fits; lia). destruct (IH (i + 1) (Some (uid, ulen + rune_len r)) w) as [-> H']; cbn [pending snd] in *; [lia..|]. split; [done|]. lia.
           ++ destruct (IH (i + 1) (Some (unkID, rune_len r)) (word_add w uid ulen)) as [-> H']; cbn [pending snd] in *; rewrite ?mass_add in *; [lia..|]. split; [done|]. lia.
        -- destruct (IH (i + 1) (Some (unkID, rune_len r)) w) as [-> H']; cbn [pending snd] in *; [lia..|]. split; [done|]. lia.
      * destruct (IH (i + 1) unk w) as [-> H']; [done|lia|]. split; [done|]. lia.
Qed.

Lemma word_to_tokens_int_same m w start : Z.abs start + mass w < h → word_to_tokens_int h m w start = word_to_tokens m w start.
Proof.
  revert start. induction w as [|s w IH]; intros start Hm; cbn [word_to_tokens_int word_to_tokens]; [done|].
  rewrite mass_cons in Hm. pose proof (mass_nonneg w). destruct (get_string _ _); [|done]. rewrite wrap_id by (unfold fits; lia). by rewrite IH by lia.
Qed.

Lemma tokenize_int_same m s draws : zlen (encode (runes s)) < h → bpe_tokenize_int h m s draws = bpe_tokenize m s draws.
Proof.
  intros Hs. unfold bpe_tokenize_int, bpe_tokenize. destruct (zlen s =? 0); [done|]. unfold merge_word_int, merge_word, merge_all.
  assert (H : ∀ u, let w := symbols_loop m u (runes s) 0 (zlen (runes s) - 1) None [] in
    symbols_loop_int h m u (runes s) 0 (zlen (runes s) - 1) None [] = w
    ∧ merge_all_int h w (b_merges m) (dropped_at (b_dropout m) draws) = merge_all_with w (b_merges m) (dropped_at (b_dropout m) draws)
    ∧ ∀ w', merge_all_with w (b_merges m) (dropped_at (b_dropout m) draws) = Some (Ret w') → word_to_tokens_int h m w' 0 = word_to_tokens m w' 0).
  { intros u w. destruct (symbols_loop_int_same m u (runes s) 0 (zlen (runes s) - 1) None []) as [E Hm]; [done|done|].
    change (mass [] + pending None) with 0 in Hm. fold w in E, Hm.
    destruct (merge_all_int_same w (b_merges m) (dropped_at (b_dropout m) draws)) as [E' Hm']; [lia|]. split; [done|]. split; [done|].
    intros w' Hw. apply word_to_tokens_int_same. apply Hm' in Hw. lia. }
  destruct (has_unk m); [destruct (get_id _ _) as [u|]; [|done]|];
    [specialize (H u)|specialize (H 0)]; destruct H as (-> & -> & H); destruct (merge_all_with _ _ _) as [[w'|]|]; try done; by rewrite (H w' eq_refl).
Qed.

(** * TransformRange *)
Lemma encode_cons r rs : zlen (encode (r :: rs)) = rune_len r + zlen (encode rs).
Proof. unfold encode, rune_len, zlen. cbn [flat_map]. rewrite app_length. lia. Qed.
Lemma zlen_encode_app rs rs' : zlen (encode (rs ++ rs')) = zlen (encode rs) + zlen (encode rs').
Proof. unfold encode, zlen. rewrite flat_map_app, app_length. lia. Qed.
Lemma tr_loop_int_same al dest offset rs : Forall (λ c, fits h c.2) dest → zlen rs < h → 0 <= offset → offset + zlen (encode rs) < h →
  tr_loop_int h al dest offset rs = tr_loop al dest offset rs.
Proof.
  intros Hd. revert offset rs. induction Hd as [|[r change] dest Hc _ IH]; intros offset rs Hl H0 Ho; cbn [tr_loop_int tr_loop]; [done|]. cbn in Hc.
  assert (He : ∀ l : list Z, 0 <= zlen l) by (intros; unfold zlen; lia).
  assert (E1 : offset <? 1 = false → wrap h (offset - 1) = offset - 1). { intros H. apply wrap_id. pose proof (He (encode rs)). unfold fits. lia. }
  assert (EA : (if 1 <=? change then if offset <? 1 then Ret (0, 0) else idx al (wrap h (offset - 1)) else idx al offset)
             = (if 1 <=? change then if offset <? 1 then Ret (0, 0) else idx al (offset - 1) else idx al offset)).
  { destruct (1 <=? change); [|done]. destruct (offset <? 1); [done|]. by rewrite E1. }
  rewrite EA. clear EA E1. destruct (if 1 <=? change then _ else _) as [a|]; [|done]. cbn [mbind outcome_bind].
  destruct (change <=? 0) eqn:E0.
  - destruct rs as [|r0 rs]; [done|]. cbn [mbind outcome_bind]. rewrite encode_cons in Ho. assert (0 <= rune_len r0) by (unfold rune_len, zlen; lia).
    assert (zlen rs < h) by (unfold zlen in *; cbn [length] in *; lia). pose proof (He (encode rs)).
    destruct (change <=? -1) eqn:E.
    + destruct (decide (change = - h)) as [->|Hne].
      { assert (wrap h (- - h) = - h) as -> by (unfold wrap; rewrite Z.opp_involutive, Z.add_diag, Z.mod_same by lia; lia).
        assert (sub rs 0 (- h) = Panic) as -> by (unfold sub; destruct (_ && _ && _) eqn:Ec; [lia|done]).
        assert (sub rs 0 (- - h) = Panic) as -> by (unfold sub; destruct (_ && _ && _) eqn:Ec; [lia|done]). done. }
      rewrite (wrap_id (- change)) by (unfold fits in *; lia). destruct (sub rs 0 (- change)) as [removed|] eqn:Er; [|done]. cbn [mbind outcome_bind].
      destruct (sub rs (- change) (zlen rs)) as [rest|] eqn:Es; [|done]. cbn [mbind outcome_bind].
      assert (Ers : rs = removed ++ rest).
      { unfold sub in Er, Es. destruct (_ && _); [|done]. destruct (_ && _); [|done]. injection Er as <-. injection Es as <-.
        rewrite Z.sub_0_r, drop_0. rewrite (take_ge (drop _ rs)) by (rewrite drop_length; unfold zlen; lia). by rewrite take_drop. }
      assert (EL : zlen (encode rs) = zlen (encode removed) + zlen (encode rest)) by (by rewrite Ers, zlen_encode_app).
      assert (zlen rest <= zlen rs). { rewrite Ers. unfold zlen. rewrite app_length. lia. }
      pose proof (He (encode removed)). pose proof (He (encode rest)). rewrite !wrap_id by (rewrite ?wrap_id; unfold fits; lia). rewrite IH by lia. done.
    + cbn [mbind outcome_bind]. rewrite !Z.add_0_r, !wrap_id by (rewrite ?wrap_id; unfold fits; lia). rewrite IH by lia. done.
  - cbn [mbind outcome_bind]. destruct (change <=? -1) eqn:E; [lia|]. cbn [mbind outcome_bind]. pose proof (He (encode rs)).
    rewrite !Z.add_0_r, !wrap_id by (rewrite ?wrap_id; unfold fits; lia). rewrite IH by lia. done.
Qed.
Lemma encode_runes_most s : zlen (encode (runes s)) <= 3 * zlen s.
Proof.
  rewrite <- (decode_widths s). unfold runes. pose proof (decode_props_aux (length s) s ltac:(lia)) as H. induction H as [|[r w] d [_ Hp] _ IH]; [done|].
  rewrite !fmap_cons, encode_cons. cbn [fst snd foldr]. destruct Hp as [[= -> ->]|Hw].
  - change (rune_len rune_error) with 3. lia.
  - cbn in Hw. assert (0 <= rune_len r) by (unfold rune_len, zlen; lia). lia.
Qed.
Lemma sub_Ret {A} (l : list A) i j l' : sub l i j = Ret l' → 0 <= i <= j ∧ j <= zlen l ∧ zlen l' = j - i.
Proof.
  unfold sub. destruct (_ && _ && _) eqn:E; [|done]. intros [= <-]. split; [lia|]. split; [lia|].
  unfold zlen in *. rewrite take_length, drop_length. lia.
Qed.
Lemma runes_most s : zlen (runes s) <= zlen s.
Proof.
  rewrite <- (decode_widths s). unfold runes. pose proof (decode_widths_pos s) as H. induction H as [|[r w] d Hw _ IH]; [done|].
  rewrite fmap_cons, fmap_cons. cbn [fst snd foldr] in *. unfold zlen in *. cbn [length]. lia.
Qed.

Lemma transform_range_int_same n r dest off : 4 * zlen (ns_norm n) < h → Forall (λ c, fits h c.2) dest →
  transform_range_int h n r dest off = transform_range n r dest off.
Proof.
  intros Hn Hd. unfold transform_range_int, transform_range. destruct (coerce_to_norm n r) as [[s e] ok]. destruct (negb ok); [done|].
  destruct (sub (ns_norm n) s e) as [replaced|] eqn:E1; [|done]. cbn [mbind outcome_bind].
  destruct (sub replaced 0 off) as [removed|] eqn:E2; [|done]. cbn [mbind outcome_bind].
  destruct (sub replaced off (zlen replaced)) as [rest|] eqn:E3; [|done]. cbn [mbind outcome_bind].
  apply sub_Ret in E1 as (E1a & E1b & E1c). apply sub_Ret in E2 as (E2a & E2b & E2c). apply sub_Ret in E3 as (E3a & E3b & E3c).
  pose proof (encode_runes_most rest). pose proof (runes_most rest). rewrite wrap_id by (unfold fits; lia). rewrite tr_loop_int_same by (done || lia). done.
Qed.

(** * The bound is exact *)
Definition merge_any (ids : list Z) (c : Z) : merge_map := list_to_map (map (λ p, (p, MergeValue 0 c)) (list_prod ids ids)).
Lemma merge_any_lookup ids c a b : a ∈ ids → b ∈ ids → merge_any ids c !! (a, b) = Some (MergeValue 0 c).
Proof.
  intros Ha Hb. unfold merge_any. destruct (list_to_map _ !! (a, b)) as [m|] eqn:E.
  - apply elem_of_list_to_map_2 in E. apply elem_of_list_In, in_map_iff in E as (p & E & _). by injection E as _ <-.
  - exfalso. apply not_elem_of_list_to_map_2 in E. apply E. apply elem_of_list_In, in_map_iff. exists ((a, b), MergeValue 0 c). split; [done|].
    apply in_map_iff. exists (a, b). split; [done|]. apply in_prod; by apply elem_of_list_In.
Qed.
Lemma merge_any_value ids c a b m : merge_any ids c !! (a, b) = Some m → m = MergeValue 0 c.
Proof. unfold merge_any. intros E. apply elem_of_list_to_map_2 in E. apply elem_of_list_In, in_map_iff in E as (p & E & _). by injection E as _ <-. Qed.
Lemma merge_any_all ss drop : (∀ k, drop k = false) → Forall (λ s, 0 < s.2) ss → ss ≠ [] →
  ∃ w s, merge_all_with (word_of ss) (merge_any ss.*1 (default 0 (head ss.*1))) drop = Some (Ret w) ∧ word_syms w = [s] ∧ s.2 = sym_bytes ss.
Proof.
  intros Hd Hp Hne. set (c := default 0 (head ss.*1)). set (mm := merge_any ss.*1 c).
  destruct (merge_all_steps mm drop ss Hp) as (w & E & Hs). destruct (merge_all_saturates mm drop ss Hd Hp) as (w' & E' & Hsat).
  rewrite E in E'. injection E' as <-. exists w.
  assert (Hc : c ∈ ss.*1). { unfold c. destruct ss as [|[a la] ss']; [done|]. by left. }
  assert (Hin : ∀ t, rtc (merge_step mm) ss t → t ≠ [] ∧ Forall (λ s, s.1 ∈ ss.*1) t).
  { refine (rtc_ind_r (λ t, t ≠ [] ∧ Forall (λ s, s.1 ∈ ss.*1) t) ss _ _); [|intros t t' _ Hst IH].
    - split; [done|]. rewrite Forall_forall. intros s Hs'. apply elem_of_list_fmap. by exists s.
    - destruct IH as [_ IH]. destruct Hst as [l a la b lb r m Hm]. apply merge_any_value in Hm as ->. split; [by destruct l|].
      apply Forall_app in IH as [IH1 IH2]. apply Forall_app. split; [done|]. inversion IH2 as [|? ? _ IH3]. inversion IH3. by constructor. }
  destruct (Hin _ Hs) as [Hn Hall]. pose proof (merge_steps_total _ _ _ Hs) as Ht. destruct (word_syms w) as [|[a la] [|[b lb] r]] eqn:Ew; [done| |].
  - exists (a, la). split; [done|]. split; [done|]. cbn in *. lia.
  - exfalso. inversion Hall as [|? ? Ha Hall']. inversion Hall' as [|? ? Hb _]. apply (Hsat 0%nat (MergeValue 0 c)).
    exists [], a, la, b, lb, r. split; [done|]. split; [done|]. by apply merge_any_lookup.
Qed.

Lemma word_of_lens ss : Forall (λ s, fits h s.2) ss → all_fit (word_of ss).
Proof.
  intros H. unfold word_of. assert (all_fit []) as H0 by constructor. revert H0. generalize (@nil wsym). induction H as [|s ss Hs _ IH]; intros w Hw; cbn [foldl]; [done|].
  apply IH. unfold word_add. apply Forall_app. split; [|by constructor]. destruct (negb _); [|done]. by apply all_fit_alter.
Qed.

Lemma merge_all_int_exact ss : Forall (λ s, 0 < s.2 ∧ fits h s.2) ss →
  (∀ mm drop, merge_all_int h (word_of ss) mm drop = merge_all_with (word_of ss) mm drop) ↔ sym_bytes ss < h.
Proof.
  intros Hss. split.
  - intros H. destruct (decide (ss = [])) as [->|Hne]; [done|].
    destruct (merge_any_all ss (λ _, false)) as (w & s & E & Ew & Es); [done| |done|].
    { eapply Forall_impl; [exact Hss|]. by intros x []. }
    rewrite <- H in E. apply merge_all_int_fit in E.
    + destruct w as [|x [|y w]]; [done| |done]. injection Ew as <-. cbn in Es. inversion E as [|? ? Hx _]. unfold fits in Hx. lia.
    + apply word_of_lens. eapply Forall_impl; [exact Hss|]. by intros x [].
  - intros H mm drop. apply merge_all_int_same. rewrite mass_word_of; [done|]. eapply Forall_impl; [exact Hss|]. intros x []. lia.
Qed.

(** * The bound for texts is exact *)
(** Every character is unknown, and unknown characters are fused. *)
Definition all_unknown : bpe := Bpe (Vocab false {[ [63; 63; 63; 63; 63] := 0 ]} {[ 0 := [63; 63; 63; 63; 63] ]}) ∅ 0%Q [63; 63; 63; 63; 63] [] [] true.
Lemma all_unknown_loop rs i last n w :
  symbols_loop all_unknown 0 rs i last (Some (0, n)) w = word_add w 0 (n + zlen (encode rs)).
Proof.
  revert i n. induction rs as [|r rs IH]; intros i n; cbn [symbols_loop]; [by rewrite Z.add_0_r|].
  assert (get_id (b_vocab all_unknown) (symbol_term all_unknown i last r) = None) as ->.
  { unfold symbol_term, has_prefix_opt, has_suffix_opt, all_unknown, get_id. cbn [b_prefix b_suffix b_vocab v_ids].
    change (negb (zlen ([] : list Z) =? 0)) with false. rewrite !andb_false_r.
    apply lookup_singleton_ne. intros E. pose proof (encode_rune_length_cases r) as H. rewrite <- E in H. cbn in H. lia. }
  change (has_unk all_unknown) with true. change (b_fuse all_unknown) with true. cbn match. rewrite IH, encode_cons. f_equal. lia.
Qed.
Lemma all_unknown_tokens s draws : s ≠ [] →
  bpe_tokenize all_unknown s draws = Some (Ret (Ok [Token 0 [63; 63; 63; 63; 63] (Offsets 0 (zlen (encode (runes s))))])).
Proof.
  intros Hs. unfold bpe_tokenize. destruct (zlen s =? 0) eqn:E; [destruct s; [done|cbn in E; unfold zlen in E; cbn in E; lia]|].
  unfold merge_word, merge_all. change (has_unk all_unknown) with true. cbn match.
  change (get_id (b_vocab all_unknown) (b_unk all_unknown)) with (Some 0). cbn match.
  destruct (runes s) as [|r rs] eqn:Er.
  { pose proof (decode_widths s) as Hd. unfold runes in Er. apply fmap_nil_inv in Er. rewrite Er in Hd. cbn in Hd. lia. }
  set (last := zlen (r :: rs) - 1).
  assert (symbols_loop all_unknown 0 (r :: rs) 0 last None [] = word_of [(0, zlen (encode (r :: rs)))]) as ->.
  { cbn [symbols_loop].
    assert (get_id (b_vocab all_unknown) (symbol_term all_unknown 0 last r) = None) as ->.
    { unfold symbol_term, has_prefix_opt, has_suffix_opt, all_unknown, get_id. cbn [b_prefix b_suffix b_vocab v_ids].
      change (negb (zlen ([] : list Z) =? 0)) with false. rewrite !andb_false_r.
      apply lookup_singleton_ne. intros E'. pose proof (encode_rune_length_cases r) as H. rewrite <- E' in H. cbn in H. lia. }
    change (has_unk all_unknown) with true. cbn match. by rewrite all_unknown_loop, encode_cons. }
  destruct (merge_all_steps (b_merges all_unknown) (dropped_at (b_dropout all_unknown) draws) [(0, zlen (encode (r :: rs)))]) as (w' & -> & Hst).
  { constructor; [|done]. rewrite encode_cons. cbn. pose proof (rune_len_bounds r). unfold zlen. lia. }
  assert (word_syms w' = [(0, zlen (encode (r :: rs)))]) as Hw.
  { apply rtc_inv in Hst as [<-|(y & Hst & _)]; [done|]. inversion Hst as [l a la b lb r' m Hm E1]. destruct l as [|? []]; discriminate. }
  destruct w' as [|x [|]]; [done| |done]. injection Hw as H1 H2. cbn [word_to_tokens]. rewrite H1, H2. done.
Qed.

Lemma word_to_tokens_int_fit m w start ts : word_to_tokens_int h m w start = Ok ts → Forall (λ t, fits h (o_end (t_offsets t))) ts.
Proof.
  revert start ts. induction w as [|s w IH]; intros start ts; cbn [word_to_tokens_int]; [by intros [= <-]|].
  destruct (get_string _ _); [|done]. destruct (word_to_tokens_int h m w _) eqn:E; [|done]. intros [= <-]. constructor; [apply wrap_fits|by eapply IH].
Qed.
Lemma tokenize_int_fit m s draws ts : bpe_tokenize_int h m s draws = Some (Ret (Ok ts)) → Forall (λ t, fits h (o_end (t_offsets t))) ts.
Proof.
  unfold bpe_tokenize_int. destruct (zlen s =? 0); [by intros [= <-]|].
  destruct (merge_word_int h m s draws) as [[[w|]|]|]; try done. intros [= H]. by eapply word_to_tokens_int_fit.
Qed.
Lemma tokenize_int_exact s : (∀ m draws, bpe_tokenize_int h m s draws = bpe_tokenize m s draws) ↔ zlen (encode (runes s)) < h.
Proof.
  split; [|intros H m draws; by apply tokenize_int_same]. intros H. destruct (decide (s = [])) as [->|Hs]; [done|].
  specialize (H all_unknown (λ _, 0%Q)). rewrite all_unknown_tokens in H by done. apply tokenize_int_fit in H.
  inversion H as [|? ? Hx _]. unfold fits in Hx. cbn in Hx. lia.
Qed.
End int.

Lemma bad_bytes_255 n : bad_bytes (replicate n 255) = Z.of_nat n.
Proof.
  induction n as [|n IH]; [done|]. cbn [replicate]. unfold bad_bytes in *.
  assert (decode (255 :: replicate n 255) = (rune_error, 1) :: decode (replicate n 255)) as -> by (destruct n as [|[|[|n]]]; reflexivity).
  rewrite filter_cons_True by done. unfold zlen in *. cbn [length]. lia.
Qed.
