(** Facts about what the IDs of byte pair encoding tell about a text. *)
From Coq Require Import ZifyBool Sorted QArith.
From stdpp Require Import relations.
From Verif Require Import GoBase Utf8Facts Strutils Vocab MergeMap Heap Bpe WordPiece SpecText SpecVocab SpecBpe SpecWordPiece SpecDecode SpecRead
  SliceFacts ByteFacts WordPieceFacts BpeFacts BpeTok PropsBpe DecodeFacts.
Import GoBase.
#[local] Open Scope Z_scope.

(** The answer of a call: the characters' symbols, merged. *)
Lemma answer_of m s draws toks : bpe_tokenize m s draws = Some (Ret (Ok toks)) →
  ∃ ss ts, group_syms (b_fuse m) (unk_id m) (char_classes m (runes s)) ss ∧ rtc (merge_step (b_merges m)) ss ts ∧ toks_of (b_vocab m) 0 ts toks
    ∧ (s ≠ [] → b_unk m ≠ [] → is_Some (get_id (b_vocab m) (b_unk m))).
Proof.
  intros H. destruct (decide (s = [])) as [->|Hs].
  { injection H as <-. exists [], []. split; [constructor|]. split; [done|]. split; [constructor|done]. }
  destruct (decide (b_unk m = [])) as [Eu|Hu].
  - destruct (tokenize_split m s draws Hs) as (ss & G & Hp & A); [unfold has_unk; by rewrite Eu|].
    destruct (merge_all_steps (b_merges m) (dropped_at (b_dropout m) draws) ss Hp) as (w & Ew & Hst).
    destruct (A (word_syms w)) as (res & E & Ha); [by exists w|]. rewrite H in E. injection E as <-. by exists ss, (word_syms w).
  - pose proof (C41_unknown m s draws Hu Hs) as Ha. destruct (get_id (b_vocab m) (b_unk m)) as [u|] eqn:Eu; [|by rewrite H in Ha].
    destruct Ha as (ss & ts & res & G & _ & Hst & E & Ha). rewrite H in E. injection E as <-. exists ss, ts.
    replace (unk_id m) with (Some u) by (unfold unk_id; by rewrite decide_False). split; [done|]. split; [done|]. split; [done|]. eauto.
Qed.

(** Its symbols are what is legible. *)
Lemma plain_classes m rs : b_prefix m = [] → b_suffix m = [] → char_classes m rs = map (λ r, (get_id (b_vocab m) (encode_rune r), rune_len r)) rs.
Proof.
  intros Hp Hs. unfold char_classes, char_terms. rewrite Hp, Hs.
  assert (imap (λ i r, (if decide (i = 0%nat) then [] else []) ++ encode_rune r ++ (if decide (S i = length rs) then [] else [])) rs = map encode_rune rs) as ->.
  { apply list_eq. intros k. rewrite list_lookup_imap, (list_lookup_fmap _ rs). destruct (rs !! k); [|done]. cbn. f_equal.
    repeat case_decide; cbn; by rewrite app_nil_r. }
  induction rs as [|r rs IH]; [done|]. cbn. by rewrite IH.
Qed.
Lemma legible_after m rs : (∀ r rs', rs = r :: rs' → is_Some (get_id (b_vocab m) (encode_rune r))) → legible m true rs = legible m false rs.
Proof. destruct rs as [|r rs]; [done|]. intros H. destruct (H r rs eq_refl) as [i Hi]. cbn [legible]. by rewrite Hi. Qed.
Lemma legible_run m ra rb : b_unk m ≠ [] → b_fuse m = true → Forall (λ r, get_id (b_vocab m) (encode_rune r) = None) ra → legible m true (ra ++ rb) = legible m true rb.
Proof.
  intros Hu Hf H. induction H as [|r ra Hr H IH]; [done|]. cbn [app legible]. rewrite Hr, decide_True by auto. done.
Qed.
Lemma symbols_legible m rs ss : b_prefix m = [] → b_suffix m = [] → (rs ≠ [] → b_unk m ≠ [] → is_Some (get_id (b_vocab m) (b_unk m))) →
  group_syms (b_fuse m) (unk_id m) (char_classes m rs) ss → Forall2 (λ s t, get_id (b_vocab m) t = Some s.1) ss (legible m false rs).
Proof.
  intros Hp Hx Hu G. rewrite (plain_classes m rs Hp Hx) in G.
  assert (Hnone : rs ≠ [] → unk_id m = None → b_unk m = []).
  { intros Hne. unfold unk_id. case_decide as E; [done|]. intros E'. destruct (Hu Hne E) as [? ?]. congruence. }
  assert (Hsome : ∀ u, unk_id m = Some u → b_unk m ≠ [] ∧ get_id (b_vocab m) (b_unk m) = Some u).
  { intros u. unfold unk_id. by case_decide. }
  clear Hu. remember (map _ rs) as cs eqn:Ecs. revert rs Ecs Hnone.
  assert (Hal : ∀ b rs', b_fuse m = false → legible m b rs' = legible m false rs').
  { intros b [|r rs'] Hf; [done|]. cbn [legible]. destruct (get_id _ (encode_rune r)); [done|]. rewrite Hf. f_equal. do 2 case_decide; naive_solver. }
  assert (Hal' : ∀ b rs', b_unk m = [] → legible m b rs' = legible m false rs').
  { intros b [|r rs'] Hf; [done|]. cbn [legible]. destruct (get_id _ (encode_rune r)); [done|]. by rewrite !decide_True by auto. }
  induction G as [|i n cs ss G IH|n cs ss Hou G IH|u n cs ss Hou Hf G IH|u ns cs ss Hou Hf Hne Hcs G IH]; intros rs Ecs Hnone.
  - symmetry in Ecs. apply map_eq_nil in Ecs as ->. constructor.
  - destruct rs as [|r rs]; [done|]. cbn [map] in Ecs. injection Ecs as E1 E2 E3. cbn [legible]. rewrite <- E1. constructor; [done|]. apply IH; [done|auto].
  - destruct rs as [|r rs]; [done|]. cbn [map] in Ecs. injection Ecs as E1 E2 E3. cbn [legible]. rewrite <- E1.
    assert (b_unk m = []) as Eu by (by apply Hnone). rewrite decide_True by auto. cbn [app]. rewrite Hal' by done. apply IH; auto.
  - destruct rs as [|r rs]; [done|]. cbn [map] in Ecs. injection Ecs as E1 E2 E3. cbn [legible]. rewrite <- E1.
    destruct (Hsome u Hou) as [Hun Hid]. rewrite decide_False by (rewrite Hf; naive_solver). cbn [app]. rewrite Hal by done. constructor; [done|]. apply IH; [done|]. intros _. by rewrite Hou.
  - destruct (Hsome u Hou) as [Hun Hid].
    symmetry in Ecs. apply map_eq_app in Ecs as (ra & rb & -> & Ea & Eb).
    assert (Hra : Forall (λ r, get_id (b_vocab m) (encode_rune r) = None) ra).
    { clear -Ea. revert ns Ea. induction ra as [|r ra IH]; intros [|n ns] Ea; try done. cbn [map] in Ea. injection Ea as E1 _ E2. constructor; [done|]. by eapply IH. }
    destruct ra as [|r ra]; [by destruct ns|]. apply Forall_cons in Hra as [Hr Hra]. cbn [app legible]. rewrite Hr, decide_False by (intros [?|[? ?]]; congruence). cbn [app].
    rewrite legible_run by done. rewrite legible_after.
    2:{ intros r' rs' ->. cbn [map] in Eb. destruct (get_id (b_vocab m) (encode_rune r')) eqn:E; [done|]. by destruct (Hcs (rune_len r') (map (λ r, (get_id (b_vocab m) (encode_rune r), rune_len r)) rs')). }
    constructor; [done|]. apply IH; [done|]. intros _. by rewrite Hou.
Qed.

(** Merging keeps the text that the terms spell, read in any way that merges respect. *)
Section steps.
  Context (v : vocab) (mm : merge_map) (mark : list Z → list Z) (Hc : consistent v) (Hm : merges_concat v mm)
    (Hk : ∀ ta tb a b mv, get_id v ta = Some a → get_id v tb = Some b → mm !! (a, b) = Some mv → mark (ta ++ tb) = mark ta ++ mark tb).
  Lemma marked_steps ss ss' ts : rtc (merge_step mm) ss ss' → Forall2 (λ s t, get_id v t = Some s.1) ss ts →
    ∃ ts', Forall2 (λ s t, get_id v t = Some s.1) ss' ts' ∧ concat (map mark ts') = concat (map mark ts).
  Proof.
    intros H. revert ts. induction H as [ss|ss st ss' [l a la b lb r mv Hab] _ IH]; intros ts H; [by exists ts|].
    apply Forall2_app_inv_l in H as (tl & tr & Hl & H & ->). apply Forall2_cons_inv_l in H as (ta & tr1 & Ha & H & ->). apply Forall2_cons_inv_l in H as (tb & tr2 & Hb & Hr & ->).
    cbn in Ha, Hb. destruct (Hm _ _ _ Hab) as (t0 & t1 & H0 & H1 & H01).
    rewrite (get_id_inj v t0 ta a Hc H0 Ha), (get_id_inj v t1 tb b Hc H1 Hb) in H01.
    destruct (IH (tl ++ (ta ++ tb) :: tr2)) as (ts' & H2 & E).
    { apply Forall2_app; [done|]. by constructor. }
    exists ts'. split; [done|]. rewrite E, !map_app, !concat_app. cbn [map concat]. by rewrite (Hk ta tb a b mv), <- app_assoc.
  Qed.
End steps.

(** A code that can be read from the left. *)
Lemma code_unique (mark : list Z → list Z) (P : list Z → Prop) l l' :
  (∀ x y p q, P x → P y → mark x ++ p = mark y ++ q → x = y ∧ p = q) → (∀ x, P x → mark x ≠ []) →
  Forall P l → Forall P l' → concat (map mark l) = concat (map mark l') → l = l'.
Proof.
  intros Hu Hne H. revert l'. induction H as [|x l Hx H IH]; intros l' H' E; destruct H' as [|y l' Hy H']; [done|..]; cbn [map concat] in E.
  - symmetry in E. apply app_eq_nil in E as [E _]. by destruct (Hne y Hy).
  - apply app_eq_nil in E as [E _]. by destruct (Hne x Hx).
  - destruct (Hu _ _ _ _ Hx Hy E) as [-> E']. f_equal. by apply IH.
Qed.
Lemma rune_code r r' p q : scalar r = true → scalar r' = true → encode_rune r ++ p = encode_rune r' ++ q → r = r' ∧ p = q.
Proof.
  intros Hr Hr' E. assert (r = r') as ->; [|split; [done|by eapply app_inv_head]].
  apply (f_equal decode) in E. rewrite !decode_encode_rune, !sanitize_id in E by done. congruence.
Qed.
Lemma encode_rune_head r : ∃ b l, encode_rune r = b :: l ∧ 0 <= b.
Proof.
  pose proof (rune_len_bounds r) as H. unfold rune_len in H. pose proof (encode_rune_bytes r) as Hb. destruct (encode_rune r) as [|b l]; [unfold zlen in H; cbn in H; lia|].
  apply Forall_cons in Hb as [Hb _]. exists b, l. split; [done|lia].
Qed.

Lemma legible_in m b rs : scalars rs → Forall (λ t, t = b_unk m ∨ ∃ c, scalar c = true ∧ t = encode_rune c) (legible m b rs).
Proof.
  intros H. revert b. induction H as [|r rs Hr H IH]; intros b; [constructor|]. cbn [legible]. destruct (get_id _ _).
  - constructor; [right; eauto|apply IH].
  - apply Forall_app. split; [|apply IH]. case_decide; repeat constructor.
Qed.
Lemma legible_unk m b rs : b_unk m = [] → scalars rs → Forall (λ t, ∃ c, scalar c = true ∧ t = encode_rune c) (legible m b rs).
Proof.
  intros Hu H. revert b. induction H as [|r rs Hr H IH]; intros b; [constructor|]. cbn [legible]. destruct (get_id _ _).
  - constructor; [eauto|apply IH].
  - rewrite decide_True by auto. apply IH.
Qed.

Lemma legible_same m m' b rs : same_setup m m' → legible m b rs = legible m' b rs.
Proof. intros (E1 & E2 & E3). revert b. induction rs as [|r rs IH]; intros b; [done|]. cbn [legible]. rewrite E1, E2, E3, !IH. done. Qed.

Lemma toks_ids v o ts toks : toks_of v o ts toks → map t_id toks = ts.*1.
Proof. induction 1 as [|o i n x ss ts Hx H IH]; [done|]. cbn. by rewrite IH. Qed.

(** The IDs determine what is legible. *)
Lemma legible_of_ids m m' file file' s s' draws draws' toks toks' : same_setup m m' → consistent (b_vocab m) →
  merge_map_from_file file (b_vocab m) 0 = Ret (Ok (b_merges m)) → merge_map_from_file file' (b_vocab m') 0 = Ret (Ok (b_merges m')) →
  b_prefix m = [] → b_suffix m = [] → b_prefix m' = [] → b_suffix m' = [] → unk_apart m → unk_apart m' →
  bpe_tokenize m s draws = Some (Ret (Ok toks)) → bpe_tokenize m' s' draws' = Some (Ret (Ok toks')) → map t_id toks = map t_id toks' →
  legible m false (runes s) = legible m false (runes s').
Proof.
  intros Hsame Hc Hf Hf' Hp Hx Hp' Hx' Ha Ha' H H' E.
  apply answer_of in H as (ss & ts & G & Hst & Ht & Hu). apply answer_of in H' as (ss' & ts' & G' & Hst' & Ht' & Hu').
  assert (Hrs : ∀ s, runes s ≠ [] → s ≠ []) by (by intros ? Hn ->).
  apply symbols_legible in G; [|done|done|intros Hn; apply Hu, Hrs, Hn]. apply symbols_legible in G'; [|done|done|intros Hn; apply Hu', Hrs, Hn].
  rewrite <- (legible_same m m' false (runes s') Hsame) in G'. destruct Hsame as (Ev & Eu & Efu).
  rewrite (toks_ids _ _ _ _ Ht), (toks_ids _ _ _ _ Ht') in E. rewrite <- Ev in *.
  pose proof (loaded_concat _ _ _ Hf) as Hm. pose proof (loaded_concat _ _ _ Hf') as Hm'.
  set (mark := λ t : list Z, if decide (b_unk m ≠ [] ∧ t = b_unk m) then [-1] else t).
  assert (Huniq : ∀ (mark : list Z → list Z) (P : list Z → Prop),
    (∀ ta tb a b mv, get_id (b_vocab m) ta = Some a → get_id (b_vocab m) tb = Some b → b_merges m !! (a, b) = Some mv → mark (ta ++ tb) = mark ta ++ mark tb) →
    (∀ ta tb a b mv, get_id (b_vocab m) ta = Some a → get_id (b_vocab m) tb = Some b → b_merges m' !! (a, b) = Some mv → mark (ta ++ tb) = mark ta ++ mark tb) →
    (∀ x y p q, P x → P y → mark x ++ p = mark y ++ q → x = y ∧ p = q) → (∀ x, P x → mark x ≠ []) →
    Forall P (legible m false (runes s)) → Forall P (legible m false (runes s')) → legible m false (runes s) = legible m false (runes s')).
  { clear mark Ha Ha'. intros mark P Hk Hk' HP Hne HF HF'. apply (code_unique mark P); try done.
    destruct (marked_steps _ _ mark Hc Hm Hk _ _ _ Hst G) as (tt & T1 & T2). destruct (marked_steps _ _ mark Hc Hm' Hk' _ _ _ Hst' G') as (tt' & T1' & T2').
    rewrite <- T2, <- T2'. do 2 f_equal. clear -E T1 T1' Hc. revert ts' tt' E T1'.
    induction T1 as [|x t ts tt Hxt T1 IH]; intros ts' tt' E T1'.
    - destruct ts'; [|done]. by inversion T1'.
    - destruct ts' as [|x' ts']; [done|]. cbn in E. injection E as E1 E2. apply Forall2_cons_inv_l in T1' as (t' & tt1 & Ht' & T1' & ->).
      f_equal; [|by eapply IH]. eapply (get_id_inj (b_vocab m)); [done|exact Hxt|]. by rewrite E1. }
  destruct (decide (b_unk m = [])) as [Hnu|Hnu].
  { apply (Huniq id (λ t, ∃ c, scalar c = true ∧ t = encode_rune c)); try done.
    - intros x y p q (c & Hc1 & ->) (c' & Hc1' & ->) E1. destruct (rune_code _ _ _ _ Hc1 Hc1' E1) as [-> ->]. done.
    - intros x (c & Hc1 & ->). destruct (encode_rune_head c) as (b & l & -> & _). done.
    - apply legible_unk; [done|apply runes_scalars].
    - apply legible_unk; [done|apply runes_scalars]. }
  assert ((∃ c, scalar c = true ∧ b_unk m = encode_rune c) ∨ ¬ ∃ c, scalar c = true ∧ b_unk m = encode_rune c) as [(c & Hc1 & Ec)|Hnc].
  { destruct (decide (Exists (λ c, b_unk m = encode_rune c) (runes (b_unk m)))) as [Hx1|Hx1]; [left|right].
    - apply Exists_exists in Hx1 as (c & Hin & Ec). exists c. split; [|done]. pose proof (runes_scalars (b_unk m)) as Hs. unfold scalars in Hs. rewrite Forall_forall in Hs. by apply Hs.
    - intros (c & Hc1 & Ec). apply Hx1. rewrite Ec. assert (runes (encode_rune c) = [c]) as ->; [|by constructor].
      pose proof (runes_encode_scalars [c]) as E1. unfold encode in E1. cbn [flat_map] in E1. rewrite app_nil_r in E1. apply E1. by constructor. }
  { apply (Huniq id (λ t, ∃ c, scalar c = true ∧ t = encode_rune c)); try done.
    - intros x y p q (d & Hd & ->) (d' & Hd' & ->) E1. destruct (rune_code _ _ _ _ Hd Hd' E1) as [-> ->]. done.
    - intros x (d & Hd & ->). destruct (encode_rune_head d) as (b & l & -> & _). done.
    - eapply Forall_impl; [apply legible_in, runes_scalars|]. cbn. intros t [->|?]; eauto.
    - eapply Forall_impl; [apply legible_in, runes_scalars|]. cbn. intros t [->|?]; eauto. }
  assert (Hmk : ∀ mm, (∀ u a b mv, unk_id m = Some u → mm !! (a, b) = Some mv → u ≠ a ∧ u ≠ b ∧ u ≠ mv_id mv) → merges_concat (b_vocab m) mm →
    ∀ ta tb a b mv, get_id (b_vocab m) ta = Some a → get_id (b_vocab m) tb = Some b → mm !! (a, b) = Some mv → mark (ta ++ tb) = mark ta ++ mark tb).
  { intros mm Hap Hmm ta tb a b mv H1 H2 H3. destruct (Hmm _ _ _ H3) as (t0 & t1 & H01 & H11 & H21).
    rewrite (get_id_inj _ t0 ta a Hc H01 H1), (get_id_inj _ t1 tb b Hc H11 H2) in H21.
    assert (Hnot : ∀ t i, get_id (b_vocab m) t = Some i → (∀ u, unk_id m = Some u → u ≠ i) → mark t = t).
    { intros t i Hti Hi. unfold mark. apply decide_False. intros [_ ->]. apply (Hi i); [|done]. unfold unk_id. by rewrite decide_False. }
    rewrite (Hnot _ _ H1), (Hnot _ _ H2), (Hnot _ _ H21); [done|..]; intros u Hid; apply (Hap u a b mv Hid H3). }
  apply (Huniq mark (λ t, t = b_unk m ∨ ∃ c, scalar c = true ∧ t = encode_rune c)).
  - apply Hmk; [|done]. destruct Ha as [Ha|Ha]; [done|]. exact Ha.
  - apply Hmk; [|done]. destruct Ha' as [Ha'|Ha']; [rewrite <- Eu in Ha'; done|]. intros u a b mv Hid. apply Ha'. unfold unk_id in *. by rewrite <- Eu, <- Ev.
  - assert (Hmu : mark (b_unk m) = [-1]) by (unfold mark; by rewrite decide_True).
    assert (Hmr : ∀ c, scalar c = true → mark (encode_rune c) = encode_rune c). { intros c Hc1. unfold mark. apply decide_False. intros [_ Ec]. apply Hnc. eauto. }
    intros x y p q [->|(c & Hc1 & ->)] [->|(d & Hd & ->)]; rewrite ?Hmu, ?(Hmr c), ?(Hmr d) by done; intros E1.
    + split; [done|]. by injection E1.
    + destruct (encode_rune_head d) as (b & l & Eh & Hb). rewrite Eh in E1. injection E1 as E1 _. lia.
    + destruct (encode_rune_head c) as (b & l & Eh & Hb). rewrite Eh in E1. injection E1 as E1 _. lia.
    + destruct (rune_code _ _ _ _ Hc1 Hd E1) as [-> ->]. done.
  - intros x Hx1. unfold mark. case_decide as E1; [done|]. destruct Hx1 as [->|(c & Hc1 & ->)]; [done|]. destruct (encode_rune_head c) as (b & l & -> & _). done.
  - apply legible_in, runes_scalars.
  - apply legible_in, runes_scalars.
Qed.

(** * Without dropout, what is legible determines the IDs *)
Lemma pair_at_ids mm s t k m : s.*1 = t.*1 → pair_at mm s k m → pair_at mm t k m.
Proof.
  intros E (x & y & Hx & Hy & Hm)%pair_at_lookup. apply pair_at_lookup.
  assert (Hl : ∀ k x, s !! k = Some x → ∃ x', t !! k = Some x' ∧ x'.1 = x.1).
  { clear -E. intros k x Hx. assert (s.*1 !! k = Some x.1) as H by (rewrite list_lookup_fmap; by rewrite Hx). rewrite E, list_lookup_fmap in H.
    destruct (t !! k) as [x'|]; [|done]. injection H as H. eauto. }
  destruct (Hl _ _ Hx) as (x' & Hx' & E1). destruct (Hl _ _ Hy) as (y' & Hy' & E2). exists x', y'. by rewrite E1, E2.
Qed.
Lemma bpe_step_ids mm s s' t : bpe_step mm s s' → s.*1 = t.*1 → ∃ t', bpe_step mm t t' ∧ s'.*1 = t'.*1.
Proof.
  intros [l a la b lb r m Hm Hmin] E. pose proof E as E0. rewrite fmap_app, !fmap_cons in E. cbn [fst] in E. symmetry in E.
  apply fmap_app_inv in E as (l' & t1 & El & E1 & ->). symmetry in E1. apply fmap_cons_inv in E1 as ([a' la'] & t2 & Ea & E2 & ->). symmetry in E2. apply fmap_cons_inv in E2 as ([b' lb'] & r' & Eb & Er & ->).
  cbn in Ea, Eb. subst a' b'. exists (l' ++ (mv_id m, la' + lb') :: r'). split.
  - constructor; [done|]. intros k m' Hk. apply (pair_at_ids mm _ (l ++ (a, la) :: (b, lb) :: r)) in Hk; [|done].
    destruct (Hmin k m' Hk) as [?|[? ?]]; [by left|right]. split; [done|]. apply (f_equal length) in El. rewrite !fmap_length in El. lia.
  - rewrite !fmap_app, !fmap_cons. cbn [fst]. by rewrite El, Er.
Qed.
Lemma bpe_result_ids mm s s1 t t1 : rtc (bpe_step mm) s s1 → saturated mm s1 → rtc (bpe_step mm) t t1 → saturated mm t1 → s.*1 = t.*1 → s1.*1 = t1.*1.
Proof.
  intros H Hs1 Ht Ht1 E. assert (∃ t', rtc (bpe_step mm) t t' ∧ s1.*1 = t'.*1) as (t' & H1 & E1).
  { clear Hs1 Ht. revert t E. induction H as [s|s s' s1 Hst H IH]; intros t E; [by exists t|]. destruct (bpe_step_ids _ _ _ _ Hst E) as (u & Hu & E1).
    destruct (IH _ E1) as (t' & Ht' & E2). exists t'. split; [by eapply rtc_l|done]. }
  assert (saturated mm t') as Hsat. { intros k m Hk. apply (Hs1 k m). by apply (pair_at_ids mm t'). }
  by rewrite (bpe_result_unique _ _ _ _ Ht Ht1 H1 Hsat).
Qed.
Lemma ids_of_legible m file s s' draws draws' toks toks' : consistent (b_vocab m) →
  merge_map_from_file file (b_vocab m) 0 = Ret (Ok (b_merges m)) → b_prefix m = [] → b_suffix m = [] → (b_dropout m <= 0)%Q →
  bpe_tokenize m s draws = Some (Ret (Ok toks)) → bpe_tokenize m s' draws' = Some (Ret (Ok toks')) →
  legible m false (runes s) = legible m false (runes s') → map t_id toks = map t_id toks'.
Proof.
  intros Hc Hf Hp Hx Hd H H' E.
  assert (Ha : ∀ s draws toks, bpe_tokenize m s draws = Some (Ret (Ok toks)) → ∃ ss ts, Forall2 (λ s t, get_id (b_vocab m) t = Some s.1) ss (legible m false (runes s))
    ∧ rtc (bpe_step (b_merges m)) ss ts ∧ saturated (b_merges m) ts ∧ toks_of (b_vocab m) 0 ts toks).
  { clear -Hc Hf Hp Hx Hd. intros s draws toks H. pose proof (answer_of _ _ _ _ H) as (_ & _ & _ & _ & _ & Hu). destruct (decide (s = [])) as [->|Hs].
    - injection H as <-. exists [], []. split; [constructor|]. split; [done|]. split; [|constructor]. intros k mv (x & y & Hxy & _)%pair_at_lookup. by rewrite lookup_nil in Hxy.
    - destruct (C34_tokenize m file s draws Hc Hf Hd Hs (Hu Hs)) as (ss & ts & res & G & H1 & H2 & E & A). rewrite H in E. injection E as <-. exists ss, ts.
      split; [|done]. apply symbols_legible; auto. }
  destruct (Ha _ _ _ H) as (ss & ts & G & H1 & H2 & H3). destruct (Ha _ _ _ H') as (ss' & ts' & G' & H1' & H2' & H3').
  rewrite (toks_ids _ _ _ _ H3), (toks_ids _ _ _ _ H3'). apply (bpe_result_ids (b_merges m) ss ts ss' ts'); [done..|]. rewrite E in G. clear -G G'.
  revert ss' G'. induction G as [|x t ss l Hxt G IH]; intros ss' G'; [by inversion G'|]. apply Forall2_cons_inv_r in G' as (x' & ss1 & Hx' & G' & ->).
  rewrite !fmap_cons. f_equal; [congruence|]. by apply IH.
Qed.
