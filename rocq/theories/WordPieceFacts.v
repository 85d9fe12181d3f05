(** Facts about WordPiece.v. *)
From Coq Require Import ZifyBool ZifyNat.
From Verif Require Import GoBase Strutils Vocab Bpe WordPiece SpecText SpecVocab SpecBpe SpecWordPiece Utf8Facts SliceFacts.
Import GoBase.
#[local] Open Scope Z_scope.

Definition bytes (s : list Z) : Prop := Forall (λ c, 0 <= c <= 255) s.

Lemma rune_len_byte b : 0 <= b <= 255 → rune_len b = if 128 <=? b then 2 else 1.
Proof.
  intros H. unfold rune_len, encode_rune. rewrite sanitize_id by (apply scalar_spec; lia). unfold encode_scalar.
  destruct (128 <=? b) eqn:E1; destruct (b <? 0x80) eqn:E2; try lia; [|done]. destruct (b <? 0x800) eqn:E3; [done|lia].
Qed.

Lemma back_lt s e : back s e < e.
Proof. unfold back. repeat case_match; lia. Qed.
Lemma iter_back_le s n e : Nat.iter n (back s) e <= e.
Proof. induction n as [|n IH]; cbn; [lia|]. pose proof (back_lt s (Nat.iter n (back s) e)). unfold Nat.iter in *. lia. Qed.
Lemma iter_back_lt s n e : (0 < n)%nat → Nat.iter n (back s) e < e.
Proof. destruct n as [|n]; [lia|]. intros _. cbn. pose proof (back_lt s (Nat.iter n (back s) e)). pose proof (iter_back_le s n e). unfold Nat.iter in *. lia. Qed.
Lemma iter_add {A} (f : A → A) n m x : Nat.iter (n + m) f x = Nat.iter n f (Nat.iter m f x).
Proof. unfold Nat.iter. induction n as [|n IH]; cbn; [done|]. by rewrite IH. Qed.

Lemma tried_len s : tried s (zlen s).
Proof. by exists 0%nat. Qed.
Lemma tried_back s e : tried s e → tried s (back s e).
Proof. intros [n ->]. by exists (S n). Qed.
Lemma tried_le s e : tried s e → e <= zlen s.
Proof. intros [n ->]. apply iter_back_le. Qed.
Lemma tried_gap s e e' : tried s e → tried s e' → e' < e → e' <= back s e.
Proof.
  intros [n ->] [m ->] H.
  assert (n < m)%nat as Hnm.
  { destruct (decide (n < m)%nat); [done|]. replace n with ((n - m) + m)%nat in H by lia. rewrite iter_add in H.
    pose proof (iter_back_le s (n - m) (Nat.iter m (back s) (zlen s))). lia. }
  replace m with ((m - S n) + S n)%nat by lia. rewrite iter_add. apply iter_back_le.
Qed.

Lemma text_at_le s i j x : text_at s i j x → 0 <= i ∧ i <= j ∧ j <= zlen s.
Proof. rewrite text_at_sub. apply sub_bounds. Qed.
Lemma text_at_fun s i j x y : text_at s i j x → text_at s i j y → x = y.
Proof. rewrite !text_at_sub. congruence. Qed.

(** The last byte of the text before [e]. *)
Lemma last_byte s o e x : text_at s o e x → o < e → ∃ b, s !! Z.to_nat (e - 1) = Some b ∧ idx x (zlen x - 1) = Ret b ∧ 0 < zlen x.
Proof.
  intros (a & c & -> & -> & ->) Hlt. destruct x as [|b x _] using rev_ind; [cbn in Hlt; unfold zlen in Hlt; cbn in Hlt; lia|].
  exists b. rewrite zlen_app, zlen_cons, zlen_nil. pose proof (zlen_nonneg x). pose proof (zlen_nonneg a). split; [|split; [|lia]].
  - rewrite lookup_app_r by (unfold zlen in *; lia). rewrite <- app_assoc. rewrite lookup_app_r by (unfold zlen in *; lia).
    replace (Z.to_nat _ - length a - length x)%nat with 0%nat by (unfold zlen in *; lia). done.
  - apply idx_lookup. split; [lia|]. rewrite lookup_app_r by (unfold zlen in *; lia).
    replace (Z.to_nat _ - length x)%nat with 0%nat by (unfold zlen in *; lia). done.
Qed.

Section wp.
  Context (m : wordpiece) (s : list Z).
  Hypothesis Hb : bytes s.
  Notation v := (w_vocab m).
  Notation pre := (w_prefix m).
  Notation term o x := (piece_term pre (o =? 0) x).

  Lemma inner_spec fuel o e : 0 <= o → tried s e → e - o <= Z.of_nat fuel →
    (∀ e' x', e < e' → tried s e' → text_at s o e' x' → get_id v (term o x') = None) →
    (∃ e1 x i, wp_inner fuel m s o e = Some (Ret (Some (Token i (term o x) (Offsets o e1))))
       ∧ o < e1 ∧ tried s e1 ∧ text_at s o e1 x ∧ get_id v (term o x) = Some i
       ∧ ∀ e' x', e1 < e' → tried s e' → text_at s o e' x' → get_id v (term o x') = None)
    ∨ (wp_inner fuel m s o e = Some (Ret None)
       ∧ ∀ e' x', o < e' → tried s e' → text_at s o e' x' → get_id v (term o x') = None).
  Proof.
    intros Ho. revert e. induction fuel as [|fuel IH]; intros e He Hf Hno; cbn [wp_inner].
    { right. destruct (Z.ltb_spec o e); [lia|]. split; [done|]. intros e' x' H1 H2. apply Hno; [lia|done]. }
    destruct (Z.ltb_spec o e) as [Hoe|Hoe]; [|right; split; [done|]; intros e' x' H1 H2; apply Hno; [lia|done]].
    destruct (sub_total s o e) as [x Hx]; [done|lia|by apply tried_le|]. rewrite Hx.
    apply text_at_sub in Hx. destruct (last_byte _ _ _ _ Hx Hoe) as (b & Hlb & Hib & Hzx).
    set (t := if 0 <? o then pre ++ x else x).
    assert (t = term o x) as Et. { unfold t, piece_term. destruct (Z.ltb_spec 0 o), (Z.eqb_spec o 0); try done; lia. }
    clearbody t. subst t. destruct (get_id v (term o x)) as [i|] eqn:Hi.
    { left. exists e, x, i. split; [done|]. auto. }
    assert (idx (term o x) (zlen (term o x) - 1) = Ret b ∧ 0 < zlen (term o x)) as [Hit Hzt].
    { unfold piece_term. destruct (o =? 0); [done|]. rewrite zlen_app. pose proof (zlen_nonneg pre). split; [|lia].
      rewrite idx_app_r by lia. rewrite <- Hib. f_equal. lia. }
    destruct (Z.ltb_spec 0 (zlen (term o x))); [|lia]. rewrite Hit.
    assert (e - byte_step b = back s e) as ->.
    { unfold byte_step, back. rewrite Hlb. pose proof Hb as Hbs. unfold bytes in Hbs. rewrite Forall_lookup in Hbs.
      rewrite rune_len_byte by (by apply (Hbs (Z.to_nat (e - 1)))). destruct (128 <=? b); lia. }
    apply IH; [by apply tried_back|pose proof (back_lt s e); lia|].
    intros e' x' H1 H2 H3. destruct (Z.lt_trichotomy e' e) as [Hc|[->|Hc]].
    - pose proof (tried_gap s e e' He H2 Hc). lia.
    - by rewrite (text_at_fun _ _ _ _ _ H3 Hx).
    - by apply (Hno e').
  Qed.

  Lemma tried_toks_fun o l1 l2 : tried_toks v pre s o l1 → tried_toks v pre s o l2 → l1 = l2.
  Proof.
    intros H. revert l2. induction H as [|o e x i ts H1 H2 H3 H4 H5 H6 IH]; intros l2 Hl; inversion Hl as [|? e' x' i' ts' G1 G2 G3 G4 G5 G6]; subst; try done.
    - apply tried_le in G2. lia.
    - apply tried_le in H2. lia.
    - assert (e = e') as <-.
      { destruct (Z.lt_trichotomy e e') as [Hc|[->|Hc]]; [|done|].
        - by rewrite (H5 _ _ Hc G2 G3) in G4.
        - by rewrite (G5 _ _ Hc H2 H3) in H4. }
      rewrite (text_at_fun _ _ _ _ _ G3 H3) in *. rewrite H4 in G4. injection G4 as <-. f_equal. by apply IH.
  Qed.

  Lemma outer_spec fuel o : 0 <= o <= zlen s → zlen s - o <= Z.of_nat fuel →
    (∃ l, wp_outer fuel m s o = Some (Ret (Some l)) ∧ tried_toks v pre s o l)
    ∨ (wp_outer fuel m s o = Some (Ret None) ∧ ∀ l, ¬ tried_toks v pre s o l).
  Proof.
    revert o. induction fuel as [|fuel IH]; intros o Ho Hf; cbn [wp_outer].
    { destruct (Z.ltb_spec o (zlen s)); [lia|]. left. exists []. split; [done|]. replace o with (zlen s) by lia. constructor. }
    destruct (Z.ltb_spec o (zlen s)) as [Hlt|Hlt]; [|left; exists []; split; [done|]; replace o with (zlen s) by lia; constructor].
    destruct (inner_spec (S (length s)) o (zlen s)) as [(e1 & x & i & -> & H1 & H2 & H3 & H4 & H5)|(-> & Hno)];
      [lia|apply tried_len|unfold zlen; lia|intros e' x' G1 G2; apply tried_le in G2; lia|..].
    - cbn [t_offsets o_end]. pose proof (tried_le _ _ H2). destruct (IH e1) as [(l & -> & Hl)|(-> & Hl)]; [lia|lia|..].
      + left. eexists. split; [done|]. by econstructor.
      + right. split; [done|]. intros l Hl'. inversion Hl' as [|? e' x' i' ts' G1 G2 G3 G4 G5 G6]; subst; [lia|].
        assert (e1 = e') as <-; [|by apply (Hl ts')].
        destruct (Z.lt_trichotomy e1 e') as [Hc|[->|Hc]]; [|done|].
        * by rewrite (H5 _ _ Hc G2 G3) in G4.
        * by rewrite (G5 _ _ Hc H2 H3) in H4.
    - right. split; [done|]. intros l Hl'. inversion Hl' as [|? e' x' i' ts' G1 G2 G3 G4 G5 G6]; subst; [lia|].
      by rewrite (Hno _ _ G1 G2 G3) in G4.
  Qed.

  Lemma wp_tokenize_spec :
    (∃ l, w_max m >= zlen (runes s) ∧ wp_tokenize m s = Some (Ret (Ok l)) ∧ tried_toks v pre s 0 l)
    ∨ ((w_max m < zlen (runes s) ∨ ∀ l, ¬ tried_toks v pre s 0 l) ∧ wp_tokenize m s = Some (Ret (wp_unknown m s))).
  Proof.
    unfold wp_tokenize. destruct (Z.ltb_spec (w_max m) (zlen (runes s))) as [Hc|Hc]; [right; auto|].
    destruct (outer_spec (S (length s)) 0) as [(l & -> & Hl)|(-> & Hl)]; [pose proof (zlen_nonneg s); lia|unfold zlen; lia|..].
    - left. exists l. split; [lia|done].
    - right. auto.
  Qed.

  Lemma tried_toks_tile o l : tried_toks v pre s o l → toks_tile o l (zlen s)
    ∧ Forall (λ t, ∃ x, text_at s (o_start (t_offsets t)) (o_end (t_offsets t)) x
                 ∧ t_value t = piece_term pre (o_start (t_offsets t) =? 0) x ∧ get_id v (t_value t) = Some (t_id t)) l.
  Proof.
    induction 1 as [|o e x i ts H1 H2 H3 H4 H5 H6 [IH1 IH2]]; [by split|]. split; [by split_and!|].
    constructor; [|done]. by exists x.
  Qed.
End wp.

(** * Valid UTF-8 *)
Lemma encode_prefix_inv a x b : scalars a → scalars b → encode a ++ x = encode b → ∃ c, scalars c ∧ b = a ++ c ∧ x = encode c.
Proof.
  intros Ha Hb H. assert (b = a ++ runes x) as Hbx.
  { rewrite <- (runes_encode_scalars b Hb), <- H, runes_encode_app, map_sanitize_id; done. }
  exists (runes x). split; [apply runes_scalars|]. split; [done|]. rewrite Hbx, encode_app in H. by apply app_inv_head in H.
Qed.

Lemma valid_suffix p x : valid_utf8 p = true → valid_utf8 (p ++ x) = true → valid_utf8 x = true.
Proof.
  rewrite !valid_utf8_spec. intros (a & Ha & ->) (b & Hb & H). destruct (encode_prefix_inv _ _ _ Ha Hb H) as (c & Hc & -> & ->). eauto.
Qed.

Lemma piece_term_valid pre first x : valid_utf8 pre = true → valid_utf8 (piece_term pre first x) = true → valid_utf8 x = true.
Proof. unfold piece_term. destruct first; [done|]. apply valid_suffix. Qed.

Lemma cut_valid a rs e x : scalars a → scalars rs → text_at (encode (a ++ rs)) (zlen (encode a)) e x → valid_utf8 x = true →
  ∃ c d, rs = c ++ d ∧ x = encode c ∧ e = zlen (encode (a ++ c)).
Proof.
  intros Ha Hr (p & q & H & Hp & ->) Hx. rewrite encode_app in H. apply valid_utf8_spec in Hx as (c & Hc & ->).
  assert (encode a = p ∧ encode rs = encode c ++ q) as [<- H'].
  { apply app_inj_1 in H; [done|]. unfold zlen in Hp. lia. }
  destruct (encode_prefix_inv _ _ _ Hc Hr (eq_sym H')) as (d & _ & -> & _). exists c, d. split_and!; [done..|]. rewrite encode_app, zlen_app. lia.
Qed.

Lemma text_at_encode a c d : text_at (encode (a ++ c ++ d)) (zlen (encode a)) (zlen (encode (a ++ c))) (encode c).
Proof. exists (encode a), (encode d). rewrite !encode_app, zlen_app. split_and!; [done..|lia]. Qed.

Lemma zlen_encode_0 a : zlen (encode a) = 0 → a = [].
Proof. intros H. apply encode_nil_inv. by apply nil_length_inv; unfold zlen in H; lia. Qed.

Section greedy.
  Context (v : vocab) (pre : list Z).
  Hypothesis Hv : valid_terms v.
  Hypothesis Hpre : valid_utf8 pre = true.

  Lemma tried_toks_boundary rs a l : scalars (a ++ rs) → tried_toks v pre (encode (a ++ rs)) (zlen (encode a)) l →
    Forall (λ t, boundary (encode (a ++ rs)) (o_start (t_offsets t)) ∧ boundary (encode (a ++ rs)) (o_end (t_offsets t))) l.
  Proof.
    intros Hs H. remember (encode (a ++ rs)) as s eqn:Es. remember (zlen (encode a)) as o eqn:Eo. revert a rs Hs Es Eo.
    induction H as [|o e x i ts H1 H2 H3 H4 H5 H6 IH]; intros a rs Hs Es Eo; [done|]; subst s o.
    apply scalars_app in Hs as [Ha Hr]. assert (valid_utf8 x = true) as Hx. { apply (piece_term_valid pre _ _ Hpre (Hv _ _ H4)). }
    destruct (cut_valid _ _ _ _ Ha Hr H3 Hx) as (c & d & -> & -> & ->). apply scalars_app in Hr as [Hc Hd]. constructor.
    - cbn [t_offsets o_start o_end]. split; [apply boundary_app; [done|by apply scalars_app]|]. rewrite app_assoc. apply boundary_app; [by apply scalars_app|done].
    - apply (IH (a ++ c) d); [|by rewrite app_assoc|done]. by rewrite !scalars_app.
  Qed.

  (** All ends that greedy search needs are tried. *)
  Definition all_tried (a rs : list Z) : Prop := ∀ c d, rs = c ++ d → c ≠ [] → tried (encode (a ++ rs)) (zlen (encode (a ++ c))).

  Lemma all_tried_tl a c d : all_tried a (c ++ d) → all_tried (a ++ c) d.
  Proof.
    intros H c' d' -> Hc'. rewrite <- !app_assoc. apply (H (c ++ c') d'); [by rewrite app_assoc|]. by destruct c.
  Qed.

  Lemma tried_greedy rs a l : scalars (a ++ rs) → all_tried a rs → tried_toks v pre (encode (a ++ rs)) (zlen (encode a)) l →
    ∃ segs, greedy v pre (zlen (encode a) =? 0) rs segs ∧ seg_toks v pre (zlen (encode a)) segs l.
  Proof.
    intros Hs Ht H. remember (encode (a ++ rs)) as s eqn:Es. remember (zlen (encode a)) as o eqn:Eo. revert a rs Hs Ht Es Eo.
    induction H as [|o e x i ts H1 H2 H3 H4 H5 H6 IH]; intros a rs Hs Ht -> Eo.
    { rewrite encode_app, zlen_app in Eo. rewrite (zlen_encode_0 rs) by lia. exists []. split; constructor. }
    subst o. apply scalars_app in Hs as [Ha Hr].
    assert (valid_utf8 x = true) as Hx. { apply (piece_term_valid pre _ _ Hpre (Hv _ _ H4)). }
    destruct (cut_valid _ _ _ _ Ha Hr H3 Hx) as (c & d & -> & -> & ->).
    assert (0 < zlen (encode c)) as Hc. { rewrite encode_app, zlen_app in H1. lia. }
    destruct (IH (a ++ c) d) as (segs & G1 & G2);
      [apply scalars_app in Hr as [??]; by rewrite !scalars_app|by apply all_tried_tl|by rewrite app_assoc|done|].
    exists (c :: segs). split.
    - constructor; [by intros ->|by exists i| |].
      + intros a' b' E Hl. apply (H5 (zlen (encode (a ++ a')))).
        * apply List.app_eq_app in E as [l [[-> ->]|[-> ->]]]; [rewrite app_length in Hl; lia|].
          destruct l as [|y l]; [rewrite app_nil_r in Hl; lia|]. rewrite !encode_app, !zlen_app. pose proof (encode_pos y l). lia.
        * apply (Ht a' b'); [done|]. by destruct a'; [cbn in Hl; lia|].
        * rewrite E. apply text_at_encode.
      + rewrite encode_app, zlen_app in G1. destruct (Z.eqb_spec (zlen (encode a) + zlen (encode c)) 0); [pose proof (zlen_nonneg (encode a)); lia|done].
    - rewrite encode_app, zlen_app. constructor; [done|]. by rewrite encode_app, zlen_app in G2.
  Qed.

  Lemma greedy_tried rs a segs : scalars (a ++ rs) → all_tried a rs → greedy v pre (zlen (encode a) =? 0) rs segs →
    ∃ l, tried_toks v pre (encode (a ++ rs)) (zlen (encode a)) l ∧ seg_toks v pre (zlen (encode a)) segs l.
  Proof.
    intros Hs Ht H. remember (zlen (encode a) =? 0) as first eqn:Ef. revert a Hs Ht Ef.
    induction H as [|first c d segs H1 [i H2] H3 H4 IH]; intros a Hs Ht ->.
    { exists []. rewrite app_nil_r. split; constructor. }
    assert (0 < zlen (encode c)) as Hc. { destruct c as [|y c]; [done|]. apply encode_pos. }
    apply scalars_app in Hs as [Ha Hs]. pose proof Hs as Hcd. apply scalars_app in Hs as [Hc' Hd].
    assert (text_at (encode (a ++ c ++ d)) (zlen (encode a)) (zlen (encode (a ++ c))) (encode c)) as Htx by apply text_at_encode.
    destruct (IH (a ++ c)) as (l & G1 & G2); [by rewrite !scalars_app|by apply all_tried_tl|..].
    { rewrite encode_app, zlen_app. pose proof (zlen_nonneg (encode a)). lia. }
    rewrite <- app_assoc in G1. eexists. split.
    - econstructor; [| |done|done| |done].
      + rewrite encode_app, zlen_app. lia.
      + by apply (Ht c d).
      + intros e' x' He Hte Hx. destruct (get_id v (piece_term pre (zlen (encode a) =? 0) x')) as [j|] eqn:Hj; [|done]. exfalso.
        assert (valid_utf8 x' = true) as Hvx. { apply (piece_term_valid pre _ _ Hpre (Hv _ _ Hj)). }
        destruct (cut_valid _ _ _ _ Ha Hcd Hx Hvx) as (a' & b' & E & -> & ->).
        rewrite (H3 a' b') in Hj; [done|done|].
        apply List.app_eq_app in E as [l' [[-> ->]|[-> ->]]].
        * rewrite !encode_app, !zlen_app in He. pose proof (zlen_nonneg (encode l')). lia.
        * destruct l' as [|y l']; [rewrite !app_nil_r in He; lia|]. rewrite app_length. cbn. lia.
    - rewrite !encode_app, !zlen_app in *. by constructor.
  Qed.
End greedy.

(** Characters of other than three bytes are stepped over exactly. *)
Lemma step_over a r b : rune_len r ≠ 3 → let s := encode a ++ encode_rune r ++ encode b in
  tried s (zlen (encode a) + rune_len r) → tried s (zlen (encode a)).
Proof.
  intros H3 s. unfold rune_len, encode_rune, encode_scalar in *.
  assert (0 <= sanitize r) as Hr0. { pose proof (sanitize_scalar r) as H. apply scalar_spec in H. lia. }
  assert (sanitize r <= 0x10FFFF) as Hr1. { pose proof (sanitize_scalar r) as H. apply scalar_spec in H. lia. }
  assert (∀ k x t, encode_rune r = t → t !! k = Some x → s !! (length (encode a) + k)%nat = Some x) as Hlk.
  { intros k x t <- Hk. unfold s. rewrite lookup_app_r by lia. replace (_ + k - _)%nat with k by lia. rewrite lookup_app_l; [done|]. by apply lookup_lt_Some in Hk. }
  unfold encode_rune, encode_scalar in *.
  destruct (sanitize r <? 0x80) eqn:E1; [|destruct (sanitize r <? 0x800) eqn:E2; [|destruct (sanitize r <? 0x10000) eqn:E3; [done|]]].
  - specialize (Hlk 0%nat _ _ eq_refl eq_refl). intros Ht%tried_back. revert Ht. 
    match goal with |- tried _ ?z → _ => replace z with (zlen (encode a)); [done|] end.
    unfold back. replace (Z.to_nat _) with (length (encode a) + 0)%nat by (unfold zlen; cbn; lia). rewrite Hlk.
    change (zlen [_]) with 1. destruct (128 <=? _) eqn:E; lia.
  - specialize (Hlk 1%nat _ _ eq_refl eq_refl). intros Ht%tried_back. revert Ht. 
    match goal with |- tried _ ?z → _ => replace z with (zlen (encode a)); [done|] end.
    unfold back. replace (Z.to_nat _) with (length (encode a) + 1)%nat by (unfold zlen; cbn; lia). rewrite Hlk.
    change (zlen [_; _]) with 2. destruct (128 <=? _) eqn:E; [lia|].
    assert (0 <= Z.land (sanitize r) 0x3F) by (apply Z.land_nonneg; lia). lia.
  - pose proof (Hlk 3%nat _ _ eq_refl eq_refl) as Hl3. pose proof (Hlk 1%nat _ _ eq_refl eq_refl) as Hl1. intros Ht%tried_back%tried_back. revert Ht. 
    match goal with |- tried _ ?z → _ => replace z with (zlen (encode a)); [done|] end.
    assert (back s (zlen (encode a) + 4) = zlen (encode a) + 2) as Hb1.
    { unfold back. replace (Z.to_nat _) with (length (encode a) + 3)%nat by (unfold zlen; cbn; lia). rewrite Hl3.
      destruct (128 <=? _) eqn:E; [lia|]. lia. }
    assert (back s (zlen (encode a) + 2) = zlen (encode a)) as Hb2.
    { unfold back. replace (Z.to_nat _) with (length (encode a) + 1)%nat by (unfold zlen; cbn; lia). rewrite Hl1.
      destruct (128 <=? _) eqn:E; [lia|]. lia. }
    change (zlen [_; _; _; _]) with 4. by rewrite Hb1, Hb2.
Qed.

Lemma tried_chars a b : Forall (λ r, rune_len r ≠ 3) b → tried (encode (a ++ b)) (zlen (encode a)).
Proof.
  revert a. induction b as [|r b IH]; intros a H; [rewrite app_nil_r; apply tried_len|].
  apply Forall_cons in H as [H1 H2]. specialize (IH (a ++ [r]) H2). rewrite <- app_assoc in IH.
  rewrite encode_app in IH. cbn [app] in IH. rewrite encode_cons in IH.
  rewrite encode_app, encode_cons. apply step_over; [done|]. rewrite encode_app, zlen_app in IH. 
  unfold rune_len. by replace (zlen (encode_rune r)) with (zlen (encode [r])) by (unfold encode; cbn; by rewrite app_nil_r).
Qed.

Lemma all_tried_no3 rs : Forall (λ r, rune_len r ≠ 3) (tail rs) → all_tried [] rs.
Proof.
  intros H c d -> Hc. cbn [app]. apply tried_chars. destruct c as [|r c]; [done|]. cbn in H. by apply Forall_app in H as [_ H].
Qed.

Lemma greedy_fun v pre first rs s1 s2 : greedy v pre first rs s1 → greedy v pre first rs s2 → s1 = s2.
Proof.
  intros H. revert s2. induction H as [|first c d segs H1 H2 H3 H4 IH]; intros s2 H.
  { inversion H as [|? a b ? G1 G2 G3 G4 E]; subst; [done|]. by destruct a. }
  remember (c ++ d) as cd eqn:E. destruct H as [first|first a b segs' G1 G2 G3 G4]; [by destruct c|].
  assert (c = a) as <-.
  { assert (length c = length a) as Hl; [|by apply app_inj_1 in E as [<- _]].
    destruct (Nat.lt_trichotomy (length c) (length a)) as [Hl|[Hl|Hl]]; [|done|].
    - rewrite (H3 a b) in G2 by done. by destruct G2.
    - rewrite (G3 c d) in H2 by done. by destruct H2. }
  apply app_inv_head in E as <-. f_equal. by apply IH.
Qed.
