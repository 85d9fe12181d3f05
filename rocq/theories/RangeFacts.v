(** Consequences for pieces and converted ranges. *)
From Coq Require Import ZifyBool Sorted.
From Verif Require Import GoBase Utf8Facts Strutils SplitPattern NormString SpecText SpecNorm SpecSplit SliceFacts
  StrutilsFacts PatternFacts NormFacts NormEdits NormInv NormReplace NormSlice NormSplit NormOA SplitExact.

(** ** Pieces *)
Lemma piece_offsets n v n' :
  piece_of n v n' → v ≠ [] → first_start v <= last_end v →
  original_offsets n' = Offsets (ns_shift n + first_start v) (ns_shift n + last_end v).
Proof.
  intros (_ & Hp & _) Hne Hle. destruct (Hp Hne) as [(x & y & _ & _ & Hl) Hs].
  unfold original_offsets, ns_orig_len. rewrite Hs. f_equal. lia.
Qed.

Lemma start_le_end orig v : aligned_over orig v → v ≠ [] → first_start v <= last_end v.
Proof.
  intros Hal Hne. destruct (first_start_in v Hne) as (x & Hx & <-). pose proof (last_end_ge _ _ _ Hal Hx).
  pose proof (aligned_in _ _ _ Hal Hx) as [? _]. lia.
Qed.

Lemma piece_norm_nil n v n' : piece_of n v n' → ns_norm n' = [] ↔ v = [].
Proof.
  intros ((_ & Hn & _) & _). rewrite Hn, shift_spans_chars. split; [|by intros ->].
  intros H. apply alen_0. unfold alen. by rewrite H.
Qed.

(** Sub-list of groups in order. *)
Lemma groups_between (gs : list (list (Z * (Z * Z)))) i j g h :
  gs !! i = Some g → gs !! j = Some h → (i < j)%nat →
  ∃ a b c, concat gs = a ++ g ++ b ++ h ++ c.
Proof.
  revert i j. induction gs as [|x gs IH]; intros i j Hi Hj Hij; [done|].
  destruct j as [|j]; [lia|]. destruct i as [|i]; cbn in Hi, Hj.
  - injection Hi as ->. apply elem_of_list_split_length in Hj as (l1 & l2 & -> & _).
    exists [], (concat l1), (concat l2). cbn. by rewrite concat_app.
  - destruct (IH i j Hi Hj) as (a & b & c & Heq); [lia|]. exists (x ++ a), b, c. cbn. by rewrite Heq, <- app_assoc.
Qed.

Lemma filter_lookup_order {A} (P : A → Prop) `{∀ x, Decision (P x)} (l : list A) i j x y :
  base.filter P l !! i = Some x → base.filter P l !! j = Some y → (i < j)%nat →
  ∃ i' j', l !! i' = Some x ∧ l !! j' = Some y ∧ (i' < j')%nat.
Proof.
  revert i j. induction l as [|z l IH]; intros i j Hi Hj Hij; [by rewrite filter_nil, lookup_nil in Hi|].
  rewrite filter_cons in Hi, Hj. destruct (decide (P z)) as [Hz|Hz].
  - destruct j as [|j]; [lia|]. destruct i as [|i].
    + cbn in Hi, Hj. injection Hi as ->. apply elem_of_list_lookup_2 in Hj as Hin.
      apply elem_of_list_filter in Hin as [_ Hin]. apply elem_of_list_lookup in Hin as (j' & Hj').
      exists 0%nat, (S j'). split; [done|]. split; [done|lia].
    + cbn in Hi, Hj. destruct (IH i j Hi Hj) as (i' & j' & ? & ? & ?); [lia|]. exists (S i'), (S j'). split; [done|].
      split; [done|lia].
  - destruct (IH i j Hi Hj Hij) as (i' & j' & ? & ? & ?). exists (S i'), (S j'). split; [done|]. split; [done|lia].
Qed.

Lemma first_span_cons r a v : first_start ((r, a) :: v) = a.1.
Proof. done. Qed.

(** Two groups of characters, one after the other: their original ranges are ordered, and they share
    original text only if the last character of one and the first of the other have the same span. *)
Lemma groups_ordered orig a g b h c :
  aligned_over orig (a ++ g ++ b ++ h ++ c) → g ≠ [] → h ≠ [] →
  first_start g <= first_start h ∧ last_end g <= last_end h
  ∧ (last_end g <= first_start h ∨ last_span g = (first_start h, (match h with p :: _ => p.2.2 | [] => 0 end))).
Proof.
  intros Hal Hg Hh. apply aligned_app in Hal as [_ Hal].
  destruct (first_start_in g Hg) as (x & Hx & Ex). destruct (first_start_in h Hh) as (y & Hy & Ey).
  assert (Hy' : y ∈ (b ++ h ++ c).*2) by (rewrite !fmap_app, !elem_of_app; tauto).
  pose proof (aligned_order _ _ _ _ _ Hal Hx Hy') as [H1 _].
  assert (Hlh : last_span h ∈ (b ++ h ++ c).*2).
  { rewrite !fmap_app, !elem_of_app. right. left. by apply last_span_in. }
  pose proof (aligned_order _ _ _ _ _ Hal (last_span_in g Hg) Hlh) as [_ H2].
  split; [lia|]. split; [done|]. destruct h as [|[r s] h]; [done|]. cbn [first_start snd].
  destruct Hal as [_ Hs]. rewrite fmap_app, SS_app in Hs. destruct Hs as (_ & _ & Hs).
  destruct (Hs (last_span g) s) as [E|E].
  - by apply last_span_in.
  - rewrite !fmap_app, !elem_of_app. right. left. apply elem_of_list_here.
  - right. rewrite E. by destruct s.
  - by left.
Qed.

Lemma last_spans v : v ≠ [] → last (spans_of v) = Some (last_span v).
Proof.
  intros Hne. pose proof (idx_spans_last v [] Hne) as H. rewrite app_nil_r in H. apply idx_lookup in H as [Hn H].
  rewrite last_lookup. rewrite <- H. f_equal. rewrite <- zlen_spans. unfold zlen. lia.
Qed.

Lemma head_spans r a v : head (spans_of ((r, a) :: v)) = Some a.
Proof.
  rewrite spans_of_cons. pose proof (rune_len_bounds r) as H. unfold rune_len, zlen in H.
  destruct (length (encode_rune r)); [lia|]. done.
Qed.

Lemma shift_last d v : v ≠ [] → last_span (shift_spans d v) = ((last_span v).1 + d, (last_span v).2 + d).
Proof.
  intros Hne. destruct (exists_last Hne) as (v' & p & ->). unfold shift_spans. rewrite map_app. cbn [map].
  by rewrite !last_span_snoc.
Qed.

(** ** Tilings *)
Lemma tiles_app i (v1 v2 : atext) len :
  tiles i (v1 ++ v2) len ↔ ∃ m, tiles i v1 m ∧ tiles m v2 len.
Proof.
  revert i. induction v1 as [|p v1 IH]; intros i; cbn [app tiles].
  - split; [intros H; by exists i|by intros (m & -> & H)].
  - split.
    + intros (H1 & H2 & (m & H3 & H4)%IH). by exists m.
    + intros (m & (H1 & H2 & H3) & H4). split; [done|]. split; [done|]. apply IH. by exists m.
Qed.

Lemma tiles_le i (v : atext) len : tiles i v len → i <= len.
Proof. revert i. induction v as [|p v IH]; intros i; cbn; [lia|]. intros (H1 & H2 & H3%IH). lia. Qed.

Lemma tiles_ends i (v : atext) len : tiles i v len → v ≠ [] → first_start v = i ∧ last_end v = len.
Proof.
  revert i. induction v as [|[r a] v IH]; intros i; [done|]. cbn [tiles snd]. intros (H1 & H2 & H3) _.
  split; [done|]. destruct (decide (v = [])) as [->|Hne].
  - cbn in H3. unfold last_end. done.
  - destruct (IH _ H3 Hne) as [_ <-]. unfold last_end. change ((r, a) :: v) with ([(r, a)] ++ v).
    by rewrite last_span_app.
Qed.

Lemma tiles_fresh i rs : tiles i (fresh i rs) (i + zlen (encode rs)).
Proof.
  revert i. induction rs as [|r rs IH]; intros i; cbn [fresh tiles].
  - rewrite zlen_encode_nil. lia.
  - cbn [snd fst]. pose proof (rune_len_bounds r). split; [done|]. split; [lia|]. rewrite zlen_encode_cons.
    rewrite Z.add_assoc. apply IH.
Qed.

Lemma tiles_map f i (v : atext) len : tiles i v len → tiles i (map (λ p, (f p.1, p.2)) v) len.
Proof. revert i. induction v as [|p v IH]; intros i; cbn; [done|]. intros (H1 & H2 & H3). auto. Qed.

Lemma sub_join {A} (l : list A) i j k x y :
  sub l i j = Ret x → sub l j k = Ret y → sub l i k = Ret (x ++ y).
Proof.
  intros (a & c & -> & -> & ->)%sub_Ret (a' & c' & H & Ha & ->)%sub_Ret. apply sub_Ret.
  rewrite app_assoc in H. apply app_inj_1 in H as [<- ->].
  - exists a, c'. split; [by rewrite <- !app_assoc|]. split; [done|]. rewrite zlen_app in *. lia.
  - rewrite app_length. unfold zlen in *. lia.
Qed.

Lemma tiled_pieces n i len (gs : list (list (Z * (Z * Z)))) ps :
  tiles i (concat gs) len → 0 <= i → len <= zlen (ns_orig n) →
  Forall2 (piece_of n) gs ps → sub (ns_orig n) i len = Ret (concat (map ns_orig ps)).
Proof.
  intros Ht Hi Hlen H. revert i Ht Hi. induction H as [|g p gs ps Hp H IH]; intros i Ht Hi.
  - cbn in *. subst. apply sub_empty. lia.
  - cbn [concat map] in *. apply tiles_app in Ht as (m & H1 & H2). pose proof (tiles_le _ _ _ H1).
    specialize (IH m H2 ltac:(lia)). eapply sub_join; [|exact IH].
    destruct (decide (g = [])) as [->|Hne].
    + cbn in H1. subst m. destruct Hp as (_ & _ & Hp). rewrite (Hp eq_refl). apply sub_empty.
      pose proof (tiles_le _ _ _ H2). lia.
    + destruct Hp as (_ & Hp & _). destruct (Hp Hne) as [Hp' _]. destruct (tiles_ends _ _ _ H1 Hne) as [<- <-].
      by apply text_at_sub.
Qed.

(** ** Conversion of ranges *)
Lemma coerce_to_norm_bytes n a b :
  wf n → a < b →
  let '((i, j), ok) := coerce_to_norm n (ORange a b) in
  if (ok : bool) then
    0 <= i <= j ∧ j <= zlen (ns_norm n) ∧ boundary (ns_norm n) i ∧ boundary (ns_norm n) j
    ∧ (∃ k s, idx (ns_al n) k = Ret s ∧ s.2 <= b)
    ∧ (∀ k s, idx (ns_al n) k = Ret s → i <= k < j → a <= s.1 ∧ s.2 <= b)
    ∧ (∀ k s, idx (ns_al n) k = Ret s → a <= s.1 → s.1 < s.2 → s.2 <= b → i <= k < j)
    ∧ (i < j → ∃ s, idx (ns_al n) i = Ret s ∧ s.1 < s.2)
  else ∀ k s, idx (ns_al n) k = Ret s → b < s.2.
Proof.
  intros (v & Hwf) Hab. pose proof Hwf as (Hr & Hv & Hal). pose proof Hr as (Hs & Hn & Ha).
  destruct (coerce_to_norm_spec n v a b Hr Hab) as (v1 & v2 & v3 & Heq & W & H). rewrite H. rewrite Heq in *. clear H Heq v.
  assert (H3 : ∀ p, p ∈ v3 → b < p.2.2).
  { destruct W as (_ & W2 & _). destruct v3 as [|q v3]; [by intros p ?%elem_of_nil|].
    specialize (W2 q v3 eq_refl). intros p [->|Hp]%elem_of_cons; [done|].
    assert (q.2.2 <= p.2.2); [|lia]. apply aligned_app in Hal as [_ Hal]. apply aligned_app in Hal as [_ Hal].
    apply (aligned_order (ns_orig n) [q] v3 q.2 p.2 Hal); [apply elem_of_list_here|].
    apply elem_of_list_fmap. eauto. }
  assert (Hidx : ∀ k s, idx (ns_al n) k = Ret s →
     (∃ p, p ∈ v1 ∧ p.2 = s ∧ 0 <= k < alen v1) ∨ (∃ p, p ∈ v2 ∧ p.2 = s ∧ alen v1 <= k < alen (v1 ++ v2))
     ∨ (∃ p, p ∈ v3 ∧ p.2 = s ∧ alen (v1 ++ v2) <= k)).
  { intros k s Hk. rewrite Ha in Hk. pose proof (idx_bounds _ _ _ Hk) as [Hk0 _]. rewrite spans_of_app in Hk.
    destruct (Z.lt_ge_cases k (alen v1)) as [Hlt|Hge].
    - rewrite idx_app_l in Hk by (by rewrite zlen_spans). apply idx_spans_in in Hk.
      apply elem_of_list_fmap in Hk as (p & -> & Hp). left. eauto.
    - rewrite idx_app_r in Hk by (by rewrite zlen_spans). rewrite zlen_spans, spans_of_app in Hk. rewrite alen_app.
      destruct (Z.lt_ge_cases (k - alen v1) (alen v2)) as [Hlt2|Hge2].
      + rewrite idx_app_l in Hk by (by rewrite zlen_spans). apply idx_spans_in in Hk.
        apply elem_of_list_fmap in Hk as (p & -> & Hp). right. left. exists p. split; [done|]. split; [done|lia].
      + rewrite idx_app_r in Hk by (by rewrite zlen_spans). apply idx_spans_in in Hk.
        apply elem_of_list_fmap in Hk as (p & -> & Hp). right. right. exists p. split; [done|]. split; [done|lia]. }
  destruct (decide (v1 ++ v2 = [])) as [Hnil|Hne].
  - apply app_nil in Hnil as [-> ->]. intros k s Hk.
    destruct (Hidx k s Hk) as [(p & Hp & _)|[(p & Hp & _)|(p & Hp & <- & _)]];
      [by apply elem_of_nil in Hp|by apply elem_of_nil in Hp|by apply H3].
  - pose proof (alen_nonneg v1). pose proof (alen_nonneg v2). pose proof (alen_nonneg v3). rewrite Hn.
    assert (alen (v1 ++ v2 ++ v3) = zlen (encode (v1 ++ v2 ++ v3).*1)) as Hlen by done.
    rewrite !alen_app in Hlen. rewrite alen_app. split; [lia|]. split; [lia|].
    split; [by apply aboundary_app|]. split.
    { rewrite <- alen_app. rewrite app_assoc in Hs |- *. by apply aboundary_app. }
    destruct W as (W1 & W2 & W3 & W4).
    split.
    { destruct (v1 ++ v2) as [|[r s] w] eqn:E; [done|]. exists 0, s. rewrite Ha, app_assoc, E.
      split; [|apply Forall_cons in W1 as [W1 _]; done]. pose proof (rune_len_bounds r).
      pose proof (idx_spans_middle [] r s (w ++ v3) 0 ltac:(lia)) as Hm. exact Hm. }
    rewrite alen_app in Hidx.
    pose proof (within_spans _ a b v1 v2 v3 Hal (conj W1 (conj W2 (conj W3 W4)))) as Win.
    rewrite Forall_fmap, Forall_forall in Win. rewrite Forall_forall in W3.
    split; [|split].
    + intros k s Hk Hin. destruct (Hidx k s Hk) as [(p & Hp & <- & ?)|[(p & Hp & <- & ?)|(p & Hp & <- & ?)]];
        [lia| |lia]. by apply Win.
    + intros k s Hk H4 H5 H6. destruct (Hidx k s Hk) as [(p & Hp & <- & ?)|[(p & Hp & <- & ?)|(p & Hp & <- & ?)]].
      * destruct (W3 p Hp); lia.
      * lia.
      * specialize (H3 p Hp). lia.
    + intros Hij. destruct v2 as [|[r s] v2]; [rewrite alen_nil in Hij; lia|]. exists s.
      destruct (W4 _ _ eq_refl) as [_ Hns]. cbn [snd] in Hns.
      apply aligned_mid in Hal. pose proof (aligned_in _ _ s Hal ltac:(apply elem_of_list_here)) as [? _].
      split; [|lia]. rewrite Ha. cbn [app]. pose proof (rune_len_bounds r).
      pose proof (idx_spans_middle v1 r s (v2 ++ v3) 0 ltac:(lia)) as Hm. by rewrite Z.add_0_r in Hm.
Qed.

Lemma slice_bytes n i j :
  wf n → boundary (ns_norm n) i → boundary (ns_norm n) j → i < j →
  ∃ n' a b, slice n (NRange i j) = Ret (Some n') ∧ wf n'
    ∧ idx (ns_al n) i = Ret a ∧ idx (ns_al n) (j - 1) = Ret b
    ∧ text_at (ns_norm n) i j (ns_norm n')
    ∧ text_at (ns_orig n) a.1 b.2 (ns_orig n')
    ∧ zlen (ns_al n') = j - i
    ∧ ∀ k s, i <= k < j → idx (ns_al n) k = Ret s →
        ∃ s', idx (ns_al n') (k - i) = Ret s'
            ∧ ns_shift n' + s'.1 = ns_shift n + s.1 ∧ ns_shift n' + s'.2 = ns_shift n + s.2.
Proof.
  intros (v & Hwf) Hi Hj Hij. pose proof Hwf as ((Hs & Hn & Ha) & Hv & Hal). rewrite Hn in Hi, Hj.
  destruct (aboundary_split2 v i j Hs Hi Hj ltac:(lia)) as (v1 & v2 & v3 & Heq & Ei & Ej). rewrite Heq in *. clear Heq v.
  assert (Hne : v2 ≠ []).
  { intros ->. rewrite app_nil_r in Ej. lia. }
  destruct (slice_chars n v1 v2 v3 Hwf Hne) as (n' & Hsl & Hp). rewrite <- Ei, <- Ej in Hsl.
  pose proof (piece_wf _ _ _ _ _ Hwf Hp) as Hwf'. pose proof Hp as ((_ & Hn' & Ha') & Ho & _).
  destruct (Ho Hne) as [Ho1 Ho2]. rewrite alen_app in Ej. pose proof (alen_nonneg v1). pose proof (alen_nonneg v3).
  destruct (coerce_to_orig_bytes n i j) as (a & b & Hia & Hjb & Hc); [lia|lia| |].
  { rewrite Ha, zlen_spans, !alen_app. lia. }
  rewrite Ei in Hc. rewrite Ej, <- alen_app in Hc.
  rewrite (coerce_to_orig_chars n v1 v2 v3 (conj Hs (conj Hn Ha)) Hne) in Hc. injection Hc as Hc1 Hc2.
  exists n', a, b. split; [done|]. split; [by eexists|]. split; [done|]. split; [done|].
  split.
  { rewrite Hn, Hn', shift_spans_chars, !fmap_app, !encode_app. exists (encode v1.*1), (encode v3.*1).
    split; [done|]. split; [done|]. unfold alen in *. lia. }
  split; [by rewrite <- Hc1, <- Hc2|]. split.
  { rewrite Ha', zlen_spans. unfold alen. rewrite shift_spans_chars. fold (alen v2). lia. }
  intros k s Hk Hks. rewrite Ha', shift_spans_spans. rewrite Ha, !spans_of_app in Hks.
  rewrite idx_app_r in Hks by (rewrite zlen_spans; lia).
  rewrite idx_app_l in Hks by (rewrite !zlen_spans; lia). rewrite zlen_spans, <- Ei in Hks.
  exists (s.1 + - first_start v2, s.2 + - first_start v2). split.
  - apply idx_lookup in Hks as [Hk0 Hks]. apply idx_lookup. split; [done|].
    rewrite list_lookup_fmap. by rewrite Hks.
  - rewrite Ho2. cbn. lia.
Qed.

Lemma segs_unique i segs segs' :
  concat segs.*1 = concat segs'.*1 → place i (texts_of segs) = place i (texts_of segs') → segs = segs'.
Proof.
  revert i segs'. induction segs as [|[t m] segs IH]; intros i [|[t' m'] segs'] Hc Hp; [done|done|done|].
  cbn [texts_of map place fst snd] in Hp. injection Hp as Hlen <- Hp. rewrite !fmap_cons in Hc. cbn [concat fst] in Hc.
  assert (Hl : alen t = alen t') by (unfold alen; lia).
  destruct (alen_prefix t _ t' _ Hc ltac:(lia)) as (w & -> & Hw). rewrite alen_app in Hl.
  assert (w = []) as -> by (apply alen_0; lia). rewrite app_nil_r in *. f_equal. eapply IH; [done|exact Hp].
Qed.

Lemma kept_removed gs :
  grouping Removed (map (λ g : asegments, g.*2) gs) →
  map group_text (kept_groups Removed gs) = (base.filter (λ s : _ * bool, s.2 = false) (concat gs)).*1.
Proof.
  induction gs as [|g gs IH]; [done|]. cbn [map]. intros H. inversion H as [|? ? Hg Hgs]; subst.
  unfold kept_groups. rewrite filter_cons. cbn [concat]. rewrite filter_app, fmap_app.
  rewrite <- (IH Hgs). destruct g as [|[t m] [|]]; try (cbn in Hg; destruct Hg; done).
  cbn in Hg. destruct m.
  - rewrite decide_False by done. rewrite filter_cons_False by done. done.
  - rewrite decide_True by done. rewrite filter_cons_True by done. cbn [map]. f_equal. cbn. by rewrite app_nil_r.
Qed.

Lemma split_removed_pieces n v p cs segs ps :
  wf_as n v → p (ns_norm n) = Ret (Ok cs) → concat segs.*1 = v → cs = place 0 (texts_of segs) →
  split n p Removed = Ret (Ok ps) →
  Forall2 (piece_of n) (base.filter (λ s : _ * bool, s.2 = false) segs).*1 ps.
Proof.
  intros Hwf Hp Hv Hcs H. pose proof Hwf as (Hr & _).
  assert (Hcov : boundary_cover (ns_norm n) cs) by (apply (cover_segments n v cs Hr); eauto).
  destruct (split_exact n v p Removed cs Hwf Hp Hcov) as (segs' & gs & Hv' & Hcs' & [<- Hg] & Hcase).
  rewrite (segs_unique 0 segs (concat gs)); [|congruence..].
  destruct Hcase as [[Hx _]|(_ & ps' & Hx & Hps)]; [congruence|]. rewrite H in Hx. injection Hx as <-.
  rewrite <- (kept_removed gs Hg). by apply Forall2_fmap_l.
Qed.

Definition flip_segs (segs : asegments) : asegments := map (λ s, (s.1, negb s.2)) segs.
Lemma flip_place i segs :
  map (λ c, Capture (c_start c) (c_end c) (negb (c_match c))) (place i (texts_of segs)) = place i (texts_of (flip_segs segs)).
Proof. revert i. induction segs as [|[t m] segs IH]; intros i; [done|]. cbn. f_equal. apply IH. Qed.
Lemma flip_fst segs : (flip_segs segs).*1 = segs.*1.
Proof. induction segs as [|[t m] segs IH]; [done|]. cbn. f_equal. exact IH. Qed.
Lemma flip_filter segs :
  (base.filter (λ s : _ * bool, s.2 = false) (flip_segs segs)).*1 = (base.filter (λ s : _ * bool, s.2 = true) segs).*1.
Proof.
  induction segs as [|[t m] segs IH]; [done|]. cbn [flip_segs map]. rewrite !filter_cons. cbn [fst snd].
  destruct m; cbn [negb].
  - rewrite !decide_True by done. rewrite !fmap_cons. cbn [fst]. f_equal. exact IH.
  - rewrite !decide_False by done. exact IH.
Qed.

(** ** When GetRange and GetOriginalRange panic *)
Lemma get_range_norm n s e :
  get_range n (NRange s e) = (x ← sub (ns_norm n) s e; Ret (Some x)).
Proof. done. Qed.

Lemma get_range_orig n a b :
  wf n → a < b →
  get_range n (ORange a b) = Ret None
  ∨ ∃ i j x, coerce_to_norm n (ORange a b) = ((i, j), true) ∧ text_at (ns_norm n) i j x
           ∧ get_range n (ORange a b) = Ret (Some x).
Proof.
  intros Hwf Hab. pose proof (coerce_to_norm_bytes n a b Hwf Hab) as H. unfold get_range.
  destruct (coerce_to_norm n (ORange a b)) as [[i j] [|]]; [|by left]. right.
  destruct H as (H1 & H2 & _). destruct (sub_total (ns_norm n) i j) as (x & Hx); [lia..|].
  exists i, j, x. split; [done|]. split; [by apply text_at_sub|]. cbn [negb]. by rewrite Hx.
Qed.

(** ** The other ranges Slice can be asked for *)
Lemma slice_degenerate n i j :
  wf n →
  (boundary (ns_norm n) i → boundary (ns_norm n) j →
     (j < i → slice n (NRange i j) = Ret None)
     ∧ (i = j → slice n (NRange i j) = if i <=? zlen (ns_orig n) then Ret (Some (NS [] [] [] (ns_shift n + i))) else Panic))
  ∧ (boundary (ns_orig n) i → boundary (ns_orig n) j →
     (j < i → slice n (ORange i j) = Ret None)
     ∧ (i = j → slice n (ORange i j) = if i <=? zlen (ns_norm n) then Ret (Some (NS [] [] [] (ns_shift n + i))) else Panic)).
Proof.
  intros (v & Hr & Hv & Hal). split; intros Hi Hj; split.
  - intros Hij. unfold slice. rewrite (range_valid_true n v i j Hr Hi Hj). cbn [mbind outcome_bind negb coerce_to_norm].
    unfold coerce_to_orig, r_len. cbn [r_start r_end].
    replace (j - i =? 0) with false by lia. by replace (j <? i) with true by lia.
  - intros <-. destruct (i <=? zlen (ns_orig n)) eqn:E; [apply (slice_empty n v); [done..|lia]|apply (slice_empty_panics n v); [done..|lia]].
  - intros Hij. unfold slice. rewrite (valid_range_orig n i j Hv Hi Hj). cbn [mbind outcome_bind negb].
    unfold coerce_to_norm, r_len. cbn [r_start r_end].
    replace (j - i =? 0) with false by lia. by replace (j <? i) with true by lia.
  - intros <-. unfold slice. rewrite (valid_range_orig n i i Hv Hi Hj). cbn [mbind outcome_bind negb].
    unfold get_original_range, get_range, coerce_to_norm, r_len. cbn [r_start r_end].
    rewrite Z.sub_diag. cbn [Z.eqb negb coerce_to_orig mbind outcome_bind].
    apply boundary_range in Hi. rewrite (sub_empty (ns_orig n)) by lia. cbn [mbind outcome_bind].
    destruct (i <=? zlen (ns_norm n)) eqn:E; [|rewrite (sub_panic (ns_norm n)) by lia; done].
    rewrite (sub_empty (ns_norm n)) by lia. cbn [mbind outcome_bind].
    destruct Hr as (_ & Hn & Ha). rewrite sub_empty; [done|]. rewrite Ha, zlen_spans. unfold alen. rewrite <- Hn. lia.
Qed.

Lemma slice_original n a b :
  wf n → boundary (ns_orig n) a → boundary (ns_orig n) b → a < b →
  match coerce_to_norm n (ORange a b) with
  | ((i, j), true) =>
    ∃ n', slice n (ORange a b) = Ret (Some n') ∧ wf n' ∧ text_at (ns_orig n) a b (ns_orig n') ∧ text_at (ns_norm n) i j (ns_norm n')
      ∧ ns_shift n' = ns_shift n + a ∧ zlen (ns_al n') = j - i
      ∧ ∀ k s, i <= k < j → idx (ns_al n) k = Ret s → idx (ns_al n') (k - i) = Ret (s.1 - a, s.2 - a)
  | (_, false) => slice n (ORange a b) = Ret None
  end.
Proof.
  intros Hwf Ha Hb Hab. pose proof (coerce_to_norm_bytes n a b Hwf Hab) as H.
  assert (Hval : range_is_valid n (ORange a b) = Ret true) by (destruct Hwf as (v & _ & Hv & _); by apply valid_range_orig).
  assert (Hlen : zlen (ns_al n) = zlen (ns_norm n)).
  { destruct Hwf as (v & (_ & Hn & Hal) & _). rewrite Hal, zlen_spans. unfold alen. by rewrite Hn. }
  destruct (coerce_to_norm n (ORange a b)) as [[i j] [|]] eqn:E.
  2:{ unfold slice. rewrite Hval. cbn [mbind outcome_bind negb]. by rewrite E. }
  destruct H as (Hi & Hj & _).
  destruct (sub_total (ns_norm n) i j) as (x & Hx); [lia..|]. destruct (sub_total (ns_al n) i j) as (l & Hl); [lia..|].
  pose proof (boundary_range _ _ Ha). pose proof (boundary_range _ _ Hb).
  destruct (sub_total (ns_orig n) a b) as (o & Ho); [lia..|].
  assert (Hs : slice n (ORange a b) = Ret (Some (NS o x (map (λ c, (c.1 - a, c.2 - a)) l) (ns_shift n + a)))).
  { unfold slice. rewrite Hval. cbn [mbind outcome_bind negb]. rewrite E. cbn [negb coerce_to_orig mbind outcome_bind].
    unfold get_original_range, get_range. cbn [coerce_to_orig mbind outcome_bind negb]. rewrite Ho. cbn [mbind outcome_bind].
    rewrite E. cbn [negb]. rewrite Hx. cbn [mbind outcome_bind]. rewrite Hl. done. }
  eexists. split; [exact Hs|]. split; [by eapply slice_wf|]. cbn [ns_orig ns_norm ns_shift ns_al].
  split; [by apply text_at_sub|]. split; [by apply text_at_sub|]. split; [done|].
  split; [unfold zlen; rewrite map_length; by apply sub_zlen in Hl|].
  intros k s Hk Hks. apply sub_Ret in Hl as (p & q & Hpq & -> & ->). rewrite Hpq in Hks.
  unfold idx in Hks |- *. replace (0 <=? k) with true in Hks by lia. replace (0 <=? k - zlen p) with true by lia.
  rewrite lookup_app_r in Hks by (unfold zlen in *; lia). rewrite lookup_app_l in Hks by (unfold zlen in *; lia).
  change (map ?f l) with (f <$> l). rewrite list_lookup_fmap. unfold zlen in *.
  replace (Z.to_nat (k - Z.of_nat (length p))) with (Z.to_nat k - length p)%nat by lia.
  destruct (l !! _); [by injection Hks as ->|done].
Qed.
