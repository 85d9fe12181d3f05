(** Programs of edits: what they do, exactly. *)
From Coq Require Import ZifyBool ZifyNat Sorted.
From Verif Require Import GoBase Utf8Facts SliceFacts Strutils SplitPattern NormString Encodings Bpe Normalizers PreTokString PreTokenizers SpecCommute SpecText SpecNorm SpecNormalizers SpecShift SpecProg
  StrutilsFacts PatternFacts NormFacts NormEdits NormInv NormReplace NormalizersFacts TwiceFacts ByteFacts ExactFacts ShiftFacts.
Import GoBase SpecNorm.
#[local] Open Scope Z_scope.

(** * Replace *)
Lemma replace_step_exact n out seg rest crs :
  repr n (out ++ seg ++ rest) → scalars crs →
  ∃ n', transform_range n (NRange (alen out) (alen (out ++ seg))) (map (λ r, (r, 1)) crs) (zlen seg) = Ret n'
    ∧ repr n' (out ++ map (λ r, (r, match_span out seg)) crs ++ rest) ∧ same_origin n n'.
Proof.
  intros Hr Hc. destruct (decide (crs = [])) as [->|Hne].
  { destruct (replace_step n out seg rest [] Hr Hc) as (n' & a & H1 & H2 & H3 & _). exists n'. done. }
  destruct (replace_step n out seg rest crs Hr Hc) as (n' & a & H1 & H2 & H3 & _). exists n'. split; [done|]. split; [|done].
  enough (a = match_span out seg) as <- by done.
  (* the span that is read *)
  unfold transform_range in H1. cbn [coerce_to_norm negb] in H1. pose proof Hr as (Hs & Hn & Hal).
  apply bind_Ret in H1 as (x1 & Hx1 & H1). apply bind_Ret in H1 as (x2 & Hx2 & H1). apply bind_Ret in H1 as (x3 & Hx3 & H1). apply bind_Ret in H1 as (x4 & Hx4 & H1).
  destruct crs as [|c crs]; [done|]. cbn [map tr_loop] in Hx4. replace (1 <=? 1) with true in Hx4 by done.
  apply bind_Ret in Hx4 as (a' & Ha & Hx4). cbn in Hx4. apply bind_Ret in Hx4 as (z & _ & Hx4). injection Hx4 as <-.
  assert (zlen x2 = zlen seg) as Hx2l by (rewrite (sub_zlen _ _ _ _ Hx2); lia). rewrite Hx2l in Ha.
  apply bind_Ret in H1 as (y1 & Hy1 & H1). apply bind_Ret in H1 as (y2 & Hy2 & H1). apply bind_Ret in H1 as (y3 & Hy3 & H1). apply bind_Ret in H1 as (y4 & Hy4 & H1). injection H1 as <-.
  assert (a = a') as ->.
  { destruct H2 as (_ & _ & H2). cbn [ns_al] in H2. rewrite Hal in Hy1. rewrite !spans_of_app in Hy1. rewrite (sub_prefix (spans_of out) _ (alen out)) in Hy1 by (by rewrite zlen_spans). injection Hy1 as <-.
    rewrite spans_of_app in H2. apply app_inj_1 in H2 as [_ H2]; [|done]. cbn [map app] in H2. rewrite spans_of_cons in H2. cbn [fst] in H2.
    destruct (encode_rune c) as [|b bs] eqn:E; [by apply (f_equal zlen) in E; change (rune_len c = 0) in E; pose proof (rune_len_bounds c); lia|]. cbn in H2. by injection H2. }
  pose proof (alen_nonneg out) as Hout. unfold match_span. destruct seg as [|s0 seg].
  - change (zlen []) with 0 in Ha. rewrite Z.add_0_l in Ha. destruct (alen out <? 1) eqn:E.
    + assert (out = []) as -> by (apply alen_0; lia). by injection Ha.
    + assert (out ≠ []). { intros ->. by rewrite alen_nil in E. } rewrite Hal, idx_spans_last in Ha by done. by injection Ha.
  - set (sg := s0 :: seg) in *. assert (0 < zlen sg) by (unfold sg; rewrite zlen_cons; pose proof (zlen_nonneg seg); lia).
    assert (zlen sg <= alen sg). { unfold alen. etransitivity; [|apply zlen_le_encode]. unfold zlen. by rewrite fmap_length. }
    replace (zlen sg + alen out <? 1) with false in Ha by lia.
    rewrite Hal, spans_of_app, idx_app_r in Ha by (rewrite zlen_spans; lia). rewrite zlen_spans in Ha.
    rewrite spans_of_app, idx_app_l in Ha by (rewrite zlen_spans; lia). replace (zlen sg + alen out - 1 - alen out) with (zlen sg - 1) in Ha by lia.
    rewrite idx_span in Ha. destruct (span_at sg (zlen sg - 1)); [|done]. by injection Ha.
Qed.

Lemma replace_loop_exact crs segs out n i off :
  scalars crs → repr n (out ++ concat segs.*1) → i + off = alen out →
  ∃ n', replace_loop n (place i (texts_of segs)) (encode crs) off = Ret n'
    ∧ repr n' (replacing crs out segs) ∧ same_origin n n'.
Proof.
  intros Hc. revert out n i off. induction segs as [|[seg m] segs IH]; intros out n i off Hr Hi.
  { cbn. exists n. cbn in Hr. rewrite app_nil_r in Hr. done. }
  cbn [fmap list_fmap concat fst] in Hr. cbn [texts_of map place replace_loop fst snd c_match c_start c_end replacing].
  fold (texts_of segs). destruct m; cbn [negb].
  - pose proof (alen_nonneg out) as Hout.
    pose proof (zlen_nonneg (encode seg.*1)) as Hseg0.
    rewrite !Z.max_r by lia. rewrite Hi.
    replace (i + zlen (encode seg.*1) + off) with (alen (out ++ seg)) by (rewrite alen_app; unfold alen in *; lia).
    pose proof Hr as (Hs & Hn & _). rewrite Hn.
    replace (encode (out ++ seg ++ concat segs.*1).*1) with (encode out.*1 ++ encode seg.*1 ++ encode (concat segs.*1).*1)
      by (by rewrite !fmap_app, !encode_app).
    rewrite (sub_app3 _ _ _ (alen out) (alen (out ++ seg))); [|reflexivity|apply alen_app]. cbn [mbind outcome_bind].
    rewrite (runes_encode_scalars seg.*1) by (rewrite !fmap_app, !scalars_app in Hs; tauto).
    replace (zlen seg.*1) with (zlen seg) by (unfold zlen; by rewrite fmap_length).
    destruct (replace_step_exact n out seg (concat segs.*1) crs Hr Hc) as (n1 & H1 & Hr1 & Ho1).
    rewrite (runes_encode_scalars crs) by done. rewrite H1. cbn [mbind outcome_bind].
    rewrite app_assoc in Hr1.
    destruct (IH (out ++ map (λ r, (r, match_span out seg)) crs) n1 (i + zlen (encode seg.*1))
      (off + (zlen (encode crs) - (i + zlen (encode seg.*1) - i))) Hr1) as (n' & H2 & Hr2 & Ho2).
    { rewrite alen_app. unfold alen at 2. rewrite atexts_const. lia. }
    exists n'. split; [done|]. split; [done|]. destruct Ho1, Ho2. split; congruence.
  - rewrite app_assoc in Hr.
    destruct (IH (out ++ seg) n (i + zlen (encode seg.*1)) off Hr) as (n' & H).
    { rewrite alen_app. unfold alen in *. lia. }
    by exists n'.
Qed.

Lemma replace_exact n v (p : pattern) cs crs :
  repr n v → p (ns_norm n) = Ret (Ok cs) → boundary_cover (ns_norm n) cs → scalars crs →
  ∃ n' segs, replace n p (encode crs) = Ret (Ok n')
    ∧ concat segs.*1 = v ∧ cs = place 0 (texts_of segs)
    ∧ repr n' (replacing crs [] segs) ∧ same_origin n n'.
Proof.
  intros Hr Hp Hcov Hc. apply (cover_segments n v cs Hr) in Hcov as (segs & Hsegs & ->).
  destruct (replace_loop_exact crs segs [] n 0 0 Hc) as (n' & H1 & H2 & H3).
  { cbn. by rewrite Hsegs. } { done. }
  exists n', segs. split; [|done]. unfold replace. rewrite Hp. cbn [mbind outcome_bind].
  by rewrite H1.
Qed.

(** Of single characters. *)
Lemma replacing_chars g content segs out : rune_segmented g (texts_of segs) →
  replacing content out segs = out ++ concat (map (λ p, if g p.1 then map (λ r, (r, p.2)) content else [p]) (concat segs.*1)).
Proof.
  revert out. induction segs as [|[seg m] segs IH]; intros out; [by rewrite app_nil_r|].
  cbn [texts_of map fst snd rune_segmented]. fold (texts_of segs). intros [Hm Hs]. cbn [replacing fmap list_fmap concat fst]. rewrite List.map_app, concat_app, app_assoc. destruct m.
  - destruct Hm as (r & Hr & Hg). destruct seg as [|[r' a] [|? ?]]; cbn in Hr; try done. injection Hr as ->. rewrite (IH _ Hs). f_equal. f_equal.
    cbn [map concat fst snd]. rewrite Hg, app_nil_r. unfold match_span. change (zlen [(r, a)] - 1) with 0. cbn [span_at]. change (0 <? 0) with false. cbn iota.
    pose proof (rune_len_bounds r). replace (0 <? rune_len r) with true by lia. done.
  - destruct Hm as (_ & Hf & _). rewrite (IH _ Hs). f_equal. f_equal. clear -Hf. induction seg as [|[x a] seg IH]; [done|]. rewrite fmap_cons in Hf. apply Forall_cons in Hf as [Hx Hf].
    cbn [map concat fst] in *. rewrite Hx. cbn [app]. by rewrite <- (IH Hf).
Qed.

Lemma replace_chars n v g content : repr n v →
  ∃ n', replace n (func_pattern g) (encode content) = Ret (Ok n')
    ∧ repr n' (concat (map (λ p, if g p.1 then map (λ r, (sanitize r, p.2)) content else [p]) v)) ∧ same_origin n n'.
Proof.
  intros Hr. pose proof Hr as (Hs & Hn & _). destruct (func_pattern_cover g v.*1 Hs) as (cs & H1 & H2). rewrite <- Hn in H1, H2.
  rewrite <- (encode_sanitize content). destruct (replace_exact n v (func_pattern g) cs (map sanitize content) Hr H1 H2) as (n' & segs & H3 & <- & -> & H4 & H5).
  { apply Forall_map, Forall_true. intros r. apply sanitize_scalar. }
  exists n'. split; [done|]. split; [|done].
  destruct (func_pattern_spec g _ Hs) as (ss & E1 & E2 & E3). rewrite Hn, E1 in H1. injection H1 as H1.
  apply place_inj in H1; [|rewrite E2; by rewrite texts_of_concat]. subst ss. destruct (decide _) as [E|_].
  - assert (segs = [([], false)]) as ->. { destruct segs as [|[[|] m] [|]]; cbn in E3; try done. by injection E3 as ->. } done.
  - rewrite (replacing_chars g) in H4 by done. cbn [app] in H4. erewrite map_ext; [exact H4|]. intros p. cbn. destruct (g p.1); [|done]. by rewrite List.map_map.
Qed.

(** * Programs *)
(** [m] does to aligned texts what [F] says. *)
Definition does (m : ns → outcome ns) (F : atext → option atext) : Prop :=
  ∀ n v, repr n v → match F v with Some w => ∃ n', m n = Ret n' ∧ repr n' w ∧ same_origin n n' | None => m n = Panic end.

Lemma leading_le_length keep rs : (leading keep rs <= length rs)%nat.
Proof. induction rs as [|r rs IH]; cbn; [lia|]. destruct (keep r); lia. Qed.
Lemma leading_white rs : Forall (λ r, white_space r = true) (take (leading not_white rs) rs).
Proof.
  induction rs as [|r rs IH]; [constructor|]. cbn [leading]. unfold not_white at 1. destruct (white_space r) eqn:E; cbn [negb]; [|constructor]. cbn [take]. by constructor.
Qed.
Lemma leading_stop rs r rest : drop (leading not_white rs) rs = r :: rest → white_space r = false.
Proof.
  induction rs as [|x rs IH]; [done|]. cbn [leading]. unfold not_white at 1. destruct (white_space x) eqn:E; cbn [negb drop]; [done|]. intros [= -> _]. done.
Qed.

Lemma ends_trimmed left right (v : atext) : let '(k, j) := ends left right v.*1 in
  (k + j <= length v)%nat ∧ ∃ lead mid trail, v = lead ++ mid ++ trail ∧ length lead = k ∧ mid = take (length v - k - j) (drop k v) ∧ trimmed left right lead mid trail.
Proof.
  unfold ends. set (k := if left then leading not_white v.*1 else 0%nat). set (j := if right then leading not_white (rev (drop k v.*1)) else 0%nat). cbv beta iota.
  assert (Hk : (k <= length v)%nat). { unfold k. destruct left; [|lia]. etransitivity; [apply leading_le_length|]. by rewrite fmap_length. }
  assert (Hj : (j <= length v - k)%nat). { unfold j. destruct right; [|lia]. etransitivity; [apply leading_le_length|]. rewrite rev_length, drop_length, fmap_length. lia. }
  split; [lia|]. set (w := drop k v). assert (Hw : length w = (length v - k)%nat) by (unfold w; by rewrite drop_length).
  exists (take k v), (take (length v - k - j) w), (drop (length v - k - j) w). split; [unfold w; by rewrite take_drop, take_drop|]. split; [rewrite take_length; lia|]. split; [done|].
  assert (Hwhite : ∀ l : atext, Forall (λ r, white_space r = true) l.*1 → Forall white l). { intros l. by rewrite Forall_fmap. }
  split; [|split; [|split]].
  - apply Hwhite. rewrite fmap_take. unfold k. destruct left; [apply leading_white|]. constructor.
  - apply Hwhite. rewrite fmap_drop. unfold j. destruct right.
    + fold k. set (x := drop k v.*1). assert (Ex : w.*1 = x) by (unfold w, x; by rewrite fmap_drop). rewrite Ex. rewrite <- Ex in *. rewrite <- (rev_involutive w.*1) at 1 2.
      set (y := rev w.*1). assert (Hy : length y = (length v - k)%nat) by (unfold y; by rewrite rev_length, fmap_length).
      rewrite <- Hy. rewrite skipn_rev, rev_involutive. replace (length y - (length y - leading not_white y))%nat with (leading not_white y); [|pose proof (leading_le_length not_white y); lia].
      apply Forall_rev, leading_white.
    + rewrite drop_ge; [constructor|]. rewrite fmap_length. lia.
  - destruct left eqn:El; [|done]. intros [r a] m E. unfold white. cbn [fst].
    assert (∃ rest, drop k v.*1 = r :: rest) as [rest Hd]. { rewrite <- fmap_drop. fold w. destruct w as [|[x b] w']; [by rewrite take_nil in E|]. destruct (length v - k - j)%nat; [done|]. cbn in E. injection E as -> -> _. by eexists. }
    rewrite (leading_stop _ _ _ Hd). done.
  - destruct right eqn:Er.
    + intros [r a] m E. unfold white. cbn [fst].
      assert (∃ rest, drop j (rev (drop k v.*1)) = r :: rest) as [rest Hd].
      { rewrite <- fmap_drop. fold w. rewrite <- List.map_rev. change (map fst (rev w)) with (rev w).*1. rewrite <- fmap_drop. rewrite <- (rev_involutive w) in E. 
        set (y := rev w) in *. assert (Hy : length y = (length v - k)%nat) by (unfold y; by rewrite rev_length).
        rewrite <- Hy in E. rewrite firstn_rev in E. replace (length y - (length y - j))%nat with j in E by lia.
        apply (f_equal (@rev _)) in E. rewrite rev_involutive, rev_app_distr in E. rewrite E. by eexists. }
      rewrite (leading_stop _ _ _ Hd). done.
    + unfold j. rewrite drop_ge; [done|lia].
Qed.

Lemma trim_does left right : does (λ n, trim_left_right n left right) (λ v, let '(k, j) := ends left right v.*1 in
    with_found v (Z.of_nat k) (imap pair (take (length v - k - j) (drop k v.*1)))).
Proof.
  intros n v Hr. pose proof (ends_trimmed left right v) as H. destruct (ends left right v.*1) as [k j]. destruct H as (_ & lead & mid & trail & E & Hk & Hm & Ht).
  assert (Em : take (length v - k - j) (drop k v.*1) = mid.*1) by (rewrite Hm; by rewrite fmap_take, fmap_drop). rewrite Em. rewrite E in Hr |- *.
  replace (Z.of_nat k) with (zlen lead) by (unfold zlen; lia). by apply trim_found.
Qed.

Lemma meaning_does u s : does (call u s) (meaning u s).
Proof.
  intros n v Hr. destruct s as [f|keep|left right|p|g content|o|i k j dest]; cbn [call meaning].
  - destruct (map_runes_text n v f Hr) as (n' & H1 & _ & H2 & H3). by exists n'.
  - by apply filter_found.
  - by apply (trim_does left right).
  - destruct v as [|[x a] v].
    + rewrite prepend_empty_text; [|by destruct Hr as (_ & -> & _)]. by exists n.
    + destruct (decide (p = [])) as [->|Hp]; [by apply prepend_nothing in Hr|]. by apply prepend_spec.
  - destruct (replace_chars n v g content Hr) as (n' & -> & H). by exists n'.
  - by apply bert_found_spec.
  - set (v1 := take i v). set (v0 := take k (drop i v)). set (v2 := take j (drop (i + k) v)). set (v3 := drop (i + k + j) v).
    assert (E10 : v1 ++ v0 = take (i + k) v) by (unfold v1, v0; apply take_take_drop).
    assert (E102 : v1 ++ v0 ++ v2 = take (i + k + j) v) by (rewrite app_assoc, E10; unfold v2; apply take_take_drop).
    assert (Ev : v = v1 ++ v0 ++ v2 ++ v3). { transitivity ((v1 ++ v0 ++ v2) ++ v3); [rewrite E102; unfold v3; by rewrite take_drop|by rewrite <- !app_assoc]. }
    assert (Hat : ∀ m, start_byte n m = alen (take m v)).
    { intros m. unfold start_byte, alen. destruct Hr as (Hs & -> & _). rewrite runes_encode_scalars by done. by rewrite <- fmap_take. }
    rewrite !Hat, <- E10, <- E102. fold v1. rewrite (alen_app v1 v0). replace (alen v1 + alen v0 - alen v1) with (alen v0) by lia.
    rewrite Ev in Hr. rewrite (transform_range_spec n v1 v0 v2 v3 dest Hr).
    destruct (rewrite_chars _ _ _) as [w|] eqn:Ew; [|done]. cbn [mbind option_bind].
    destruct (transform_range_repr n v1 v0 v2 v3 dest w Hr Ew) as (n' & H1 & H2 & H3). rewrite (transform_range_spec n v1 v0 v2 v3 dest Hr), Ew in H1. by exists n'.
Qed.

Lemma meanings_does u l : does (calls u l) (meanings u l).
Proof.
  induction l as [|s l IH]; intros n v Hr; cbn [calls meanings]; [by exists n|].
  pose proof (meaning_does u s n v Hr) as H. destruct (meaning u s v) as [w|]; cbn [mbind option_bind]; [|by rewrite H].
  destruct H as (n1 & -> & H1 & O1). cbn [mbind outcome_bind]. specialize (IH n1 w H1). destruct (meanings u l w) as [w'|]; [|done].
  destruct IH as (n2 & H2 & H3 & O2). exists n2. split; [done|]. split; [done|]. destruct O1, O2. split; congruence.
Qed.

(** Two programs agree exactly where what they do agrees. *)
Lemma does_eq m1 m2 F1 F2 n v : does m1 F1 → does m2 F2 → repr n v → m1 n = m2 n ↔ F1 v = F2 v.
Proof.
  intros D1 D2 Hr. specialize (D1 n v Hr). specialize (D2 n v Hr). destruct (F1 v) as [w1|], (F2 v) as [w2|].
  - destruct D1 as (n1 & E1 & R1 & O1), D2 as (n2 & E2 & R2 & O2). rewrite E1, E2. split.
    + intros [= ->]. f_equal. by eapply repr_unique.
    + intros [= ->]. f_equal. apply (same_ns n2 n1 w2); [done|done|]. destruct O1, O2. split; congruence.
  - destruct D1 as (n1 & E1 & _). rewrite E1, D2. done.
  - destruct D2 as (n2 & E2 & _). rewrite D1, E2. done.
  - rewrite D1, D2. done.
Qed.

Lemma calls_app u l l' n : calls u (l ++ l') n = (n' ← calls u l n; calls u l' n').
Proof. revert n. induction l as [|s l IH]; intros n; [done|]. cbn [app calls]. destruct (call u s n) as [n'|]; [|done]. apply IH. Qed.

(** * Normalizers *)
Lemma nz_ind' (P : nz → Prop) : P NLower → (∀ l r, P (NStrip l r)) → (∀ o, P (NBert o)) → (∀ l, Forall P l → P (NSequence l)) → ∀ z, P z.
Proof. intros H1 H2 H3 H4. fix IH 1. intros [|l r|o|l]; [apply H1|apply H2|apply H3|]. apply H4. induction l as [|z l IHl]; constructor; [apply IH|exact IHl]. Qed.

Lemma normalizer_steps u z n : normalizer_of u z n = no_error (calls u (steps_of u z)) n.
Proof.
  revert n. induction z as [|l r|o|l IH] using nz_ind'; intros n; cbn [normalizer_of steps_of].
  - unfold lowercase_normalizer, no_error. cbn [calls call]. by destruct (map_runes n _).
  - unfold strip_normalizer, no_error. cbn [calls call]. by destruct (trim_left_right n _ _).
  - unfold bert_normalizer, no_error. cbn [calls call]. by destruct (bert_normalize u o n).
  - revert n. induction IH as [|z l Hz _ IH]; intros n; [done|]. cbn [map sequence_normalizer concat]. rewrite Hz. unfold no_error in *. rewrite calls_app.
    destruct (calls u (steps_of u z) n) as [n'|]; cbn [mbind outcome_bind]; [|done]. apply IH.
Qed.

(** * Normalize of a PreTokenizedString *)
Lemma normalize_loop_does (m : ns → outcome ns) F splits vs : does m F → Forall2 (λ sp v, repr (sp_ns sp) v) splits vs →
  let f := λ (_ : unit) n, y ← no_error m n; Ret (tt, y.1, y.2) in
  match mapM (λ x : psplit * atext, match sp_tokens x.1 with Some _ => Some x.2 | None => F x.2 end) (zip splits vs) with
  | Some ws => ∃ l, normalize_loop f tt splits = Ret (tt, l, None) ∧ Forall2 (λ sp w, repr (sp_ns sp) w) l ws
      ∧ Forall2 (λ sp sp', sp_tokens sp' = sp_tokens sp ∧ same_origin (sp_ns sp) (sp_ns sp')) splits l
  | None => normalize_loop f tt splits = Panic
  end.
Proof.
  intros D H. cbv zeta. unfold no_error. induction H as [|sp v splits vs Hv _ IH]; [by exists []|]. cbn [zip zip_with mapM mret option_ret normalize_loop fst snd]. destruct (sp_tokens sp) as [ts|] eqn:Et.
  - cbn [mbind option_bind]. destruct (mapM _ _) as [ws|]; cbn [mbind option_bind].
    + destruct IH as (l & -> & H1 & H2). exists (sp :: l). split; [done|]. split; by constructor.
    + by rewrite IH.
  - specialize (D _ _ Hv). destruct (F v) as [w|]; cbn [mbind option_bind].
    + destruct D as (n' & -> & R & O). cbn [mbind outcome_bind fst snd]. destruct (mapM _ _) as [ws|]; cbn [mbind option_bind].
      * destruct IH as (l & -> & H1 & H2). exists (PSplit n' None :: l). split; [done|]. split; constructor; done.
      * by rewrite IH.
    + by rewrite D.
Qed.

(** The calls keep the alignment well-formed. *)
Lemma call_wf u s n n' : wf n → call u s n = Ret n' → wf n' ∧ same_origin n n'.
Proof.
  intros Hwf. destruct s as [f|keep|lf rt|p|g content|o|i k j dest]; cbn [call]; intros H.
  - by eapply map_runes_wf.
  - by eapply filter_runes_wf.
  - by eapply trim_wf.
  - by eapply prepend_wf.
  - apply bind_Ret in H as (x & Hx & H). injection H as <-. destruct x as [n1|e]; [|done].
    rewrite <- encode_sanitize in Hx. pose proof Hwf as (v & (Hs & Hn & _) & _).
    destruct (func_pattern_cover g v.*1 Hs) as (cs & Hcs & Hcov). rewrite <- Hn in Hcs, Hcov.
    eapply replace_wf; [done|exact Hcs|done| |exact Hx]. apply Forall_map, Forall_forall. intros r _. apply sanitize_scalar.
  - pose proof Hwf as (v & (Hs & Hn & _) & _). destruct (bert_text_spec u o n v.*1 n') as [(H1 & _) H2]; [done|done|]. done.
  - pose proof Hwf as (v & (Hs & Hn & _) & _). assert (Hb : ∀ m, boundary (ns_norm n) (start_byte n m)).
    { intros m. unfold start_byte. rewrite Hn, runes_encode_scalars by done. rewrite <- (take_drop m v.*1) at 1.
      rewrite <- (take_drop m v.*1), scalars_app in Hs. destruct Hs as [H1 H2]. apply boundary_app; assumption. }
    eapply (transform_range_wf n _ _ _ n' _ _ Hwf); [| | | |exact H]; [reflexivity|apply Hb|apply Hb|right].
    replace (start_byte n i + (start_byte n (i + k) - start_byte n i)) with (start_byte n (i + k)) by lia. apply Hb.
Qed.
Lemma calls_wf u l n n' : wf n → calls u l n = Ret n' → wf n' ∧ same_origin n n'.
Proof.
  revert n. induction l as [|s l IH]; intros n Hwf; cbn [calls]; intros H; [by injection H as <-|].
  apply bind_Ret in H as (n1 & H1 & H). apply call_wf in H1 as [Hw [O1 O2]]; [|done]. apply IH in H as [H3 [O3 O4]]; [|done].
  split; [done|]. split; congruence.
Qed.
