(** Proofs about Trim, Prepend, Append and Replace. *)
From Coq Require Import ZifyBool Sorted.
From Verif Require Import GoBase Utf8Facts Strutils SplitPattern NormString SpecText SpecNorm SliceFacts StrutilsFacts
  PatternFacts NormFacts.

(** ** Trim *)
Lemma trim_changes_app a b i l li t :
  trim_changes (a ++ b) i l li t = trim_changes a i l li t ++ trim_changes b (i + zlen a) l li t.
Proof.
  revert i. induction a as [|r a IH]; intros i; cbn [app trim_changes].
  - by rewrite zlen_nil, Z.add_0_r.
  - rewrite IH, zlen_cons, <- app_assoc. do 3 f_equal. lia.
Qed.

Lemma trim_changes_before a i l li t : i + zlen a <= l → trim_changes a i l li t = [].
Proof.
  revert i. induction a as [|r a IH]; intros i H; cbn [trim_changes]; [done|].
  rewrite zlen_cons in H. pose proof (zlen_nonneg a). replace (l <=? i) with false by lia. cbn [andb app].
  apply IH. lia.
Qed.

Lemma trim_changes_after a i l li t : li < i → trim_changes a i l li t = [].
Proof.
  revert i. induction a as [|r a IH]; intros i H; cbn [trim_changes]; [done|].
  replace (i <=? li) with false by lia. rewrite andb_false_r. cbn [app]. apply IH. lia.
Qed.

Lemma trim_changes_mid a i l li t :
  l <= i → i + zlen a <= li → trim_changes a i l li t = map (λ r, (r, 0)) a.
Proof.
  revert i. induction a as [|r a IH]; intros i H1 H2; cbn [trim_changes map]; [done|].
  rewrite zlen_cons in H2. pose proof (zlen_nonneg a).
  replace (l <=? i) with true by lia. replace (i <=? li) with true by lia. replace (i =? li) with false by lia.
  cbn [andb app]. f_equal. apply IH; lia.
Qed.

Lemma trim_changes_spec lead m x trail :
  trim_changes (lead ++ m ++ x :: trail) 0 (zlen lead) (zlen lead + zlen m) (zlen trail)
  = map (λ r, (r, 0)) m ++ [(x, - zlen trail)].
Proof.
  pose proof (zlen_nonneg lead). pose proof (zlen_nonneg m).
  rewrite trim_changes_app, trim_changes_before by lia. cbn [app].
  rewrite trim_changes_app, trim_changes_mid by lia. f_equal. cbn [trim_changes].
  replace (zlen lead <=? 0 + zlen lead + zlen m) with true by lia.
  replace (0 + zlen lead + zlen m <=? zlen lead + zlen m) with true by lia.
  replace (0 + zlen lead + zlen m =? zlen lead + zlen m) with true by lia. cbn [andb app].
  rewrite trim_changes_after by lia. done.
Qed.

Lemma rewrite_map_app f prev m src dest :
  rewrite_chars prev (m ++ src) (map (λ r, (f r, 0)) m.*1 ++ dest) =
  (w ← rewrite_chars (default prev (last m.*2)) src dest; Some (map_chars f m ++ w)).
Proof.
  revert prev. induction m as [|[x a] m IH]; intros prev.
  - cbn. by destruct (rewrite_chars prev src dest).
  - rewrite fmap_cons. cbn [map app rewrite_chars fst]. change (1 <=? 0) with false. cbv iota.
    change (Z.to_nat (- 0)) with 0%nat. rewrite drop_0, take_0, fmap_nil. cbn [last default].
    destruct (decide _) as [_|H]; [|lia]. rewrite IH.
    assert (Hd : default prev (last ((x, a) :: m).*2) = default a (last m.*2)).
    { rewrite fmap_cons, last_cons. by destruct (last m.*2). }
    rewrite Hd. by destruct (rewrite_chars (default a (last m.*2)) src dest).
Qed.

Lemma count_leading_app l p m :
  Forall white l → ¬ white p → count_leading (l ++ p :: m).*1 = zlen l.
Proof.
  intros Hl Hp. induction Hl as [|q l Hq Hl IH]; cbn [app]; rewrite fmap_cons; cbn [count_leading].
  - destruct (white_space p.1) eqn:E; [by destruct Hp|done].
  - unfold white in Hq. rewrite Hq, IH, zlen_cons. done.
Qed.

Lemma count_leading_all l : Forall white l → count_leading l.*1 = zlen l.
Proof.
  intros Hl. induction Hl as [|q l Hq Hl IH]; [done|]. rewrite fmap_cons. cbn [count_leading].
  unfold white in Hq. rewrite Hq, IH, zlen_cons. done.
Qed.

Lemma transform_nil n k :
  0 <= k <= ns_len n → zlen (ns_al n) = ns_len n → transform n [] k = Ret (NS (ns_orig n) [] [] (ns_shift n)).
Proof.
  intros Hk Hal. unfold transform, transform_range. cbn [coerce_to_norm negb tr_loop]. unfold ns_len in *.
  rewrite sub_full. cbn [mbind outcome_bind].
  destruct (sub_total (ns_norm n) 0 k) as [x ->]; [lia..|]. cbn [mbind outcome_bind].
  destruct (sub_total (ns_norm n) k (zlen (ns_norm n))) as [y ->]; [lia..|]. cbn [mbind outcome_bind fst snd].
  assert (Hs : ∀ A (l : list A) i, 0 <= i <= zlen l → sub l i i = Ret []).
  { intros A l i Hi. destruct (sub_total l i i) as [z Hz]; [lia..|]. rewrite Hz.
    apply sub_zlen in Hz. destruct z; [done|]. rewrite zlen_cons in Hz. pose proof (zlen_nonneg z). lia. }
  rewrite Hs by lia. cbn [mbind outcome_bind]. rewrite Hal, Hs by (pose proof (zlen_nonneg (ns_al n)); lia).
  cbn [mbind outcome_bind]. rewrite Hs by lia. cbn [mbind outcome_bind]. rewrite Hs by lia. done.
Qed.

Lemma count_trailing_app p m l :
  Forall white l → ¬ white p → count_trailing (m ++ p :: l).*1 = zlen l.
Proof.
  intros Hl Hp. unfold count_trailing.
  assert (Hrev : rev (m ++ p :: l).*1 = (rev l ++ p :: rev m).*1).
  { rewrite !fmap_app, !fmap_cons. rewrite rev_app_distr. cbn [rev]. rewrite <- app_assoc. cbn [app].
    assert (Hmr : ∀ q : atext, rev q.*1 = (rev q).*1).
    { intros q. induction q as [|z q IHq]; [done|]. rewrite fmap_cons. cbn [rev]. by rewrite IHq, fmap_app. }
    by rewrite !Hmr. }
  rewrite Hrev, count_leading_app.
  - unfold zlen. by rewrite rev_length.
  - apply Forall_forall. intros x Hx. apply elem_of_list_In, in_rev, elem_of_list_In in Hx.
    rewrite Forall_forall in Hl. by apply Hl.
  - done.
Qed.

Lemma map_fst_pairs (rs : list Z) (c : Z) : (map (λ r, (r, c)) rs).*1 = rs.
Proof. induction rs as [|r rs IH]; [done|]. cbn [map]. by rewrite fmap_cons, IH. Qed.

Lemma trim_eq n left right lead m x a trail :
  repr n (lead ++ (m ++ [(x, a)]) ++ trail) → trimmed left right lead (m ++ [(x, a)]) trail →
  trim_left_right n left right =
  if (zlen lead =? 0) && (zlen trail =? 0) then Ret n
  else transform n (map (λ r, (r, 0)) m.*1 ++ [(x, - zlen trail.*1)]) (zlen lead).
Proof.
  intros Hr (Hl & Ht & Hlm & Htm). unfold trim_left_right. rewrite (repr_runes _ _ Hr).
  assert (Hzlen : ∀ v : atext, zlen v.*1 = zlen v) by (intros v; unfold zlen; by rewrite fmap_length).
  assert (HL : (if left then count_leading (lead ++ (m ++ [(x, a)]) ++ trail).*1 else 0) = zlen lead).
  { destruct left; [|by subst]. destruct (m ++ [(x, a)]) as [|p m'] eqn:Em; [by destruct m|].
    cbn [app]. apply count_leading_app; [done|]. by eapply Hlm. }
  assert (HT : (if right && ((if left then count_leading (lead ++ (m ++ [(x, a)]) ++ trail).*1 else 0)
                  <? zlen (lead ++ (m ++ [(x, a)]) ++ trail).*1)
                then count_trailing (lead ++ (m ++ [(x, a)]) ++ trail).*1 else 0) = zlen trail).
  { rewrite HL. replace (zlen lead <? _) with true.
    2: { rewrite Hzlen, !zlen_app, zlen_cons. pose proof (zlen_nonneg m). pose proof (zlen_nonneg trail).
         pose proof (@zlen_nonneg (Z * (Z * Z)) []). lia. }
    rewrite andb_true_r. destruct right; [|by subst].
    rewrite <- (app_assoc m), (app_assoc lead). cbn [app]. apply count_trailing_app; [done|].
    by eapply Htm. }
  rewrite HT, HL. destruct ((zlen lead =? 0) && (zlen trail =? 0)) eqn:E; [done|].
  assert (HLI : zlen (lead ++ (m ++ [(x, a)]) ++ trail).*1 - zlen trail - 1 = zlen lead.*1 + zlen m.*1).
  { rewrite !Hzlen, !zlen_app, zlen_cons, zlen_nil. lia. }
  rewrite HLI, <- !(Hzlen lead).
  assert (Hch : (lead ++ (m ++ [(x, a)]) ++ trail).*1 = lead.*1 ++ m.*1 ++ x :: trail.*1).
  { rewrite !fmap_app. cbn. by rewrite <- app_assoc. }
  rewrite Hch. rewrite <- (Hzlen trail). rewrite trim_changes_spec. done.
Qed.

Lemma zlen_0_nil {A} (l : list A) : zlen l =? 0 = true → l = [].
Proof. destruct l; [done|]. rewrite zlen_cons. pose proof (zlen_nonneg l). lia. Qed.

Lemma trim_spec n left right lead mid trail :
  repr n (lead ++ mid ++ trail) → trimmed left right lead mid trail →
  Forall (λ p, p.1 < 128) lead ∨ mid = [] →
  ∃ n', trim_left_right n left right = Ret n' ∧ repr n' mid ∧ same_origin n n'.
Proof.
  intros Hr Htrim Hascii. pose proof Htrim as (Hl & Ht & Hlm & Htm).
  pose proof Hr as (Hs & Hnorm & Hal).
  assert (Hzlen : ∀ v : atext, zlen v.*1 = zlen v) by (intros v; unfold zlen; by rewrite fmap_length).
  destruct (decide (mid = [])) as [->|Hmid].
  - (* everything goes *)
    unfold trim_left_right. rewrite (repr_runes _ _ Hr).
    cbn [app] in *.
    assert (Hall : Forall white (lead ++ trail)) by (by apply Forall_app).
    assert (Hn : zlen (lead ++ trail) <= ns_len n).
    { unfold ns_len. rewrite Hnorm. clear. generalize (lead ++ trail) as v. intros v.
      induction v as [|[r a] v IH]; [done|]. rewrite zlen_cons, fmap_cons, zlen_encode_cons. cbn [fst].
      pose proof (rune_len_bounds r). lia. }
    assert (Hlen : zlen (ns_al n) = ns_len n).
    { rewrite Hal, zlen_spans. unfold ns_len. by rewrite Hnorm. }
    pose proof (zlen_nonneg (lead ++ trail)) as Hpos.
    assert (Hct : count_trailing (lead ++ trail).*1 = zlen (lead ++ trail)).
    { unfold count_trailing.
      assert (Hmr : ∀ q : atext, rev q.*1 = (rev q).*1).
      { intros q. induction q as [|z q IHq]; [done|]. rewrite fmap_cons. cbn [rev]. by rewrite IHq, fmap_app. }
      rewrite Hmr, count_leading_all.
      - unfold zlen. by rewrite rev_length.
      - apply Forall_forall. intros x Hx. apply elem_of_list_In, in_rev, elem_of_list_In in Hx.
        rewrite Forall_forall in Hall. by apply Hall. }
    rewrite Hzlen.
    assert (Hdone : ∀ m : ns, m = NS (ns_orig n) [] [] (ns_shift n) → ∃ n', Ret m = Ret n' ∧ repr n' [] ∧ same_origin n n').
    { intros m ->. eexists. split; [done|]. split; [|done]. split; [constructor|done]. }
    destruct left.
    + rewrite count_leading_all by done. replace (_ <? _) with false by lia. rewrite andb_false_r.
      destruct (zlen (lead ++ trail) =? 0) eqn:E; cbn [andb].
      * change (0 =? 0) with true. cbv iota. apply Hdone. destruct (lead ++ trail); [|rewrite zlen_cons in E; pose proof (zlen_nonneg l); lia].
        destruct n; cbn in *. by subst.
      * rewrite trim_changes_before by (rewrite Hzlen; lia). rewrite transform_nil by (done || lia). by apply Hdone.
    + subst lead. cbn [app] in *. destruct right; cbn [andb].
      * destruct (0 <? zlen trail) eqn:E.
        -- rewrite Hct. change (0 =? 0) with true. replace (zlen trail =? 0) with false by lia. cbn [andb].
           rewrite trim_changes_after by lia. rewrite transform_nil by (done || lia). by apply Hdone.
        -- change (0 =? 0) with true. cbn [andb]. apply Hdone.
           destruct trail; [|rewrite zlen_cons in E; pose proof (zlen_nonneg trail); lia].
           destruct n; cbn in *. by subst.
      * subst trail. change (0 =? 0) with true. cbn [andb]. apply Hdone. destruct n; cbn in *. by subst.
  - (* something remains *)
    destruct Hascii as [Hascii|]; [|done].
    destruct (exists_last Hmid) as (m & [x a] & ->).
    rewrite (trim_eq n left right lead m x a trail) by done.
    destruct ((zlen lead =? 0) && (zlen trail =? 0)) eqn:E.
    + apply andb_true_iff in E as [->%zlen_0_nil ->%zlen_0_nil].
      cbn [app] in Hr. rewrite app_nil_r in Hr. exists n. done.
    + rewrite <- alen_ascii.
      2: done.
      2: { rewrite fmap_app, scalars_app in Hs. tauto. }
      rewrite (transform_spec n lead ((m ++ [(x, a)]) ++ trail)) by done.
      rewrite <- app_assoc. rewrite (rewrite_map_app id). cbn [app rewrite_chars].
      pose proof (zlen_nonneg trail.*1). replace (1 <=? - zlen trail.*1) with false by lia.
      replace (Z.to_nat (- - zlen trail.*1)) with (length trail).
      2: { rewrite Hzlen. unfold zlen. lia. }
      destruct (decide _) as [_|Hc]; [|lia]. cbn [mbind option_bind].
      assert (Hsm : scalars (m ++ [(x, a)]).*1).
      { rewrite !fmap_app, !scalars_app in Hs. rewrite fmap_app, scalars_app. tauto. }
      pose proof Hsm as Hsm'. rewrite fmap_app, scalars_app in Hsm'. destruct Hsm' as [Hm Hx].
      inversion Hx; subst. rewrite map_chars_id by done. rewrite sanitize_id by done.
      eexists. split; [done|]. split; [|done]. by split.
Qed.

(** Text of the result whenever Trim returns, for any leading white space. *)
Lemma trim_text n left right lead mid trail n' :
  repr n (lead ++ mid ++ trail) → trimmed left right lead mid trail →
  trim_left_right n left right = Ret n' → ns_norm n' = encode mid.*1.
Proof.
  intros Hr Ht H. destruct (decide (mid = [])) as [->|Hmid].
  - destruct (trim_spec n left right lead [] trail Hr Ht) as (n'' & H' & (_ & Hn & _) & _); [by right|].
    rewrite H in H'. by injection H' as ->.
  - destruct (exists_last Hmid) as (m & [x a] & ->).
    rewrite (trim_eq n left right lead m x a trail) in H by done.
    destruct ((zlen lead =? 0) && (zlen trail =? 0)) eqn:E.
    + injection H as <-. apply andb_true_iff in E as [->%zlen_0_nil ->%zlen_0_nil].
      cbn [app] in Hr. rewrite app_nil_r in Hr. by destruct Hr as (_ & -> & _).
    + apply transform_text in H. rewrite H. rewrite fmap_app, map_fst_pairs, fmap_app. done.
Qed.

(** ** Prepend *)
Lemma decode_widths_pos s : Forall (λ p : Z * Z, 1 <= p.2) (decode s).
Proof.
  eapply Forall_impl; [apply (decode_props_aux (length s)); lia|]. intros [r w] [_ [[= -> ->]|Hw]]; cbn in *; [lia|].
  pose proof (rune_len_bounds r). lia.
Qed.

Lemma positions_changes i d :
  0 < i → Forall (λ p : Z * Z, 1 <= p.2) d →
  map (λ '(i, r), (r, if 0 <? i then 1 else 0)) (positions i d) = map (λ r, (r, 1)) d.*1.
Proof.
  intros Hi Hd. revert i Hi. induction Hd as [|[r w] d Hw Hd IH]; intros i Hi; [done|].
  cbn [positions map]. rewrite fmap_cons. cbn [map fst]. replace (0 <? i) with true by lia.
  cbn in Hw. rewrite IH by lia. done.
Qed.

Lemma prepend_changes_spec s r rs :
  runes s = r :: rs → prepend_changes s = (r, 0) :: map (λ r, (r, 1)) rs.
Proof.
  unfold prepend_changes, range_str, runes. pose proof (decode_widths_pos s) as H.
  destruct (decode s) as [|[r' w] d]; [done|]. rewrite fmap_cons. intros [= -> <-].
  inversion H as [|? ? Hw Hd]; subst. cbn in Hw. cbn [positions map]. rewrite positions_changes by (done || lia). done.
Qed.

Lemma rewrite_inserts prev src rs :
  rewrite_chars prev src (map (λ r, (r, 1)) rs) = Some (map (λ r, (sanitize r, prev)) rs).
Proof.
  induction rs as [|r rs IH]; [done|]. cbn [map rewrite_chars]. change (1 <=? 1) with true. cbv iota.
  by rewrite IH.
Qed.

Lemma prepend_spec n x a v p :
  repr n ((x, a) :: v) → p ≠ [] →
  ∃ n', prepend n p = Ret n' ∧ repr n' (map (λ r, (r, a)) (runes p) ++ (x, a) :: v) ∧ same_origin n n'.
Proof.
  intros Hr Hp. unfold prepend. pose proof Hr as (Hs & Hn & _). rewrite fmap_cons in Hn, Hs. cbn [fst] in Hn, Hs.
  destruct (zlen (ns_norm n) =? 0) eqn:E; [rewrite Hn in E; pose proof (encode_pos x v.*1); lia|].
  rewrite (repr_runes _ _ Hr), fmap_cons. cbn [fst]. change (idx (x :: v.*1) 0) with (Ret x).
  cbn [mbind outcome_bind].
  destruct (runes p) as [|r rs] eqn:Hrp.
  { exfalso. apply Hp. pose proof (decode_widths p) as Hw. unfold runes in Hrp. destruct (decode p); [|done].
    cbn in Hw. destruct p; [done|]. rewrite zlen_cons in Hw. pose proof (zlen_nonneg p). lia. }
  rewrite (prepend_changes_spec p r rs Hrp).
  pose proof (transform_range_repr n [] [] [(x, a)] v (((r, 0) :: map (λ r, (r, 1)) rs) ++ [(x, 1)])
     (map (λ r, (r, a)) (r :: rs) ++ [(x, a)]) Hr) as H.
  rewrite alen_nil in H. cbn [app] in H. rewrite alen_cons, alen_nil, Z.add_0_r in H.
  assert (Hsr : scalars (r :: rs)) by (rewrite <- Hrp; apply runes_scalars).
  inversion Hsr as [|? ? Hr1 Hrs]; subst. inversion Hs as [|? ? Hx1 Hv]; subst.
  rewrite <- app_assoc in H. cbn [app] in *. apply H.
  cbn [rewrite_chars]. change (1 <=? 0) with false. cbv iota. change (Z.to_nat (- 0)) with 0%nat.
  rewrite drop_0, take_0, fmap_nil. cbn [last default]. destruct (decide _) as [_|Hc]; [|lia].
  change [(x, 1)] with (map (λ r, (r, 1)) [x]). rewrite <- map_app, rewrite_inserts. cbn [mbind option_bind map app].
  rewrite sanitize_id by done. rewrite map_app. cbn [map]. rewrite sanitize_id by done.
  do 3 f_equal. apply map_ext_in. intros z Hz. rewrite sanitize_id; [done|].
  rewrite Forall_forall in Hrs. apply Hrs. by apply elem_of_list_In.
Qed.

Lemma prepend_empty_text n p : ns_norm n = [] → prepend n p = Ret n.
Proof. intros H. unfold prepend. rewrite H. done. Qed.

(** ** Append *)
Lemma append_spec n v x a p :
  repr n (v ++ [(x, a)]) → Forall (λ q, q.1 < 128) v →
  ∃ n', append n p = Ret n' ∧ repr n' (v ++ (x, a) :: map (λ r, (r, a)) (runes p)) ∧ same_origin n n'.
Proof.
  intros Hr Hv. unfold append. pose proof Hr as (Hs & Hn & _).
  destruct (zlen (ns_norm n) =? 0) eqn:E.
  { rewrite Hn, fmap_app, encode_app, zlen_app in E. pose proof (zlen_nonneg (encode v.*1)).
    pose proof (encode_pos x []). change ([(x, a)].*1) with [x] in E. lia. }
  rewrite (repr_runes _ _ Hr). rewrite fmap_app in *. change ([(x, a)].*1) with [x] in *.
  apply scalars_app in Hs as [Hsv Hsx]. inversion Hsx as [|? ? Hx _]; subst.
  rewrite zlen_app. change (zlen [x]) with 1.
  replace (zlen v.*1 + 1 - 1) with (zlen v.*1) by lia.
  rewrite idx_app_r by lia. rewrite Z.sub_diag. change (idx [x] 0) with (Ret x). cbn [mbind outcome_bind].
  replace (zlen v.*1) with (alen v).
  2: { rewrite alen_ascii by done. unfold zlen. by rewrite fmap_length. }
  pose proof (transform_range_repr n v [] [(x, a)] [] ((x, 0) :: map (λ r, (r, 1)) (runes p))
     ((x, a) :: map (λ r, (r, a)) (runes p))) as H. cbn [app] in H.
  rewrite !app_nil_r in H. rewrite alen_nil in H.
  replace (ns_len n) with (alen (v ++ [(x, a)])).
  2: { unfold ns_len, alen. rewrite Hn, fmap_app. done. }
  apply H; [done|].
  cbn [rewrite_chars]. change (1 <=? 0) with false. cbv iota. change (Z.to_nat (- 0)) with 0%nat.
  rewrite drop_0, take_0, fmap_nil. cbn [last default]. destruct (decide _) as [_|Hc]; [|lia].
  rewrite rewrite_inserts. cbn [mbind option_bind]. rewrite sanitize_id by done. do 2 f_equal.
  apply map_ext_in. intros z Hz. rewrite sanitize_id; [done|].
  pose proof (runes_scalars p) as Hrs. unfold scalars in Hrs. rewrite Forall_forall in Hrs. apply Hrs. by apply elem_of_list_In.
Qed.

Lemma append_empty_text n p : ns_norm n = [] → append n p = Ret n.
Proof. intros H. unfold append. rewrite H. done. Qed.
