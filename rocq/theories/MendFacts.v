(** Proofs for C65: operations on the whole of a string that is not valid UTF-8, beside the same on the string as Go reads it. *)
From Coq Require Import ZifyBool.
From Verif Require Import GoBase Utf8Facts Strutils SplitPattern NormString Normalizers SpecText SpecNorm SpecInvalid SliceFacts NormFacts
  SpecShift ShiftFacts InvalidFacts.
Import GoBase NormString SpecNorm.
#[local] Open Scope Z_scope.

Section like.
  Context (R : Z * Z → Z * Z → Prop) (R0 : R (0, 0) (0, 0)) (k : Z).

  Lemma idx_like al rest al2 i : Forall2 R al al2 → 0 <= i < zlen al2 →
    ∃ a a2, idx (al ++ rest) i = Ret a ∧ idx al2 i = Ret a2 ∧ R a a2.
  Proof.
    intros HR Hi. pose proof (Forall2_length _ _ _ HR) as Hl. unfold zlen in Hi.
    destruct (lookup_lt_is_Some_2 al2 (Z.to_nat i)) as [a2 Ha2]; [lia|].
    destruct (Forall2_lookup_r _ _ _ _ _ HR Ha2) as (a & Ha & HRa). exists a, a2. split; [|split; [|done]]; apply idx_lookup.
    - split; [lia|]. by apply lookup_app_l_Some.
    - split; [lia|done].
  Qed.

  Lemma tr_loop_like dest al rest al2 off rs : Forall2 R al al2 → 0 <= off → off + zlen (encode rs) <= zlen al2 →
    match tr_loop (al ++ rest) dest off rs, tr_loop al2 dest off rs with
    | Ret x, Ret y => Forall2 R x.1 y.1 ∧ x.2 = y.2 ∧ zlen y.1 = zlen y.2 ∧ ∃ rs', y.2 = encode rs'
    | Panic, Panic => True | _, _ => False
    end.
  Proof.
    intros HR. revert off rs. induction dest as [|[r ch] dest IH]; intros off rs Ho Hb; cbn [tr_loop].
    { cbn [fst snd]; split; [constructor|]. split; [done|]. split; [done|]. by exists []. }
    pose proof (zlen_nonneg (encode rs)) as He.
    assert (Hfin : ∀ a a2 off' rs', R a a2 → 0 <= off' → off' + zlen (encode rs') <= zlen al2 →
      match (z ← tr_loop (al ++ rest) dest off' rs'; Ret (repeat a (length (encode_rune r)) ++ z.1, encode_rune r ++ z.2)),
            (z ← tr_loop al2 dest off' rs'; Ret (repeat a2 (length (encode_rune r)) ++ z.1, encode_rune r ++ z.2)) with
      | Ret x, Ret y => Forall2 R x.1 y.1 ∧ x.2 = y.2 ∧ zlen y.1 = zlen y.2 ∧ ∃ rs', y.2 = encode rs'
      | Panic, Panic => True | _, _ => False
      end).
    { intros a a2 off' rs' Ha H1 H2. specialize (IH off' rs' H1 H2).
      destruct (tr_loop (al ++ rest) dest off' rs') as [x|], (tr_loop al2 dest off' rs') as [y|]; try done.
      destruct IH as (I1 & I2 & I3 & rs2 & I4). cbn [mbind outcome_bind fst snd]. split; [|split; [by rewrite I2|split]].
      - apply Forall2_app; [|done]. induction (length (encode_rune r)); cbn [repeat]; by constructor.
      - rewrite !zlen_app, I3. unfold zlen. rewrite repeat_length. lia.
      - exists (r :: rs2). by rewrite encode_cons, I4. }
    destruct (Z.leb_spec 1 ch) as [Hch|Hch].
    - replace (ch <=? 0) with false by lia. replace (ch <=? -1) with false by lia.
      destruct (Z.ltb_spec off 1).
      + cbn [mbind outcome_bind]. rewrite !Z.add_0_r. by apply Hfin.
      + destruct (idx_like al rest al2 (off - 1) HR) as (a & a2 & -> & -> & Ha); [lia|]. cbn [mbind outcome_bind]. rewrite !Z.add_0_r. by apply Hfin.
    - replace (ch <=? 0) with true by lia. destruct rs as [|c rs].
      { destruct (idx (al ++ rest) off), (idx al2 off); done. }
      rewrite zlen_encode_cons in *. pose proof (rune_len_bounds c) as Hc. pose proof (zlen_nonneg (encode rs)) as Hrs.
      destruct (idx_like al rest al2 off HR) as (a & a2 & -> & -> & Ha); [lia|]. cbn [mbind outcome_bind].
      destruct (Z.leb_spec ch (-1)).
      + destruct (sub rs 0 (- ch)) as [removed|] eqn:E1; [|done]. destruct (sub rs (- ch) (zlen rs)) as [rs2|] eqn:E2; [|done]. cbn [mbind outcome_bind].
        assert (Hsp : rs = removed ++ rs2).
        { apply sub_Ret in E1 as (x1 & y1 & Hx1 & Hl1 & Hr1). apply sub_Ret in E2 as (x2 & y2 & Hx2 & Hl2 & Hr2).
          destruct x1; [|rewrite zlen_cons in Hl1; pose proof (zlen_nonneg x1); lia]. cbn [app] in Hx1.
          assert (y2 = []) as ->. { destruct y2 as [|z y2]; [done|]. apply (f_equal zlen) in Hx2. rewrite !zlen_app, zlen_cons in Hx2. pose proof (zlen_nonneg y2). lia. }
          rewrite app_nil_r in Hx2. rewrite Hx1 in Hx2 at 1. apply app_inj_1 in Hx2 as [-> ->]; [done|]. unfold zlen in *. lia. }
        rewrite Hsp, encode_app, zlen_app in Hb. pose proof (zlen_nonneg (encode removed)). apply Hfin; [done|lia|lia].
      + cbn [mbind outcome_bind]. apply Hfin; [done|lia|lia].
  Qed.

  Lemma transform_like n n0 dest o : like R k n n0 → characters_first o (ns_norm n) → both R k (transform n dest o) (transform n0 dest o).
  Proof.
    intros (Hn & H1 & Hk & al & rest & Hal & HR) (a & b & Hab & Hva & Ho). unfold one_per_byte in H1.
    apply valid_utf8_spec in Hva as (ra & Hra & ->).
    assert (Hn0 : ns_norm n0 = encode ra ++ encode (runes b)).
    { rewrite Hn, Hab, runes_encode_app, map_sanitize_id by done. by rewrite encode_app. }
    unfold transform, transform_range, ns_len. cbn [coerce_to_norm negb]. rewrite !sub_full. cbn [mbind outcome_bind].
    rewrite Hab, Hn0, Hal.
    rewrite (sub_prefix (encode ra) b o), (sub_prefix (encode ra) (encode (runes b)) o) by done. cbn [mbind outcome_bind].
    rewrite (sub_suffix (encode ra) b o _), (sub_suffix (encode ra) (encode (runes b)) o _) by done. cbn [mbind outcome_bind].
    rewrite Z.add_0_r, runes_encode_scalars by apply runes_scalars.
    pose proof (tr_loop_like dest al rest (ns_al n0) (zlen (encode ra)) (runes b) HR) as H.
    assert (Hlen : zlen (ns_al n0) = zlen (encode ra) + zlen (encode (runes b))) by (by rewrite H1, Hn0, zlen_app).
    specialize (H (zlen_nonneg _) ltac:(lia)).
    destruct (tr_loop (al ++ rest) dest _ _) as [x|], (tr_loop (ns_al n0) dest _ _) as [y|]; [|done|done|done].
    destruct H as (F1 & F2 & F3 & rs' & F4). cbn [mbind outcome_bind].
    assert (Hz : ∀ A (l : list A), sub l 0 0 = Ret []). { intros A l. by apply (sub_prefix [] l). }
    assert (He : ∀ A (l : list A), sub l (zlen l) (zlen l) = Ret []).
    { intros A l. rewrite <- (app_nil_r l) at 1. by rewrite (sub_suffix l []) by (done || by rewrite app_nil_r). }
    assert (Hle : zlen (encode ra ++ b) <= zlen (al ++ rest)).
    { rewrite !zlen_app. pose proof (encode_runes_zlen b). pose proof (bad_nonneg b). pose proof (zlen_nonneg rest).
      assert (zlen al = zlen (ns_al n0)) by (unfold zlen; by rewrite (Forall2_length _ _ _ HR)). lia. }
    assert (Hcut : sub (al ++ rest) (zlen (encode ra ++ b)) (zlen (al ++ rest)) = Ret (drop (length (encode ra ++ b)) (al ++ rest))).
    { rewrite <- (take_drop (length (encode ra ++ b)) (al ++ rest)) at 1. apply sub_suffix.
      - unfold zlen in *. rewrite take_length. lia.
      - by rewrite take_drop. }
    rewrite !Hz. cbn [mbind outcome_bind]. rewrite Hcut. rewrite <- Hn0, <- H1, !He. rewrite H1, !He. cbn [mbind outcome_bind app both]. rewrite !app_nil_r.
    split; [|split; [|split]].
    - cbn [ns_norm]. rewrite F2, F4. rewrite runes_encode. symmetry. apply encode_sanitize.
    - unfold one_per_byte. cbn [ns_al ns_norm]. done.
    - cbn [ns_al ns_norm]. rewrite zlen_app, F2, <- F3. rewrite Hal, Hab in Hk. assert (zlen x.1 = zlen y.1) by (unfold zlen; by rewrite (Forall2_length _ _ _ F1)).
      unfold zlen in *. rewrite drop_length. lia.
    - cbn [ns_al]. eexists _, _. split; [done|done].
  Qed.

  Lemma like_runes n n0 : like R k n n0 → runes (ns_norm n0) = runes (ns_norm n).
  Proof. intros (-> & _). apply runes_encode_scalars, runes_scalars. Qed.
  Lemma first_0 s : characters_first 0 s.
  Proof. by exists [], s. Qed.

  Lemma map_like n n0 f : like R k n n0 → both R k (map_runes n f) (map_runes n0 f).
  Proof. intros H. unfold map_runes. rewrite (like_runes n n0 H). apply transform_like; [done|apply first_0]. Qed.

  Lemma filter_like n n0 keep : like R k n n0 →
    (Exists (λ r, keep r = true) (runes (ns_norm n)) → characters_first (Z.of_nat (leading keep (runes (ns_norm n)))) (ns_norm n)) →
    both R k (filter_runes n keep) (filter_runes n0 keep).
  Proof.
    intros H Hf. unfold filter_runes. rewrite (like_runes n n0 H). apply transform_like; [done|].
    rewrite filter_loop_none. destruct (Nat.ltb_spec (leading keep (runes (ns_norm n))) (length (runes (ns_norm n)))) as [Hlt|]; [|apply first_0].
    cbn [snd]. rewrite Z.add_0_l. apply Hf. clear -Hlt. induction (runes (ns_norm n)) as [|r rs IH]; cbn [leading length] in *; [lia|].
    destruct (keep r) eqn:E; [by left|]. right. apply IH. lia.
  Qed.

  Lemma trim_like n n0 left right : like R k n n0 →
    (left = true → characters_first (count_leading (runes (ns_norm n))) (ns_norm n)) →
    both R k (trim_left_right n left right) (trim_left_right n0 left right).
  Proof.
    intros H Hf. unfold trim_left_right. rewrite (like_runes n n0 H). destruct (_ && _); [done|].
    apply transform_like; [done|]. destruct left; [by apply Hf|apply first_0].
  Qed.

  Lemma both_bind x y f g : both R k x y → (∀ n n0, x = Ret n → y = Ret n0 → like R k n n0 → both R k (f n) (g n0)) → both R k (x ≫= f) (y ≫= g).
  Proof. intros H Hfg. destruct x as [n|], y as [n0|]; cbn in H; try done. by apply Hfg. Qed.
End like.

(** The string as Go reads it, with the alignments of FromString. *)
Lemma from_string_like s : like eq (2 * bad_bytes s) (from_string s) (NS s (mended s) (alignments_from_string s) 0).
Proof.
  assert (H : zlen (alignments_from_string s) = zlen (encode (runes s))).
  { rewrite alignments_spread, zlen_spans. unfold alen. by rewrite spread_chars. }
  split; [done|]. split; [by unfold one_per_byte|]. split; [cbn [ns_al ns_norm from_string]; rewrite H; apply encode_runes_zlen|].
  exists (alignments_from_string s), []. split; [by rewrite app_nil_r|]. cbn [from_string ns_al]. generalize (alignments_from_string s). intros l. induction l; by constructor.
Qed.
(** The string as Go reads it. *)
Lemma from_string_like_any s : like (λ _ _, True) (2 * bad_bytes s) (from_string s) (from_string (mended s)).
Proof.
  destruct (from_string_like s) as (_ & H1 & H2 & _). split; [done|].
  assert (H : ∀ t, zlen (alignments_from_string t) = zlen (encode (runes t))).
  { intros t. rewrite alignments_spread, zlen_spans. unfold alen. by rewrite spread_chars. }
  assert (Hm : zlen (alignments_from_string (mended s)) = zlen (mended s)).
  { rewrite H. unfold mended. by rewrite runes_encode_scalars by apply runes_scalars. }
  split; [done|]. split; [done|]. exists (alignments_from_string s), []. split; [by rewrite app_nil_r|].
  apply Forall2_true; [done|]. cbn [from_string ns_al]. unfold one_per_byte in H1. cbn [ns_al ns_norm] in H1. unfold zlen in *. lia.
Qed.

(** What is removed in front takes one byte each, in the string itself. *)
Lemma decode_one s r d : decode s = (r, 1) :: d → ∃ b s', s = b :: s' ∧ decode s' = d.
Proof.
  destruct s as [|b s]; [done|]. intros H. exists b, s. split; [done|]. cbn [GoBase.decode] in H.
  repeat (case_match; simplify_eq; try done).
Qed.
Lemma one_byte_each s k : (k <= length (decode s))%nat → Forall (λ x, x.2 = 1) (take k (decode s)) →
  ∃ f t, s = f ++ t ∧ length f = k ∧ decode t = drop k (decode s).
Proof.
  revert s. induction k as [|k IH]; intros s Hk Hw; [by exists [], s|].
  destruct (decode s) as [|[r w] d] eqn:E; [cbn in Hk; lia|]. cbn [take] in Hw. apply Forall_cons in Hw as [Hw1 Hw]. cbn in Hw1. subst w.
  apply decode_one in E as (b & s' & -> & <-). destruct (IH s') as (f & t & -> & Hf & Ht); [cbn in Hk; lia|done|].
  exists (b :: f), t. split; [done|]. split; [by cbn; rewrite Hf|done].
Qed.

Lemma filter_front s keep : let k := leading keep (runes s) in
  Forall (λ x, x.2 = 1) (take k (decode s)) →
  ∃ n', filter_runes (from_string s) keep = Ret n' ∧ ns_norm n' = encode (base.filter (λ r, keep r = true) (runes s))
    ∧ zlen (ns_al n') = zlen (ns_norm n') + 2 * bad_bytes s.
Proof.
  intros k Hw.
  assert (Hk : (k <= length (decode s))%nat). { pose proof (leading_le keep (runes s)) as H. unfold runes in H at 2. by rewrite fmap_length in H. }
  destruct (one_byte_each s k Hk Hw) as (f & t & Hs & Hf & Ht).
  assert (Hrt : runes t = drop k (runes s)) by (unfold runes; by rewrite Ht, fmap_drop).
  enough (∃ n', filter_runes (from_string s) keep = Ret n' ∧ zlen (ns_al n') = zlen (ns_norm n') + 2 * bad_bytes s) as (n' & Hn' & Hz).
  { exists n'. split; [done|]. split; [|done]. apply filter_runes_text in Hn'. done. }
  unfold filter_runes. change (ns_norm (from_string s)) with s. rewrite filter_loop_none. fold k.
  assert (Hals : zlen (alignments_from_string s) = zlen s + 2 * bad_bytes s). { destruct (from_string_like s) as (_ & _ & H & _). done. }
  destruct (Nat.ltb_spec k (length (runes s))) as [Hlt|Hge].
  2:{ cbn [fst snd]. rewrite transform_fresh. cbn [rewrite_chars]. eexists. split; [done|]. cbn [ns_al ns_norm]. change (zlen (encode [].*1)) with 0. change (spans_of []) with (@nil (Z * Z)).
      cbn [app]. pose proof (bad_nonneg s). unfold zlen in *. rewrite drop_length. lia. }
  cbn [fst snd]. rewrite Z.add_0_l, changes_drop. fold k. rewrite <- Hrt.
  (* the same changes on a valid string *)
  set (lead := repeat (97, (0, 0)) k : atext). set (rest := (λ r, (r, (0, 0))) <$> runes t : atext).
  assert (Hl1 : lead.*1 = repeat 97 k). { unfold lead. clear. induction k as [|k IH]; [done|]. cbn [repeat]. rewrite fmap_cons. by f_equal. }
  assert (Hr1 : rest.*1 = runes t). { unfold rest. rewrite <- list_fmap_compose. rewrite <- (list_fmap_id (runes t)) at 2. by apply list_fmap_ext. }
  assert (Hen : encode (repeat 97 k) = repeat 97 k). { clear. induction k as [|k IH]; [done|]. cbn [repeat]. rewrite encode_cons, IH. done. }
  set (n1 := NS [] (encode (lead ++ rest).*1) (spans_of (lead ++ rest)) 0).
  assert (Hrepr : repr n1 (lead ++ rest)).
  { split; [|done]. rewrite fmap_app, Hl1, Hr1. apply scalars_app. split; [|apply runes_scalars]. clear. induction k; by constructor. }
  assert (Hzl : zlen lead = Z.of_nat k) by (unfold zlen, lead; by rewrite repeat_length).
  pose proof (transform_found n1 lead rest (flags keep (runes t)) (base.filter (λ pc, keep pc.2 = true) (imap pair rest.*1)) Hrepr) as H.
  pose proof (with_found_right lead rest (λ c, keep c = true)) as HW.
  rewrite HW in H by (rewrite Hl1, Hen; unfold zlen, lead; by rewrite !repeat_length). clear HW.
  destruct H as (n2 & H & _).
  { rewrite Hr1. unfold flags. rewrite <- list_fmap_compose. rewrite <- (list_fmap_id (runes t)) at 2. by apply list_fmap_ext. }
  { rewrite Hrt. apply gap_drop. }
  { rewrite Hr1. unfold flags. rewrite imap_fmap. generalize (runes t). intros l.
    assert (E : imap (λ i, pair i ∘ λ r, (r, keep r)) l = (λ pc : nat * Z, (pc.1, (pc.2, keep pc.2))) <$> imap pair l). { rewrite fmap_imap. by apply imap_ext. }
    rewrite E, filter_fmap. cbn [snd]. rewrite <- list_fmap_compose. rewrite <- (list_fmap_id (base.filter _ _)) at 1. apply list_fmap_ext. by intros i [p c] _. }
  rewrite Hzl in H.
  (* its loop does not panic *)
  unfold transform, transform_range, ns_len in H. cbn [coerce_to_norm negb] in H. rewrite !sub_full in H. cbn [mbind outcome_bind] in H.
  assert (Hnn : ns_norm n1 = repeat 97 k ++ encode (runes t)) by (unfold n1; cbn [ns_norm]; by rewrite fmap_app, Hl1, Hr1, encode_app, Hen).
  rewrite Hnn in H. rewrite (sub_prefix (repeat 97 k) _ (Z.of_nat k)) in H by (unfold zlen; by rewrite repeat_length). cbn [mbind outcome_bind] in H.
  rewrite (sub_suffix (repeat 97 k) _ (Z.of_nat k)) in H by (done || (unfold zlen; by rewrite repeat_length)). cbn [mbind outcome_bind] in H.
  rewrite Z.add_0_r, runes_encode_scalars in H by apply runes_scalars. apply bind_Ret in H as (y & Hy & _).
  assert (Hzk : zlen (repeat 97 k) = Z.of_nat k) by (unfold zlen; by rewrite repeat_length). rewrite Hzk in Hy.
  (* and so does ours *)
  unfold transform, transform_range, ns_len. cbn [coerce_to_norm negb]. rewrite !sub_full. cbn [mbind outcome_bind].
  change (ns_norm (from_string s)) with s. change (ns_al (from_string s)) with (alignments_from_string s).
  assert (Hfk : zlen f = Z.of_nat k) by (unfold zlen; by rewrite Hf).
  assert (Hs1 : sub s 0 (Z.of_nat k) = Ret f) by (rewrite Hs; by apply sub_prefix).
  assert (Hs2 : sub s (Z.of_nat k) (zlen s) = Ret t) by (rewrite Hs; by apply sub_suffix).
  rewrite Hs1. cbn [mbind outcome_bind]. rewrite Hs2. cbn [mbind outcome_bind].
  rewrite Hfk, Z.add_0_r.
  assert (Hlen2 : zlen (ns_al n1) = Z.of_nat k + zlen (encode (runes t))).
  { unfold n1; cbn [ns_al]. rewrite zlen_spans. unfold alen. rewrite fmap_app, Hl1, Hr1, encode_app, Hen, zlen_app. lia. }
  assert (Hlen : Z.of_nat k + zlen (encode (runes t)) <= zlen (alignments_from_string s)).
  { rewrite Hals. pose proof (encode_runes_zlen t) as E1. pose proof (encode_runes_zlen s) as E2. rewrite <- E2.
    assert (runes s = take k (runes s) ++ runes t) as -> by (by rewrite Hrt, take_drop). rewrite encode_app, zlen_app.
    assert (Z.of_nat k <= zlen (encode (take k (runes s)))); [|lia].
    assert (length (take k (runes s)) = k) as Htk by (rewrite take_length; lia). rewrite <- Htk at 1. generalize (take k (runes s)). intros l.
    induction l as [|c l IH]; [done|]. rewrite zlen_encode_cons. pose proof (rune_len_bounds c). cbn [length]. lia. }
  set (K := Z.to_nat (zlen (ns_al n1))).
  assert (HF : Forall2 (λ _ _ : Z * Z, True) (take K (alignments_from_string s)) (ns_al n1)).
  { apply Forall2_true; [done|]. rewrite take_length. unfold K, zlen in *. lia. }
  pose proof (tr_loop_like (λ _ _, True) I (changes (flags keep (runes t))) _ (drop K (alignments_from_string s)) _ (Z.of_nat k) (runes t) HF ltac:(lia) ltac:(lia)) as HL.
  rewrite take_drop, Hy in HL. destruct (tr_loop (alignments_from_string s) _ _ _) as [x|]; [|done]. cbn [mbind outcome_bind].
  destruct HL as (F1 & F2 & F3 & _).
  assert (Hz : ∀ A (l : list A), sub l 0 0 = Ret []). { intros A l. by apply (sub_prefix [] l). }
  assert (Hcut : sub (alignments_from_string s) (zlen s) (zlen (alignments_from_string s)) = Ret (drop (length s) (alignments_from_string s))).
  { pose proof (bad_nonneg s). rewrite <- (take_drop (length s) (alignments_from_string s)) at 1. apply sub_suffix.
    - unfold zlen in *. rewrite take_length. lia.
    - by rewrite take_drop. }
  assert (He : sub s (zlen s) (zlen s) = Ret []). { rewrite <- (app_nil_r s) at 1. by rewrite (sub_suffix s []) by (done || by rewrite app_nil_r). }
  rewrite !Hz. cbn [mbind outcome_bind]. rewrite Hcut, He. cbn [mbind outcome_bind app]. eexists. split; [done|]. cbn [ns_al ns_norm].
  rewrite app_nil_r, zlen_app, F2, <- F3. assert (zlen x.1 = zlen y.1) by (unfold zlen; by rewrite (Forall2_length _ _ _ F1)).
  pose proof (bad_nonneg s). unfold zlen in *. rewrite drop_length. lia.
Qed.

Lemma leading_first keep x rs : keep x = true → leading keep (x :: rs) = 0%nat.
Proof. intros H. cbn [leading]. by rewrite H. Qed.
Lemma bert_like u o (R : Z * Z → Z * Z → Prop) k n n0 x rs : R (0, 0) (0, 0) → like R k n n0 → runes (ns_norm n) = x :: rs →
  (x =? 0) || (x =? rune_error) || is_control u x = false → u_mn u x = false → u_mn u 32 = false →
  both R k (bert_normalize u o n) (bert_normalize u o n0).
Proof.
  intros R0 HL Hx Hc Hm H32. unfold bert_normalize.
  assert (Hsc : ∀ n y l, runes (ns_norm n) = y :: l → scalar y = true).
  { intros n' y l E. pose proof (runes_scalars (ns_norm n')) as H. rewrite E in H. by apply Forall_cons in H as [H _]. }
  apply both_bind.
  { destruct (bo_clean o); [|done]. unfold clean_text. apply both_bind.
    - apply filter_like; [done|done|]. intros _. rewrite Hx, leading_first by (by rewrite Hc). apply first_0.
    - intros n1 n1' _ _ H. by apply map_like. }
  intros n1 n1' E1 _ L1.
  assert (G1 : ∃ y l, runes (ns_norm n1) = y :: l ∧ u_mn u y = false).
  { destruct (bo_clean o); [|injection E1 as <-; by exists x, rs]. unfold clean_text in E1. apply bind_Ret in E1 as (nf & Ef & Em).
    apply filter_runes_text in Ef. rewrite Hx, filter_cons_True in Ef by (by rewrite Hc).
    unfold map_runes in Em. apply transform_text in Em. rewrite Ef in Em. rewrite runes_encode in Em. cbn [map] in Em. rewrite Em, runes_encode. cbn [map fmap list_fmap fst].
    eexists _, _. split; [done|]. assert (sanitize x = x) as -> by (apply sanitize_id; by eapply Hsc).
    destruct (is_whitespace x); cbn [fst]; [done|]. rewrite sanitize_id by (by eapply Hsc). done. }
  apply both_bind.
  { destruct (bo_chinese o); [|done]. unfold handle_chinese. rewrite (like_runes R k n1 n1' L1). apply transform_like; [done|done|apply first_0]. }
  intros n2 n2' E2 _ L2.
  assert (G2 : ∃ y l, runes (ns_norm n2) = y :: l ∧ u_mn u y = false).
  { destruct (bo_chinese o); [|injection E2 as <-; done]. destruct G1 as (y & l & Hy & Hym). unfold handle_chinese in E2. apply transform_text in E2. rewrite E2, Hy, runes_encode.
    unfold chinese_changes. cbn [flat_map]. pose proof (Hsc _ _ _ Hy). destruct (is_chinese y); cbn [app map fmap list_fmap fst]; eexists _, _; (split; [done|]); [done|]. by rewrite sanitize_id. }
  apply both_bind.
  { destruct (bo_accents o); [|done]. unfold strip_accents. apply filter_like; [done|done|]. intros _. destruct G2 as (y & l & Hy & Hym).
    rewrite Hy, leading_first by (by rewrite Hym). apply first_0. }
  intros n3 n3' _ _ L3. destruct (bo_lower o); [by apply map_like|done].
Qed.
