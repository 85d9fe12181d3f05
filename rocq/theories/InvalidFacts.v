(** Proofs about strings that are not valid UTF-8. *)
From Coq Require Import ZifyBool.
From Verif Require Import GoBase Utf8Facts Strutils SplitPattern NormString SpecText SpecNorm SpecInvalid SliceFacts PatternFacts NormFacts NormEdits.
Import GoBase NormString SpecNorm.
#[local] Open Scope Z_scope.

(** The runes of a string with the spans FromString gives them. *)
Fixpoint spread (i : Z) (d : list (Z * Z)) : list (Z * (Z * Z)) :=
  match d with [] => [] | (r, w) :: d' => (r, (i, i + rune_len r)) :: spread (i + w) d' end.
Lemma spread_chars i d : (spread i d).*1 = d.*1.
Proof. revert i. induction d as [|[r w] d IH]; intros i; [done|]. cbn [spread]. rewrite !fmap_cons, IH. done. Qed.
Lemma alignments_spread s : alignments_from_string s = spans_of (spread 0 (decode s)).
Proof.
  unfold alignments_from_string, range_str. generalize (decode s) 0. induction l as [|[r w] d IH]; intros i; [done|].
  cbn [positions flat_map spread]. rewrite spans_of_cons, IH. done.
Qed.
Lemma decode_props s : Forall (λ p : Z * Z, scalar p.1 = true ∧ (p = (rune_error, 1) ∨ p.2 = rune_len p.1)) (decode s).
Proof. by apply (decode_props_aux (length s)). Qed.
Lemma encode_runes_zlen s : zlen (encode (runes s)) = zlen s + 2 * bad_bytes s.
Proof.
  rewrite <- (decode_widths s). unfold runes, bad_bytes. pose proof (decode_props s) as H. induction H as [|[r w] d [_ Hp] _ IH]; [done|].
  rewrite !fmap_cons, zlen_encode_cons, IH. cbn [fst snd foldr]. rewrite filter_cons. destruct Hp as [[= -> ->]|Hw].
  - rewrite decide_True by done. rewrite zlen_cons. change (rune_len rune_error) with 3. lia.
  - rewrite decide_False; [cbn in Hw; lia|]. intros [= -> ->]. discriminate Hw.
Qed.
Lemma bad_valid s : bad_bytes s = 0 ↔ valid_utf8 s = true.
Proof.
  unfold bad_bytes, valid_utf8. induction (decode s) as [|[r w] d IH]; [done|]. rewrite filter_cons. cbn [forallb]. destruct (decide _) as [[= -> ->]|Hn].
  - rewrite zlen_cons. cbn. pose proof (zlen_nonneg (base.filter (λ x, x = (rune_error, 1)) d)). split; [lia|done].
  - rewrite IH. replace (negb _) with true; [done|]. symmetry. apply negb_true_iff. destruct (Z.eqb_spec r rune_error), (Z.eqb_spec w 1); subst; done.
Qed.
Lemma bad_nonneg s : 0 <= bad_bytes s.
Proof. apply zlen_nonneg. Qed.
Lemma decode_nil s : decode s = [] → s = [].
Proof. intros H. pose proof (decode_widths s) as W. rewrite H in W. cbn in W. destruct s; [done|]. rewrite zlen_cons in W. pose proof (zlen_nonneg s). lia. Qed.

(** TransformRange over a whole fresh string. *)
Lemma transform_fresh s dest : transform (from_string s) dest 0 =
  match rewrite_chars (0, 0) (spread 0 (decode s)) dest with
  | Some w => Ret (NS s (encode w.*1) (spans_of w ++ drop (length s) (alignments_from_string s)) 0)
  | None => Panic
  end.
Proof.
  unfold transform, transform_range, from_string, ns_len. cbn [coerce_to_norm ns_norm ns_al ns_orig ns_shift negb]. rewrite sub_full. cbn [mbind outcome_bind].
  rewrite (sub_prefix [] s 0 eq_refl : sub s 0 0 = Ret []). cbn [mbind outcome_bind]. rewrite (sub_suffix [] s 0 (zlen s) eq_refl eq_refl : sub s 0 (zlen s) = Ret s). cbn [mbind outcome_bind].
  change (zlen [] + 0) with 0. rewrite alignments_spread.
  assert (Hr : runes s = (spread 0 (decode s)).*1) by (by rewrite spread_chars). rewrite Hr.
  pose proof (tr_loop_spec dest [] (spread 0 (decode s)) []) as H. rewrite app_nil_r in H. cbn [app] in H. change (alen []) with 0 in H. rewrite H.
  change (last_span []) with (0, 0). destruct (rewrite_chars _ _ _) as [w|]; [|done]. cbn [mbind outcome_bind fst snd].
  rewrite (sub_prefix [] (spans_of (spread 0 (decode s))) 0 eq_refl : sub (spans_of (spread 0 (decode s))) 0 0 = Ret []). cbn [mbind outcome_bind].
  set (al := spans_of (spread 0 (decode s))).
  assert (Hal : zlen s <= zlen al).
  { unfold al. rewrite zlen_spans. unfold alen. rewrite spread_chars. fold (runes s). rewrite encode_runes_zlen. pose proof (bad_nonneg s). lia. }
  assert (Hsp : al = take (length s) al ++ drop (length s) al) by (by rewrite take_drop).
  assert (Hd : sub al (zlen s) (zlen al) = Ret (drop (length s) al)).
  { rewrite Hsp at 1. rewrite (sub_suffix (take (length s) al)); [done| |by rewrite <- Hsp]. unfold zlen in *. rewrite take_length. lia. }
  rewrite Hd. cbn [mbind outcome_bind].
  assert (Hn : sub s (zlen s) (zlen s) = Ret []). { rewrite <- (app_nil_r s) at 1. by rewrite (sub_suffix s []) by (done || by rewrite app_nil_r). }
  rewrite Hn. cbn [mbind outcome_bind app]. by rewrite app_nil_r.
Qed.

Lemma map_fresh s f : ∃ al, map_runes (from_string s) f = Ret (NS s (encode (map f (runes s))) al 0)
  ∧ zlen al = zlen (encode (map f (runes s))) + 2 * bad_bytes s.
Proof.
  unfold map_runes. change (ns_norm (from_string s)) with s. rewrite transform_fresh.
  assert (Hr : runes s = (spread 0 (decode s)).*1) by (by rewrite spread_chars). pose proof (rewrite_map f (0, 0) (spread 0 (decode s))) as Hm. rewrite <- Hr in Hm. rewrite Hm. eexists.
  assert (E : encode (map_chars f (spread 0 (decode s))).*1 = encode (map f (runes s))).
  { rewrite Hr. generalize (spread 0 (decode s)). induction l as [|[r a] l IH]; [done|]. cbn [map_chars map]. rewrite !fmap_cons. cbn [map fst]. rewrite !encode_cons, encode_rune_sanitize. f_equal. exact IH. }
  split; [by rewrite E|]. rewrite zlen_app, zlen_spans. unfold alen. rewrite E.
  assert (zlen (alignments_from_string s) = zlen s + 2 * bad_bytes s) as Ha.
  { rewrite alignments_spread, zlen_spans. unfold alen. rewrite spread_chars. apply encode_runes_zlen. }
  pose proof (bad_nonneg s). unfold zlen in *. rewrite drop_length. lia.
Qed.

(** The captures of a function that rejects U+FFFD. *)
Lemma func_loop_bad f d lastOffset i pend : f rune_error = false →
  Forall (λ p : Z * Z, scalar p.1 = true ∧ (p = (rune_error, 1) ∨ p.2 = rune_len p.1)) d →
  lastOffset <= i → i <= pend → (d ≠ [] ∨ lastOffset <= pend) → (lastOffset = i → pend = i) →
  covers lastOffset (func_loop f (positions i d) lastOffset pend)
    (match last d with None => pend | Some x => i + foldr Z.add 0 d.*2 + (if decide (x = (rune_error, 1)) then 2 else 0) end).
Proof.
  intros Hf Hd. revert lastOffset i pend. induction Hd as [|[r w] d [_ Hp] Hd IH]; intros lo i pend H1 H2 H3 H4.
  - cbn [positions func_loop last]. destruct (Z.ltb_spec lo pend); cbn [covers]; cbn [c_start c_end]; lia.
  - cbn [positions func_loop]. rewrite fmap_cons. cbn [snd foldr].
    assert (Hw : 1 <= w) by (destruct Hp as [[= -> ->]|Hp]; [lia|]; cbn in Hp; pose proof (rune_len_bounds r); lia).
    assert (E : match last ((r, w) :: d) with None => pend | Some x => i + (w + foldr Z.add 0 d.*2) + (if decide (x = (rune_error, 1)) then 2 else 0) end
              = match last d with None => i + rune_len r | Some x => (i + w) + foldr Z.add 0 d.*2 + (if decide (x = (rune_error, 1)) then 2 else 0) end).
    { destruct d as [|y d]; cbn [last]; [|destruct (last (y :: d)) eqn:E; [lia|by apply last_None in E]].
      cbn. destruct Hp as [[= -> ->]|Hp].
      - rewrite decide_True by done. change (rune_len rune_error) with 3. lia.
      - cbn in Hp. rewrite decide_False; [lia|]. intros [= -> ->]. discriminate Hp. }
    rewrite E. clear E. destruct (f r) eqn:Hfr; cbn [negb].
    + assert (w = rune_len r) as Hwr by (destruct Hp as [[= -> ->]|Hp]; [congruence|done]).
      assert (C : covers (i + rune_len r) (func_loop f (positions (i + w) d) (i + rune_len r) (i + rune_len r))
         (match last d with None => i + rune_len r | Some x => (i + w) + foldr Z.add 0 d.*2 + (if decide (x = (rune_error, 1)) then 2 else 0) end)).
      { apply IH; lia. }
      destruct (Z.ltb_spec lo i); cbn [covers app c_start c_end]; split_and!; try lia; exact C.
    + apply IH; try (pose proof (rune_len_bounds r); lia). destruct Hp as [[= -> ->]|Hp]; [change (rune_len rune_error) with 3|cbn in Hp]; lia.
Qed.

(** Reading one character or one undecodable byte. *)
Lemma decode_good s x w d : decode s = (x, w) :: d → (x, w) ≠ (rune_error, 1) → ∃ s', s = encode_rune x ++ s' ∧ decode s' = d.
Proof.
  destruct s as [|b0 s1]; cbn [decode]; [done|].
  destruct (byte_in 0 0x7F b0) eqn:H0. { intros [= <- <- <-] _. exists s1. unfold byte_in in H0. rewrite encode_rune_ascii by lia. done. }
  destruct s1 as [|b1 s2]; [intros [= <- <- <-]; done|].
  destruct (head2 b0 b1) eqn:H2. { intros [= <- <- <-] _. exists s2. rewrite encode_scalar_2 by done. done. }
  destruct s2 as [|b2 s3]; [intros [= <- <- <-]; done|].
  destruct (head3 b0 b1 b2) eqn:H3. { intros [= <- <- <-] _. exists s3. rewrite encode_scalar_3 by done. done. }
  destruct s3 as [|b3 s4]; [intros [= <- <- <-]; done|].
  destruct (head4 b0 b1 b2 b3) eqn:H4. { intros [= <- <- <-] _. exists s4. rewrite encode_scalar_4 by done. done. }
  intros [= <- <- <-]; done.
Qed.
Lemma decode_bad_take s d k : decode s = (rune_error, 1) :: d → (k <> 0)%nat → ∃ d', decode (take k s) = (rune_error, 1) :: d'.
Proof.
  intros H Hk. destruct s as [|b0 s1]; [done|]. destruct k as [|k]; [done|]. cbn [take]. revert H. cbn [decode].
  destruct (byte_in 0 0x7F b0) eqn:H0. { intros [= -> _]. discriminate H0. }
  destruct s1 as [|b1 s2]; [rewrite take_nil; cbn; eauto|]. destruct k as [|k]; [cbn; eauto|]. cbn [take].
  destruct (head2 b0 b1) eqn:H2; [done|].
  destruct s2 as [|b2 s3]; [rewrite take_nil; intros _; eexists; reflexivity|]. destruct k as [|k]; [cbn [take]; intros _; eexists; reflexivity|]. cbn [take].
  destruct (head3 b0 b1 b2) eqn:H3; [done|].
  destruct s3 as [|b3 s4]; [rewrite take_nil; intros _; eexists; reflexivity|]. destruct k as [|k]; [cbn [take]; intros _; eexists; reflexivity|]. cbn [take].
  destruct (head4 b0 b1 b2 b3) eqn:H4; [done|]. intros _. eexists; reflexivity.
Qed.
Lemma tr_loop_inserts al off rs l a : 1 <= off → idx al (off - 1) = Ret a → ∃ al', tr_loop al (map (λ r, (r, 1)) l) off rs = Ret (al', encode l).
Proof.
  intros Ho Ha. induction l as [|r l IH]; [by exists []|]. cbn [map tr_loop]. change (1 <=? 1) with true. change (1 <=? 0) with false. change (1 <=? -1) with false. cbv iota.
  replace (off <? 1) with false by lia. rewrite Ha. cbn [mbind outcome_bind]. rewrite !Z.add_0_r. destruct IH as [al' ->]. cbn [mbind outcome_bind fst snd]. eauto.
Qed.
Lemma runes_nonempty p : p ≠ [] → ∃ r rs, runes p = r :: rs.
Proof. intros Hp. unfold runes. destruct (decode p) as [|[r w] d] eqn:E; [by apply decode_nil in E|]. rewrite fmap_cons. eauto. Qed.

Lemma prepend_bad s p : bad_start s → p ≠ [] →
  if zlen s <? 3 then prepend (from_string s) p = Panic
  else ∃ n', prepend (from_string s) p = Ret n' ∧ ns_norm n' = encode (runes p) ++ encode_rune rune_error ++ drop 3 s.
Proof.
  unfold bad_start. intros Hb Hp. destruct (decode s) as [|x d] eqn:Hd; [done|]. injection Hb as ->. cbv zeta.
  assert (Hs : s ≠ []) by (by intros ->).
  unfold prepend. change (ns_norm (from_string s)) with s. replace (zlen s =? 0) with false by (destruct s; [done|]; rewrite zlen_cons; pose proof (zlen_nonneg s); lia).
  assert (Hrun : runes s = rune_error :: d.*1) by (unfold runes; by rewrite Hd). rewrite Hrun. change (idx (rune_error :: d.*1) 0) with (Ret rune_error). cbn [mbind outcome_bind]. change (rune_len rune_error) with 3.
  destruct (runes_nonempty p Hp) as (r & rs & Hr). rewrite Hr, (prepend_changes_spec p r rs Hr).
  unfold transform_range. cbn [coerce_to_norm negb]. change (ns_norm (from_string s)) with s.
  destruct (Z.ltb_spec (zlen s) 3) as [Hl|Hl]. { rewrite (sub_panic s 0 3) by lia. reflexivity. }
  assert (Hsp : s = take 3 s ++ drop 3 s) by (by rewrite take_drop). assert (Ht : zlen (take 3 s) = 3) by (unfold zlen in *; rewrite take_length; lia).
  assert (sub s 0 3 = Ret (take 3 s)) as ->. { rewrite Hsp at 1. by rewrite sub_prefix. }
  cbn [mbind outcome_bind]. rewrite (sub_prefix [] (take 3 s) 0 eq_refl : sub (take 3 s) 0 0 = Ret []). cbn [mbind outcome_bind].
  rewrite (sub_suffix [] (take 3 s) 0 (zlen (take 3 s)) eq_refl eq_refl : sub (take 3 s) 0 (zlen (take 3 s)) = Ret (take 3 s)). cbn [mbind outcome_bind].
  change (zlen [] + 0) with 0. destruct (decode_bad_take s d 3 Hd) as [d' Hd']; [done|]. assert (Hrt : runes (take 3 s) = rune_error :: d'.*1) by (unfold runes; by rewrite Hd'). rewrite Hrt.
  change (ns_al (from_string s)) with (alignments_from_string s). set (al := alignments_from_string s).
  assert (Hal : 3 <= zlen al).
  { unfold al. rewrite alignments_spread, zlen_spans. unfold alen. rewrite spread_chars. fold (runes s). rewrite encode_runes_zlen. pose proof (bad_nonneg s). lia. }
  cbn [app tr_loop]. change (1 <=? 0) with false. change (0 <=? 0) with true. change (0 <=? -1) with false. cbv iota. cbn [fst].
  destruct (idx_total al 0) as [a0 Ha0]; [lia|]. destruct (idx_total al 2) as [a2 Ha2]; [lia|]. rewrite Ha0. cbn [mbind outcome_bind]. change (0 + rune_len rune_error + 0) with 3.
  change [(rune_error, 1)] with (map (λ r, (r, 1)) [rune_error]). rewrite <- map_app.
  destruct (tr_loop_inserts al 3 d'.*1 (rs ++ [rune_error]) a2) as [al' Hal']; [lia|done|]. rewrite Hal'. cbn [mbind outcome_bind fst snd].
  rewrite (sub_prefix [] al 0 eq_refl : sub al 0 0 = Ret []). cbn [mbind outcome_bind].
  destruct (sub_total al 3 (zlen al)) as [x Hx]; [lia..|]. rewrite Hx. cbn [mbind outcome_bind].
  rewrite (sub_prefix [] s 0 eq_refl : sub s 0 0 = Ret []). cbn [mbind outcome_bind].
  assert (sub s 3 (zlen s) = Ret (drop 3 s)) as ->. { rewrite Hsp at 1. rewrite (sub_suffix (take 3 s)); [done|done|by rewrite <- Hsp]. }
  cbn [mbind outcome_bind]. eexists. split; [done|]. cbn [ns_norm app]. rewrite encode_cons, encode_app, <- !app_assoc. do 2 f_equal.
Qed.

Lemma prepend_good s p : s ≠ [] → ¬ bad_start s → p ≠ [] →
  ∃ n', prepend (from_string s) p = Ret n' ∧ ns_norm n' = encode (runes p) ++ s ∧ zlen (ns_al n') = zlen (ns_norm n') + 2 * bad_bytes s.
Proof.
  unfold bad_start. intros Hs Hb Hp. destruct (decode s) as [|[x w] d] eqn:Hd; [by apply decode_nil in Hd|].
  assert (Hxw : (x, w) ≠ (rune_error, 1)) by (intros E; apply Hb; cbn; by rewrite E).
  destruct (decode_good s x w d Hd Hxw) as (s' & Es & Hd'). 
  assert (Hx : scalar x = true). { pose proof (decode_props s) as H. rewrite Hd in H. by inversion H as [|? ? [? _]]. }
  unfold prepend. change (ns_norm (from_string s)) with s. replace (zlen s =? 0) with false by (destruct s; [done|]; rewrite zlen_cons; pose proof (zlen_nonneg s); lia).
  assert (Hrun : runes s = x :: d.*1) by (unfold runes; by rewrite Hd). rewrite Hrun. change (idx (x :: d.*1) 0) with (Ret x). cbn [mbind outcome_bind].
  destruct (runes_nonempty p Hp) as (r & rs & Hr). rewrite Hr, (prepend_changes_spec p r rs Hr).
  unfold transform_range. cbn [coerce_to_norm negb]. change (ns_norm (from_string s)) with s.
  assert (sub s 0 (rune_len x) = Ret (encode_rune x)) as ->. { rewrite Es. by rewrite sub_prefix. }
  cbn [mbind outcome_bind]. rewrite (sub_prefix [] (encode_rune x) 0 eq_refl : sub (encode_rune x) 0 0 = Ret []). cbn [mbind outcome_bind].
  rewrite (sub_suffix [] (encode_rune x) 0 (zlen (encode_rune x)) eq_refl eq_refl : sub (encode_rune x) 0 (zlen (encode_rune x)) = Ret (encode_rune x)). cbn [mbind outcome_bind].
  change (zlen [] + 0) with 0. replace (runes (encode_rune x)) with [x].
  2: { replace (encode_rune x) with (encode [x]) by (cbn; by rewrite app_nil_r). rewrite runes_encode. cbn. by rewrite sanitize_id. }
  change (ns_al (from_string s)) with (alignments_from_string s). rewrite alignments_spread, Hd. cbn [spread].
  pose proof (tr_loop_spec (((r, 0) :: map (λ r, (r, 1)) rs) ++ [(x, 1)]) [] [(x, (0, 0 + rune_len x))] (spread (0 + w) d)) as H. cbn [app] in H |- *.
  change (alen []) with 0 in H. change ([(x, (0, 0 + rune_len x))].*1) with [x] in H. rewrite H.
  cbn [rewrite_chars]. change (1 <=? 0) with false. cbv iota. change (Z.to_nat (- 0)) with 0%nat.
  rewrite decide_True by (cbn; lia). rewrite take_nil, drop_nil. change [(x, 1)] with (map (λ r, (r, 1)) [x]). rewrite <- map_app, rewrite_inserts. cbn [mbind option_bind outcome_bind fst snd].
  set (al := spans_of ((x, _) :: spread _ _)). set (w0 := (sanitize r, _) :: _).
  assert (Hal : zlen al = zlen s + 2 * bad_bytes s).
  { unfold al. rewrite <- encode_runes_zlen. rewrite Hrun, zlen_spans. unfold alen. rewrite (fmap_cons fst), spread_chars. done. }
  assert (Hls : zlen s = rune_len x + zlen s') by (by rewrite Es, zlen_app). pose proof (zlen_nonneg s'). pose proof (bad_nonneg s).
  rewrite (sub_prefix [] al 0 eq_refl : sub al 0 0 = Ret []). cbn [mbind outcome_bind].
  destruct (sub_total al (rune_len x) (zlen al)) as [y Hy]; [pose proof (rune_len_bounds x); lia..|]. rewrite Hy. cbn [mbind outcome_bind].
  rewrite (sub_prefix [] s 0 eq_refl : sub s 0 0 = Ret []). cbn [mbind outcome_bind].
  assert (sub s (rune_len x) (zlen s) = Ret s') as ->. { rewrite Es at 1. rewrite (sub_suffix (encode_rune x)); [done|done|by rewrite <- Es]. }
  cbn [mbind outcome_bind]. eexists. split; [done|]. cbn [ns_norm ns_al app].
  assert (Hw0 : encode w0.*1 = encode (r :: rs ++ [x])).
  { unfold w0. rewrite fmap_cons. cbn [fst]. rewrite !encode_cons, encode_rune_sanitize. f_equal. clear. induction (rs ++ [x]) as [|c l IH]; [done|]. cbn [map]. rewrite fmap_cons, !encode_cons, IH. cbn [fst]. by rewrite encode_rune_sanitize. }
  rewrite !zlen_app, zlen_spans. unfold alen. rewrite Hw0. apply sub_zlen in Hy. split; [|lia].
  rewrite app_comm_cons, encode_app, Es, <- app_assoc. f_equal. cbn. by rewrite app_nil_r.
Qed.
