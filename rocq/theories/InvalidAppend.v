(** Append on strings that are not valid UTF-8. *)
From Coq Require Import ZifyBool.
From Verif Require Import GoBase Utf8Facts SliceFacts Strutils SplitPattern NormString SpecText SpecNorm SpecInvalid JsonFacts NormFacts NormEdits InvalidFacts MendFacts.
Import GoBase NormString SpecNorm.
#[local] Open Scope Z_scope.

Lemma tr_inserts al o l rs a : 1 <= o → idx al (o - 1) = Ret a → tr_loop al (map (λ r, (r, 1)) l) o rs = Ret (repeat a (length (encode l)), encode l).
Proof.
  intros Ho Ha. induction l as [|r l IH]; [done|]. cbn [map tr_loop]. change (1 <=? 1) with true. change (1 <=? 0) with false. change (1 <=? -1) with false. cbv iota.
  replace (o <? 1) with false by lia. rewrite Ha. cbn [mbind outcome_bind]. replace (o + 0 + 0) with o by lia. rewrite IH. cbn [mbind outcome_bind fst snd].
  by rewrite encode_cons, app_length, repeat_app.
Qed.
Lemma tr_inserts_panic al o r l rs : 1 <= o → idx al (o - 1) = Panic → tr_loop al (map (λ r, (r, 1)) (r :: l)) o rs = Panic.
Proof.
  intros Ho Ha. cbn [map tr_loop]. change (1 <=? 1) with true. cbv iota. replace (o <? 1) with false by lia. by rewrite Ha.
Qed.

Lemma runes_zlen_le s : zlen (runes s) <= zlen s.
Proof.
  rewrite <- (decode_widths s). unfold runes. pose proof (decode_widths_pos s) as H. induction H as [|[r w] d Hw _ IH]; [done|].
  rewrite fmap_cons, fmap_cons. cbn [fst snd foldr] in *. unfold zlen in *. cbn [length]. lia.
Qed.

Lemma al_zlen s : zlen (alignments_from_string s) = zlen s + 2 * bad_bytes s.
Proof. rewrite alignments_spread, zlen_spans. unfold alen. rewrite spread_chars. apply encode_runes_zlen. Qed.

Lemma append_any s p lastRune k : s ≠ [] → p ≠ [] → k = zlen (runes s) - 1 → idx (runes s) k = Ret lastRune →
  let rest := drop (Z.to_nat k) s in
  (bad_start rest ∧ valid_utf8 s = true ∧ zlen rest < 3 → append (from_string s) p = Panic)
  ∧ (¬ (bad_start rest ∧ valid_utf8 s = true ∧ zlen rest < 3) →
     ∃ n', append (from_string s) p = Ret n' ∧ ns_norm n' = take (Z.to_nat k) s ++ encode_rune lastRune ++ encode (runes p)
       ∧ zlen (ns_al n') = zlen (ns_norm n') + 2 * bad_bytes s).
Proof.
  intros Hs Hp Hk Hlast rest. pose proof (runes_zlen_le s) as Hle. pose proof (idx_bounds _ _ _ Hlast) as Hb. pose proof (bad_nonneg s) as Hbn.
  assert (Hz : 0 < zlen s) by (destruct s; [done|]; rewrite zlen_cons; pose proof (zlen_nonneg s); lia).
  set (front := take (Z.to_nat k) s). assert (Es : s = front ++ rest) by (unfold front, rest; by rewrite take_drop).
  assert (Hf : zlen front = k) by (unfold front, zlen in *; rewrite take_length; lia).
  assert (Hr : zlen rest = zlen s - k) by (pose proof (f_equal zlen Es) as E; rewrite zlen_app in E; lia).
  set (al := alignments_from_string s). assert (Hal : zlen al = zlen s + 2 * bad_bytes s) by apply al_zlen.
  destruct (decode rest) as [|[x w] d] eqn:Hd. { apply decode_nil in Hd. rewrite Hd in Hr. change (zlen (@nil Z)) with 0 in Hr. lia. }
  assert (Hrun : runes rest = x :: d.*1) by (unfold runes; by rewrite Hd).
  destruct (runes_nonempty p Hp) as (r & rs & Hpr). destruct (idx_total al k) as [a Ha]; [lia|]. pose proof (rune_len_bounds x) as Hx.
  assert (Eap : append (from_string s) p =
    (y ← tr_loop al ((lastRune, 0) :: map (λ r, (r, 1)) (runes p)) k (runes rest);
     Ret (NS s (front ++ y.2 ++ []) (take (Z.to_nat k) al ++ y.1 ++ drop (Z.to_nat (zlen s)) al) 0))).
  { unfold append. change (ns_norm (from_string s)) with s. replace (zlen s =? 0) with false by lia. cbv zeta. rewrite <- Hk, Hlast. cbn [mbind outcome_bind].
    unfold transform_range. cbn [coerce_to_norm negb]. change (ns_norm (from_string s)) with s. change (ns_len (from_string s)) with (zlen s).
    assert (sub s k (zlen s) = Ret rest) as -> by (rewrite Es; by apply sub_suffix). cbn [mbind outcome_bind].
    rewrite (sub_prefix [] rest 0 eq_refl : sub rest 0 0 = Ret []). cbn [mbind outcome_bind].
    rewrite (sub_suffix [] rest 0 (zlen rest) eq_refl eq_refl : sub rest 0 (zlen rest) = Ret rest). cbn [mbind outcome_bind].
    change (zlen [] + k) with k. change (ns_al (from_string s)) with al. destruct (tr_loop al _ k (runes rest)) as [y|]; [|done]. cbn [mbind outcome_bind].
    assert (sub al 0 k = Ret (take (Z.to_nat k) al)) as ->.
    { rewrite <- (take_drop (Z.to_nat k) al) at 1. apply sub_prefix. unfold zlen in *. rewrite take_length. lia. }
    cbn [mbind outcome_bind].
    assert (sub al (zlen s) (zlen al) = Ret (drop (Z.to_nat (zlen s)) al)) as ->.
    { rewrite <- (take_drop (Z.to_nat (zlen s)) al) at 1. apply sub_suffix; [|by rewrite take_drop]. unfold zlen in *. rewrite take_length. lia. }
    cbn [mbind outcome_bind]. assert (sub s 0 k = Ret front) as -> by (rewrite Es at 1; by apply sub_prefix). cbn [mbind outcome_bind].
    assert (sub s (zlen s) (zlen s) = Ret []) as -> by (rewrite <- (app_nil_r s) at 1; apply sub_suffix; [done|by rewrite app_nil_r]). done. }
  rewrite Eap, Hrun. cbn [tr_loop]. change (1 <=? 0) with false. change (0 <=? 0) with true. change (0 <=? -1) with false. cbv iota. rewrite Ha. cbn [mbind outcome_bind].
  replace (k + rune_len x + 0) with (k + rune_len x) by lia.
  assert (Hg : (x, w) ≠ (rune_error, 1) → rune_len x <= zlen rest).
  { intros Hxw. destruct (decode_good rest x w d Hd Hxw) as (s' & E & _). rewrite E, zlen_app. pose proof (zlen_nonneg s'). unfold rune_len. lia. }
  assert (Hbs : bad_start rest ↔ (x, w) = (rune_error, 1)). { unfold bad_start. rewrite Hd. cbn [head]. split; [by intros [= -> ->]|by intros [= -> ->]]. }
  split; [intros (H1 & H2 & H3)|intros Hn].
  - apply Hbs in H1. injection H1 as -> ->. change (rune_len rune_error) with 3. apply bad_valid in H2.
    rewrite Hpr, tr_inserts_panic; [done|lia|]. apply idx_panic. lia.
  - destruct (idx_total al (k + rune_len x - 1)) as [a2 Ha2].
    { split; [lia|]. destruct (decide ((x, w) = (rune_error, 1))) as [E|E]; [|specialize (Hg E); lia].
      pose proof E as E'. injection E' as -> _. change (rune_len rune_error) with 3. destruct (decide (bad_bytes s = 0)) as [E0|E0]; [|lia].
      destruct (decide (zlen rest < 3)) as [H3|H3]; [|lia]. destruct Hn. split_and!; [by apply Hbs|by apply bad_valid|done]. }
    rewrite (tr_inserts al _ _ _ a2) by (try done; lia). cbn [mbind outcome_bind fst snd]. eexists. split; [done|]. cbn [ns_norm ns_al]. split; [by rewrite app_nil_r|].
    rewrite !zlen_app. unfold zlen in *. rewrite take_length, drop_length, !repeat_length. cbn [length]. lia.
Qed.

(** ** Where the text is right *)
Lemma head2_off b0 c : byte_in 0x80 0xBF c = false → head2 b0 c = false.
Proof. unfold head2, byte_in. lia. Qed.
Lemma head3_off b0 b1 b2 : byte_in 0x80 0xBF b1 = false ∨ byte_in 0x80 0xBF b2 = false → head3 b0 b1 b2 = false.
Proof. unfold head3, byte_in. intros H. destruct (b0 =? 0xE0), (b0 =? 0xED); lia. Qed.
Lemma head4_off b0 b1 b2 b3 : byte_in 0x80 0xBF b1 = false ∨ byte_in 0x80 0xBF b2 = false ∨ byte_in 0x80 0xBF b3 = false → head4 b0 b1 b2 b3 = false.
Proof. unfold head4, byte_in. intros H. destruct (b0 =? 0xF0), (b0 =? 0xF4); lia. Qed.

(** Decoding does not reach over the start of a character. *)
Lemma decode_split_lead a c b : byte_in 0x80 0xBF c = false → decode (a ++ c :: b) = decode a ++ decode (c :: b).
Proof.
  intros Hc. remember (length a) as k eqn:Ek. revert a Ek. induction k as [k IH] using lt_wf_ind. intros a ->. destruct a as [|b0 a]; [done|].
  assert (R : ∀ a', (length a' < length (b0 :: a))%nat → decode (a' ++ c :: b) = decode a' ++ decode (c :: b)) by (intros a' Hl; by apply (IH (length a'))).
  pose proof (R a ltac:(cbn; lia)) as R1. cbn [app]. rewrite !(decode_cons b0). destruct (byte_in 0 127 b0); [by rewrite R1|].
  destruct a as [|b1 a]; cbn [app] in *.
  { rewrite head2_off by done. destruct b as [|y1 b]; [by rewrite R1|]. rewrite head3_off by (by left). destruct b as [|y2 b]; [by rewrite R1|]. rewrite head4_off by (by left). by rewrite R1. }
  pose proof (R a ltac:(cbn; lia)) as R2. destruct (head2 b0 b1); [by rewrite R2|].
  destruct a as [|b2 a]; cbn [app] in *.
  { rewrite head3_off by (by right). destruct b as [|y1 b]; [by rewrite R1|]. rewrite head4_off by (by right; left). by rewrite R1. }
  pose proof (R a ltac:(cbn; lia)) as R3. destruct (head3 b0 b1 b2); [by rewrite R3|].
  destruct a as [|b3 a]; cbn [app] in *.
  { rewrite head4_off by (by right; right). by rewrite R1. }
  pose proof (R a ltac:(cbn; lia)) as R4. destruct (head4 b0 b1 b2 b3); [by rewrite R4|by rewrite R1].
Qed.

Lemma skip_single s d0 d : decode s = d0 ++ d → Forall (λ x : Z * Z, x.2 = 1) d0 → decode (drop (length d0) s) = d.
Proof.
  revert s. induction d0 as [|[r w] d0 IH]; intros s E H; [by rewrite drop_0|]. apply Forall_cons in H as [Hw H]. cbn [snd] in Hw. subst w.
  cbn [app] in E. apply decode_one in E as (b & s' & -> & E). cbn [length drop]. by apply IH.
Qed.

Lemma all_single d n : foldr Z.add 0 d.*2 = n → Forall (λ p : Z * Z, 1 <= p.2) d → n <= zlen d → Forall (λ p : Z * Z, p.2 = 1) d.
Proof.
  intros E H. revert n E. induction H as [|[r w] d Hw H IH]; intros n E Hn; [constructor|]. cbn [snd] in *. rewrite fmap_cons in E. cbn [snd foldr] in E. rewrite zlen_cons in Hn.
  assert (Hge : zlen d <= foldr Z.add 0 d.*2).
  { clear -H. induction H as [|[r w] d Hw _ IH]; [done|]. rewrite fmap_cons. cbn [snd foldr] in *. rewrite zlen_cons. lia. }
  constructor; [cbn; lia|]. apply (IH _ eq_refl). lia.
Qed.

Lemma append_right s cs c : runes s = cs ++ [c] →
  take (length cs) s ++ encode_rune c = s ↔ Forall (λ x : Z * Z, x.2 = 1) (take (length cs) (decode s)) ∧ ¬ bad_end s.
Proof.
  intros Hr. unfold runes in Hr. pose proof Hr as Hr'. apply fmap_app_inv in Hr' as (d0 & d1 & E0 & E1 & Ed). destruct d1 as [|[c' w] [|]]; try done. injection E1 as <-.
  assert (Hl : length cs = length d0) by (by rewrite E0, fmap_length). rewrite Hl, Ed, take_app.
  assert (Hbe : bad_end s ↔ (c, w) = (rune_error, 1)). { unfold bad_end. rewrite Ed, last_snoc. split; [by intros [= -> ->]|by intros [= -> ->]]. }
  pose proof (decode_props s) as Hp. rewrite Ed in Hp. apply Forall_app in Hp as [_ Hp]. apply Forall_cons in Hp as [[_ Hp] _]. cbn [snd fst] in Hp.
  pose proof (decode_widths s) as Hw. rewrite Ed, fmap_app, foldr_app in Hw. cbn [fmap list_fmap snd foldr] in Hw.
  assert (Hw' : foldr Z.add 0 d0.*2 + w = zlen s).
  { rewrite <- Hw, Z.add_0_r. clear. induction d0 as [|[r x] d0 IH]; [done|]. rewrite fmap_cons. cbn [snd foldr] in *. lia. }
  split.
  - intros E. assert (Hnb : (c, w) ≠ (rune_error, 1)).
    { intros [= -> ->]. change (encode_rune rune_error) with [0xEF; 0xBF; 0xBD] in E. rewrite <- E, decode_split_lead in Ed by done.
      change (decode [0xEF; 0xBF; 0xBD]) with [(rune_error, 3)] in Ed. by apply app_inj_tail in Ed as [_ ?]. }
    split; [|by rewrite Hbe]. destruct Hp as [Hp|Hp]; [done|]. apply (all_single d0 _ eq_refl).
    + pose proof (decode_widths_pos s) as H. rewrite Ed in H. by apply Forall_app in H as [H _].
    + apply (f_equal zlen) in E. rewrite zlen_app in E. fold (rune_len c) in E. unfold zlen in E, Hw' |- *. rewrite take_length in E. lia.
  - intros [H1 Hnb]. rewrite Hbe in Hnb. pose proof (skip_single s d0 _ Ed H1) as H. destruct (decode_good _ _ _ _ H Hnb) as (s' & E & Hs'). apply decode_nil in Hs' as ->.
    rewrite app_nil_r in E. rewrite <- E. apply take_drop.
Qed.
