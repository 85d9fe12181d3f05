(** Reading JSON: the parser of [Json.v] reads exactly the documents of [SpecJson.v]. *)
From Coq Require Import ZifyBool.
From stdpp Require Import relations.
From Verif Require Import GoBase Utf8Facts Vocab Json SpecJson.
Import GoBase SpecJson.
#[local] Open Scope Z_scope.

(** ** Bytes and code points *)
Lemma runes_ascii c s : 0 <= c < 128 → runes (c :: s) = c :: runes s.
Proof. intros H. unfold runes. cbn [GoBase.decode]. replace (byte_in 0 0x7F c) with true by (unfold byte_in; lia). done. Qed.

Lemma runes_ascii_app a s : Forall (λ c, 0 <= c < 128) a → runes (a ++ s) = a ++ runes s.
Proof. induction 1 as [|c a Hc Ha IH]; [done|]. cbn [app]. by rewrite runes_ascii, IH. Qed.

(** One step of decoding at a byte that is not ASCII. *)
Lemma decode_step s b t : bytes s → s = b :: t → 128 <= b →
  ∃ m s' r w, s = m ++ s' ∧ Forall (λ c, 128 <= c) m ∧ m ≠ [] ∧ GoBase.decode s = (r, w) :: GoBase.decode s' ∧ w = zlen m ∧ 128 <= r ∧ scalar r = true.
Proof.
  intros Hb -> H. inversion_clear Hb as [|?? Hb0 Ht].
  assert (∃ m s' r w, b :: t = m ++ s' ∧ Forall (λ c, 128 <= c) m ∧ m ≠ [] ∧ GoBase.decode (b :: t) = (r, w) :: GoBase.decode s' ∧ w = zlen m ∧ 128 <= r) as (m & s' & r & w & H1 & H2 & H3 & H4 & H5 & H6).
  2: { exists m, s', r, w. repeat split; try done. pose proof (runes_scalars (b :: t)) as Hs. unfold runes in Hs. rewrite H4 in Hs. by apply Forall_cons in Hs as [Hs _]. }
  assert (∀ t', (rune_error, 1) :: GoBase.decode t' = (rune_error, 1) :: GoBase.decode t') as _ by done.
  assert (E0 : byte_in 0 127 b = false) by (unfold byte_in; lia).
  assert (Bad : GoBase.decode (b :: t) = (rune_error, 1) :: GoBase.decode t → ∃ m s' r w, b :: t = m ++ s' ∧ Forall (λ c, 128 <= c) m ∧ m ≠ [] ∧ GoBase.decode (b :: t) = (r, w) :: GoBase.decode s' ∧ w = zlen m ∧ 128 <= r).
  { intros E. exists [b], t, rune_error, 1. rewrite E. repeat split; [by repeat constructor|done|done]. }
  cbn [GoBase.decode] in Bad |- *. rewrite E0 in Bad |- *.
  destruct t as [|b1 t2]; [by apply Bad|]. destruct (head2 b b1) eqn:E2.
  { unfold head2, byte_in in E2. eexists [b; b1], t2, _, 2. split; [done|]. split; [repeat constructor; lia|]. split; [done|]. split; [done|]. split; [done|lia]. }
  destruct t2 as [|b2 t3]; [by apply Bad|]. destruct (head3 b b1 b2) eqn:E3.
  { unfold head3, byte_in in E3. destruct (b =? 224) eqn:?, (b =? 237) eqn:?; (eexists [b; b1; b2], t3, _, 3; split; [done|]; split; [repeat constructor; lia|]; split; [done|]; split; [done|]; split; [done|lia]). }
  destruct t3 as [|b3 t4]; [by apply Bad|]. destruct (head4 b b1 b2 b3) eqn:E4; [|by apply Bad].
  unfold head4, byte_in in E4. destruct (b =? 240) eqn:?, (b =? 244) eqn:?; (eexists [b; b1; b2; b3], t4, _, 4; split; [done|]; split; [repeat constructor; lia|]; split; [done|]; split; [done|]; split; [done|lia]).
Qed.

Lemma bytes_app a b : bytes (a ++ b) ↔ bytes a ∧ bytes b.
Proof. apply Forall_app. Qed.
Lemma bytes_cons b s : bytes (b :: s) ↔ (0 <= b <= 255) ∧ bytes s.
Proof. unfold bytes. by rewrite Forall_cons. Qed.

Lemma head2_lo b0 c : c < 128 → head2 b0 c = false.
Proof. unfold head2, byte_in. lia. Qed.
Lemma head3_lo b0 b1 b2 : b1 < 128 ∨ b2 < 128 → head3 b0 b1 b2 = false.
Proof. unfold head3, byte_in. intros H. destruct (b0 =? 0xE0), (b0 =? 0xED); lia. Qed.
Lemma head4_lo b0 b1 b2 b3 : b1 < 128 ∨ b2 < 128 ∨ b3 < 128 → head4 b0 b1 b2 b3 = false.
Proof. unfold head4, byte_in. intros H. destruct (b0 =? 0xF0), (b0 =? 0xF4); lia. Qed.

Lemma decode_cons b0 s1 : GoBase.decode (b0 :: s1) =
  if byte_in 0 0x7F b0 then (b0, 1) :: GoBase.decode s1 else
  match s1 with
  | [] => (rune_error, 1) :: GoBase.decode s1
  | b1 :: s2 =>
    if head2 b0 b1 then ((b0 - 0xC0) * 64 + (b1 - 0x80), 2) :: GoBase.decode s2 else
    match s2 with
    | [] => (rune_error, 1) :: GoBase.decode s1
    | b2 :: s3 =>
      if head3 b0 b1 b2
      then ((b0 - 0xE0) * 4096 + (b1 - 0x80) * 64 + (b2 - 0x80), 3) :: GoBase.decode s3 else
      match s3 with
      | [] => (rune_error, 1) :: GoBase.decode s1
      | b3 :: s4 =>
        if head4 b0 b1 b2 b3
        then ((b0 - 0xF0) * 262144 + (b1 - 0x80) * 4096 + (b2 - 0x80) * 64 + (b3 - 0x80), 4) :: GoBase.decode s4
        else (rune_error, 1) :: GoBase.decode s1
      end
    end
  end.
Proof. done. Qed.

(** Decoding does not reach over an ASCII byte. *)
Lemma decode_split_ascii a c b : 0 <= c < 128 → GoBase.decode (a ++ c :: b) = GoBase.decode a ++ (c, 1) :: GoBase.decode b.
Proof.
  intros Hc. remember (length a) as k eqn:Ek. revert a Ek. induction k as [k IH] using lt_wf_ind. intros a ->.
  assert (R0 : GoBase.decode (c :: b) = (c, 1) :: GoBase.decode b).
  { rewrite decode_cons. replace (byte_in 0 127 c) with true by (unfold byte_in; lia). done. }
  destruct a as [|b0 a]; [apply R0|].
  assert (R : ∀ a', (length a' < length (b0 :: a))%nat → GoBase.decode (a' ++ c :: b) = GoBase.decode a' ++ (c, 1) :: GoBase.decode b).
  { intros a' Hl. by apply (IH (length a')). }
  pose proof (R a ltac:(cbn; lia)) as R1. cbn [app]. rewrite !(decode_cons b0).
  destruct (byte_in 0 127 b0); [by rewrite R1|].
  destruct a as [|b1 a]; cbn [app] in *.
  { rewrite head2_lo by lia. destruct b as [|y1 b]; [by rewrite R1|]. rewrite head3_lo by lia. destruct b as [|y2 b]; [by rewrite R1|]. rewrite head4_lo by lia. by rewrite R1. }
  pose proof (R a ltac:(cbn; lia)) as R2. destruct (head2 b0 b1); [by rewrite R2|].
  destruct a as [|b2 a]; cbn [app] in *.
  { rewrite head3_lo by lia. destruct b as [|y1 b]; [by rewrite R1|]. rewrite head4_lo by lia. by rewrite R1. }
  pose proof (R a ltac:(cbn; lia)) as R3. destruct (head3 b0 b1 b2); [by rewrite R3|].
  destruct a as [|b3 a]; cbn [app] in *.
  { rewrite head4_lo by lia. by rewrite R1. }
  pose proof (R a ltac:(cbn; lia)) as R4. destruct (head4 b0 b1 b2 b3); [by rewrite R4|by rewrite R1].
Qed.

Lemma runes_split_ascii a c b : 0 <= c < 128 → runes (a ++ c :: b) = runes a ++ c :: runes b.
Proof. intros Hc. unfold runes. rewrite decode_split_ascii by done. by rewrite fmap_app. Qed.

Lemma runes_nil_inv s : runes s = [] → s = [].
Proof.
  destruct s as [|b s]; [done|]. unfold runes. rewrite decode_cons. destruct (byte_in _ _ _); [done|]. destruct s as [|b1 s]; [done|].
  destruct (head2 _ _); [done|]. destruct s as [|b2 s]; [done|]. destruct (head3 _ _ _); [done|]. destruct s as [|b3 s]; [done|]. by destruct (head4 _ _ _ _).
Qed.

Lemma runes_head_ascii s c t : bytes s → runes s = c :: t → c < 128 → ∃ s', s = c :: s' ∧ runes s' = t.
Proof.
  intros Hb E Hc. destruct s as [|b s]; [done|]. pose proof Hb as [Hb0 _]%bytes_cons. destruct (decide (b < 128)).
  - rewrite runes_ascii in E by lia. injection E as -> E. by exists s.
  - destruct (decode_step (b :: s) b s) as (m & s' & r & w & _ & _ & _ & Hd & _ & Hr & _); [done|done|lia|].
    unfold runes in E. rewrite Hd in E. rewrite fmap_cons in E. injection E as E _. cbn in E. lia.
Qed.

Lemma runes_head_multi s c t : bytes s → runes s = c :: t → 128 <= c →
  ∃ m s', s = m ++ s' ∧ Forall (λ c, 128 <= c) m ∧ m ≠ [] ∧ GoBase.decode s = (c, zlen m) :: GoBase.decode s' ∧ runes s' = t ∧ scalar c = true.
Proof.
  intros Hb E Hc. destruct s as [|b s]; [done|]. pose proof Hb as [Hb0 _]%bytes_cons. destruct (decide (b < 128)).
  - rewrite runes_ascii in E by lia. injection E as -> E. lia.
  - destruct (decode_step (b :: s) b s) as (m & s' & r & w & Es & Hm & Hn & Hd & -> & Hr & Hs); [done|done|lia|].
    unfold runes in E. rewrite Hd in E. rewrite fmap_cons in E. injection E as E1 E2. cbn in E1. subst r. by exists m, s'.
Qed.

Lemma runes_prefix_ascii s a t : bytes s → runes s = a ++ t → Forall (λ c, c < 128) a → ∃ s', s = a ++ s' ∧ runes s' = t ∧ bytes s'.
Proof.
  intros Hb E Ha. revert s Hb E. induction Ha as [|c a Hc Ha IH]; intros s Hb E; [by exists s|]. cbn [app] in E.
  apply runes_head_ascii in E as (s' & -> & E); [|done|done]. apply bytes_cons in Hb as [_ Hb]. apply IH in E as (s2 & -> & E & Hb'); [|done]. by exists s2.
Qed.

Lemma runes_at_ascii s t c r : bytes s → runes s = t ++ c :: r → 0 <= c < 128 → ∃ a b, s = a ++ c :: b ∧ runes a = t ∧ runes b = r ∧ bytes a ∧ bytes b.
Proof.
  intros Hb E Hc. assert (∃ a b, s = a ++ c :: b ∧ runes b = r) as (a & b & -> & Hr).
  { revert s Hb E. induction t as [|x t IH]; intros s Hb E; cbn [app] in E.
    - apply runes_head_ascii in E as (s' & -> & E); [|done|lia]. by exists [], s'.
    - destruct (decide (x < 128)).
      + apply runes_head_ascii in E as (s' & -> & E); [|done|lia]. apply bytes_cons in Hb as [_ Hb]. destruct (IH s' Hb E) as (a & b & -> & Hr). by exists (x :: a), b.
      + apply runes_head_multi in E as (m & s' & -> & _ & _ & _ & E & _); [|done|lia]. apply bytes_app in Hb as [_ Hb].
        destruct (IH s' Hb E) as (a & b & -> & Hr). exists (m ++ a), b. by rewrite <- app_assoc. }
  exists a, b. split; [done|]. apply bytes_app in Hb as [Ha Hb]. apply bytes_cons in Hb as [_ Hb].
  rewrite runes_split_ascii, Hr in E by done. by apply app_inv_tail in E.
Qed.

(** ** Unquoting *)
Lemma hex_spec c n : hex c = Some n ↔ hexdigit c n.
Proof.
  unfold hex, hexdigit, byte_in. destruct (_ && _) eqn:E1; [|destruct (_ && _) eqn:E2 in |- *; [|destruct (_ && _) eqn:E3 in |- *]]; split.
  all: first [intros [= <-]; lia|intros H; f_equal; lia|intros; lia|done].
Qed.

Lemma hex_range c n : hexdigit c n → 0 <= n < 16 ∧ 48 <= c <= 102.
Proof. unfold hexdigit. lia. Qed.

Lemma hex4_spec a b c d k : hex4 a b c d = Some k ↔ escaped_unit [92; 117; a; b; c; d] k.
Proof.
  unfold hex4. split.
  - destruct (hex a) as [x|] eqn:Ea; [|done]. destruct (hex b) as [y|] eqn:Eb; [|done]. destruct (hex c) as [z|] eqn:Ec; [|done]. destruct (hex d) as [w|] eqn:Ed; [|done].
    intros [= <-]. apply hex_spec in Ea, Eb, Ec, Ed. exists a, b, c, d, x, y, z, w. repeat split; try done. lia.
  - intros (a' & b' & c' & d' & x & y & z & w & [= <- <- <- <-] & Ha & Hb & Hc & Hd & ->). apply hex_spec in Ha, Hb, Hc, Hd. rewrite Ha, Hb, Hc, Hd. f_equal. lia.
Qed.

Lemma escaped_shape h k : escaped_unit h k → ∃ a b c d, h = [92; 117; a; b; c; d] ∧ hex4 a b c d = Some k ∧ Forall (λ c, 0 <= c < 128) h ∧ 0 <= k < 65536.
Proof.
  intros H. pose proof H as (a & b & c & d & x & y & z & w & -> & Ha & Hb & Hc & Hd & ->). exists a, b, c, d. split; [done|]. split; [by apply hex4_spec|].
  apply hex_range in Ha, Hb, Hc, Hd. split; [repeat constructor; lia|lia].
Qed.

Lemma getu4_spec s k : getu4 s = Some k ↔ ∃ h t, s = h ++ t ∧ escaped_unit h k.
Proof.
  split.
  - unfold getu4. destruct s as [|c0 [|e [|h1 [|h2 [|h3 [|h4 t]]]]]]; try done. destruct ((c0 =? 92) && (e =? 117)) eqn:E; [|done].
    assert (c0 = 92) as -> by lia. assert (e = 117) as -> by lia. intros H%hex4_spec. by exists [92; 117; h1; h2; h3; h4], t.
  - intros (h & t & -> & (a & b & c & d & -> & H & _)%escaped_shape). done.
Qed.

Lemma decode_first c s : ∃ r w, (∃ l, GoBase.decode (c :: s) = (r, w) :: l) ∧ 1 <= w.
Proof.
  rewrite decode_cons. destruct (byte_in _ _ _); [by eexists _, _; split; [eexists|]|].
  destruct s as [|b1 s]; [by eexists _, _; split; [eexists|]|]. destruct (head2 _ _); [by eexists _, _; split; [eexists|]|].
  destruct s as [|b2 s]; [by eexists _, _; split; [eexists|]|]. destruct (head3 _ _ _); [by eexists _, _; split; [eexists|]|].
  destruct s as [|b3 s]; [by eexists _, _; split; [eexists|]|]. destruct (head4 _ _ _ _); by eexists _, _; split; [eexists|].
Qed.

Lemma unquote_fuel f1 f2 s : (length s ≤ f1)%nat → (length s ≤ f2)%nat → unquote_loop f1 s = unquote_loop f2 s.
Proof.
  revert f2 s. induction f1 as [|f1 IH]; intros f2 s H1 H2.
  { destruct s; [|cbn in H1; lia]. by destruct f2. }
  destruct f2 as [|f2]; [destruct s; [done|cbn in H2; lia]|]. cbn [unquote_loop]. destruct s as [|c s1]; [done|]. cbn [length] in H1, H2.
  destruct (c =? 92).
  - destruct s1 as [|e s2]; [done|]. cbn [length] in H1, H2. destruct (e =? 117); [|f_equal; apply IH; lia].
    destruct (getu4 _); [|done]. cbn [drop]. destruct (is_surrogate _); [destruct (negb _)|]; f_equal; apply IH; rewrite ?drop_length; cbn; lia.
  - destruct (c <? 128); [f_equal; apply IH; lia|]. destruct (decode_first c s1) as (r & w & (l & ->) & Hw). f_equal.
    apply IH; rewrite drop_length; cbn [length]; lia.
Qed.

Lemma unquote_cons c s1 : unquote (c :: s1) =
  if c =? 92 then
    match s1 with
    | [] => []
    | e :: s2 =>
      if e =? 117 then
        match getu4 (c :: s1) with
        | None => []
        | Some r =>
          let s3 := drop 6 (c :: s1) in
          if is_surrogate r then
            let dec := match getu4 s3 with Some r1 => decode_pair r r1 | None => rune_error end in
            if negb (dec =? rune_error) then encode_rune dec ++ unquote (drop 6 s3)
            else encode_rune rune_error ++ unquote s3
          else encode_rune r ++ unquote s3
        end
      else unescape e :: unquote s2
    end
  else if c <? 0x80 then c :: unquote s1
  else
    match GoBase.decode (c :: s1) with
    | (r, w) :: _ => encode_rune r ++ unquote (drop (Z.to_nat w) (c :: s1))
    | [] => []
    end.
Proof.
  unfold unquote at 1. cbn [length unquote_loop]. destruct (c =? 92).
  - destruct s1 as [|e s2]; [done|]. destruct (e =? 117); [|f_equal; apply unquote_fuel; cbn; lia].
    destruct (getu4 _); [|done]. cbn [drop]. cbv zeta. destruct (is_surrogate _); [destruct (negb _)|]; f_equal; apply unquote_fuel; rewrite ?drop_length; cbn; lia.
  - destruct (c <? 128); [done|]. destruct (decode_first c s1) as (r & w & (l & ->) & Hw). f_equal.
    apply unquote_fuel; rewrite drop_length; cbn [length]; lia.
Qed.

Lemma more_Some l r raw rest : more l r = Some (raw, rest) ↔ ∃ raw', raw = l ++ raw' ∧ r = Some (raw', rest).
Proof.
  unfold more. destruct r as [[raw' rest']|]; split.
  - intros [= <- <-]. eauto.
  - intros (? & -> & [= -> ->]). done.
  - done.
  - by intros (? & _ & ?).
Qed.

Lemma scan_cons c s1 : scan_string (c :: s1) =
  if c =? 34 then Some ([], s1)
  else if c =? 92 then
    match s1 with
    | [] => None
    | e :: s2 =>
      if simple_escape e then more [c; e] (scan_string s2)
      else if e =? 117 then
        match s2 with
        | h1 :: h2 :: h3 :: h4 :: s3 =>
          match hex4 h1 h2 h3 h4 with
          | Some _ => more [c; e; h1; h2; h3; h4] (scan_string s3)
          | None => None
          end
        | _ => None
        end
      else None
    end
  else if c <? 32 then None
  else more [c] (scan_string s1).
Proof. done. Qed.

Lemma short_spec e c : short_escape e c → simple_escape e = true ∧ unescape e = c ∧ e ≠ 117 ∧ 0 <= e < 128 ∧ 0 <= c < 128.
Proof.
  unfold short_escape, simple_escape, unescape. intros H. repeat split; try lia.
  repeat (destruct (_ =? _) eqn:? in |- *); lia.
Qed.

Lemma simple_short e : simple_escape e = true → short_escape e (unescape e).
Proof.
  unfold short_escape, simple_escape, unescape. intros H.
  repeat (destruct (_ =? _) eqn:? in |- *); lia.
Qed.

Lemma scan_multi m s : Forall (λ c, 128 <= c) m → scan_string (m ++ s) = more m (scan_string s).
Proof.
  induction 1 as [|c m Hc Hm IH]; [cbn [app]; destruct (scan_string s) as [[? ?]|]; done|]. cbn [app]. rewrite scan_cons.
  replace (c =? 34) with false by lia. replace (c =? 92) with false by lia. replace (c <? 32) with false by lia. rewrite IH.
  destruct (scan_string s) as [[? ?]|]; done.
Qed.

Lemma scan_unit h k s : escaped_unit h k → scan_string (h ++ s) = more h (scan_string s).
Proof.
  intros (a & b & c & d & -> & H & _)%escaped_shape. cbn [app]. rewrite scan_cons.
  change (92 =? 34) with false. change (92 =? 92) with true. change (simple_escape 117) with false. change (117 =? 117) with true. cbv iota. by rewrite H.
Qed.

Lemma unquote_unit h k s : escaped_unit h k → unquote (h ++ s) =
  if is_surrogate k then
    let dec := match getu4 s with Some r1 => decode_pair k r1 | None => rune_error end in
    if negb (dec =? rune_error) then encode_rune dec ++ unquote (drop 6 s) else encode_rune rune_error ++ unquote s
  else encode_rune k ++ unquote s.
Proof.
  intros (a & b & c & d & -> & H & _)%escaped_shape. cbn [app]. rewrite unquote_cons.
  change (92 =? 92) with true. change (117 =? 117) with true. cbv iota. cbn [getu4]. change ((92 =? 92) && (117 =? 117)) with true. cbv iota. by rewrite H.
Qed.

Lemma string_complete t u : string_of t u → ∀ raw, bytes raw → runes raw = t →
  (∀ rest, scan_string (raw ++ 34 :: rest) = Some (raw, rest)) ∧ unquote raw = encode u.
Proof.
  assert (more_ok : ∀ l raw rest r, r = Some (raw, rest) → more l r = Some (l ++ raw, rest)) by (by intros ? ? ? ? ->).
  induction 1 as [|c t s H1 H2 H3 Ht IH|e c t s He Ht IH|h k t s Hh Hk1 Hk2 Ht IH|h k h' k' t s Hh Hh' Hk Hk' Ht IH|h k t s Hh Hk Hn Ht IH]; intros raw Hb E.
  - apply runes_nil_inv in E as ->. split; [done|]. done.
  - destruct (decide (c < 128)).
    + apply runes_head_ascii in E as (raw' & -> & E); [|done|done]. apply bytes_cons in Hb as [_ Hb]. destruct (IH raw' Hb E) as [I1 I2]. split.
      * intros rest. cbn [app]. rewrite scan_cons. replace (c =? 34) with false by lia. replace (c =? 92) with false by lia. replace (c <? 32) with false by lia.
        by apply (more_ok [c]).
      * rewrite unquote_cons, I2. replace (c =? 92) with false by lia. replace (c <? 128) with true by lia. rewrite encode_cons, encode_rune_ascii by lia. done.
    + apply runes_head_multi in E as (m & raw' & -> & Hm & Hne & Hd & E & Hs); [|done|lia]. apply bytes_app in Hb as [_ Hb]. destruct (IH raw' Hb E) as [I1 I2]. split.
      * intros rest. rewrite <- app_assoc, scan_multi by done. by apply more_ok.
      * destruct m as [|b m]; [done|]. apply Forall_cons in Hm as [Hb' Hm]. cbn [app] in *. rewrite unquote_cons. replace (b =? 92) with false by lia. replace (b <? 128) with false by lia.
        rewrite Hd, encode_cons, <- I2. f_equal. f_equal. unfold zlen. rewrite Nat2Z.id. cbn [length drop]. by rewrite drop_app.
  - apply short_spec in He as (He1 & He2 & He3 & He4 & He5).
    destruct (runes_prefix_ascii raw [92; e] t) as (raw' & -> & E' & Hb'); [done|done|repeat constructor; lia|]. destruct (IH raw' Hb' E') as [I1 I2]. split.
    + intros rest. cbn [app]. rewrite scan_cons. change (92 =? 34) with false. change (92 =? 92) with true. cbv iota. rewrite He1. by apply (more_ok [92; e]).
    + cbn [app]. rewrite unquote_cons, I2. change (92 =? 92) with true. cbv iota. replace (e =? 117) with false by lia. rewrite He2, encode_cons, encode_rune_ascii by lia. done.
  - destruct (escaped_shape _ _ Hh) as (_ & _ & _ & _ & _ & _ & Ha & Hk).
    destruct (runes_prefix_ascii raw h t) as (raw' & -> & E' & Hb'); [done|done|eapply Forall_impl; [exact Ha|cbn; lia]|]. destruct (IH raw' Hb' E') as [I1 I2]. split.
    + intros rest. rewrite <- app_assoc, (scan_unit h k) by done. by apply more_ok.
    + rewrite (unquote_unit h k), I2 by done. replace (is_surrogate k) with false by (unfold is_surrogate, high_surrogate, low_surrogate in *; lia). done.
  - destruct (escaped_shape _ _ Hh) as (_ & _ & _ & _ & _ & _ & Ha & _). destruct (escaped_shape _ _ Hh') as (a & b & c & d & Eh & _ & Ha' & _).
    destruct (runes_prefix_ascii raw h (h' ++ t)) as (raw' & -> & E' & Hb'); [done|done|eapply Forall_impl; [exact Ha|cbn; lia]|].
    destruct (runes_prefix_ascii raw' h' t) as (raw2 & -> & E2 & Hb2); [done|done|eapply Forall_impl; [exact Ha'|cbn; lia]|]. destruct (IH raw2 Hb2 E2) as [I1 I2]. split.
    + intros rest. rewrite <- !app_assoc, (scan_unit h k), (scan_unit h' k') by done. apply more_ok. by apply more_ok.
    + rewrite (unquote_unit h k) by done. unfold high_surrogate, low_surrogate in *. replace (is_surrogate k) with true by (unfold is_surrogate; lia).
      replace (getu4 (h' ++ raw2)) with (Some k') by (symmetry; apply getu4_spec; by exists h', raw2). cbv zeta.
      unfold decode_pair. replace ((0xD800 <=? k) && (k <? 0xDC00) && (0xDC00 <=? k') && (k' <? 0xE000)) with true by lia.
      replace (negb _) with true by (unfold rune_error; lia). rewrite Eh. cbn [app drop]. rewrite drop_0, I2, encode_cons. do 2 f_equal. lia.
  - destruct (escaped_shape _ _ Hh) as (_ & _ & _ & _ & _ & _ & Ha & _).
    destruct (runes_prefix_ascii raw h t) as (raw' & -> & E' & Hb'); [done|done|eapply Forall_impl; [exact Ha|cbn; lia]|]. destruct (IH raw' Hb' E') as [I1 I2]. split.
    + intros rest. rewrite <- app_assoc, (scan_unit h k) by done. by apply more_ok.
    + rewrite (unquote_unit h k) by done. unfold high_surrogate, low_surrogate in *. replace (is_surrogate k) with true by (unfold is_surrogate; lia).
      assert (match getu4 raw' with Some r1 => decode_pair k r1 | None => rune_error end = rune_error) as ->.
      { destruct (getu4 raw') as [k'|] eqn:Eg; [|done]. unfold decode_pair. destruct (_ && _ && _ && _) eqn:Ek; [|done]. exfalso.
        apply getu4_spec in Eg as (h' & t' & -> & Hu). destruct (escaped_shape _ _ Hu) as (_ & _ & _ & _ & _ & _ & Ha' & _).
        apply Hn; [lia|]. exists h', k', (runes t'). split; [|split; [done|lia]]. rewrite <- E'. by apply runes_ascii_app. }
      cbv zeta. change (negb (rune_error =? rune_error)) with false. cbv iota. by rewrite I2.
Qed.

Lemma bytes_length_ind (P : list Z → Prop) : (∀ s, (∀ s', (length s' < length s)%nat → P s') → P s) → ∀ s, P s.
Proof. intros H s. remember (length s) as k eqn:Ek. revert s Ek. induction k as [k IH] using lt_wf_ind. intros s ->. apply H. intros s' Hs. by apply (IH (length s')). Qed.

(** What lies between the quotes, as bytes. *)
Inductive raw_string : list Z → Prop :=
| rs_end : raw_string []
| rs_plain c s : 32 <= c → c ≠ 34 → c ≠ 92 → raw_string s → raw_string (c :: s)
| rs_short e s : simple_escape e = true → raw_string s → raw_string (92 :: e :: s)
| rs_unit h k s : escaped_unit h k → raw_string s → raw_string (h ++ s).

Lemma scan_sound s : ∀ raw rest, scan_string s = Some (raw, rest) → s = raw ++ 34 :: rest ∧ raw_string raw.
Proof.
  induction s as [s IH] using bytes_length_ind. intros raw rest. destruct s as [|c s1]; [done|]. rewrite scan_cons. destruct (c =? 34) eqn:E1.
  { assert (c = 34) as -> by lia. intros [= <- <-]. split; [done|constructor]. }
  destruct (c =? 92) eqn:E2.
  - assert (c = 92) as -> by lia. destruct s1 as [|e s2]; [done|]. destruct (simple_escape e) eqn:E3.
    + intros (raw' & -> & H)%more_Some. apply IH in H as [-> H]; [|cbn; lia]. split; [done|]. by apply rs_short.
    + destruct (e =? 117) eqn:E4; [|done]. assert (e = 117) as -> by lia. destruct s2 as [|h1 [|h2 [|h3 [|h4 s3]]]]; try done.
      destruct (hex4 h1 h2 h3 h4) as [k|] eqn:E5; [|done]. intros (raw' & -> & H)%more_Some. apply IH in H as [-> H]; [|cbn; lia]. split; [done|].
      apply hex4_spec in E5. by eapply (rs_unit [92; 117; h1; h2; h3; h4]).
  - destruct (c <? 32) eqn:E3; [done|]. intros (raw' & -> & H)%more_Some. apply IH in H as [-> H]; [|cbn; lia]. split; [done|]. apply rs_plain; [lia|lia|lia|done].
Qed.

Lemma raw_multi m s : Forall (λ c, 128 <= c) m → raw_string (m ++ s) → raw_string s.
Proof.
  induction 1 as [|c m Hc Hm IH]; [done|]. cbn [app]. intros H. apply IH. inversion H as [|? ? ? ? ? ?|? ? ?|h k s' Hu ? E]; subst; [done|lia|].
  apply escaped_shape in Hu as (? & ? & ? & ? & -> & _). injection E as E _. lia.
Qed.

Lemma raw_unit_inv h k s : escaped_unit h k → raw_string (h ++ s) → raw_string s.
Proof.
  intros (a & b & c & d & -> & H & _)%escaped_shape. cbn [app]. intros Hr. inversion Hr as [|? ? ? ? ? ?|? ? He|h' k' s' Hu ? E]; subst; [done|done|].
  apply escaped_shape in Hu as (? & ? & ? & ? & -> & _). by injection E as _ _ _ _ ->.
Qed.

Lemma raw_string_of raw : bytes raw → raw_string raw → ∃ u, string_of (runes raw) u.
Proof.
  induction raw as [raw IH] using bytes_length_ind. intros Hb Hr. inversion Hr as [|c s H1 H2 H3 Hs|e s He Hs|h k s Hu Hs]; subst.
  - exists []. constructor.
  - destruct (decide (c < 128)).
    + apply bytes_cons in Hb as [_ Hb]. destruct (IH s ltac:(cbn; lia) Hb Hs) as (u & Hu). exists (c :: u). rewrite runes_ascii by lia. by constructor.
    + destruct (decode_step (c :: s) c s) as (m & s' & r & w & E & Hm & Hne & Hd & _ & Hr' & _); [done|done|lia|].
      rewrite E in Hr. apply raw_multi in Hr; [|done]. rewrite E in Hb. apply bytes_app in Hb as [_ Hb].
      destruct (IH s') as (u & Hu); [|done|done|].
      { rewrite E, app_length. destruct m; [done|]. cbn. lia. }
      exists (r :: u). unfold runes. rewrite Hd, fmap_cons. cbn [fst]. apply so_plain; [lia|lia|lia|done].
  - apply bytes_cons in Hb as [_ Hb]. pose proof Hb as [He' Hb']%bytes_cons. destruct (IH s ltac:(cbn; lia) Hb' Hs) as (u & Hu). exists (unescape e :: u).
    apply simple_short in He. destruct (short_spec _ _ He) as (_ & _ & _ & He2 & _). rewrite !runes_ascii by lia. by apply so_short.
  - pose proof Hb as [Hb1 Hb2]%bytes_app. destruct (escaped_shape _ _ Hu) as (? & ? & ? & ? & Eh & _ & Ha & Hk).
    assert (length s < length (h ++ s))%nat as Hl by (rewrite app_length, Eh; cbn; lia).
    rewrite runes_ascii_app by done. destruct (decide (0xD800 <= k < 0xE000)) as [Hsur|Hno].
    + destruct (decide (k < 0xDC00)) as [Hhi|Hlo].
      * destruct (getu4 s) as [k'|] eqn:Eg.
        -- destruct (decide (0xDC00 <= k' < 0xE000)) as [Hk'|Hk'].
           ++ apply getu4_spec in Eg as (h' & t' & -> & Hu'). apply (raw_unit_inv h' k') in Hs; [|done]. pose proof Hb2 as [_ Hb3]%bytes_app.
              destruct (IH t') as (u & Hu2); [rewrite !app_length in *; lia|done|done|]. destruct (escaped_shape _ _ Hu') as (? & ? & ? & ? & _ & _ & Ha' & _).
              rewrite runes_ascii_app by done. eexists. eapply so_pair; [done|done| |done|done]. unfold high_surrogate. lia.
           ++ destruct (IH s Hl Hb2 Hs) as (u & Hu2). exists (0xFFFD :: u). eapply so_unpaired; [done|left; unfold high_surrogate; lia| |done].
              intros _ (h' & k2 & t' & E & Hu' & Hl'). destruct (escaped_shape _ _ Hu') as (? & ? & ? & ? & _ & _ & Ha' & _).
              apply runes_prefix_ascii in E as (s' & -> & _); [|done|eapply Forall_impl; [exact Ha'|cbn; lia]].
              assert (getu4 (h' ++ s') = Some k2) as Eg2 by (apply getu4_spec; by exists h', s'). rewrite Eg in Eg2. injection Eg2 as ->. done.
        -- destruct (IH s Hl Hb2 Hs) as (u & Hu2). exists (0xFFFD :: u). eapply so_unpaired; [done|left; unfold high_surrogate; lia| |done].
           intros _ (h' & k2 & t' & E & Hu' & Hl'). destruct (escaped_shape _ _ Hu') as (? & ? & ? & ? & _ & _ & Ha' & _).
           apply runes_prefix_ascii in E as (s' & -> & _); [|done|eapply Forall_impl; [exact Ha'|cbn; lia]].
           assert (getu4 (h' ++ s') = Some k2) as Eg2 by (apply getu4_spec; by exists h', s'). congruence.
      * destruct (IH s Hl Hb2 Hs) as (u & Hu2). exists (0xFFFD :: u). eapply so_unpaired; [done|right; unfold low_surrogate; lia| |done]. unfold high_surrogate. lia.
    + destruct (IH s Hl Hb2 Hs) as (u & Hu2). exists (k :: u). apply so_unit; [done|unfold high_surrogate; lia|unfold low_surrogate; lia|done].
Qed.

(** ** White space *)
Lemma skip_blank w s : blank w → skip_space (w ++ s) = skip_space s.
Proof. induction 1 as [|c w Hc Hw IH]; [done|]. cbn [app skip_space]. replace (is_space c) with true by (unfold is_space; lia). done. Qed.
Lemma skip_none c s : is_space c = false → skip_space (c :: s) = c :: s.
Proof. cbn [skip_space]. by intros ->. Qed.
Lemma skip_exact w c s : blank w → is_space c = false → skip_space (w ++ c :: s) = c :: s.
Proof. intros Hw Hc. by rewrite skip_blank, skip_none. Qed.
Lemma skip_split s : ∃ w, blank w ∧ s = w ++ skip_space s.
Proof.
  induction s as [|c s (w & Hw & E)]; [exists []; split; [constructor|done]|]. cbn [skip_space]. destruct (is_space c) eqn:Ec.
  - exists (c :: w). split; [constructor; [unfold is_space in Ec; lia|done]|]. cbn [app]. by rewrite <- E.
  - exists []. split; [constructor|done].
Qed.
Lemma blank_ascii w : blank w → Forall (λ c, 0 <= c < 128) w.
Proof. intros H. eapply Forall_impl; [exact H|]. cbn. lia. Qed.

(** ** Integers *)
Lemma parse_digits_value ds : parse_digits ds = decimal_value ds.
Proof.
  unfold parse_digits. assert (∀ a, foldl (λ z d, z * 10 + (d - 48)) a ds = a * 10 ^ Z.of_nat (length ds) + decimal_value ds) as H.
  { induction ds as [|d ds IH]; intros a; cbn [foldl decimal_value length]; [change (10 ^ Z.of_nat 0) with 1; lia|]. rewrite IH.
    replace (Z.of_nat (S (length ds))) with (Z.succ (Z.of_nat (length ds))) by lia. rewrite Z.pow_succ_r by lia. lia. }
  rewrite H. lia.
Qed.

Definition no_digit (s : list Z) : Prop := match s with c :: _ => ¬ digit c | [] => True end.
Lemma scan_digits_app ds rest : Forall digit ds → no_digit rest → scan_digits (ds ++ rest) = (ds, rest).
Proof.
  intros Hd Hr. induction Hd as [|d ds H Hd IH]; cbn [app scan_digits].
  - destruct rest as [|c rest]; [done|]. cbn [scan_digits no_digit] in *. replace (byte_in 48 57 c) with false by (unfold byte_in, digit in *; lia). done.
  - replace (byte_in 48 57 d) with true by (unfold byte_in, digit in *; lia). by rewrite IH.
Qed.
Lemma scan_digits_split s : s = (scan_digits s).1 ++ (scan_digits s).2 ∧ Forall digit (scan_digits s).1.
Proof.
  induction s as [|c s [IH1 IH2]]; [split; [done|constructor]|]. cbn [scan_digits]. destruct (byte_in 48 57 c) eqn:E; cbn [fst snd app]; [|split; [done|constructor]].
  split; [by rewrite <- IH1|]. constructor; [unfold byte_in, digit in *; lia|done].
Qed.

Lemma natural_of_scan ds n rest : natural_of ds n → no_digit rest →
  scan_digits (ds ++ rest) = (ds, rest) ∧ parse_digits ds = n ∧ ∃ d ds', ds = d :: ds' ∧ digit d ∧ (d =? 48) && negb (match ds' with [] => true | _ => false end) = false.
Proof.
  intros (Hn & Hd & Hz & ->) Hr. split; [by apply scan_digits_app|]. split; [apply parse_digits_value|]. destruct ds as [|d ds']; [done|].
  exists d, ds'. split; [done|]. apply Forall_cons in Hd as [Hd _]. split; [done|]. destruct (decide (d = 48)) as [->|]; [|lia].
  cbn in Hz. specialize (Hz eq_refl). by injection Hz as ->.
Qed.

Lemma scan_int_complete t z rest : integer_of t z → - 2 ^ 63 <= z < 2 ^ 63 → no_digit rest → scan_int (t ++ rest) = Some (z, rest).
Proof.
  intros Ht Hz Hr. unfold scan_int. destruct Ht as [Hn|(ds & n & -> & Hn & ->)].
  - destruct (natural_of_scan _ _ _ Hn Hr) as (E1 & E2 & d & ds' & -> & Hd & E3). cbn [app] in *. replace (d =? 45) with false by (unfold digit in Hd; lia).
    rewrite E1, E3, E2. by replace ((- 2 ^ 63 <=? z) && (z <? 2 ^ 63)) with true by lia.
  - destruct (natural_of_scan _ _ _ Hn Hr) as (E1 & E2 & d & ds' & -> & Hd & E3). cbn [app] in *. change (45 =? 45) with true. cbv iota. cbn [drop]. rewrite ?drop_0.
    rewrite E1, E3, E2. by replace ((- 2 ^ 63 <=? - n) && (- n <? 2 ^ 63)) with true by lia.
Qed.

Lemma scan_int_sound s z rest : scan_int s = Some (z, rest) → ∃ t, s = t ++ rest ∧ integer_of t z ∧ - 2 ^ 63 <= z < 2 ^ 63.
Proof.
  unfold scan_int. set (neg := match s with c :: _ => c =? 45 | [] => false end).
  destruct (scan_digits (if neg then drop 1 s else s)) as [ds rest'] eqn:E. destruct (scan_digits_split (if neg then drop 1 s else s)) as [E1 E2]. rewrite E in E1, E2. cbn [fst snd] in E1, E2.
  destruct ds as [|d ds']; [done|]. destruct (_ && negb _) eqn:E3; [done|]. cbv zeta. destruct (_ && _) eqn:E4 in |- *; [|done]. intros [= <- <-].
  assert (natural_of (d :: ds') (parse_digits (d :: ds'))) as Hn.
  { split; [done|]. split; [done|]. split; [|apply parse_digits_value]. cbn. intros [= ->]. change (48 =? 48) with true in E3. destruct ds'; [done|done]. }
  destruct neg eqn:En.
  - destruct s as [|c s]; [done|]. unfold neg in En. assert (c = 45) as -> by lia. cbn [drop] in E1. rewrite ?drop_0 in E1. exists (45 :: d :: ds'). split; [cbn [app]; by rewrite E1|].
    split; [right; by eexists _, _|lia].
  - exists (d :: ds'). split; [done|]. split; [by left|lia].
Qed.

Lemma integer_ascii t z : integer_of t z → Forall (λ c, 0 <= c < 128) t.
Proof.
  intros [(_ & H & _)|(ds & n & -> & (_ & H & _) & _)]; [|constructor; [lia|]]; (eapply Forall_impl; [exact H|]); unfold digit; cbn; lia.
Qed.
Lemma integer_head t z : integer_of t z → ∃ c t', t = c :: t' ∧ (digit c ∨ c = 45).
Proof.
  intros [(Hn & H & _)|(ds & n & -> & _)]; [|by eauto]. destruct t as [|c t]; [done|]. apply Forall_cons in H as [H _]. eauto.
Qed.

(** ** Values, members, documents *)
Lemma starts_null_spec s rest : starts_null s = Some rest ↔ s = null ++ rest.
Proof.
  split.
  - destruct s as [|a [|b [|c [|d s]]]]; try done. cbn [starts_null]. destruct (_ && _) eqn:E; [|done]. intros [= ->].
    assert (a = 110) as -> by lia. assert (b = 117) as -> by lia. assert (c = 108) as -> by lia. by assert (d = 108) as -> by lia.
  - by intros ->.
Qed.

Lemma id_ascii t z : id_of t z → Forall (λ c, 0 <= c < 128) t.
Proof. intros [[-> _]|[H _]]; [repeat constructor; lia|by eapply integer_ascii]. Qed.
Lemma id_head t z : id_of t z → ∃ c t', t = c :: t' ∧ is_space c = false.
Proof.
  intros [[-> _]|[(c & t' & -> & Hc)%integer_head _]]; [by eexists _, _|]. exists c, t'. split; [done|]. unfold is_space, digit in *. lia.
Qed.

Lemma scan_value_complete t z rest : id_of t z → no_digit rest → scan_value (t ++ rest) = Some (z, rest).
Proof.
  intros Ht Hr. unfold scan_value. destruct (starts_null (t ++ rest)) as [r|] eqn:E.
  - destruct Ht as [[-> ->]|[(c & t' & -> & Hc)%integer_head _]].
    + apply starts_null_spec in E. by apply app_inv_head in E as ->.
    + apply starts_null_spec in E. injection E as -> _. unfold digit in Hc. lia.
  - destruct Ht as [[-> ->]|[Ht Hz]]; [done|]. by apply scan_int_complete.
Qed.
Lemma scan_value_sound s z rest : scan_value s = Some (z, rest) → ∃ t, s = t ++ rest ∧ id_of t z.
Proof.
  unfold scan_value. destruct (starts_null s) as [r|] eqn:E.
  - intros [= <- <-]. apply starts_null_spec in E as ->. exists null. split; [done|]. by left.
  - intros (t & -> & H1 & H2)%scan_int_sound. exists t. split; [done|]. by right.
Qed.

Lemma expect_spec c s s' : expect c s = Some s' ↔ s = c :: s'.
Proof.
  unfold expect. destruct s as [|x s]; [done|]. destruct (x =? c) eqn:E; split; try done.
  - intros [= ->]. f_equal. lia.
  - by intros [= -> ->].
  - intros [= -> ->]. lia.
Qed.

(** The terms as bytes. *)
Definition enc (ms : list (list Z * Z)) : list (list Z * Z) := map (λ kv, (encode kv.1, kv.2)) ms.

Lemma member_read t kv s r : member_of t kv → bytes s → runes s = t ++ r → (match r with c :: _ => c = 44 ∨ c = 125 | [] => False end) →
  ∃ s1 raw s2 s3 s4 s5, expect 34 (skip_space s) = Some s1 ∧ scan_string s1 = Some (raw, s2) ∧ expect 58 (skip_space s2) = Some s3
  ∧ scan_value (skip_space s3) = Some (kv.2, s4) ∧ skip_space s4 = s5 ∧ unquote raw = encode kv.1 ∧ runes s5 = r ∧ bytes s5 ∧ (length s5 < length s)%nat.
Proof.
  intros (w1 & q & w2 & w3 & v & w4 & -> & B1 & B2 & B3 & B4 & Hq & Hv) Hb E Hr. rewrite <- !app_assoc in E.
  apply runes_prefix_ascii in E as (s0 & -> & E & Hb0); [|done|eapply Forall_impl; [by apply blank_ascii|cbn; lia]].
  apply (runes_prefix_ascii s0 [34]) in E as (s1 & -> & E & Hb1); [|done|repeat constructor; lia].
  cbn [app] in E. apply runes_at_ascii in E as (raw & s2 & -> & Eq & E & Hbq & Hb2); [|done|lia].
  destruct (string_complete _ _ Hq raw Hbq Eq) as [Hscan Hun].
  apply runes_prefix_ascii in E as (s2' & -> & E & Hb2'); [|done|eapply Forall_impl; [by apply blank_ascii|cbn; lia]].
  apply (runes_prefix_ascii s2' [58]) in E as (s3 & -> & E & Hb3); [|done|repeat constructor; lia].
  apply runes_prefix_ascii in E as (s3' & -> & E & Hb3'); [|done|eapply Forall_impl; [by apply blank_ascii|cbn; lia]].
  apply runes_prefix_ascii in E as (s4 & -> & E & Hb4); [|done|eapply Forall_impl; [by eapply id_ascii|cbn; lia]].
  apply runes_prefix_ascii in E as (s5 & -> & E & Hb5); [|done|eapply Forall_impl; [by apply blank_ascii|cbn; lia]].
  destruct r as [|c r]; [done|]. pose proof E as (s5' & -> & _)%runes_head_ascii; [|done|lia].
  exists (raw ++ 34 :: w2 ++ 58 :: w3 ++ v ++ w4 ++ c :: s5'), raw, (w2 ++ 58 :: w3 ++ v ++ w4 ++ c :: s5'), (w3 ++ v ++ w4 ++ c :: s5'), (w4 ++ c :: s5'), (c :: s5').
  cbn [app]. split; [by rewrite skip_exact|]. split; [done|]. split; [by rewrite skip_exact|].
  destruct (id_head _ _ Hv) as (x & v' & -> & Hx). split.
  { rewrite skip_blank by done. cbn [app]. rewrite skip_none by done. apply (scan_value_complete (x :: v')); [done|].
    destruct w4 as [|y w4]; cbn [app no_digit]; [unfold digit; lia|]. apply Forall_cons in B4 as [B4 _]. unfold digit. lia. }
  split; [rewrite skip_exact; [done|done|unfold is_space; lia]|]. split; [done|]. split; [done|]. split; [done|].
  repeat (rewrite !app_length; cbn [length]). lia.
Qed.

Lemma members_complete m ms : members_of m ms → ∀ s r fuel, bytes s → runes s = m ++ 125 :: r → (length s ≤ fuel)%nat →
  ∃ rest, scan_members fuel s = Some (enc ms, rest) ∧ runes rest = r ∧ bytes rest.
Proof.
  induction 1 as [t kv Hm|t kv t' ms Hm Hms IH]; intros s r fuel Hb E Hf.
  - destruct (member_read t kv s (125 :: r) Hm Hb E) as (s1 & raw & s2 & s3 & s4 & s5 & H1 & H2 & H3 & H4 & H5 & H6 & H7 & H8 & H9); [by right|].
    apply runes_head_ascii in H7 as (rest & -> & H7); [|done|lia]. apply bytes_cons in H8 as [_ H8].
    destruct fuel as [|fuel]; [lia|]. exists rest. split; [|done]. cbn [scan_members]. rewrite H1. cbn [mbind option_bind]. rewrite H2. cbn [mbind option_bind]. rewrite H3.
    cbn [mbind option_bind]. rewrite H4. cbn [mbind option_bind]. rewrite H5. change (125 =? 125) with true. cbv iota. by rewrite H6.
  - rewrite <- !app_assoc in E.
    destruct (member_read t kv s (44 :: t' ++ 125 :: r) Hm Hb E) as (s1 & raw & s2 & s3 & s4 & s5 & H1 & H2 & H3 & H4 & H5 & H6 & H7 & H8 & H9); [by left|].
    apply runes_head_ascii in H7 as (s6 & -> & H7); [|done|lia]. apply bytes_cons in H8 as [_ H8].
    destruct fuel as [|fuel]; [lia|]. destruct (IH s6 r fuel H8 H7) as (rest & I1 & I2 & I3); [cbn [length] in H9; lia|].
    exists rest. split; [|done]. cbn [scan_members]. rewrite H1. cbn [mbind option_bind]. rewrite H2. cbn [mbind option_bind]. rewrite H3.
    cbn [mbind option_bind]. rewrite H4. cbn [mbind option_bind]. rewrite H5. change (44 =? 125) with false. change (44 =? 44) with true. cbv iota. rewrite I1. cbn [mbind option_bind]. by rewrite H6.
Qed.

Lemma at_end_spec {A} (x y : A) s : at_end x s = Some y ↔ y = x ∧ blank s.
Proof.
  unfold at_end. destruct (skip_split s) as (w & Hw & E). destruct (skip_space s) as [|c s'] eqn:Es.
  - rewrite app_nil_r in E. subst w. split; [by intros [= <-]|by intros [-> _]].
  - split; [done|]. intros [_ Hs]. rewrite <- (app_nil_r s), skip_blank in Es by done. done.
Qed.

Lemma runes_blank s : bytes s → (blank (runes s) ↔ blank s).
Proof.
  intros Hb. split; intros H.
  - destruct (runes_prefix_ascii s (runes s) []) as (s' & E & E' & _); [done|by rewrite app_nil_r|eapply Forall_impl; [by apply blank_ascii|cbn; lia]|].
    apply runes_nil_inv in E' as ->. rewrite app_nil_r in E. by rewrite E.
  - rewrite <- (app_nil_r s), runes_ascii_app by (by apply blank_ascii). change (runes []) with (@nil Z). by rewrite app_nil_r.
Qed.

Lemma unmarshal_complete s d : bytes s → document_of (runes s) d → unmarshal s = Some (in_bytes d).
Proof.
  intros Hb (w1 & w2 & B1 & B2 & H). unfold unmarshal. destruct d as [[|kv ms]|].
  - destruct H as (w & B & E). apply runes_prefix_ascii in E as (s0 & -> & E & Hb0); [|done|eapply Forall_impl; [by apply blank_ascii|cbn; lia]].
    apply (runes_prefix_ascii s0 [123]) in E as (s1 & -> & E & Hb1); [|done|repeat constructor; lia].
    apply runes_prefix_ascii in E as (s2 & -> & E & Hb2); [|done|eapply Forall_impl; [by apply blank_ascii|cbn; lia]].
    apply (runes_prefix_ascii s2 [125]) in E as (s3 & -> & E & Hb3); [|done|repeat constructor; lia]. cbn [app].
    rewrite skip_exact by done. assert (starts_null (123 :: w ++ 125 :: s3) = None) as ->.
    { destruct (starts_null _) eqn:En; [|done]. by apply starts_null_spec in En. }
    cbn [expect]. change (123 =? 123) with true. cbv iota. cbn [mbind option_bind]. rewrite skip_exact by done. cbn [expect]. change (125 =? 125) with true. cbv iota.
    apply at_end_spec. split; [done|]. apply runes_blank; [done|]. by rewrite E.
  - destruct H as (m & Hm & E). apply runes_prefix_ascii in E as (s0 & -> & E & Hb0); [|done|eapply Forall_impl; [by apply blank_ascii|cbn; lia]].
    apply (runes_prefix_ascii s0 [123]) in E as (s1 & -> & E & Hb1); [|done|repeat constructor; lia]. cbn [app] in E |- *.
    rewrite skip_exact by done. assert (starts_null (123 :: s1) = None) as ->.
    { destruct (starts_null _) eqn:En; [|done]. by apply starts_null_spec in En. }
    cbn [expect]. change (123 =? 123) with true. cbv iota. cbn [mbind option_bind].
    destruct (members_complete _ _ Hm s1 w2 (length s1) Hb1 E) as (rest & H1 & H2 & H3); [done|].
    assert (expect 125 (skip_space s1) = None) as ->.
    { destruct (expect 125 (skip_space s1)) eqn:Ee; [|done]. apply expect_spec in Ee. destruct (length s1); [done|]. cbn [scan_members] in H1. rewrite Ee in H1. done. }
    rewrite H1. cbn [mbind option_bind]. apply at_end_spec. split; [done|]. apply runes_blank; [done|]. by rewrite H2.
  - apply runes_prefix_ascii in H as (s0 & -> & E & Hb0); [|done|eapply Forall_impl; [by apply blank_ascii|cbn; lia]].
    apply (runes_prefix_ascii s0 null) in E as (s1 & -> & E & Hb1); [|done|repeat constructor; lia].
    unfold null. cbn [app]. rewrite skip_exact by done. change (starts_null (110 :: 117 :: 108 :: 108 :: s1)) with (Some s1). cbv iota.
    apply at_end_spec. split; [done|]. apply runes_blank; [done|]. by rewrite E.
Qed.

Lemma runes_blank_app w s : blank w → runes (w ++ s) = w ++ runes s.
Proof. intros H. by apply runes_ascii_app, blank_ascii. Qed.

Lemma members_sound fuel : ∀ s ms rest, bytes s → scan_members fuel s = Some (ms, rest) →
  ∃ m ms', bytes rest ∧ runes s = m ++ 125 :: runes rest ∧ members_of m ms' ∧ ms = enc ms'.
Proof.
  induction fuel as [|fuel IH]; intros s ms rest Hb H; [done|]. cbn [scan_members] in H.
  destruct (expect 34 (skip_space s)) as [s1|] eqn:E1; [|done]. cbn [mbind option_bind] in H. apply expect_spec in E1.
  destruct (scan_string s1) as [[raw s2]|] eqn:E2; [|done]. cbn [mbind option_bind] in H. apply scan_sound in E2 as [-> Hraw].
  destruct (expect 58 (skip_space s2)) as [s3|] eqn:E3; [|done]. cbn [mbind option_bind] in H. apply expect_spec in E3.
  destruct (scan_value (skip_space s3)) as [[z s4]|] eqn:E4; [|done]. cbn [mbind option_bind] in H. apply scan_value_sound in E4 as (v & E4 & Hv).
  destruct (skip_split s) as (w1 & B1 & F1). rewrite E1 in F1. destruct (skip_split s2) as (w2 & B2 & F2). rewrite E3 in F2.
  destruct (skip_split s3) as (w3 & B3 & F3). rewrite E4 in F3. destruct (skip_split s4) as (w4 & B4 & F4).
  destruct (skip_space s4) as [|x s5]; [done|]. rewrite F4 in F3. rewrite F3 in F2. rewrite F2 in F1. clear E1 E3 E4 F4 F3 F2. subst s.
  apply bytes_app in Hb as [_ Hb]. apply bytes_cons in Hb as [_ Hb]. apply bytes_app in Hb as [Hbr Hb]. apply bytes_cons in Hb as [_ Hb].
  apply bytes_app in Hb as [_ Hb]. apply bytes_cons in Hb as [_ Hb]. apply bytes_app in Hb as [_ Hb]. apply bytes_app in Hb as [_ Hb]. apply bytes_app in Hb as [_ Hb].
  apply bytes_cons in Hb as [Hx Hb].
  destruct (raw_string_of raw Hbr Hraw) as (u & Hu). destruct (string_complete _ _ Hu raw Hbr eq_refl) as [_ Eu].
  assert (∀ y, 0 <= y < 128 → runes (w1 ++ 34 :: raw ++ 34 :: w2 ++ 58 :: w3 ++ v ++ w4 ++ y :: s5) = (w1 ++ [34] ++ runes raw ++ [34] ++ w2 ++ [58] ++ w3 ++ v ++ w4) ++ y :: runes s5) as ER.
  { intros y Hy. rewrite runes_blank_app by done. rewrite runes_ascii by lia. rewrite runes_split_ascii by lia. rewrite runes_blank_app by done. rewrite runes_ascii by lia.
    rewrite runes_blank_app by done. rewrite (runes_ascii_app v) by (by eapply id_ascii). rewrite runes_blank_app by done. rewrite runes_ascii by lia. rewrite <- !app_assoc. done. }
  assert (member_of (w1 ++ [34] ++ runes raw ++ [34] ++ w2 ++ [58] ++ w3 ++ v ++ w4) (u, z)) as Hmem.
  { by exists w1, (runes raw), w2, w3, v, w4. }
  destruct (x =? 125) eqn:X1.
  - assert (x = 125) as -> by lia. injection H as <- <-. eexists _, [(u, z)]. split; [done|]. split; [by apply ER|]. split; [by constructor|]. unfold enc. cbn [map fst snd]. by rewrite Eu.
  - destruct (x =? 44) eqn:X2; [|done]. assert (x = 44) as -> by lia. destruct (scan_members fuel s5) as [[ms6 s6]|] eqn:E6; [|done]. cbn [mbind option_bind] in H.
    injection H as <- <-. destruct (IH _ _ _ Hb E6) as (m & ms' & I0 & I1 & I2 & ->). eexists _, ((u, z) :: ms'). split; [done|].
    split; [|split; [by apply mo_more|unfold enc; cbn [map fst snd]; by rewrite Eu]]. rewrite ER by lia. rewrite I1, <- !app_assoc. cbn [app]. done.
Qed.

Lemma unmarshal_sound s j : bytes s → unmarshal s = Some j → ∃ d, document_of (runes s) d ∧ j = in_bytes d.
Proof.
  intros Hb H. unfold unmarshal in H. destruct (skip_split s) as (w1 & B1 & E). revert E H. generalize (skip_space s) as s0. intros s0 -> H.
  apply bytes_app in Hb as [_ Hb]. destruct (starts_null s0) as [rest|] eqn:En.
  - apply starts_null_spec in En as ->. apply at_end_spec in H as [-> B2]. exists None. split; [|done]. exists w1, rest. split; [done|]. split; [done|].
    rewrite runes_blank_app by done. rewrite runes_ascii_app by (repeat constructor; lia). rewrite <- (app_nil_r rest) at 1. rewrite runes_blank_app by done. change (runes []) with (@nil Z).
    by rewrite app_nil_r.
  - destruct (expect 123 s0) as [s1|] eqn:E1; [|done]. cbn [mbind option_bind] in H. apply expect_spec in E1 as ->. apply bytes_cons in Hb as [_ Hb].
    destruct (expect 125 (skip_space s1)) as [rest|] eqn:E2.
    + destruct (skip_split s1) as (w & B & E). apply expect_spec in E2. rewrite E2 in E. subst s1. apply at_end_spec in H as [-> B2]. exists (Some []). split; [|done].
      exists w1, rest. split; [done|]. split; [done|]. exists w. split; [done|]. rewrite runes_blank_app by done. rewrite runes_ascii by lia. rewrite runes_blank_app by done. rewrite runes_ascii by lia.
      rewrite <- (app_nil_r rest) at 1. rewrite runes_blank_app by done. change (runes []) with (@nil Z). by rewrite app_nil_r.
    + destruct (scan_members (length s1) s1) as [[ms rest]|] eqn:E3; [|done]. cbn [mbind option_bind] in H. apply at_end_spec in H as [-> B2].
      apply members_sound in E3 as (m & ms' & Hbr & I1 & I2 & ->); [|done]. exists (Some ms'). split; [|done]. exists w1, rest. split; [done|]. split; [done|].
      destruct ms' as [|kv ms']; [by inversion I2|]. exists m. split; [done|]. rewrite runes_blank_app by done. rewrite runes_ascii, I1 by lia.
      rewrite <- (app_nil_r rest) at 1. rewrite runes_blank_app by done. change (runes []) with (@nil Z). by rewrite app_nil_r.
Qed.
