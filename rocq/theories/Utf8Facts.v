(** Facts about the UTF-8 layer of GoBase. *)
From Verif Require Import GoBase.
From Coq Require Import ZifyBool ZifyNat.

Lemma scalar_spec r : scalar r = true ↔ (0 <= r < 0xD800 ∨ 0xE000 <= r <= 0x10FFFF).
Proof. unfold scalar. lia. Qed.

Lemma rune_error_scalar : scalar rune_error = true.
Proof. reflexivity. Qed.

Lemma sanitize_scalar r : scalar (sanitize r) = true.
Proof. unfold sanitize. destruct (scalar r) eqn:E; [exact E|reflexivity]. Qed.

Lemma sanitize_id r : scalar r = true → sanitize r = r.
Proof. unfold sanitize. intros ->. reflexivity. Qed.

Lemma sanitize_idem r : sanitize (sanitize r) = sanitize r.
Proof. apply sanitize_id, sanitize_scalar. Qed.

Lemma encode_rune_sanitize r : encode_rune (sanitize r) = encode_rune r.
Proof. unfold encode_rune. by rewrite sanitize_idem. Qed.

Ltac dm := Z.div_mod_to_equations; lia.

Lemma decode_encode_scalar r s :
  scalar r = true →
  decode (encode_scalar r ++ s) = (r, zlen (encode_scalar r)) :: decode s.
Proof.
  intros Hs%scalar_spec. unfold encode_scalar.
  destruct (r <? 0x80) eqn:H1.
  { cbn [app decode]. replace (byte_in 0 0x7F r) with true by (unfold byte_in; lia). reflexivity. }
  destruct (r <? 0x800) eqn:H2.
  { cbn [app decode].
    replace (byte_in 0 0x7F (0xC0 + r / 64)) with false by (unfold byte_in; dm).
    replace (head2 _ _) with true by (unfold head2, byte_in; dm).
    f_equal. unfold zlen; cbn [length]. f_equal; dm. }
  destruct (r <? 0x10000) eqn:H3.
  { cbn [app decode].
    replace (byte_in 0 0x7F _) with false by (unfold byte_in; dm).
    replace (head2 _ _) with false by (unfold head2, byte_in; dm).
    assert (Hh : head3 (0xE0 + r / 4096) (0x80 + (r / 64) mod 64) (0x80 + r mod 64) = true).
    { unfold head3, byte_in.
      destruct (_ =? 0xE0) eqn:E1; [dm|]. destruct (_ =? 0xED) eqn:E2; dm. }
    rewrite Hh. f_equal. unfold zlen; cbn [length]. f_equal; dm. }
  cbn [app decode].
  replace (byte_in 0 0x7F _) with false by (unfold byte_in; dm).
  replace (head2 _ _) with false by (unfold head2, byte_in; dm).
  assert (Hh3 : head3 (0xF0 + r / 262144) (0x80 + (r / 4096) mod 64) (0x80 + (r / 64) mod 64) = false).
  { unfold head3. replace (byte_in 0xE0 0xEF _) with false by (unfold byte_in; dm). reflexivity. }
  rewrite Hh3.
  assert (Hh : head4 (0xF0 + r / 262144) (0x80 + (r / 4096) mod 64) (0x80 + (r / 64) mod 64) (0x80 + r mod 64) = true).
  { unfold head4, byte_in.
    destruct (_ =? 0xF0) eqn:E1; [dm|]. destruct (_ =? 0xF4) eqn:E2; dm. }
  rewrite Hh. f_equal. unfold zlen; cbn [length]. f_equal; dm.
Qed.

Lemma decode_encode_rune r s :
  decode (encode_rune r ++ s) = (sanitize r, rune_len r) :: decode s.
Proof.
  unfold rune_len, encode_rune. rewrite decode_encode_scalar by apply sanitize_scalar. reflexivity.
Qed.

Lemma decode_encode_app rs s :
  decode (encode rs ++ s) = map (λ r, (sanitize r, rune_len r)) rs ++ decode s.
Proof.
  induction rs as [|r rs IH]; [reflexivity|].
  cbn [encode flat_map map app]. rewrite <- app_assoc, decode_encode_rune. f_equal. exact IH.
Qed.

Lemma decode_encode rs : decode (encode rs) = map (λ r, (sanitize r, rune_len r)) rs.
Proof.
  rewrite <- (app_nil_r (encode rs)), decode_encode_app. cbn [decode]. by rewrite app_nil_r.
Qed.

Lemma runes_encode_app rs s : runes (encode rs ++ s) = map sanitize rs ++ runes s.
Proof.
  unfold runes. rewrite decode_encode_app, fmap_app. f_equal.
  induction rs as [|r rs IH]; [done|]. cbn. by rewrite IH.
Qed.

Lemma runes_encode rs : runes (encode rs) = map sanitize rs.
Proof. rewrite <- (app_nil_r (encode rs)), runes_encode_app. cbn. by rewrite app_nil_r. Qed.

Lemma map_sanitize_id rs : scalars rs → map sanitize rs = rs.
Proof. induction 1 as [|r rs Hr _ IH]; [done|]. cbn. rewrite sanitize_id by done. by rewrite IH. Qed.

Lemma scalars_sanitize rs : scalars (map sanitize rs).
Proof. induction rs as [|r rs IH]; constructor; [apply sanitize_scalar|exact IH]. Qed.

Lemma encode_sanitize rs : encode (map sanitize rs) = encode rs.
Proof.
  induction rs as [|r rs IH]; [done|]. cbn [map encode flat_map].
  rewrite encode_rune_sanitize. f_equal. exact IH.
Qed.

Lemma runes_encode_scalars rs : scalars rs → runes (encode rs) = rs.
Proof. intros H. rewrite runes_encode. by apply map_sanitize_id. Qed.

Lemma encode_app a b : encode (a ++ b) = encode a ++ encode b.
Proof. apply flat_map_app. Qed.

Lemma encode_cons r rs : encode (r :: rs) = encode_rune r ++ encode rs.
Proof. reflexivity. Qed.

(** Every decoded rune is a scalar value. *)
Lemma decode_props_aux n s :
  (length s <= n)%nat →
  Forall (λ p : Z * Z, scalar p.1 = true
       ∧ (p = (rune_error, 1) ∨ p.2 = rune_len p.1)) (decode s).
Proof.
  revert s. induction n as [|n IH]; intros s Hn.
  { destruct s; [constructor|cbn in Hn; lia]. }
  destruct s as [|b0 s1]; cbn [decode]; [constructor|]. cbn in Hn.
  assert (IH1 : Forall (λ p : Z * Z, scalar p.1 = true ∧ (p = (rune_error, 1) ∨ p.2 = rune_len p.1)) (decode s1))
    by (apply IH; lia).
  destruct (byte_in 0 0x7F b0) eqn:H0.
  { constructor; [|exact IH1]. unfold byte_in in H0.
    assert (Hsc : scalar b0 = true) by (apply scalar_spec; lia).
    split; [exact Hsc|]. right. cbn. unfold rune_len, encode_rune. rewrite (sanitize_id _ Hsc).
    unfold encode_scalar. replace (b0 <? 0x80) with true by lia. reflexivity. }
  assert (Hbad : scalar (rune_error, 1).1 = true
       ∧ ((rune_error, 1) = (rune_error, 1) ∨ (rune_error, 1).2 = rune_len (rune_error, 1).1))
    by (split; [reflexivity|by left]).
  destruct s1 as [|b1 s2]; [by constructor|]. cbn in Hn.
  destruct (head2 b0 b1) eqn:H2.
  { constructor; [|apply IH; lia]. unfold head2, byte_in in H2. cbn [fst snd].
    assert (Hsc : scalar ((b0 - 192) * 64 + (b1 - 128)) = true) by (apply scalar_spec; lia).
    split; [exact Hsc|]. right. unfold rune_len, encode_rune. rewrite (sanitize_id _ Hsc).
    unfold encode_scalar.
    replace (_ <? 0x80) with false by lia. replace (_ <? 0x800) with true by lia. reflexivity. }
  destruct s2 as [|b2 s3]; [by constructor|]. cbn in Hn.
  destruct (head3 b0 b1 b2) eqn:H3.
  { constructor; [|apply IH; lia]. unfold head3, byte_in in H3. cbn [fst snd].
    assert (Hsc : scalar ((b0 - 224) * 4096 + (b1 - 128) * 64 + (b2 - 128)) = true ∧
       0x800 <= ((b0 - 224) * 4096 + (b1 - 128) * 64 + (b2 - 128)) < 0x10000).
    { rewrite scalar_spec.
      destruct (b0 =? 0xE0) eqn:E1; [lia|]. destruct (b0 =? 0xED) eqn:E2; lia. }
    destruct Hsc as [Hsc Hrg].
    split; [exact Hsc|]. right. unfold rune_len, encode_rune. rewrite (sanitize_id _ Hsc).
    unfold encode_scalar.
    replace (_ <? 0x80) with false by lia. replace (_ <? 0x800) with false by lia.
    replace (_ <? 0x10000) with true by lia. reflexivity. }
  destruct s3 as [|b3 s4]; [by constructor|]. cbn in Hn.
  destruct (head4 b0 b1 b2 b3) eqn:H4.
  { constructor; [|apply IH; lia]. unfold head4, byte_in in H4. cbn [fst snd].
    assert (Hsc : scalar ((b0 - 240) * 262144 + (b1 - 128) * 4096 + (b2 - 128) * 64 + (b3 - 128)) = true ∧
       0x10000 <= (b0 - 240) * 262144 + (b1 - 128) * 4096 + (b2 - 128) * 64 + (b3 - 128)).
    { rewrite scalar_spec.
      destruct (b0 =? 0xF0) eqn:E1; [lia|]. destruct (b0 =? 0xF4) eqn:E2; lia. }
    destruct Hsc as [Hsc Hrg].
    split; [exact Hsc|]. right. unfold rune_len, encode_rune. rewrite (sanitize_id _ Hsc).
    unfold encode_scalar.
    replace (_ <? 0x80) with false by lia. replace (_ <? 0x800) with false by lia.
    replace (_ <? 0x10000) with false by lia. reflexivity. }
  by constructor.
Qed.

Lemma runes_scalars s : scalars (runes s).
Proof.
  unfold scalars, runes. apply Forall_fmap.
  eapply Forall_impl; [apply (decode_props_aux (length s)); lia|]. cbn. intros [r w]; tauto.
Qed.

(** Widths add up to the byte length. *)
Lemma decode_widths_aux n s :
  (length s <= n)%nat → foldr Z.add 0 (decode s).*2 = zlen s.
Proof.
  revert s. induction n as [|n IH]; intros s Hn.
  { destruct s; [done|cbn in Hn; lia]. }
  destruct s as [|b0 s1]; cbn [decode]; [done|]. cbn in Hn.
  assert (IH1 : foldr Z.add 0 (decode s1).*2 = zlen s1) by (apply IH; lia).
  unfold zlen in *.
  destruct (byte_in 0 0x7F b0); [cbn; lia|].
  destruct s1 as [|b1 s2]; [reflexivity|].
  destruct (head2 b0 b1).
  { cbn -[decode]. cbn in Hn. rewrite IH by (cbn in *; lia). lia. }
  destruct s2 as [|b2 s3].
  { cbn -[decode]. cbn -[decode] in IH1. rewrite IH1. lia. }
  destruct (head3 b0 b1 b2).
  { cbn -[decode]. cbn in Hn. rewrite IH by (cbn in *; lia). lia. }
  destruct s3 as [|b3 s4].
  { cbn -[decode]. cbn -[decode] in IH1. rewrite IH1. lia. }
  destruct (head4 b0 b1 b2 b3).
  { cbn -[decode]. cbn in Hn. rewrite IH by (cbn in *; lia). lia. }
  cbn -[decode]. cbn -[decode] in IH1. rewrite IH1. lia.
Qed.

Lemma decode_widths s : foldr Z.add 0 (decode s).*2 = zlen s.
Proof. by apply (decode_widths_aux (length s)). Qed.

(** A valid string is the encoding of its runes. *)
Lemma encode_scalar_2 b0 b1 :
  head2 b0 b1 = true → encode_rune ((b0 - 192) * 64 + (b1 - 128)) = [b0; b1].
Proof.
  intros H2. unfold head2, byte_in in H2.
  assert (Hsc : scalar ((b0 - 192) * 64 + (b1 - 128)) = true) by (apply scalar_spec; lia).
  unfold encode_rune. rewrite (sanitize_id _ Hsc). unfold encode_scalar.
  replace (_ <? 0x80) with false by lia. replace (_ <? 0x800) with true by lia.
  f_equal; [dm|f_equal; dm].
Qed.

Lemma encode_scalar_3 b0 b1 b2 :
  head3 b0 b1 b2 = true →
  encode_rune ((b0 - 224) * 4096 + (b1 - 128) * 64 + (b2 - 128)) = [b0; b1; b2].
Proof.
  intros H3. unfold head3, byte_in in H3.
  assert (Hsc : scalar ((b0 - 224) * 4096 + (b1 - 128) * 64 + (b2 - 128)) = true ∧
       0x800 <= ((b0 - 224) * 4096 + (b1 - 128) * 64 + (b2 - 128)) < 0x10000).
  { rewrite scalar_spec.
    destruct (b0 =? 0xE0) eqn:E1; [lia|]. destruct (b0 =? 0xED) eqn:E2; lia. }
  assert (Hb : 128 <= b1 <= 191 ∧ 128 <= b2 <= 191).
  { destruct (b0 =? 0xE0) eqn:E1; [lia|]. destruct (b0 =? 0xED) eqn:E2; lia. }
  destruct Hsc as [Hsc Hrg].
  unfold encode_rune. rewrite (sanitize_id _ Hsc). unfold encode_scalar.
  replace (_ <? 0x80) with false by lia. replace (_ <? 0x800) with false by lia.
  replace (_ <? 0x10000) with true by lia. clear H3 Hsc.
  f_equal; [dm|f_equal; [dm|f_equal; dm]].
Qed.

Lemma encode_scalar_4 b0 b1 b2 b3 :
  head4 b0 b1 b2 b3 = true →
  encode_rune ((b0 - 240) * 262144 + (b1 - 128) * 4096 + (b2 - 128) * 64 + (b3 - 128)) = [b0; b1; b2; b3].
Proof.
  intros H4. unfold head4, byte_in in H4.
  assert (Hsc : scalar ((b0 - 240) * 262144 + (b1 - 128) * 4096 + (b2 - 128) * 64 + (b3 - 128)) = true ∧
       0x10000 <= (b0 - 240) * 262144 + (b1 - 128) * 4096 + (b2 - 128) * 64 + (b3 - 128)).
  { rewrite scalar_spec.
    destruct (b0 =? 0xF0) eqn:E1; [lia|]. destruct (b0 =? 0xF4) eqn:E2; lia. }
  assert (Hb : 128 <= b1 <= 191 ∧ 128 <= b2 <= 191 ∧ 128 <= b3 <= 191).
  { destruct (b0 =? 0xF0) eqn:E1; [lia|]. destruct (b0 =? 0xF4) eqn:E2; lia. }
  destruct Hsc as [Hsc Hrg].
  unfold encode_rune. rewrite (sanitize_id _ Hsc). unfold encode_scalar.
  replace (_ <? 0x80) with false by lia. replace (_ <? 0x800) with false by lia.
  replace (_ <? 0x10000) with false by lia. clear H4 Hsc.
  f_equal; [dm|f_equal; [dm|f_equal; [dm|f_equal; dm]]].
Qed.

Lemma encode_rune_ascii b : 0 <= b <= 0x7F → encode_rune b = [b].
Proof.
  intros H. unfold encode_rune. rewrite sanitize_id by (apply scalar_spec; lia).
  unfold encode_scalar. replace (b <? 0x80) with true by lia. reflexivity.
Qed.

Lemma valid_encode_runes_aux n s :
  (length s <= n)%nat → valid_utf8 s = true → encode (runes s) = s.
Proof.
  revert s. induction n as [|n IH]; intros s Hn.
  { destruct s; [done|cbn in Hn; lia]. }
  unfold valid_utf8, runes. destruct s as [|b0 s1]; cbn [decode]; [done|]. cbn in Hn.
  destruct (byte_in 0 0x7F b0) eqn:H0.
  { cbn -[decode encode]. intros [_ Hv]%andb_true_iff. rewrite encode_cons, encode_rune_ascii.
    - cbn. f_equal. apply IH; [lia|exact Hv].
    - unfold byte_in in H0. lia. }
  destruct s1 as [|b1 s2]; [done|]. cbn in Hn.
  destruct (head2 b0 b1) eqn:H2.
  { cbn -[decode encode]. intros [_ Hv]%andb_true_iff. rewrite encode_cons, encode_scalar_2 by done.
    cbn. do 2 f_equal. apply IH; [lia|exact Hv]. }
  destruct s2 as [|b2 s3]; [done|]. cbn in Hn.
  destruct (head3 b0 b1 b2) eqn:H3.
  { cbn -[decode encode]. intros [_ Hv]%andb_true_iff. rewrite encode_cons, encode_scalar_3 by done.
    cbn. do 3 f_equal. apply IH; [lia|exact Hv]. }
  destruct s3 as [|b3 s4]; [done|]. cbn in Hn.
  destruct (head4 b0 b1 b2 b3) eqn:H4.
  { cbn -[decode encode]. intros [_ Hv]%andb_true_iff. rewrite encode_cons, encode_scalar_4 by done.
    cbn. do 4 f_equal. apply IH; [lia|exact Hv]. }
  done.
Qed.

Lemma valid_encode_runes s : valid_utf8 s = true → encode (runes s) = s.
Proof. by apply (valid_encode_runes_aux (length s)). Qed.

Lemma encode_rune_length_cases r :
  length (encode_rune r) = 1%nat ∨ length (encode_rune r) = 2%nat ∨ length (encode_rune r) = 3%nat ∨ length (encode_rune r) = 4%nat.
Proof.
  unfold encode_rune, encode_scalar.
  destruct (_ <? 0x80); [cbn; lia|]. destruct (_ <? 0x800); [cbn; lia|].
  destruct (_ <? 0x10000); cbn; lia.
Qed.

Lemma rune_len_bounds r : 1 <= rune_len r <= 4.
Proof. unfold rune_len, zlen. pose proof (encode_rune_length_cases r) as H. cbv zeta in H. lia. Qed.

Lemma valid_utf8_encode rs : valid_utf8 (encode rs) = true.
Proof.
  unfold valid_utf8. rewrite decode_encode. induction rs as [|r rs IH]; [done|].
  cbn. rewrite IH. rewrite andb_true_r.
  destruct (sanitize r =? rune_error) eqn:E; [|done].
  assert (sanitize r = rune_error) as Hr by lia.
  unfold rune_len, encode_rune. rewrite Hr. reflexivity.
Qed.

(** Valid UTF-8 strings are exactly the encodings of sequences of scalar values. *)
Lemma valid_utf8_spec s : valid_utf8 s = true ↔ ∃ rs, scalars rs ∧ s = encode rs.
Proof.
  split.
  - intros H. exists (runes s). split; [apply runes_scalars|]. by rewrite valid_encode_runes.
  - intros (rs & _ & ->). apply valid_utf8_encode.
Qed.

Lemma encode_nil_inv rs : encode rs = [] → rs = [].
Proof.
  destruct rs as [|r rs]; [done|]. rewrite encode_cons. intros H%app_eq_nil.
  destruct H as [H _]. pose proof (rune_len_bounds r) as Hb. unfold rune_len in Hb.
  rewrite H in Hb. unfold zlen in Hb. cbn [length] in Hb. lia.
Qed.

Lemma zlen_app {A} (a b : list A) : zlen (a ++ b) = zlen a + zlen b.
Proof. unfold zlen. rewrite app_length. lia. Qed.
Lemma zlen_nonneg {A} (a : list A) : 0 <= zlen a.
Proof. unfold zlen. lia. Qed.
Lemma zlen_cons {A} (x : A) l : zlen (x :: l) = 1 + zlen l.
Proof. unfold zlen. cbn [length]. lia. Qed.
Lemma zlen_nil {A} : zlen (@nil A) = 0.
Proof. reflexivity. Qed.
Lemma zlen_repeat {A} (x : A) n : zlen (repeat x n) = Z.of_nat n.
Proof. unfold zlen. by rewrite repeat_length. Qed.

Lemma zlen_encode_nil : zlen (encode []) = 0.
Proof. reflexivity. Qed.

Lemma zlen_encode_cons r rs : zlen (encode (r :: rs)) = rune_len r + zlen (encode rs).
Proof. rewrite encode_cons, zlen_app. reflexivity. Qed.

(** First byte of an encoded rune is no continuation byte; the others are. *)
Definition is_cont (b : Z) : bool := byte_in 0x80 0xBF b.

Lemma encode_rune_head r :
  ∃ b t, encode_rune r = b :: t ∧ is_cont b = false ∧ Forall (λ c, is_cont c = true) t
         ∧ 0 <= b <= 255 ∧ Forall (λ c, 0 <= c <= 255) t.
Proof.
  unfold encode_rune. pose proof (sanitize_scalar r) as Hs%scalar_spec.
  set (x := sanitize r) in *. clearbody x. unfold encode_scalar, is_cont, byte_in.
  destruct (x <? 0x80) eqn:H1.
  { eexists _, _; split; [reflexivity|]. split; [lia|]. split; [constructor|]. split; [lia|constructor]. }
  destruct (x <? 0x800) eqn:H2.
  { eexists _, _; split; [reflexivity|]. split; [dm|]. split; [repeat constructor; dm|].
    split; [dm|repeat constructor; dm]. }
  destruct (x <? 0x10000) eqn:H3.
  { eexists _, _; split; [reflexivity|]. split; [dm|]. split; [repeat constructor; dm|].
    split; [dm|repeat constructor; dm]. }
  eexists _, _; split; [reflexivity|]. split; [dm|]. split; [repeat constructor; dm|].
  split; [dm|repeat constructor; dm].
Qed.

(** Bytes of an encoding are bytes. *)
Lemma encode_bytes rs : Forall (λ c, 0 <= c <= 255) (encode rs).
Proof.
  induction rs as [|r rs IH]; [constructor|]. rewrite encode_cons. apply Forall_app. split; [|exact IH].
  destruct (encode_rune_head r) as (b & t & -> & _ & _ & Hb & Ht). by constructor.
Qed.

Lemma encode_inj_scalars a b : scalars a → scalars b → encode a = encode b → a = b.
Proof.
  intros Ha Hb H. apply (f_equal runes) in H. by rewrite !runes_encode_scalars in H.
Qed.
