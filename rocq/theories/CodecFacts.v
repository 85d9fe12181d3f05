(** UTF-8 by bit patterns. *)
From Coq Require Import ZifyBool.
From Verif Require Import GoBase SpecUtf8 Utf8Facts.
From stdpp Require Import list_numbers.
Import GoBase.
#[local] Open Scope Z_scope.

Lemma below (P : Z → Prop) `{∀ z, Decision (P z)} (n : nat) z : forallb (λ z, bool_decide (P z)) (seqZ 0 (Z.of_nat n)) = true → 0 <= z < Z.of_nat n → P z.
Proof.
  intros Hf Hz. rewrite forallb_forall in Hf. specialize (Hf z). apply bool_decide_eq_true in Hf; [done|].
  apply elem_of_list_In, elem_of_seqZ. lia.
Qed.

Lemma low6 r : Z.land r 0x3F = r mod 64.
Proof. change 0x3F with (Z.ones 6). rewrite Z.land_ones by lia. done. Qed.
Lemma shift6 r : Z.shiftr r 6 = r / 64.
Proof. by rewrite Z.shiftr_div_pow2. Qed.
Lemma shift12 r : Z.shiftr r 12 = r / 4096.
Proof. by rewrite Z.shiftr_div_pow2. Qed.
Lemma shift18 r : Z.shiftr r 18 = r / 262144.
Proof. by rewrite Z.shiftr_div_pow2. Qed.
Lemma lor_80 x : 0 <= x < 64 → Z.lor 0x80 x = 0x80 + x.
Proof. intros H. apply (below (λ x, Z.lor 0x80 x = 0x80 + x) 64); [by vm_compute|done]. Qed.
Lemma lor_C0 x : 0 <= x < 32 → Z.lor 0xC0 x = 0xC0 + x.
Proof. intros H. apply (below (λ x, Z.lor 0xC0 x = 0xC0 + x) 32); [by vm_compute|done]. Qed.
Lemma lor_E0 x : 0 <= x < 16 → Z.lor 0xE0 x = 0xE0 + x.
Proof. intros H. apply (below (λ x, Z.lor 0xE0 x = 0xE0 + x) 16); [by vm_compute|done]. Qed.
Lemma lor_F0 x : 0 <= x < 8 → Z.lor 0xF0 x = 0xF0 + x.
Proof. intros H. apply (below (λ x, Z.lor 0xF0 x = 0xF0 + x) 8); [by vm_compute|done]. Qed.

Lemma char_scalar r : char r ↔ scalar r = true.
Proof. rewrite scalar_spec. unfold char. lia. Qed.

Lemma utf8_scalar r bs : utf8 r bs → char r.
Proof. unfold char. intros [?|?|? ? Hc|?]; [lia|lia|exact Hc|lia]. Qed.

Lemma utf8_spec r bs : utf8 r bs ↔ char r ∧ bs = encode_scalar r.
Proof.
  assert (Hm : ∀ x, 0 <= x mod 64 < 64) by (intros x; apply Z.mod_pos_bound; lia).
  split.
  - intros H. split; [by eapply utf8_scalar|]. unfold encode_scalar. destruct H.
    + by rewrite (proj2 (Z.ltb_lt _ _)) by lia.
    + rewrite (proj2 (Z.ltb_ge r 0x80)), (proj2 (Z.ltb_lt r 0x800)) by lia.
      rewrite low6, shift6, lor_80, lor_C0 by (auto; dm). done.
    + rewrite (proj2 (Z.ltb_ge r 0x80)), (proj2 (Z.ltb_ge r 0x800)), (proj2 (Z.ltb_lt r 0x10000)) by lia.
      rewrite !low6, shift6, shift12, !lor_80, lor_E0 by (auto; dm). done.
    + rewrite (proj2 (Z.ltb_ge r 0x80)), (proj2 (Z.ltb_ge r 0x800)), (proj2 (Z.ltb_ge r 0x10000)) by lia.
      rewrite !low6, shift6, shift12, shift18, !lor_80, lor_F0 by (auto; dm). done.
  - intros [Hc ->]. unfold encode_scalar. pose proof Hc as [H1 _].
    destruct (Z.ltb_spec r 0x80); [constructor; lia|]. destruct (Z.ltb_spec r 0x800).
    { rewrite <- (lor_80 (r mod 64)), <- (lor_C0 (r / 64)), <- low6, <- shift6 by (auto; dm). constructor. lia. }
    destruct (Z.ltb_spec r 0x10000).
    { rewrite <- (lor_80 (r mod 64)), <- (lor_80 (r / 64 mod 64)), <- (lor_E0 (r / 4096)), <- !low6, <- shift6, <- shift12 by (auto; dm).
      constructor; [lia|done]. }
    rewrite <- (lor_80 (r mod 64)), <- (lor_80 (r / 64 mod 64)), <- (lor_80 (r / 4096 mod 64)), <- (lor_F0 (r / 262144)), <- !low6, <- shift6, <- shift12, <- shift18 by (auto; dm).
    constructor. lia.
Qed.

Lemma utf8_encode r : char r → utf8 r (encode_rune r).
Proof. intros Hc. apply utf8_spec. split; [done|]. unfold encode_rune. rewrite sanitize_id; [done|]. by apply char_scalar. Qed.
Lemma encode_bad r : ¬ char r → utf8 0xFFFD (encode_rune r).
Proof.
  intros Hc. assert (encode_rune r = encode_rune 0xFFFD) as ->.
  { unfold encode_rune, sanitize. destruct (scalar r) eqn:E; [|done]. by apply char_scalar in E. }
  apply utf8_encode. apply char_scalar. done.
Qed.
Lemma utf8_rune r bs : utf8 r bs → bs = encode_rune r.
Proof. intros (Hc & ->)%utf8_spec. unfold encode_rune. rewrite sanitize_id; [done|]. by apply char_scalar. Qed.

(** Nothing starts with a byte at which [decode] gives up. *)
Lemma decode_first s : match decode s with
  | [] => s = []
  | (r, w) :: l => (∃ t, utf8 r (encode_rune r) ∧ s = encode_rune r ++ t ∧ w = zlen (encode_rune r) ∧ l = decode t)
      ∨ (r, w) = (0xFFFD, 1) ∧ (∃ b t, s = b :: t ∧ l = decode t)
  end.
Proof.
  destruct s as [|b0 s1]; [done|]. cbn [decode].
  destruct (byte_in 0 0x7F b0) eqn:E1.
  { left. unfold byte_in in E1. exists s1. rewrite encode_rune_ascii by lia. split; [constructor; lia|done]. }
  destruct s1 as [|b1 s2]; [by right; eauto|].
  destruct (head2 b0 b1) eqn:E2.
  { left. exists s2. rewrite encode_scalar_2 by done. split; [|done]. rewrite <- (encode_scalar_2 _ _ E2). apply utf8_encode, char_scalar, scalar_spec. unfold head2, byte_in in E2. lia. }
  destruct s2 as [|b2 s3]; [by right; eauto|].
  destruct (head3 b0 b1 b2) eqn:E3.
  { left. exists s3. rewrite encode_scalar_3 by done. split; [|done]. rewrite <- (encode_scalar_3 _ _ _ E3). apply utf8_encode, char_scalar, scalar_spec. unfold head3, byte_in in E3.
    destruct (Z.eqb_spec b0 0xE0), (Z.eqb_spec b0 0xED); lia. }
  destruct s3 as [|b3 s4]; [by right; eauto|].
  destruct (head4 b0 b1 b2 b3) eqn:E4.
  { left. exists s4. rewrite encode_scalar_4 by done. split; [|done]. rewrite <- (encode_scalar_4 _ _ _ _ E4). apply utf8_encode, char_scalar, scalar_spec. unfold head4, byte_in in E4.
    destruct (Z.eqb_spec b0 0xF0), (Z.eqb_spec b0 0xF4); lia. }
  right. split; [done|]. by eauto.
Qed.

Lemma read_decode s l : read s l → decode s = l.
Proof.
  induction 1 as [|r bs s l Hu _ IH|b s l Hn _ IH]; [done| |].
  - pose proof (utf8_scalar _ _ Hu) as Hc%char_scalar. apply utf8_rune in Hu as ->. rewrite decode_encode_rune, sanitize_id, IH by done. done.
  - pose proof (decode_first (b :: s)) as Hf. destruct (decode (b :: s)) as [|[r w] l']; [done|].
    destruct Hf as [(t & Hu & E & _)|(-> & b' & t & [= <- <-] & ->)]; [|by rewrite IH]. by destruct (Hn _ _ t Hu).
Qed.
Lemma decode_read s : read s (decode s).
Proof.
  remember (length s) as n eqn:Hn. revert s Hn. induction n as [n IH] using lt_wf_ind. intros s ->.
  pose proof (decode_first s) as Hf. destruct (decode s) as [|[r w] l] eqn:Ed; [subst s; constructor|].
  destruct Hf as [(t & Hu & -> & -> & ->)|(Ew & b & t & -> & ->)].
  - constructor; [done|]. apply (IH (length t)); [|done]. rewrite app_length. pose proof (rune_len_bounds r). unfold rune_len, zlen in *. lia.
  - rewrite Ew. constructor; [|apply (IH (length t)); [cbn; lia|done]]. intros r' bs t' Hu E.
    pose proof (utf8_scalar _ _ Hu) as Hc%char_scalar. apply utf8_rune in Hu as ->. rewrite E, decode_encode_rune, sanitize_id in Ed by done.
    injection Ed as -> Ed _. injection Ew as -> ->. vm_compute in Ed. done.
Qed.

Lemma white_spec r : white_space r = true ↔ r ∈ white.
Proof.
  unfold white. rewrite !elem_of_cons, elem_of_nil. unfold white_space, byte_in.
  split; [|intros H; repeat destruct H as [->|H]; done]. lia.
Qed.
