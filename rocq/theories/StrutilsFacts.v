(** Proofs about the byte-to-rune offset converter. *)
From Coq Require Import ZifyBool.
From Verif Require Import GoBase Utf8Facts Strutils SplitPattern SpecText SliceFacts.

(** The table holds for every byte the byte index of the start of its character. *)
Lemma flat_positions_lookup i a r b k :
  0 <= k < rune_len r →
  idx (flat_map (λ '(i, r), repeat i (length (encode_rune r))) (rune_positions i (a ++ r :: b)))
      (zlen (encode a) + k) = Ret (i + zlen (encode a)).
Proof.
  intros Hk. revert i. induction a as [|x a IH]; intros i; cbn [app rune_positions flat_map].
  - rewrite zlen_encode_nil, Z.add_0_l, Z.add_0_r. unfold rune_len, zlen in Hk.
    rewrite idx_app_l by (rewrite zlen_repeat; lia). apply idx_repeat. lia.
  - rewrite zlen_encode_cons. rewrite idx_app_r.
    + rewrite zlen_repeat. change (Z.of_nat (length (encode_rune x))) with (rune_len x).
      replace (rune_len x + zlen (encode a) + k - rune_len x) with (zlen (encode a) + k) by lia.
      rewrite IH. f_equal. lia.
    + rewrite zlen_repeat. pose proof (zlen_nonneg (encode a)). unfold rune_len, zlen in *. lia.
Qed.

Lemma flat_positions_len i rs :
  zlen (flat_map (λ '(i, r), repeat i (length (encode_rune r))) (rune_positions i rs)) = zlen (encode rs).
Proof.
  revert i. induction rs as [|r rs IH]; intros i; [done|]. cbn [rune_positions flat_map].
  rewrite zlen_app, IH, zlen_repeat, zlen_encode_cons. done.
Qed.

(** Exact behaviour on boundaries: starts come back as the byte offsets they were, and the end of the
    string comes back as the byte offset of the last character plus one. *)
Lemma convert_exact a r b :
  scalars (a ++ r :: b) →
  ∀ c d, r :: b = c ++ d →
  convert (new_converter (encode (a ++ r :: b))) (Offsets (zlen (encode a)) (zlen (encode (a ++ c))))
  = Ret (Offsets (zlen (encode a))
           (if decide (d = []) then zlen (encode (removelast (a ++ r :: b))) + 1 else zlen (encode (a ++ c)))).
Proof.
  intros Hs c d Hcd. unfold convert, new_converter. rewrite range_str_encode by done.
  rewrite flat_positions_len. cbn [o_start o_end].
  assert (Hpos : 0 < zlen (encode (a ++ r :: b))).
  { rewrite encode_app, zlen_app. pose proof (zlen_nonneg (encode a)). pose proof (encode_pos r b). lia. }
  replace (_ =? 0) with false by lia.
  rewrite <- (Z.add_0_r (zlen (encode a))) at 1.
  rewrite flat_positions_lookup by (pose proof (rune_len_bounds r); lia). cbn [mbind outcome_bind].
  rewrite Z.add_0_l.
  assert (Hrs : a ++ r :: b = (a ++ c) ++ d) by (rewrite Hcd; apply app_assoc).
  destruct (decide (d = [])) as [->|Hd].
  - rewrite app_nil_r in Hcd. subst c. rewrite Z.eqb_refl.
    assert (Hne : a ++ r :: b ≠ []) by by destruct a.
    destruct (exists_last Hne) as (l & x & Hx). rewrite Hx. rewrite removelast_last.
    rewrite encode_app, zlen_app, zlen_encode_cons, zlen_encode_nil.
    replace (zlen (encode l) + (rune_len x + 0) - 1) with (zlen (encode l) + (rune_len x - 1)) by lia.
    rewrite flat_positions_lookup by (pose proof (rune_len_bounds x); lia). done.
  - rewrite Hrs. destruct d as [|y d]; [done|].
    rewrite (encode_app (a ++ c)), zlen_app. pose proof (encode_pos y d).
    replace (_ =? _) with false by lia.
    rewrite <- (Z.add_0_r (zlen (encode (a ++ c)))) at 1.
    rewrite flat_positions_lookup by (pose proof (rune_len_bounds y); lia). done.
Qed.

Lemma zlen_encode_ascii rs : Forall (λ r, 0 <= r < 128) rs → zlen (encode rs) = zlen rs.
Proof.
  induction 1 as [|r rs Hr _ IH]; [done|]. rewrite zlen_encode_cons, zlen_cons, IH. unfold rune_len.
  rewrite encode_rune_ascii by lia. done.
Qed.

(** Right when every character but the last one is ASCII and the start is before the end of text. *)
Lemma convert_ascii init x a b c :
  Forall (λ r, 0 <= r < 128) init → scalar x = true →
  init ++ [x] = a ++ b ++ c → b ++ c ≠ [] →
  convert (new_converter (encode (init ++ [x]))) (Offsets (zlen (encode a)) (zlen (encode (a ++ b))))
  = Ret (Offsets (zlen a) (zlen (a ++ b))).
Proof.
  intros Hi Hx Heq Hne. destruct (b ++ c) as [|r l] eqn:Hbc; [done|].
  assert (Hs : scalars (init ++ [x])).
  { apply scalars_app. split; [|by repeat constructor]. eapply Forall_impl; [exact Hi|].
    intros r' Hr'. apply scalar_spec. cbn in Hr'. lia. }
  rewrite Heq. rewrite (convert_exact a r l) with (d := c) by (done || by rewrite <- Heq).
  assert (Hpre : ∀ p q, p ++ q = init ++ [x] → q ≠ [] → zlen (encode p) = zlen p).
  { intros p q Hpq Hq. apply zlen_encode_ascii. destruct (exists_last Hq) as (q' & y & ->).
    rewrite app_assoc in Hpq. apply app_inj_2 in Hpq as [<- _]; [|done]. by apply Forall_app in Hi as [? _]. }
  f_equal. f_equal.
  - apply (Hpre a (r :: l)); [done|done].
  - destruct (decide (c = [])) as [->|Hc].
    + rewrite <- Heq, removelast_last. rewrite zlen_encode_ascii by done.
      rewrite app_nil_r in Hbc. subst b. rewrite <- Heq, zlen_app. done.
    + apply (Hpre (a ++ b) c); [|done]. rewrite <- app_assoc, Hbc. by rewrite Heq.
Qed.

Lemma rune_boundary_C01 rs i :
  scalars rs → ∃ b, is_rune_boundary (encode rs) i = Ret b ∧ (b = true ↔ boundary (encode rs) i).
Proof.
  intros Hs. destruct (is_rune_boundary_total (encode rs) i) as [b Hb]. exists b. split; [done|].
  by apply is_rune_boundary_spec.
Qed.

Lemma rune_boundary_no_panic s i : is_rune_boundary s i ≠ Panic.
Proof. destruct (is_rune_boundary_total s i) as [b ->]. done. Qed.

Lemma convert_refuted :
  ¬ (∀ a b c, scalars (a ++ b ++ c) →
     convert (new_converter (encode (a ++ b ++ c))) (Offsets (zlen (encode a)) (zlen (encode (a ++ b))))
     = Ret (Offsets (zlen a) (zlen (a ++ b)))).
Proof. intros H. specialize (H [0xE9] [97] [] ltac:(by repeat constructor)). vm_compute in H. congruence. Qed.

Lemma convert_panics :
  ∃ a b c, scalars (a ++ b ++ c) ∧
  convert (new_converter (encode (a ++ b ++ c))) (Offsets (zlen (encode a)) (zlen (encode (a ++ b)))) = Panic.
Proof. exists [97], [], []. split; [by repeat constructor|]. vm_compute. reflexivity. Qed.
