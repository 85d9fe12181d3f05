(** Facts about float64. *)
From Coq Require Import ZifyBool QArith SpecFloat Lqa.
From Verif Require Import GoBase Vocab MergeMap Heap Bpe BpeTok Floats SpecFloats.
Import GoBase.
#[local] Open Scope Z_scope.

Lemma digits_bounds m : 2 ^ (Zpos (digits2_pos m) - 1) <= Zpos m < 2 ^ Zpos (digits2_pos m).
Proof.
  induction m as [m IH|m IH|]; cbn [digits2_pos].
  - rewrite Pos2Z.inj_succ. replace (Z.succ (Zpos (digits2_pos m)) - 1) with (Z.succ (Zpos (digits2_pos m) - 1)) by lia.
    rewrite !Z.pow_succ_r by lia. lia.
  - rewrite Pos2Z.inj_succ. replace (Z.succ (Zpos (digits2_pos m)) - 1) with (Z.succ (Zpos (digits2_pos m) - 1)) by lia.
    rewrite !Z.pow_succ_r by lia. lia.
  - done.
Qed.

(** m * 2^(e + 1074), an integer. *)
Definition scaled (m : positive) (e : Z) : Z := Zpos m * 2 ^ (e + 1074).
Lemma canonical m e : bounded 53 1024 m e = true →
  -1074 <= e ∧ Zpos m < 2 ^ 53 ∧ (e = -1074 ∨ 2 ^ 52 <= Zpos m).
Proof.
  unfold bounded, canonical_mantissa, fexp, emin. intros [H _]%andb_true_iff. apply Zeq_bool_eq in H.
  pose proof (digits_bounds m) as [H1 H2]. set (d := Zpos (digits2_pos m)) in *. assert (Hd : d <= 53) by lia.
  split; [lia|]. split.
  - pose proof (Z.pow_le_mono_r 2 d 53 ltac:(lia) ltac:(lia)). lia.
  - destruct (decide (e = -1074)); [by left|right]. assert (d = 53) as E by lia. rewrite E in H1. exact H1.
Qed.
Lemma scaled_compare m1 e1 m2 e2 : bounded 53 1024 m1 e1 = true → bounded 53 1024 m2 e2 = true →
  Z.compare (scaled m1 e1) (scaled m2 e2) = match Z.compare e1 e2 with Lt => Lt | Gt => Gt | Eq => Pcompare m1 m2 Eq end.
Proof.
  assert (Hlt : ∀ m1 e1 m2 e2, bounded 53 1024 m1 e1 = true → bounded 53 1024 m2 e2 = true → e1 < e2 → scaled m1 e1 < scaled m2 e2).
  { clear. intros m1 e1 m2 e2 (H1 & H1' & _)%canonical (H2 & _ & H2')%canonical Hlt. destruct H2' as [->|H2']; [lia|]. unfold scaled.
    replace (e2 + 1074) with ((e1 + 1074) + 1 + (e2 - e1 - 1)) by lia. rewrite (Z.pow_add_r 2 (e1 + 1074 + 1)), (Z.pow_add_r 2 (e1 + 1074) 1) by lia.
    pose proof (Z.pow_pos_nonneg 2 (e1 + 1074) ltac:(lia) ltac:(lia)). pose proof (Z.pow_pos_nonneg 2 (e2 - e1 - 1) ltac:(lia) ltac:(lia)).
    change (2 ^ 1) with 2. set (x := 2 ^ (e1 + 1074)) in *. set (y := 2 ^ (e2 - e1 - 1)) in *.
    apply Z.lt_le_trans with (2 ^ 53 * x); [apply Z.mul_lt_mono_pos_r; lia|]. change (2 ^ 53) with (2 ^ 52 * 2).
    replace (Zpos m2 * (x * 2 * y)) with (Zpos m2 * 2 * x * y) by lia. transitivity (Zpos m2 * 2 * x).
    - apply Z.mul_le_mono_nonneg_r; lia.
    - rewrite <- (Z.mul_1_r (Zpos m2 * 2 * x)) at 1. apply Z.mul_le_mono_nonneg_l; lia. }
  intros H1 H2. destruct (Z.compare_spec e1 e2) as [->|Hl|Hg].
  - unfold scaled. apply canonical in H2 as [H2 _]. rewrite <- Zmult_compare_compat_r; [done|].
    pose proof (Z.pow_pos_nonneg 2 (e2 + 1074) ltac:(lia) ltac:(lia)). lia.
  - apply Z.compare_lt_iff. by apply Hlt.
  - apply Z.compare_gt_iff. by apply Hlt.
Qed.
Lemma number_scaled (s : bool) m e : -1074 <= e →
  (inject_Z (if s then Zneg m else Zpos m) * power2 e == inject_Z ((if s then -1 else 1) * scaled m e) * (1 # Z.to_pos (2 ^ 1074)))%Q.
Proof.
  intros He. unfold power2, scaled. assert (Hm : (if s then Zneg m else Zpos m) = (if s then -1 else 1) * Zpos m) by (destruct s; lia).
  rewrite Hm. clear Hm. set (z := (if s then -1 else 1) : Z). replace (z * (Zpos m * 2 ^ (e + 1074))) with (z * Zpos m * 2 ^ (e + 1074)) by lia.
  set (x := z * Zpos m). destruct (0 <=? e) eqn:E.
  - unfold Qeq, inject_Z. cbn [Qmult Qnum Qden]. rewrite !Pos.mul_1_l, !Z.mul_1_r, Z2Pos.id by (apply Z.pow_pos_nonneg; lia).
    rewrite Z.pow_add_r by lia. lia.
  - unfold Qeq, inject_Z. cbn [Qmult Qnum Qden]. rewrite !Pos.mul_1_l, !Z.mul_1_r.
    rewrite !Z2Pos.id by (apply Z.pow_pos_nonneg; lia). rewrite <- Z.mul_assoc, <- Z.pow_add_r by lia. do 2 f_equal. lia.
Qed.

(** The comparison of finite numbers is that of the numbers they stand for. *)
Definition as_scaled (f : spec_float) : Z :=
  match f with S754_finite s m e => (if s then -1 else 1) * scaled m e | _ => 0 end.
Lemma number_as_scaled f x : float64 f → number f = Some x → (x == inject_Z (as_scaled f) * (1 # Z.to_pos (2 ^ 1074)))%Q.
Proof.
  intros Hf Hx. destruct f as [s|s| |s m e]; cbn [number as_scaled] in *; try done; injection Hx as <-; [done|].
  unfold float64 in Hf. cbn [valid_binary] in Hf. apply canonical in Hf as [He _]. by apply number_scaled.
Qed.
Lemma scaled_pos m e : bounded 53 1024 m e = true → 0 < scaled m e.
Proof. intros [He _]%canonical. unfold scaled. pose proof (Z.pow_pos_nonneg 2 (e + 1074) ltac:(lia) ltac:(lia)). lia. Qed.
Lemma SFltb_scaled f g x y : float64 f → float64 g → number f = Some x → number g = Some y → SFltb f g = (as_scaled f <? as_scaled g).
Proof.
  intros Hf Hg Hx Hy. unfold float64, SFltb in *. destruct f as [s|s| |s m e], g as [s'|s'| |s' m' e']; cbn [number] in *; try done; cbn [SFcompare as_scaled valid_binary] in *.
  - pose proof (scaled_pos _ _ Hg). destruct s'; lia.
  - pose proof (scaled_pos _ _ Hf). destruct s; lia.
  - pose proof (scaled_pos _ _ Hf). pose proof (scaled_pos _ _ Hg). pose proof (scaled_compare m e m' e' Hf Hg) as Hc. pose proof (Z.compare_spec (scaled m e) (scaled m' e')) as Hs.
    rewrite Hc in Hs. clear Hc. destruct s, s'; [|lia|lia|]; destruct (e ?= e'); try destruct (Pos.compare_cont Eq m m'); cbn [CompOpp]; inversion Hs; lia.
Qed.
Lemma SFltb_number f g x y : float64 f → float64 g → number f = Some x → number g = Some y → SFltb f g = true ↔ (x < y)%Q.
Proof.
  intros Hf Hg Hx Hy. rewrite (SFltb_scaled f g x y Hf Hg Hx Hy), Z.ltb_lt.
  assert (Hpos : (0 < 1 # Z.to_pos (2 ^ 1074))%Q) by reflexivity.
  rewrite (number_as_scaled _ _ Hf Hx), (number_as_scaled _ _ Hg Hy), (Qmult_lt_r _ _ _ Hpos). by rewrite Zlt_Qlt.
Qed.

(** ** Dropout *)
Lemma dropped_float_spec d q draws qs : float64 d → amounts_to d q → (∀ k, draw (draws k) (qs k)) →
  ∀ k, dropped_float d draws k = dropped_at q qs k.
Proof.
  intros Hd Hq Hdraw k. destruct (Hdraw k) as (Hf & Hn & H0 & H1). unfold dropped_float, dropped_at.
  assert (Hle : ∀ a b, negb (Qle_bool a b) = true ↔ (b < a)%Q).
  { intros a b. rewrite negb_true_iff. split.
    - intros H. apply Qnot_le_lt. intros H'. apply Qle_bool_iff in H'. congruence.
    - intros H. destruct (Qle_bool a b) eqn:E; [|done]. apply Qle_bool_iff in E. lra. }
  unfold amounts_to in Hq. destruct (number d) as [x|] eqn:Hx.
  - subst q. apply Bool.eq_iff_eq_true. rewrite !andb_true_iff, !Hle.
    rewrite (SFltb_number (S754_zero false) d 0 x) by done. by rewrite (SFltb_number (draws k) d (qs k) x).
  - destruct d as [s|[|]| |s m e]; try done; subst q; [done| |done].
    apply Bool.eq_iff_eq_true. rewrite !andb_true_iff, !Hle. split; [done|]. intros _. split; [done|].
    unfold SFltb, SFcompare. by destruct (draws k).
Qed.
Lemma amounts_total d : ∃ q, amounts_to d q.
Proof. unfold amounts_to. destruct (number d) as [x|]; [by exists x|]. destruct d as [?|[|]| |]; by eexists. Qed.
