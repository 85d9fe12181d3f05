(** Facts about slicing, indexing and character boundaries. *)
From Verif Require Import GoBase Utf8Facts Strutils SplitPattern SpecText.
From Coq Require Import ZifyBool.

Lemma bind_Ret {A B} (m : outcome A) (k : A → outcome B) b :
  (m ≫= k) = Ret b ↔ ∃ a, m = Ret a ∧ k a = Ret b.
Proof.
  destruct m as [a|]; cbn; split.
  - intros H. by exists a.
  - intros (a' & [= <-] & H). exact H.
  - discriminate.
  - intros (a' & ? & _). discriminate.
Qed.

Lemma sub_Ret {A} (l : list A) i j x :
  sub l i j = Ret x ↔ ∃ a c, l = a ++ x ++ c ∧ i = zlen a ∧ j = i + zlen x.
Proof.
  unfold sub. destruct ((0 <=? i) && (i <=? j) && (j <=? zlen l)) eqn:E; split.
  - intros [= <-]. exists (take (Z.to_nat i) l), (drop (Z.to_nat j) l).
    unfold zlen in *. rewrite !take_length, drop_length. split; [|lia].
    replace (Z.to_nat j) with (Z.to_nat i + Z.to_nat (j - i))%nat by lia.
    rewrite <- drop_drop. rewrite take_drop. by rewrite take_drop.
  - intros (a & c & -> & -> & ->). f_equal. unfold zlen in *.
    rewrite Nat2Z.id. rewrite drop_app. replace (Z.to_nat _) with (length x) by lia. apply take_app.
  - discriminate.
  - intros (a & c & -> & -> & ->). rewrite !zlen_app in E.
    pose proof (zlen_nonneg a); pose proof (zlen_nonneg x); pose proof (zlen_nonneg c). lia.
Qed.

Lemma sub_app3 {A} (a x c : list A) i j :
  i = zlen a → j = zlen a + zlen x → sub (a ++ x ++ c) i j = Ret x.
Proof. intros -> ->. apply sub_Ret. by exists a, c. Qed.

Lemma sub_bounds {A} (l : list A) i j x : sub l i j = Ret x → 0 <= i ∧ i <= j ∧ j <= zlen l.
Proof.
  intros (a & c & -> & -> & ->)%sub_Ret. rewrite !zlen_app.
  pose proof (zlen_nonneg a); pose proof (zlen_nonneg x); pose proof (zlen_nonneg c). lia.
Qed.

Lemma sub_total {A} (l : list A) i j : 0 <= i → i <= j → j <= zlen l → ∃ x, sub l i j = Ret x.
Proof. intros H1 H2 H3. unfold sub. replace (_ && _) with true by lia. eauto. Qed.

Lemma sub_panic {A} (l : list A) i j : ¬ (0 <= i ∧ i <= j ∧ j <= zlen l) → sub l i j = Panic.
Proof. intros H. unfold sub. by replace (_ && _) with false by lia. Qed.

Lemma sub_zlen {A} (l : list A) i j x : sub l i j = Ret x → zlen x = j - i.
Proof. intros (a & c & -> & -> & ->)%sub_Ret. lia. Qed.

Lemma sub_full {A} (l : list A) : sub l 0 (zlen l) = Ret l.
Proof. apply sub_Ret. exists [], []. cbn. rewrite app_nil_r. auto. Qed.

Lemma sub_prefix {A} (a b : list A) j : j = zlen a → sub (a ++ b) 0 j = Ret a.
Proof. intros ->. apply sub_Ret. exists [], b. auto. Qed.

Lemma sub_suffix {A} (a b : list A) i j : i = zlen a → j = zlen (a ++ b) → sub (a ++ b) i j = Ret b.
Proof. intros -> ->. apply sub_Ret. exists a, []. rewrite app_nil_r, zlen_app. auto. Qed.

Lemma text_at_sub s i j x : text_at s i j x ↔ sub s i j = Ret x.
Proof. rewrite sub_Ret. reflexivity. Qed.

Lemma idx_Ret {A} (l : list A) i x :
  idx l i = Ret x ↔ ∃ a c, l = a ++ x :: c ∧ i = zlen a.
Proof.
  unfold idx. destruct (0 <=? i) eqn:E; split.
  - destruct (l !! Z.to_nat i) as [y|] eqn:Hl; [|discriminate]. intros [= <-].
    exists (take (Z.to_nat i) l), (drop (S (Z.to_nat i)) l).
    rewrite take_drop_middle by done. split; [done|].
    apply lookup_lt_Some in Hl. unfold zlen. rewrite take_length. lia.
  - intros (a & c & -> & ->). unfold zlen. rewrite Nat2Z.id.
    rewrite list_lookup_middle by done. done.
  - discriminate.
  - intros (a & c & -> & ->). pose proof (zlen_nonneg a). lia.
Qed.

Lemma idx_lookup {A} (l : list A) i x : idx l i = Ret x ↔ 0 <= i ∧ l !! Z.to_nat i = Some x.
Proof.
  unfold idx. destruct (0 <=? i) eqn:E; [|split; [done|lia]].
  destruct (l !! Z.to_nat i) as [y|]; split; try (intros [? ?]; congruence); try discriminate.
  intros [= ->]. split; [lia|done].
Qed.

Lemma idx_total {A} (l : list A) i : 0 <= i < zlen l → ∃ x, idx l i = Ret x.
Proof.
  intros H. destruct (lookup_lt_is_Some_2 l (Z.to_nat i)) as [x Hx]; [unfold zlen in H; lia|].
  exists x. apply idx_lookup. split; [lia|done].
Qed.

Lemma idx_bounds {A} (l : list A) i x : idx l i = Ret x → 0 <= i < zlen l.
Proof. intros (a & c & -> & ->)%idx_Ret. rewrite zlen_app, zlen_cons. pose proof (zlen_nonneg a); pose proof (zlen_nonneg c); lia. Qed.

Lemma idx_panic {A} (l : list A) i : ¬ (0 <= i < zlen l) → idx l i = Panic.
Proof.
  intros H. destruct (idx l i) eqn:E; [|done]. apply idx_bounds in E. lia.
Qed.

Lemma idx_app_l {A} (a b : list A) i : i < zlen a → idx (a ++ b) i = idx a i.
Proof.
  intros H. unfold idx. destruct (0 <=? i) eqn:E; [|done].
  rewrite lookup_app_l; [done|]. unfold zlen in H. lia.
Qed.

Lemma idx_app_r {A} (a b : list A) i : zlen a <= i → idx (a ++ b) i = idx b (i - zlen a).
Proof.
  intros H. unfold idx. pose proof (zlen_nonneg a). replace (0 <=? i) with true by lia.
  replace (0 <=? i - zlen a) with true by lia.
  rewrite lookup_app_r by (unfold zlen in H; lia). unfold zlen.
  replace (Z.to_nat i - length a)%nat with (Z.to_nat (i - Z.of_nat (length a))) by lia. done.
Qed.

Lemma idx_repeat {A} (x : A) k i : 0 <= i < Z.of_nat k → idx (repeat x k) i = Ret x.
Proof.
  intros H. apply idx_lookup. split; [lia|].
  assert (Hm : (Z.to_nat i < k)%nat) by lia. revert Hm. generalize (Z.to_nat i) as m. clear H i.
  induction k as [|k IH]; intros [|m] Hm; try lia; cbn; [done|]. apply IH. lia.
Qed.

(** ** Boundaries *)

Lemma encode_pos r rs : 0 < zlen (encode (r :: rs)).
Proof. rewrite zlen_encode_cons. pose proof (rune_len_bounds r). pose proof (zlen_nonneg (encode rs)). lia. Qed.

Lemma scalars_app a b : scalars (a ++ b) ↔ scalars a ∧ scalars b.
Proof. apply Forall_app. Qed.

(** Splitting an encoding at a byte that is no continuation byte splits the rune list. *)
Lemma encode_split_noncont rs a x c :
  encode rs = a ++ x :: c → is_cont x = false →
  ∃ r1 r2, rs = r1 ++ r2 ∧ encode r1 = a ∧ encode r2 = x :: c.
Proof.
  revert a. induction rs as [|r rs IH]; intros a H Hx.
  { cbn in H. by destruct a. }
  rewrite encode_cons in H. destruct a as [|y a].
  { exists [], (r :: rs). by rewrite encode_cons. }
  destruct (encode_rune_head r) as (b & t & Hb & Hb1 & Ht & _). rewrite Hb in H. cbn in H.
  injection H as <- H.
  (* x cannot be inside t *)
  assert (∃ a', a = t ++ a') as [a' ->].
  { clear -H Ht Hx. revert a H. induction t as [|z t IHt]; intros a H; [by exists a|].
    inversion Ht as [|? ? Hz Ht']; subst. destruct a as [|w a]; cbn in H; injection H as Hw H.
    - subst. rewrite Hz in Hx. discriminate.
    - subst. destruct (IHt Ht' a H) as [a' ->]. by exists a'. }
  rewrite <- app_assoc in H. apply app_inv_head in H.
  destruct (IH _ H Hx) as (r1 & r2 & -> & <- & Hr2).
  exists (r :: r1), r2. split; [done|]. split; [|done]. rewrite encode_cons, Hb. done.
Qed.

(** A string cut at a boundary splits the rune list. *)
Lemma boundary_split rs i :
  scalars rs → boundary (encode rs) i → ∃ r1 r2, rs = r1 ++ r2 ∧ i = zlen (encode r1).
Proof.
  intros Hs (a & b & Ha & Hb & Heq & ->). rewrite <- encode_app in Heq.
  apply encode_inj_scalars in Heq; [|done|by apply Forall_app]. subst. eauto.
Qed.

Lemma boundary_app a b : scalars a → scalars b → boundary (encode (a ++ b)) (zlen (encode a)).
Proof. intros Ha Hb. exists a, b. rewrite encode_app. auto. Qed.

Lemma boundary_range s i : boundary s i → 0 <= i <= zlen s.
Proof.
  intros (a & b & _ & _ & -> & ->). rewrite zlen_app. pose proof (zlen_nonneg (encode a)).
  pose proof (zlen_nonneg (encode b)). lia.
Qed.

Lemma boundary_0 rs : scalars rs → boundary (encode rs) 0.
Proof. intros H. exists [], rs. repeat split; [constructor|done]. Qed.

Lemma boundary_len rs : scalars rs → boundary (encode rs) (zlen (encode rs)).
Proof. intros H. exists rs, []. repeat split; [done|constructor|]. cbn. by rewrite app_nil_r. Qed.

Lemma sanitized_encode rs : ∃ rs', scalars rs' ∧ encode rs' = encode rs.
Proof. exists (map sanitize rs). split; [apply scalars_sanitize|apply encode_sanitize]. Qed.

(** ** IsRuneBoundary *)
Lemma is_rune_boundary_total s i : ∃ b, is_rune_boundary s i = Ret b.
Proof.
  unfold is_rune_boundary. destruct ((i =? 0) || (i =? zlen s)) eqn:E1; [eauto|].
  destruct ((i <? 0) || (zlen s <? i)) eqn:E2; [eauto|].
  destruct (idx_total s i) as [x Hx]; [lia|]. rewrite Hx. cbn. eauto.
Qed.

Lemma is_rune_boundary_spec rs i b :
  scalars rs → is_rune_boundary (encode rs) i = Ret b → (b = true ↔ boundary (encode rs) i).
Proof.
  intros Hs. unfold is_rune_boundary.
  destruct ((i =? 0) || (i =? zlen (encode rs))) eqn:E1.
  { intros [= <-]. split; [intros _|done]. apply orb_true_iff in E1 as [E1|E1]; apply Z.eqb_eq in E1; subst i;
      [by apply boundary_0|by apply boundary_len]. }
  destruct ((i <? 0) || (zlen (encode rs) <? i)) eqn:E2.
  { intros [= <-]. split; [done|]. intros H%boundary_range. lia. }
  intros (x & Hx & [= <-])%bind_Ret.
  pose proof Hx as (a & c & Heq & ->)%idx_Ret.
  assert (Hb : 0 <= x <= 255).
  { pose proof (encode_bytes rs) as H. rewrite Heq in H. apply Forall_app in H as [_ H]. by inversion H. }
  assert (Hc : (-64 <=? (if x <? 128 then x else x - 256)) = negb (is_cont x)).
  { unfold is_cont, byte_in. destruct (x <? 128) eqn:?; lia. }
  rewrite Hc. split.
  - intros Hn%negb_true_iff. destruct (encode_split_noncont _ _ _ _ Heq Hn) as (r1 & r2 & -> & <- & _).
    apply scalars_app in Hs as [H1 H2]. by apply boundary_app.
  - intros Hbd. destruct (boundary_split _ _ Hs Hbd) as (r1 & r2 & -> & Hl).
    rewrite encode_app in Heq. destruct r2 as [|r r2].
    { rewrite app_nil_r in E1. lia. }
    apply negb_true_iff.
    destruct (encode_rune_head r) as (y & t & Hy & Hcont & _). rewrite encode_cons, Hy in Heq.
    apply app_inj_1 in Heq as [_ Heq]; [|unfold zlen in Hl; lia]. cbn in Heq. injection Heq as <- _. done.
Qed.

Lemma is_rune_boundary_true rs i :
  scalars rs → boundary (encode rs) i → is_rune_boundary (encode rs) i = Ret true.
Proof.
  intros Hs Hb. destruct (is_rune_boundary_total (encode rs) i) as [b E].
  rewrite E. f_equal. by apply (is_rune_boundary_spec rs i b).
Qed.

Lemma is_rune_boundary_false rs i :
  scalars rs → ¬ boundary (encode rs) i → is_rune_boundary (encode rs) i = Ret false.
Proof.
  intros Hs Hb. destruct (is_rune_boundary_total (encode rs) i) as [b E].
  rewrite E. f_equal. destruct b; [|done]. destruct Hb. by apply (is_rune_boundary_spec rs i true).
Qed.

(** ** Ranging over a string *)
Fixpoint rune_positions (i : Z) (rs : list Z) : list (Z * Z) :=
  match rs with
  | [] => []
  | r :: rs' => (i, r) :: rune_positions (i + rune_len r) rs'
  end.

Lemma positions_encode i rs :
  scalars rs → positions i (decode (encode rs)) = rune_positions i rs.
Proof.
  rewrite decode_encode. intros Hs. revert i. induction Hs as [|r rs Hr Hs IH]; intros i; [done|].
  cbn. rewrite sanitize_id by done. by rewrite IH.
Qed.

Lemma range_str_encode rs : scalars rs → range_str (encode rs) = rune_positions 0 rs.
Proof. apply positions_encode. Qed.
