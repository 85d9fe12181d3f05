(** Proofs of exact conditions (PropsExact.v). *)
From Coq Require Import ZifyBool Sorted.
From Verif Require Import GoBase Utf8Facts Strutils SplitPattern NormString SpecText SpecNorm SpecNormalizers SliceFacts StrutilsFacts
  PatternFacts NormFacts NormInv NormEdits.
Import GoBase NormString SpecNorm.
#[local] Open Scope Z_scope.

(** ** Byte lengths and character counts *)
Lemma encode_rune_small r : scalar r = true → rune_len r = 1 → r < 128.
Proof.
  intros Hs Hl. destruct (Z.ltb_spec r 0x80) as [|Hr]; [done|]. exfalso. revert Hl.
  unfold rune_len, encode_rune. rewrite sanitize_id by done. unfold encode_scalar.
  replace (r <? 0x80) with false by lia. destruct (r <? 0x800); [done|]. by destruct (r <? 0x10000).
Qed.
Lemma encode_count rs : zlen rs <= zlen (encode rs).
Proof. induction rs as [|r rs IH]; [done|]. rewrite zlen_cons, zlen_encode_cons. pose proof (rune_len_bounds r). lia. Qed.
Lemma encode_count_ascii rs : scalars rs → (zlen (encode rs) = zlen rs ↔ Forall (λ r, r < 128) rs).
Proof.
  induction rs as [|r rs IH]; intros Hs; [split; [constructor|done]|].
  inversion Hs as [|? ? Hr Hs']; subst. rewrite zlen_cons, zlen_encode_cons, Forall_cons.
  pose proof (rune_len_bounds r). pose proof (encode_count rs). rewrite <- (IH Hs'). split.
  - intros E. split; [apply encode_rune_small; [done|lia]|lia].
  - intros [E1 E2]. assert (rune_len r = 1); [|lia]. unfold rune_len. apply scalar_spec in Hr. rewrite encode_rune_ascii by lia. done.
Qed.
Lemma alen_count v : scalars v.*1 → (alen v = zlen v ↔ Forall (λ p, p.1 < 128) v).
Proof.
  intros Hs. unfold alen. replace (zlen v) with (zlen v.*1) by (unfold zlen; by rewrite fmap_length).
  rewrite (encode_count_ascii _ Hs). by rewrite Forall_fmap.
Qed.
Lemma alen_ge v : zlen v <= alen v.
Proof. unfold alen. replace (zlen v) with (zlen v.*1) by (unfold zlen; by rewrite fmap_length). apply encode_count. Qed.

(** ** Transform with a count of runes for an offset *)
Lemma transform_head n r c dest k n' : c <= 0 → transform n ((r, c) :: dest) k = Ret n' →
  ∃ a l, idx (ns_al n) k = Ret a ∧ ns_al n' = a :: l.
Proof.
  intros Hc H. unfold transform, transform_range in H. cbn [coerce_to_norm negb] in H. unfold ns_len in H. rewrite sub_full in H.
  cbn [mbind outcome_bind] in H. apply bind_Ret in H as (r0 & Hr0 & H).
  apply bind_Ret in H as (rest & _ & H). apply bind_Ret in H as (x & Hx & H).
  apply bind_Ret in H as (ab & Hab & H). apply bind_Ret in H as (aa & _ & H).
  apply bind_Ret in H as (nb & _ & H). apply bind_Ret in H as (na & _ & H). injection H as <-. cbn [ns_al].
  apply sub_zlen in Hr0, Hab. rewrite Z.sub_0_r in Hr0. destruct ab; [|rewrite zlen_cons in Hab; pose proof (zlen_nonneg ab); lia].
  cbn [app]. rewrite Hr0, Z.add_0_r in Hx. cbn [tr_loop] in Hx. replace (1 <=? c) with false in Hx by lia.
  apply bind_Ret in Hx as (a & Ha & Hx). apply bind_Ret in Hx as ([size rs1] & _ & Hx).
  apply bind_Ret in Hx as ([total rs2] & _ & Hx). apply bind_Ret in Hx as (z & _ & [= <-]). cbn [fst].
  pose proof (rune_len_bounds r) as Hb. unfold rune_len, zlen in Hb. destruct (length (encode_rune r)) as [|m]; [lia|].
  exists a, (repeat a m ++ z.1 ++ aa). split; [done|]. cbn [repeat app]. by rewrite !app_assoc.
Qed.

(** In a fresh text, no byte of the characters [l] has the span of the character after them. *)
Lemma fresh_differs l c r k a : 0 <= k < zlen (encode l) →
  idx (spans_of (fresh 0 (l ++ c :: r))) k = Ret a → a ≠ (zlen (encode l), zlen (encode l) + rune_len c).
Proof.
  intros Hk Ha ->. rewrite fresh_app, spans_of_app, idx_app_l in Ha.
  2: { rewrite zlen_spans. unfold alen. rewrite fresh_chars. lia. }
  apply idx_spans_in in Ha. apply fresh_in in Ha as (l1 & x & l2 & -> & Ha). injection Ha as Ha _.
  rewrite Z.add_0_l, encode_app, zlen_app, zlen_encode_cons in Ha. pose proof (rune_len_bounds x). pose proof (zlen_nonneg (encode l2)). lia.
Qed.

Lemma wrong_start l c r d cs k n' w : scalars (l ++ c :: r) → cs <= 0 → zlen l = k → zlen l < zlen (encode l) →
  transform (from_string (encode (l ++ c :: r))) ((d, cs) :: w) k = Ret n' →
  ∀ x v, ¬ repr n' ((x, (zlen (encode l), zlen (encode l) + rune_len c)) :: v).
Proof.
  intros Hs Hc <- Hl H x v (_ & _ & Hr). apply transform_head in H as (a & l' & Ha & E); [|done].
  destruct (from_string_repr _ Hs) as (_ & _ & Hal). rewrite Hal in Ha. apply fresh_differs in Ha; [|pose proof (zlen_nonneg l); lia].
  rewrite spans_of_cons, E in Hr. pose proof (rune_len_bounds x) as Hb. unfold rune_len, zlen in Hb.
  destruct (length (encode_rune x)) as [|m]; [lia|]. cbn [repeat app] in Hr. by injection Hr as Hr _.
Qed.

Lemma first_kept (keep : Z → bool) rs : Forall (λ r, keep r = false) rs ∨
  ∃ l c r, rs = l ++ c :: r ∧ Forall (λ r, keep r = false) l ∧ keep c = true.
Proof.
  induction rs as [|x rs IH]; [by left|]. destruct (keep x) eqn:E.
  - right. by exists [], x, rs.
  - destruct IH as [IH|(l & c & r & -> & Hl & Hc)]; [left; by constructor|right].
    exists (x :: l), c, r. split; [done|]. split; [by constructor|done].
Qed.

(** ** Filter *)
Lemma filter_loop_first keep l c r removed : Forall (λ r, keep r = false) l → keep c = true →
  ∃ cs w, filter_loop keep (l ++ c :: r) None removed 0 = ((c, cs) :: w, removed + zlen l) ∧ cs <= 0.
Proof.
  intros Hl Hc. revert removed. induction Hl as [|x l Hx Hl IH]; intros removed; cbn [app filter_loop].
  - rewrite Hc. cbn [negb]. change (zlen (@nil Z)) with 0. rewrite Z.add_0_r. clear -keep. 
    assert (∀ l rm, 0 <= rm → ∃ cs w, filter_loop keep r (Some l) rm removed = ((l, cs) :: w, removed) ∧ cs <= 0) as H.
    { clear. induction r as [|x r IH]; intros l rm Hrm; cbn [filter_loop].
      - do 2 eexists. split; [done|lia].
      - destruct (keep x); cbn [negb]; [|apply IH; lia]. destruct (IH x 0 ltac:(lia)) as (cs & w & -> & _). cbn [fst snd].
        do 2 eexists. split; [done|lia]. }
    by apply H.
  - rewrite Hx. cbn [negb]. destruct (IH (removed + 1)) as (cs & w & E & Hcs). exists cs, w. rewrite E, zlen_cons.
    split; [f_equal; lia|done].
Qed.

Lemma fresh_filter keep i l c r : Forall (λ r, keep r = false) l → keep c = true →
  base.filter (λ p, keep p.1 = true) (fresh i (l ++ c :: r))
  = (c, (i + zlen (encode l), i + zlen (encode l) + rune_len c)) :: base.filter (λ p, keep p.1 = true) (fresh (i + zlen (encode l) + rune_len c) r).
Proof.
  intros Hl Hc. revert i. induction Hl as [|x l Hx Hl IH]; intros i; cbn [app fresh]; rewrite filter_cons; cbn [fst].
  - rewrite decide_True by done. rewrite zlen_encode_nil. by rewrite Z.add_0_r.
  - rewrite decide_False by congruence. rewrite IH, zlen_encode_cons. by rewrite !Z.add_assoc.
Qed.

Lemma filter_needs rs keep : scalars rs →
  (∃ n', filter_runes (from_string (encode rs)) keep = Ret n' ∧ repr n' (base.filter (λ p, keep p.1 = true) (fresh 0 rs)))
  → ascii_lead (λ r, keep r = false) rs.
Proof.
  intros Hs (n' & H & Hr) l c r -> Hl Hc%not_false_is_true.
  destruct (from_string_repr _ Hs) as (_ & Hn & _). unfold filter_runes in H. rewrite (repr_runes _ _ (from_string_repr _ Hs)), fresh_chars in H.
  destruct (filter_loop_first keep l c r 0 Hl Hc) as (cs & w & E & Hcs). rewrite E in H. cbn [fst snd] in H. rewrite Z.add_0_l in H.
  rewrite (fresh_filter keep 0 l c r Hl Hc) in Hr. rewrite Z.add_0_l in Hr.
  apply encode_count_ascii; [by apply scalars_app in Hs as [? _]|].
  pose proof (encode_count l). destruct (decide (zlen l < zlen (encode l))) as [Hlt|]; [|lia].
  exfalso. by eapply wrong_start in Hr.
Qed.

(** ** Trim *)
Lemma trim_needs left right lead mid trail n' : scalars (lead ++ mid ++ trail) →
  trimmed left right (fresh 0 lead) (fresh (zlen (encode lead)) mid) (fresh (zlen (encode (lead ++ mid))) trail) →
  trim_left_right (from_string (encode (lead ++ mid ++ trail))) left right = Ret n' →
  repr n' (fresh (zlen (encode lead)) mid) → Forall (λ r, r < 128) lead ∨ mid = [].
Proof.
  intros Hs Ht H Hr. destruct mid as [|c mid]; [by right|left].
  apply encode_count_ascii; [by apply scalars_app in Hs as [? _]|].
  pose proof (encode_count lead). destruct (decide (zlen lead < zlen (encode lead))) as [Hlt|]; [|lia]. exfalso.
  pose proof (from_string_repr _ Hs) as Hf. rewrite !fresh_app, !Z.add_0_l in Hf.
  rewrite encode_app, zlen_app in Ht.
  assert (fresh (zlen (encode lead)) (c :: mid) ≠ []) as Hne by done. destruct (exists_last Hne) as (m & [x a] & Em). rewrite Em in Ht, Hf.
  rewrite (trim_eq _ left right (fresh 0 lead) m x a _ Hf Ht) in H.
  assert (zlen (fresh 0 lead) = zlen lead) as Hz.
  { rewrite <- (fresh_chars 0 lead) at 2. unfold zlen. by rewrite fmap_length. }
  rewrite Hz in H. destruct (Z.eqb_spec (zlen lead) 0) as [E0|_].
  { destruct lead; [|rewrite zlen_cons in E0; pose proof (zlen_nonneg lead); lia]. vm_compute in Hlt. done. }
  cbn [andb] in H. cbn [fresh] in Hr, Em.
  destruct m as [|[y b] m].
  - cbn [app map] in H. rewrite fmap_nil in H. cbn [map app] in H.
    refine (wrong_start lead c (mid ++ trail) x _ _ n' _ Hs _ eq_refl Hlt H c _ Hr).
    pose proof (zlen_nonneg (fresh (zlen (encode lead) + zlen (encode (c :: mid))) trail).*1). lia.
  - rewrite fmap_cons in H. cbn [map app fst] in H.
    exact (wrong_start lead c (mid ++ trail) y 0 _ n' _ Hs ltac:(lia) eq_refl Hlt H c _ Hr).
Qed.

(** ** Append, Prepend *)
Lemma append_needs n v x a p n' : repr n (v ++ [(x, a)]) → append n p = Ret n' →
  ns_norm n' = encode (v.*1 ++ x :: runes p) → Forall (λ q, q.1 < 128) v.
Proof.
  intros Hr H Hn'. pose proof Hr as (Hs & Hn & _). unfold append in H. rewrite fmap_app, scalars_app in Hs. destruct Hs as [Hs _].
  destruct (zlen (ns_norm n) =? 0) eqn:E.
  { rewrite Hn, fmap_app, encode_app, zlen_app in E. pose proof (zlen_nonneg (encode v.*1)).
    pose proof (encode_pos x []). change ([(x, a)].*1) with [x] in E. lia. }
  rewrite (repr_runes _ _ Hr) in H. rewrite fmap_app in H. change ([(x, a)].*1) with [x] in H. rewrite zlen_app in H. change (zlen [x]) with 1 in H.
  replace (zlen v.*1 + 1 - 1) with (zlen v.*1) in H by lia.
  rewrite idx_app_r in H by lia. rewrite Z.sub_diag in H. change (idx [x] 0) with (Ret x) in H. cbn [mbind outcome_bind] in H.
  unfold transform_range in H. cbn [coerce_to_norm negb] in H.
  apply bind_Ret in H as (rp & _ & H). apply bind_Ret in H as (rm & _ & H). apply bind_Ret in H as (rest & _ & H).
  apply bind_Ret in H as (y & Hy%tr_loop_text & H). apply bind_Ret in H as (ab & _ & H). apply bind_Ret in H as (aa & _ & H).
  apply bind_Ret in H as (nb & Hnb%sub_zlen & H). apply bind_Ret in H as (na & Hna%sub_zlen & H). injection H as <-. cbn [ns_norm] in Hn'.
  unfold ns_len in Hna. destruct na; [|rewrite zlen_cons in Hna; pose proof (zlen_nonneg na); lia].
  rewrite app_nil_r in Hn'. apply (f_equal zlen) in Hn'. rewrite zlen_app, Hy, fmap_cons, map_fst_pairs in Hn'. cbn [fst] in Hn'.
  rewrite encode_app, zlen_app in Hn'. apply alen_count; [done|]. unfold alen.
  replace (zlen v) with (zlen v.*1) by (unfold zlen; by rewrite fmap_length). lia.
Qed.

Lemma prepend_nothing n x a v : repr n ((x, a) :: v) →
  ∃ n', prepend n [] = Ret n' ∧ repr n' ((x, (0, 0)) :: v) ∧ same_origin n n'.
Proof.
  intros Hr. pose proof Hr as (Hs & Hn & _). unfold prepend.
  rewrite fmap_cons in Hn, Hs. cbn [fst] in *. inversion Hs as [|? ? Hx Hs']; subst.
  destruct (zlen (ns_norm n) =? 0) eqn:E. { rewrite Hn in E. pose proof (encode_pos x v.*1). lia. }
  rewrite (repr_runes _ _ Hr), fmap_cons. cbn [fst]. change (idx (x :: v.*1) 0) with (Ret x). cbn [mbind outcome_bind].
  change (prepend_changes []) with (@nil (Z * Z)). cbn [app].
  pose proof (transform_range_repr n [] [] [(x, a)] v [(x, 1)] [(x, (0, 0))]) as H. cbn [app] in H. rewrite !alen_nil, alen_cons, alen_nil in H.
  rewrite Z.add_0_r in H. apply H; [done|]. cbn. by rewrite sanitize_id.
Qed.
