(** Proofs about NormalizedString. *)
From Coq Require Import ZifyBool Sorted.
From Verif Require Import GoBase Utf8Facts Strutils SplitPattern NormString SpecText SpecNorm SliceFacts PatternFacts.

(** ** Aligned text *)
Lemma spans_of_app a b : spans_of (a ++ b) = spans_of a ++ spans_of b.
Proof. apply flat_map_app. Qed.

Lemma spans_of_cons r a v : spans_of ((r, a) :: v) = repeat a (length (encode_rune r)) ++ spans_of v.
Proof. reflexivity. Qed.

Lemma alen_app a b : alen (a ++ b) = alen a + alen b.
Proof. unfold alen. by rewrite fmap_app, encode_app, zlen_app. Qed.

Lemma alen_cons r a v : alen ((r, a) :: v) = rune_len r + alen v.
Proof. unfold alen. rewrite fmap_cons. apply zlen_encode_cons. Qed.

Lemma alen_nil : alen [] = 0.
Proof. reflexivity. Qed.

Lemma alen_nonneg v : 0 <= alen v.
Proof. apply zlen_nonneg. Qed.

Lemma alen_pos p v : 0 < alen (p :: v).
Proof. destruct p. rewrite alen_cons. pose proof (rune_len_bounds z). pose proof (alen_nonneg v). lia. Qed.

Lemma alen_0 v : alen v = 0 → v = [].
Proof. destruct v as [|p v]; [done|]. pose proof (alen_pos p v). lia. Qed.

Lemma zlen_spans v : zlen (spans_of v) = alen v.
Proof.
  induction v as [|[r a] v IH]; [done|].
  rewrite spans_of_cons, zlen_app, zlen_repeat, alen_cons, IH. reflexivity.
Qed.

Lemma length_spans v : length (spans_of v) = length (encode v.*1).
Proof. pose proof (zlen_spans v). unfold alen, zlen in *. lia. Qed.

Lemma idx_spans_middle pre r a post k :
  0 <= k < rune_len r → idx (spans_of (pre ++ (r, a) :: post)) (alen pre + k) = Ret a.
Proof.
  intros Hk. rewrite spans_of_app, idx_app_r by (rewrite zlen_spans; lia).
  rewrite zlen_spans. replace (alen pre + k - alen pre) with k by lia.
  rewrite spans_of_cons, idx_app_l by (rewrite zlen_repeat; unfold rune_len, zlen in Hk; lia).
  apply idx_repeat. unfold rune_len, zlen in Hk. lia.
Qed.

Lemma idx_spans_inv v i a :
  idx (spans_of v) i = Ret a →
  ∃ pre r post k, v = pre ++ (r, a) :: post ∧ i = alen pre + k ∧ 0 <= k < rune_len r.
Proof.
  revert i. induction v as [|[r b] v IH]; intros i H.
  { apply idx_bounds in H. change (zlen (spans_of [])) with 0 in H. lia. }
  pose proof (idx_bounds _ _ _ H) as Hb.
  destruct (decide (i < rune_len r)) as [Hi|Hi].
  - rewrite spans_of_cons, idx_app_l in H by (rewrite zlen_repeat; unfold rune_len, zlen in Hi; lia).
    rewrite idx_repeat in H by (unfold rune_len, zlen in Hi; lia). injection H as <-.
    exists [], r, v, i. split; [done|]. rewrite alen_nil. lia.
  - rewrite spans_of_cons, idx_app_r in H by (rewrite zlen_repeat; unfold rune_len, zlen in Hi; lia).
    rewrite zlen_repeat in H. change (Z.of_nat (length (encode_rune r))) with (rune_len r) in H.
    destruct (IH _ H) as (pre & r' & post & k & -> & Hik & Hk).
    exists ((r, b) :: pre), r', post, k. split; [done|]. rewrite alen_cons. lia.
Qed.

Lemma last_span_snoc v p : last_span (v ++ [p]) = p.2.
Proof. unfold last_span. rewrite fmap_app. cbn. by rewrite last_snoc. Qed.

Lemma idx_spans_last pre post :
  pre ≠ [] → idx (spans_of (pre ++ post)) (alen pre - 1) = Ret (last_span pre).
Proof.
  intros H. destruct (exists_last H) as (pre' & [r a] & ->).
  rewrite last_span_snoc. rewrite alen_app, alen_cons, alen_nil. rewrite <- app_assoc. cbn [app].
  replace (alen pre' + (rune_len r + 0) - 1) with (alen pre' + (rune_len r - 1)) by lia.
  apply idx_spans_middle. pose proof (rune_len_bounds r). lia.
Qed.

Lemma last_span_app a b : b ≠ [] → last_span (a ++ b) = last_span b.
Proof.
  intros H. destruct (exists_last H) as (b' & p & ->). rewrite app_assoc, !last_span_snoc. done.
Qed.

(** ** FromString *)
Lemma fresh_chars i rs : (fresh i rs).*1 = rs.
Proof. revert i. induction rs as [|r rs IH]; intros i; [done|]. cbn. by rewrite IH. Qed.

Lemma alignments_from_string_spec rs :
  scalars rs → alignments_from_string (encode rs) = spans_of (fresh 0 rs).
Proof.
  intros Hs. unfold alignments_from_string. rewrite range_str_encode by done.
  generalize 0 as i. induction rs as [|r rs IH]; intros i; [done|].
  inversion Hs; subst. cbn [rune_positions flat_map fresh]. rewrite spans_of_cons. f_equal. by apply IH.
Qed.

Lemma from_string_repr rs : scalars rs → repr (from_string (encode rs)) (fresh 0 rs).
Proof.
  intros Hs. unfold repr, from_string. cbn [ns_norm ns_al]. rewrite fresh_chars.
  split; [done|]. split; [done|]. by apply alignments_from_string_spec.
Qed.

Lemma fresh_app i a b : fresh i (a ++ b) = fresh i a ++ fresh (i + zlen (encode a)) b.
Proof.
  revert i. induction a as [|r a IH]; intros i; cbn [fresh app].
  - by rewrite zlen_encode_nil, Z.add_0_r.
  - rewrite IH. rewrite zlen_encode_cons. do 3 f_equal. lia.
Qed.

Lemma fresh_in i rs a :
  a ∈ (fresh i rs).*2 → ∃ l r l', rs = l ++ r :: l' ∧ a = (i + zlen (encode l), i + zlen (encode l) + rune_len r).
Proof.
  revert i. induction rs as [|r rs IH]; intros i; cbn; [by intros ?%elem_of_nil|].
  intros [->|H]%elem_of_cons.
  - exists [], r, rs. split; [done|]. rewrite zlen_encode_nil. f_equal; lia.
  - destruct (IH _ H) as (l & x & l' & -> & ->). exists (r :: l), x, l'. split; [done|].
    rewrite zlen_encode_cons. f_equal; lia.
Qed.

Lemma fresh_aligned rs : scalars rs → aligned_over (encode rs) (fresh 0 rs).
Proof.
  intros Hs. split.
  - apply Forall_forall. intros a (l & r & l' & -> & ->)%fresh_in. unfold span_ok. cbn [fst snd]. rewrite Z.add_0_l.
    pose proof (rune_len_bounds r). split; [lia|].
    apply scalars_app in Hs as [H1 H2]. split; [by apply boundary_app|].
    replace (zlen (encode l) + rune_len r) with (zlen (encode (l ++ [r]))).
    2: { rewrite encode_app, zlen_app, zlen_encode_cons, zlen_encode_nil. lia. }
    replace (l ++ r :: l') with ((l ++ [r]) ++ l') by by rewrite <- app_assoc.
    inversion H2; subst. apply boundary_app; [|done]. apply scalars_app; repeat (constructor || done).
  - clear Hs. generalize 0 as i. induction rs as [|r rs IH]; intros i; cbn; constructor; [apply IH|].
    apply Forall_forall. intros a (l & x & l' & -> & ->)%fresh_in. right. cbn.
    pose proof (zlen_nonneg (encode l)). lia.
Qed.

Lemma from_string_wf rs : scalars rs → wf_as (from_string (encode rs)) (fresh 0 rs).
Proof.
  intros Hs. split; [by apply from_string_repr|]. split; [apply valid_utf8_encode|].
  by apply fresh_aligned.
Qed.

(** ** TransformRange *)
Lemma rewrite_prev_app (a : Z * Z) (pre : atext) x (t : atext) :
  default a (last t.*2) = last_span (pre ++ (x, a) :: t).
Proof.
  destruct (decide (t = [])) as [->|Hne].
  - by rewrite last_span_snoc.
  - destruct (exists_last Hne) as (t' & p & ->).
    replace (pre ++ (x, a) :: t' ++ [p]) with ((pre ++ (x, a) :: t') ++ [p]) by by rewrite <- app_assoc.
    rewrite last_span_snoc, fmap_app. cbn. by rewrite last_snoc.
Qed.

Lemma fmap_fst_take {A B} k (v : list (A * B)) : (take k v).*1 = take k v.*1.
Proof. apply fmap_take. Qed.

Lemma tr_loop_spec dest pre src post :
  tr_loop (spans_of (pre ++ src ++ post)) dest (alen pre) src.*1 =
  match rewrite_chars (last_span pre) src dest with
  | Some w => Ret (spans_of w, encode w.*1)
  | None => Panic
  end.
Proof.
  revert pre src. induction dest as [|[r c] dest IH]; intros pre src; [done|].
  cbn [tr_loop rewrite_chars].
  assert (Henc : ∀ a w, spans_of ((sanitize r, a) :: w) = repeat a (length (encode_rune r)) ++ spans_of w
                      ∧ encode ((sanitize r, a) :: w).*1 = encode_rune r ++ encode w.*1).
  { intros a w. rewrite spans_of_cons, fmap_cons, encode_cons. cbn [fst].
    by rewrite encode_rune_sanitize. }
  destruct (1 <=? c) eqn:Hc.
  - replace (c <=? 0) with false by lia. replace (c <=? -1) with false by lia.
    assert (Ha : (if alen pre <? 1 then Ret (0, 0) else idx (spans_of (pre ++ src ++ post)) (alen pre - 1))
                 = Ret (last_span pre)).
    { destruct (alen pre <? 1) eqn:E.
      - assert (pre = []) as ->; [|done]. apply alen_0. pose proof (alen_nonneg pre). lia.
      - apply idx_spans_last. intros ->. rewrite alen_nil in E. lia. }
    rewrite Ha. cbn [mbind outcome_bind]. rewrite !Z.add_0_r, IH.
    destruct (rewrite_chars (last_span pre) src dest) as [w|]; [|done].
    cbn [mbind outcome_bind option_bind fst snd]. destruct (Henc (last_span pre) w) as [-> ->]. done.
  - destruct src as [|[x a] src].
    { replace (c <=? 0) with true by lia. cbn [fmap list_fmap].
      by destruct (idx (spans_of (pre ++ [] ++ post)) (alen pre)). }
    rewrite <- (Z.add_0_r (alen pre)) at 1.
    rewrite fmap_cons. cbn [app]. rewrite (idx_spans_middle pre x a (src ++ post) 0) by (pose proof (rune_len_bounds x); lia).
    replace (c <=? 0) with true by lia. cbn [fst mbind outcome_bind].
    destruct (decide (Z.to_nat (- c) <= length src)%nat) as [Hk|Hk].
    + set (k := Z.to_nat (- c)) in *.
      assert (Hy : (if c <=? -1
                    then removed ← sub src.*1 0 (- c);
                         rest ← sub src.*1 (- c) (zlen src.*1); Ret (zlen (encode removed), rest)
                    else Ret (0, src.*1)) = Ret (alen (take k src), (drop k src).*1)).
      { destruct (c <=? -1) eqn:Hc1.
        - assert (Hsrc : src.*1 = (take k src).*1 ++ (drop k src).*1) by by rewrite <- fmap_app, take_drop.
          assert (Hl : zlen (take k src).*1 = - c).
          { unfold zlen. rewrite fmap_length, take_length. lia. }
          rewrite Hsrc at 1. rewrite sub_prefix by done. cbn [mbind outcome_bind].
          rewrite Hsrc at 1. rewrite sub_suffix by (done || by rewrite Hsrc). done.
        - replace k with 0%nat by lia. rewrite drop_0. done. }
      rewrite Hy. cbn [mbind outcome_bind].
      assert (Hpre : pre ++ (x, a) :: src ++ post = (pre ++ (x, a) :: take k src) ++ drop k src ++ post).
      { rewrite <- app_assoc. cbn [app]. by rewrite (app_assoc (take k src)), take_drop. }
      rewrite Hpre.
      replace (alen pre + rune_len x + alen (take k src)) with (alen (pre ++ (x, a) :: take k src))
        by (rewrite alen_app, alen_cons; lia).
      rewrite IH. rewrite (rewrite_prev_app a pre x (take k src)).
      destruct (rewrite_chars _ (drop k src) dest) as [w|]; [|done].
      cbn [mbind outcome_bind option_bind fst snd]. destruct (Henc a w) as [-> ->]. done.
    + replace (c <=? -1) with true by lia.
      rewrite (sub_panic _ 0 (- c)); [done|]. unfold zlen. rewrite fmap_length. lia.
Qed.

Lemma transform_range_spec n v1 v0 v2 v3 dest :
  repr n (v1 ++ v0 ++ v2 ++ v3) →
  transform_range n (NRange (alen v1) (alen (v1 ++ v0 ++ v2))) dest (alen v0) =
  match rewrite_chars (last_span (v1 ++ v0)) v2 dest with
  | Some w => Ret (NS (ns_orig n) (encode (v1 ++ w ++ v3).*1) (spans_of (v1 ++ w ++ v3)) (ns_shift n))
  | None => Panic
  end.
Proof.
  intros (Hs & Hn & Ha). unfold transform_range. cbn [coerce_to_norm negb]. rewrite Hn, Ha.
  assert (Hsplit : encode (v1 ++ v0 ++ v2 ++ v3).*1 = encode v1.*1 ++ encode (v0 ++ v2).*1 ++ encode v3.*1).
  { rewrite !fmap_app, !encode_app. by rewrite <- !app_assoc. }
  assert (Hsplit' : spans_of (v1 ++ v0 ++ v2 ++ v3) = spans_of v1 ++ spans_of (v0 ++ v2) ++ spans_of v3).
  { rewrite !spans_of_app. by rewrite <- !app_assoc. }
  rewrite Hsplit. rewrite (sub_app3 _ _ _ (alen v1) (alen (v1 ++ v0 ++ v2))); [|reflexivity|apply alen_app].
  cbn [mbind outcome_bind].
  assert (Hv02 : encode (v0 ++ v2).*1 = encode v0.*1 ++ encode v2.*1) by by rewrite fmap_app, encode_app.
  rewrite Hv02. rewrite (sub_prefix (encode v0.*1) (encode v2.*1) (alen v0)) by reflexivity.
  cbn [mbind outcome_bind].
  rewrite (sub_suffix (encode v0.*1) (encode v2.*1) (alen v0)) by reflexivity.
  cbn [mbind outcome_bind].
  rewrite runes_encode_scalars.
  2: { rewrite !fmap_app in Hs. rewrite !scalars_app in Hs. tauto. }
  replace (zlen (encode v0.*1) + alen v1) with (alen (v1 ++ v0)) by (rewrite alen_app; unfold alen; lia).
  rewrite (app_assoc v1 v0 (v2 ++ v3)). rewrite tr_loop_spec.
  destruct (rewrite_chars (last_span (v1 ++ v0)) v2 dest) as [w|]; [|done].
  cbn [mbind outcome_bind fst snd].
  rewrite <- !(app_assoc v1 v0 (v2 ++ v3)). rewrite Hsplit'.
  rewrite (sub_prefix (spans_of v1)) by (by rewrite zlen_spans). cbn [mbind outcome_bind].
  rewrite (app_assoc (spans_of v1)). rewrite (sub_suffix (spans_of v1 ++ spans_of (v0 ++ v2))).
  2: { rewrite zlen_app, !zlen_spans. rewrite !alen_app. lia. }
  2: done.
  cbn [mbind outcome_bind]. rewrite <- Hv02.
  rewrite (sub_prefix (encode v1.*1)) by done. cbn [mbind outcome_bind].
  rewrite (app_assoc (encode v1.*1)). rewrite (sub_suffix (encode v1.*1 ++ encode (v0 ++ v2).*1)).
  2: { rewrite zlen_app. apply alen_app. }
  2: done.
  cbn [mbind outcome_bind]. rewrite !fmap_app, !encode_app, !spans_of_app. done.
Qed.

Lemma rewrite_chars_scalars prev src dest w : rewrite_chars prev src dest = Some w → scalars w.*1.
Proof.
  revert prev src w. induction dest as [|[r c] dest IH]; intros prev src w; cbn [rewrite_chars].
  { intros [= <-]. constructor. }
  destruct (1 <=? c).
  - destruct (rewrite_chars prev src dest) as [w'|] eqn:E; [|done]. intros [= <-].
    constructor; [apply sanitize_scalar|]. by eapply IH.
  - destruct src as [|[x a] src]; [done|].
    destruct (decide _); [|done].
    destruct (rewrite_chars _ (drop (Z.to_nat (- c)) src) dest) as [w'|] eqn:E; [|done]. intros [= <-].
    constructor; [apply sanitize_scalar|]. by eapply IH.
Qed.

Lemma transform_range_repr n v1 v0 v2 v3 dest w :
  repr n (v1 ++ v0 ++ v2 ++ v3) →
  rewrite_chars (last_span (v1 ++ v0)) v2 dest = Some w →
  ∃ n', transform_range n (NRange (alen v1) (alen (v1 ++ v0 ++ v2))) dest (alen v0) = Ret n'
      ∧ repr n' (v1 ++ w ++ v3) ∧ same_origin n n'.
Proof.
  intros Hr Hw. rewrite (transform_range_spec n v1 v0 v2 v3 dest Hr). rewrite Hw. eexists. split; [done|].
  split; [|done]. split; [|done]. destruct Hr as (Hs & _). rewrite !fmap_app, !scalars_app in *.
  apply rewrite_chars_scalars in Hw. tauto.
Qed.

(** ** Transform: the whole text *)
Lemma transform_spec n v0 v2 dest :
  repr n (v0 ++ v2) →
  transform n dest (alen v0) =
  match rewrite_chars (last_span v0) v2 dest with
  | Some w => Ret (NS (ns_orig n) (encode w.*1) (spans_of w) (ns_shift n))
  | None => Panic
  end.
Proof.
  intros Hr. unfold transform, ns_len. pose proof Hr as (_ & -> & _).
  pose proof (transform_range_spec n [] v0 v2 [] dest) as H. cbn [app] in H. rewrite !app_nil_r in H.
  specialize (H Hr). rewrite alen_nil in H. unfold alen at 1 in H. rewrite H.
  destruct (rewrite_chars (last_span v0) v2 dest) as [w|]; [|done]. by rewrite app_nil_r.
Qed.

Lemma repr_runes n v : repr n v → runes (ns_norm n) = v.*1.
Proof. intros (Hs & -> & _). by apply runes_encode_scalars. Qed.

(** ** Map *)
Definition map_chars (f : Z → Z) (v : atext) : atext := map (λ p, (sanitize (f p.1), p.2)) v.

Lemma rewrite_map f prev v :
  rewrite_chars prev v (map (λ r, (f r, 0)) v.*1) = Some (map_chars f v).
Proof.
  revert prev. induction v as [|[x a] v IH]; intros prev; [done|].
  rewrite fmap_cons. cbn [map rewrite_chars fst]. change (1 <=? 0) with false. cbv iota.
  change (Z.to_nat (- 0)) with 0%nat. rewrite drop_0, take_0, fmap_nil. cbn [last default].
  rewrite IH. done.
Qed.

Lemma map_runes_spec n v f :
  repr n v →
  map_runes n f = Ret (NS (ns_orig n) (encode (map_chars f v).*1) (spans_of (map_chars f v)) (ns_shift n)).
Proof.
  intros Hr. unfold map_runes. rewrite (repr_runes n v Hr).
  pose proof (transform_spec n [] v (map (λ r, (f r, 0)) v.*1) Hr) as H. rewrite alen_nil in H.
  rewrite H, rewrite_map. done.
Qed.

Lemma map_chars_scalars f v : scalars (map_chars f v).*1.
Proof. induction v as [|p v IH]; constructor; [apply sanitize_scalar|exact IH]. Qed.

Lemma map_chars_spans f v : (map_chars f v).*2 = v.*2.
Proof. induction v as [|p v IH]; [done|]. cbn. f_equal. exact IH. Qed.

(** ** Filter *)
Fixpoint lead_removed (keep : Z → bool) (v : atext) : atext * atext :=
  match v with
  | [] => ([], [])
  | p :: v' => if keep p.1 then ([], v) else let x := lead_removed keep v' in (p :: x.1, x.2)
  end.

Lemma filter_loop_some keep v l (removed rs : Z) :
  ∃ tl, filter_loop keep v.*1 (Some l) removed rs = (tl, rs)
   ∧ (∀ prev x a pend, removed = zlen pend →
        rewrite_chars prev ((x, a) :: pend ++ v) tl
        = Some ((sanitize l, a) :: map_chars id (base.filter (λ p, keep p.1 = true) v))).
Proof.
  revert l removed. induction v as [|[r b] v IH]; intros l removed; rewrite ?fmap_cons; cbn [filter_loop fst].
  - eexists. split; [done|]. intros prev x a pend ->. cbn [rewrite_chars].
    pose proof (zlen_nonneg pend). replace (1 <=? - zlen pend) with false by lia.
    replace (Z.to_nat (- - zlen pend)) with (length pend) by (unfold zlen; lia).
    rewrite app_nil_r. destruct (decide _) as [_|Hc]; [|lia]. done.
  - destruct (keep r) eqn:Hk; cbn [negb].
    + destruct (IH r 0) as (tl & Hl & Hrw). rewrite Hl. cbn [fst snd].
      eexists. split; [done|]. intros prev x a pend ->. cbn [rewrite_chars].
      pose proof (zlen_nonneg pend). replace (1 <=? - zlen pend) with false by lia.
      replace (Z.to_nat (- - zlen pend)) with (length pend) by (unfold zlen; lia).
      rewrite drop_app, take_app. destruct (decide _) as [_|Hc]; [|rewrite app_length in Hc; lia].
      rewrite (Hrw _ r b [] eq_refl : rewrite_chars _ ((r, b) :: v) tl = _). cbn [mbind option_bind app].
      rewrite filter_cons. rewrite decide_True by done. done.
    + destruct (IH l (removed + 1)) as (tl & Hl & Hrw). rewrite Hl.
      eexists. split; [done|]. intros prev x a pend ->.
      rewrite filter_cons. rewrite decide_False by (cbn; congruence).
      rewrite <- (Hrw prev x a (pend ++ [(r, b)])) by (rewrite zlen_app; done).
      by rewrite <- app_assoc.
Qed.

Lemma filter_loop_none keep v removed :
  let x := lead_removed keep v in
  if decide (x.2 = [])
  then filter_loop keep v.*1 None removed 0 = ([], 0)
  else ∃ tl, filter_loop keep v.*1 None removed 0 = (tl, removed + zlen x.1)
       ∧ ∀ prev, rewrite_chars prev x.2 tl = Some (map_chars id (base.filter (λ p, keep p.1 = true) v)).
Proof.
  revert removed. induction v as [|[r b] v IH]; intros removed; rewrite ?fmap_cons; cbn [filter_loop fst lead_removed].
  - done.
  - destruct (keep r) eqn:Hk; cbn [negb fst snd].
    + destruct (filter_loop_some keep v r 0 removed) as (tl & Hl & Hrw).
      rewrite Hl. rewrite decide_False by done.
      exists tl. rewrite zlen_nil, Z.add_0_r. split; [done|]. intros prev.
      specialize (Hrw prev r b [] eq_refl). cbn [app] in Hrw. rewrite Hrw. rewrite filter_cons. rewrite decide_True by done. done.
    + specialize (IH (removed + 1)). cbv zeta in IH. cbn [fst snd].
     
      destruct (decide _) as [H|H]; [done|]. destruct IH as (tl & Hl & Hrw). exists tl.
      rewrite Hl, zlen_cons. split; [f_equal; lia|]. intros prev. rewrite Hrw.
      rewrite filter_cons. rewrite decide_False by (cbn; congruence). done.
Qed.

Lemma lead_removed_app keep v : v = (lead_removed keep v).1 ++ (lead_removed keep v).2.
Proof. induction v as [|p v IH]; [done|]. cbn. destruct (keep p.1); [done|]. cbn. by f_equal. Qed.

Lemma lead_removed_all keep v : (lead_removed keep v).2 = [] → base.filter (λ p, keep p.1 = true) v = [].
Proof.
  induction v as [|p v IH]; [done|]. cbn [lead_removed]. destruct (keep p.1) eqn:E; [done|]. cbn [snd].
  intros H. rewrite filter_cons. rewrite decide_False by congruence. by apply IH.
Qed.

Lemma alen_ascii v : Forall (λ p, p.1 < 128) v → scalars v.*1 → alen v = zlen v.
Proof.
  induction v as [|[r a] v IH]; intros H Hs; [done|]. inversion H; subst. inversion Hs as [|? ? Hr Hs']; subst.
  rewrite alen_cons, IH by done. rewrite zlen_cons. unfold rune_len.
  apply scalar_spec in Hr. cbn in *. rewrite encode_rune_ascii by lia. done.
Qed.

Lemma map_chars_id v : scalars v.*1 → map_chars id v = v.
Proof.
  induction v as [|[r a] v IH]; intros H; [done|]. inversion H; subst. cbn. unfold id.
  rewrite sanitize_id by done. f_equal. by apply IH.
Qed.

Lemma scalars_filter (P : Z * (Z * Z) → Prop) `{!∀ x, Decision (P x)} v :
  scalars v.*1 → scalars (base.filter P v).*1.
Proof.
  intros Hv. unfold scalars in *. rewrite Forall_fmap in *.
  apply Forall_forall. intros x Hx. apply elem_of_list_filter in Hx as [_ Hx].
  rewrite Forall_forall in Hv. by apply Hv.
Qed.

(** Exact when the characters removed before the first kept one take one byte each. *)
Lemma filter_runes_spec n v keep v0 v2 :
  repr n v → v = v0 ++ v2 →
  Forall (λ p, keep p.1 = false ∧ p.1 < 128) v0 →
  (v2 = [] ∨ ∃ p v2', v2 = p :: v2' ∧ keep p.1 = true) ∨ Forall (λ p, keep p.1 = false) v →
  let w := base.filter (λ p, keep p.1 = true) v in
  filter_runes n keep = Ret (NS (ns_orig n) (encode w.*1) (spans_of w) (ns_shift n)).
Proof.
  intros Hr Hv H0 Hcase w. pose proof Hr as (Hs & _ & _).
  unfold filter_runes. rewrite (repr_runes n v Hr).
  pose proof (filter_loop_none keep v 0) as Hl. cbv zeta in Hl.
  assert (Hw : map_chars id w = w) by (apply map_chars_id; by apply scalars_filter).
  destruct (decide ((lead_removed keep v).2 = [])) as [He|He].
  - rewrite Hl. cbn [fst snd]. pose proof (transform_spec n [] v [] Hr) as H. rewrite alen_nil in H.
    rewrite H. cbn. unfold w. by rewrite lead_removed_all.
  - destruct Hl as (tl & Hl & Hrw). rewrite Hl. cbn [fst snd].
    assert (Hlr : lead_removed keep v = (v0, v2)).
    { destruct Hcase as [Hcase|Hall].
      - clear -Hv H0 Hcase. subst v. induction H0 as [|p v0 [Hp _] H0 IH]; cbn.
        + destruct Hcase as [->|(p & v2' & -> & Hk)]; [done|]. cbn. by rewrite Hk.
        + by rewrite Hp, IH.
      - exfalso. apply He. clear -Hall. induction Hall as [|p v Hp _ IH]; [done|]. cbn. by rewrite Hp. }
    rewrite Hlr in *. cbn [fst snd] in *.
    rewrite Z.add_0_l. rewrite <- alen_ascii.
    2: { eapply Forall_impl; [exact H0|]. cbn. tauto. }
    2: { subst v. rewrite fmap_app, scalars_app in Hs. tauto. }
    rewrite (transform_spec n v0 v2 tl) by by subst v. rewrite Hrw. fold w. by rewrite Hw.
Qed.

(** The text is right whenever Filter returns. *)
Lemma tr_loop_text al dest off rs z : tr_loop al dest off rs = Ret z → z.2 = encode dest.*1.
Proof.
  revert off rs z. induction dest as [|[r c] dest IH]; intros off rs z; cbn [tr_loop].
  { by intros [= <-]. }
  intros (a & _ & H)%bind_Ret. apply bind_Ret in H as ([size rs1] & _ & H).
  apply bind_Ret in H as ([total rs2] & _ & H). apply bind_Ret in H as (z' & Hz' & [= <-]).
  cbn [snd]. rewrite (IH _ _ _ Hz'), fmap_cons. by rewrite encode_cons.
Qed.

Lemma transform_text n dest off n' : transform n dest off = Ret n' → ns_norm n' = encode dest.*1.
Proof.
  unfold transform, transform_range. cbn [coerce_to_norm negb]. unfold ns_len. rewrite sub_full.
  cbn [mbind outcome_bind]. intros H. apply bind_Ret in H as (r0 & _ & H).
  apply bind_Ret in H as (rest & _ & H). apply bind_Ret in H as (x & Hx%tr_loop_text & H).
  apply bind_Ret in H as (ab & _ & H). apply bind_Ret in H as (aa & _ & H).
  apply bind_Ret in H as (nb & Hnb & H). apply bind_Ret in H as (na & Hna & H).
  injection H as <-. cbn [ns_norm]. rewrite Hx.
  apply sub_zlen in Hnb. apply sub_zlen in Hna.
  destruct nb; [|rewrite zlen_cons in Hnb; pose proof (zlen_nonneg nb); lia].
  destruct na; [|rewrite zlen_cons in Hna; pose proof (zlen_nonneg na); lia].
  cbn. by rewrite app_nil_r.
Qed.

Lemma filter_loop_text keep rs last removed rs0 :
  (filter_loop keep rs last removed rs0).1.*1
  = (match last with Some l => [l] | None => [] end) ++ base.filter (λ r, keep r = true) rs.
Proof.
  revert last removed rs0. induction rs as [|r rs IH]; intros last removed rs0; cbn [filter_loop].
  { destruct last; done. }
  destruct (keep r) eqn:Hk; cbn [negb].
  - destruct last as [l|].
    + cbn [fst]. rewrite fmap_cons.
      rewrite IH. rewrite filter_cons. rewrite decide_True by done. done.
    + rewrite IH. rewrite filter_cons. rewrite decide_True by done. done.
  - rewrite IH. rewrite filter_cons. rewrite decide_False by congruence. done.
Qed.

Lemma filter_runes_text n keep n' :
  filter_runes n keep = Ret n' → ns_norm n' = encode (base.filter (λ r, keep r = true) (runes (ns_norm n))).
Proof. unfold filter_runes. intros H%transform_text. rewrite H, filter_loop_text. done. Qed.
