(** Range conversion and Slice. *)
From Coq Require Import ZifyBool Sorted.
From Verif Require Import GoBase Utf8Facts Strutils SplitPattern NormString SpecText SpecNorm SliceFacts StrutilsFacts
  PatternFacts NormFacts NormEdits NormInv NormReplace.

(** ** CoerceRangeToNormalized *)
Lemma ctn_repeat (a : Z * Z) k als i s e st en :
  (0 < k)%nat → 0 <= i →
  ctn_loop (repeat a k ++ als) i s e st en =
  if e <? a.2 then (st, en)
  else ctn_loop als (i + Z.of_nat k) s e
         (if (st =? -1) && (s <=? a.1) && negb (a.1 =? a.2) then i else st) (i + Z.of_nat k).
Proof.
  destruct a as [x y]. cbn [fst snd]. revert i st en. induction k as [|k IH]; intros i st en Hk Hi; [lia|].
  cbn [repeat app ctn_loop]. destruct (e <? y) eqn:E; [done|].
  replace (y <=? e) with true by lia.
  replace (if (st =? -1) && (s <=? x) then if negb (x =? y) then i else st else st)
    with (if (st =? -1) && (s <=? x) && negb (x =? y) then i else st)
    by (destruct ((st =? -1) && (s <=? x)), (negb (x =? y)); done).
  destruct k as [|k].
  - cbn [repeat app]. by replace (Z.of_nat 1) with 1 by lia.
  - rewrite IH by lia. f_equal; [lia| |lia].
    destruct ((st =? -1) && (s <=? x) && negb (x =? y)) eqn:E2; [|by rewrite E2].
    by replace (i =? -1) with false by lia.
Qed.

Lemma ctn_char r a v i s e st en :
  0 <= i →
  ctn_loop (spans_of ((r, a) :: v)) i s e st en =
  if e <? a.2 then (st, en)
  else ctn_loop (spans_of v) (i + rune_len r) s e
         (if (st =? -1) && (s <=? a.1) && negb (a.1 =? a.2) then i else st) (i + rune_len r).
Proof.
  intros Hi. rewrite spans_of_cons. pose proof (rune_len_bounds r) as H. unfold rune_len, zlen in H |- *.
  by rewrite ctn_repeat by lia.
Qed.

Lemma ctn_tail v i s e st en :
  0 <= i → st ≠ -1 →
  ∃ v2 v3, v = v2 ++ v3 ∧ Forall (λ p, p.2.2 <= e) v2 ∧ (∀ p w, v3 = p :: w → e < p.2.2)
    ∧ ctn_loop (spans_of v) i s e st en = (st, if decide (v2 = []) then en else i + alen v2).
Proof.
  intros Hi Hst. revert i en Hi. induction v as [|[r a] v IH]; intros i en Hi.
  { exists [], []. split; [done|]. split; [constructor|]. done. }
  rewrite ctn_char by done. destruct (e <? a.2) eqn:E.
  - exists [], ((r, a) :: v). split; [done|]. split; [constructor|]. split; [|done].
    intros p w [= <- <-]. cbn. lia.
  - replace (st =? -1) with false by lia. cbn [andb]. pose proof (rune_len_bounds r).
    destruct (IH (i + rune_len r) (i + rune_len r) ltac:(lia)) as (v2 & v3 & -> & H2 & H3 & H4).
    exists ((r, a) :: v2), v3. split; [done|]. split; [constructor; [cbn; lia|done]|]. split; [done|].
    rewrite H4. f_equal. destruct (decide (v2 = [])) as [->|].
    + cbn [decide decide_rel]. destruct (decide _) as [?|]; [done|]. rewrite alen_cons, alen_nil. lia.
    + destruct (decide _) as [?|]; [done|]. rewrite alen_cons. lia.
Qed.

Lemma ctn_spec v i s e en :
  0 <= i →
  ∃ v1 v2 v3, v = v1 ++ v2 ++ v3 ∧ within s e v1 v2 v3
    ∧ ctn_loop (spans_of v) i s e (-1) en
      = (if decide (v2 = []) then -1 else i + alen v1,
         if decide (v1 ++ v2 = []) then en else i + alen (v1 ++ v2)).
Proof.
  revert i en. induction v as [|[r a] v IH]; intros i en Hi.
  { exists [], [], []. repeat split; try constructor; done. }
  rewrite ctn_char by done. destruct (e <? a.2) eqn:E.
  - exists [], [], ((r, a) :: v). split; [done|]. split; [|done]. split; [constructor|]. split; [|split; [constructor|done]].
    intros p w [= <- <-]. cbn. lia.
  - replace (-1 =? -1) with true by done. cbn [andb]. pose proof (rune_len_bounds r).
    destruct ((s <=? a.1) && negb (a.1 =? a.2)) eqn:E2.
    + destruct (ctn_tail v (i + rune_len r) s e i (i + rune_len r)) as (v2 & v3 & -> & H2 & H3 & H4); [lia|lia|].
      exists [], ((r, a) :: v2), v3. split; [done|]. split.
      * split; [constructor; [cbn; lia|done]|]. split; [done|]. split; [constructor|].
        intros p w [= <- <-]. cbn. lia.
      * rewrite H4. cbn [app]. destruct (decide (_ :: _ = [])) as [?|]; [done|]. rewrite alen_nil, alen_cons.
        f_equal; [lia|]. destruct (decide (v2 = [])) as [->|]; [rewrite alen_nil; lia|lia].
    + destruct (IH (i + rune_len r) (i + rune_len r)) as (v1 & v2 & v3 & -> & (W1 & W2 & W3 & W4) & H4); [lia|].
      exists ((r, a) :: v1), v2, v3. split; [done|]. split.
      * split; [constructor; [cbn; lia|done]|]. split; [done|]. split; [constructor; [cbn; lia|done]|done].
      * rewrite H4. cbn [app]. rewrite !alen_cons. f_equal.
        -- destruct (decide (v2 = [])); [done|]. lia.
        -- destruct (decide (_ :: _ = [])) as [?|]; [done|].
           destruct (decide (v1 ++ v2 = [])) as [->|]; [rewrite alen_nil; lia|lia].
Qed.

Lemma coerce_to_norm_spec n v a b :
  repr n v → a < b →
  ∃ v1 v2 v3, v = v1 ++ v2 ++ v3 ∧ within a b v1 v2 v3
    ∧ coerce_to_norm n (ORange a b)
      = if decide (v1 ++ v2 = []) then ((0, 0), false) else ((alen v1, alen (v1 ++ v2)), true).
Proof.
  intros (_ & _ & Hal) Hab. destruct (ctn_spec v 0 a b (-1)) as (v1 & v2 & v3 & Hv & W & H); [lia|].
  exists v1, v2, v3. split; [done|]. split; [done|]. unfold coerce_to_norm, r_len. cbn [r_start r_end].
  replace (b - a =? 0) with false by lia. replace (b <? a) with false by lia.
  replace ((zlen (ns_orig n) =? 0) && (a =? 0) && (b =? 0)) with false by lia.
  rewrite Hal, H. pose proof (alen_nonneg v1). pose proof (alen_nonneg (v1 ++ v2)). rewrite !Z.add_0_l.
  destruct (decide (v1 ++ v2 = [])) as [Hnil|Hne].
  - apply app_nil in Hnil as [-> ->]. done.
  - replace (alen (v1 ++ v2) =? -1) with false by lia. destruct (decide (v2 = [])) as [->|Hne2].
    + cbn. by rewrite app_nil_r.
    + by replace (alen v1 =? -1) with false by lia.
Qed.

(** ** Spans of sorted texts *)
Lemma before_mono orig a b : span_ok orig a → span_ok orig b → before a b → a.1 <= b.1 ∧ a.2 <= b.2.
Proof. intros [H1 _] [H2 _] [->|H]; lia. Qed.

Lemma aligned_app orig (v1 v2 : atext) : aligned_over orig (v1 ++ v2) → aligned_over orig v1 ∧ aligned_over orig v2.
Proof.
  intros [H1 H2]. rewrite fmap_app in *. apply Forall_app in H1 as [? ?]. apply SS_app in H2 as (? & ? & _). done.
Qed.

Lemma aligned_order orig (v1 v2 : atext) x y :
  aligned_over orig (v1 ++ v2) → x ∈ v1.*2 → y ∈ v2.*2 → x.1 <= y.1 ∧ x.2 <= y.2.
Proof.
  intros [H1 H2] Hx Hy. rewrite fmap_app in *. apply Forall_app in H1 as [Hx1 Hy1].
  rewrite Forall_forall in Hx1, Hy1. apply SS_app in H2 as (_ & _ & H). eapply before_mono; eauto.
Qed.

Lemma first_start_le orig v x : aligned_over orig v → x ∈ v.*2 → first_start v <= x.1.
Proof.
  destruct v as [|[r a] v]; intros Hal Hx; [by apply elem_of_nil in Hx|]. cbn [first_start].
  rewrite fmap_cons in Hx. apply elem_of_cons in Hx as [->|Hx]; [cbn; lia|].
  apply (aligned_order orig [(r, a)] v a x Hal); [apply elem_of_list_here|done].
Qed.

Lemma last_end_ge orig v x : aligned_over orig v → x ∈ v.*2 → x.2 <= last_end v.
Proof.
  intros Hal Hx. destruct (decide (v = [])) as [->|Hne]; [by apply elem_of_nil in Hx|].
  destruct (exists_last Hne) as (v' & p & ->). unfold last_end. rewrite last_span_snoc.
  rewrite fmap_app in Hx. apply elem_of_app in Hx as [Hx|Hx].
  - eapply (aligned_order orig v' [p] x p.2 Hal Hx). apply elem_of_list_here.
  - apply elem_of_list_singleton in Hx as ->. lia.
Qed.

Lemma first_start_in v : v ≠ [] → ∃ x, x ∈ v.*2 ∧ x.1 = first_start v.
Proof. destruct v as [|[r a] v]; [done|]. intros _. exists a. split; [apply elem_of_list_here|done]. Qed.

Lemma aligned_in orig v x : aligned_over orig v → x ∈ v.*2 → span_ok orig x.
Proof. intros [H _] Hx. rewrite Forall_forall in H. by apply H. Qed.

Lemma first_start_ok orig v : aligned_over orig v → v ≠ [] → boundary orig (first_start v).
Proof.
  intros Hal Hne. destruct (first_start_in v Hne) as (x & Hx & <-). by apply (aligned_in orig v x Hal Hx).
Qed.

Lemma last_end_ok orig v : aligned_over orig v → v ≠ [] → boundary orig (last_end v).
Proof. intros Hal Hne. apply (aligned_in orig v (last_span v) Hal). by apply last_span_in. Qed.

(** ** Sub-texts *)
Lemma encode_prefix (a b c d : list Z) :
  a ++ b = c ++ d → zlen (encode a) <= zlen (encode c) → ∃ m, c = a ++ m ∧ b = m ++ d.
Proof.
  intros Heq Hle. destruct (app_eq_inv _ _ _ _ Heq) as [(k & -> & ->)|(k & -> & ->)].
  - rewrite encode_app, zlen_app in Hle. destruct k as [|x k]; [exists []; by rewrite !app_nil_r|].
    pose proof (encode_pos x k). lia.
  - by exists k.
Qed.

Lemma boundary_sub s a b x p :
  text_at s a b x → boundary s a → boundary s b → boundary s p → a <= p <= b → boundary x (p - a).
Proof.
  intros Hx Ha Hb Hp Hle. destruct Ha as (r1 & r2 & Hr1 & Hr2 & Hs & ->). rewrite <- encode_app in Hs.
  rewrite Hs in Hb, Hp. assert (Hsc : scalars (r1 ++ r2)) by (apply scalars_app; done).
  destruct (boundary_split _ _ Hsc Hb) as (q1 & q2 & Hq & ->).
  destruct (boundary_split _ _ Hsc Hp) as (t1 & t2 & Ht & ->).
  destruct (encode_prefix r1 r2 t1 t2) as (m & -> & ->); [congruence|lia|].
  destruct (encode_prefix (r1 ++ m) t2 q1 q2) as (m2 & -> & ->); [by rewrite <- app_assoc|lia|].
  apply text_at_sub in Hx. rewrite Hs in Hx. rewrite !encode_app, !zlen_app in *.
  rewrite <- ?app_assoc in Hx. rewrite (app_assoc (encode m)) in Hx.
  rewrite (sub_app3 (encode r1) (encode m ++ encode m2)) in Hx by (rewrite ?zlen_app; lia).
  injection Hx as <-. apply scalars_app in Hr2 as [Hm Hr2]. apply scalars_app in Hr2 as [Hm2 _].
  replace (zlen (encode r1) + zlen (encode m) - zlen (encode r1)) with (zlen (encode m)) by lia.
  rewrite <- encode_app. by apply boundary_app.
Qed.

Lemma valid_sub s a b x :
  text_at s a b x → boundary s a → boundary s b → valid_utf8 x = true.
Proof.
  intros Hx Ha Hb. assert (Hle : a <= b). { destruct Hx as (? & ? & _ & _ & ->). pose proof (zlen_nonneg x). lia. }
  pose proof (boundary_sub s a b x a Hx Ha Hb Ha ltac:(lia)) as H.
  destruct H as (r1 & r2 & _ & _ & -> & _). rewrite <- encode_app. apply valid_utf8_encode.
Qed.

Lemma text_at_total s a b : 0 <= a → a <= b → b <= zlen s → ∃ x, text_at s a b x.
Proof. intros H1 H2 H3. destruct (sub_total s a b H1 H2 H3) as (x & Hx). exists x. by apply text_at_sub. Qed.

Lemma shift_spans_chars d v : (shift_spans d v).*1 = v.*1.
Proof. induction v as [|p v IH]; [done|]. cbn. by rewrite <- IH. Qed.

Lemma shift_spans_snd d v : (shift_spans d v).*2 = map (λ a, (a.1 + d, a.2 + d)) v.*2.
Proof. induction v as [|p v IH]; [done|]. cbn. by rewrite <- IH. Qed.

Lemma shift_spans_spans d v : spans_of (shift_spans d v) = map (λ a, (a.1 + d, a.2 + d)) (spans_of v).
Proof.
  induction v as [|[r a] v IH]; [done|]. unfold shift_spans. cbn [map fst snd]. rewrite !spans_of_cons.
  rewrite map_app. fold (shift_spans d v). rewrite IH. f_equal. generalize (length (encode_rune r)) as k.
  induction k as [|k IHk]; [done|]. cbn. by rewrite IHk.
Qed.

(** Moving spans into a sub-text of the original. *)
Lemma aligned_shift orig v a b x :
  text_at orig a b x → boundary orig a → boundary orig b →
  aligned_over orig v → Forall (λ s, a <= s.1 ∧ s.2 <= b) v.*2 →
  aligned_over x (shift_spans (- a) v).
Proof.
  intros Hx Ha Hb [Hok Hss] Hin. unfold aligned_over. rewrite shift_spans_snd.
  rewrite Forall_forall in Hok, Hin. split.
  - rewrite Forall_forall. intros s Hs. apply elem_of_list_fmap in Hs as (t & -> & Ht).
    destruct (Hok t Ht) as (H1 & H2 & H3). destruct (Hin t Ht) as [H4 H5]. split; [cbn; lia|]. cbn [fst snd].
    split; (eapply boundary_sub; [exact Hx|done|done|done|lia]).
  - clear Hok Hin. induction Hss as [|s l H IH HF]; cbn; constructor; [done|].
    apply Forall_map. eapply Forall_impl; [exact HF|]. intros t [->|Ht]; [by left|right]. cbn. lia.
Qed.

(** ** Pieces are well formed *)
Lemma aligned_mid orig (v1 v2 v3 : atext) : aligned_over orig (v1 ++ v2 ++ v3) → aligned_over orig v2.
Proof. intros [_ H]%aligned_app. by apply aligned_app in H as [? _]. Qed.

Lemma piece_wf n v1 v2 v3 n' :
  wf_as n (v1 ++ v2 ++ v3) → piece_of n v2 n' → wf_as n' (shift_spans (- first_start v2) v2).
Proof.
  intros (Hr & Hv & Hal) (Hp1 & Hp2 & Hp3). apply aligned_mid in Hal. split; [done|].
  destruct (decide (v2 = [])) as [->|Hne].
  - rewrite (Hp3 eq_refl). split; [done|]. split; constructor.
  - destruct (Hp2 Hne) as [Ht _]. pose proof (first_start_ok _ _ Hal Hne). pose proof (last_end_ok _ _ Hal Hne).
    split; [by eapply valid_sub|]. eapply aligned_shift; [exact Ht|done|done|done|].
    apply Forall_forall. intros s Hs. split; [by eapply first_start_le|by eapply last_end_ge].
Qed.

(** ** CoerceRangeToOriginal *)
Lemma coerce_to_orig_bytes n s e :
  0 <= s → s < e → e <= zlen (ns_al n) →
  ∃ a b, idx (ns_al n) s = Ret a ∧ idx (ns_al n) (e - 1) = Ret b
       ∧ coerce_to_orig n (NRange s e) = Ret ((a.1, b.2), true).
Proof.
  intros Hs He Hlen. destruct (idx_total (ns_al n) s) as (a & Ha); [lia|].
  destruct (idx_total (ns_al n) (e - 1)) as (b & Hb); [lia|]. exists a, b. split; [done|]. split; [done|].
  unfold coerce_to_orig, r_len. cbn [r_start r_end].
  replace (e - s =? 0) with false by lia. replace (e <? s) with false by lia.
  replace ((zlen (ns_norm n) =? 0) && (s =? 0) && (e =? 0)) with false by lia.
  destruct (sub_total (ns_al n) s e) as (als & Hals); [lia..|]. rewrite Hals. cbn [mbind outcome_bind].
  pose proof (sub_zlen _ _ _ _ Hals) as Hl. apply sub_Ret in Hals as (x & y & Heq & -> & Hj).
  rewrite Heq in Ha, Hb. rewrite idx_app_r in Ha by lia. rewrite Z.sub_diag in Ha.
  rewrite idx_app_l in Ha by lia. rewrite Ha. cbn [mbind outcome_bind].
  rewrite idx_app_r in Hb by lia. rewrite idx_app_l in Hb by lia.
  replace (e - 1 - zlen x) with (zlen als - 1) in Hb by lia. by rewrite Hb.
Qed.

Lemma coerce_to_orig_chars n v1 v2 v3 :
  repr n (v1 ++ v2 ++ v3) → v2 ≠ [] →
  coerce_to_orig n (NRange (alen v1) (alen (v1 ++ v2))) = Ret ((first_start v2, last_end v2), true).
Proof.
  intros (_ & _ & Hal) Hne. rewrite alen_app. pose proof (alen_nonneg v1). pose proof (alen_nonneg v3).
  assert (0 < alen v2) by (destruct v2; [done|apply alen_pos]).
  destruct (coerce_to_orig_bytes n (alen v1) (alen v1 + alen v2)) as (a & b & Ha & Hb & HH); [lia|lia| |].
  { rewrite Hal, zlen_spans, !alen_app. lia. }
  rewrite HH. do 3 f_equal.
  - destruct v2 as [|[r c] v2]; [done|]. cbn [first_start]. rewrite Hal in Ha.
    pose proof (idx_spans_middle v1 r c (v2 ++ v3) 0) as Hm. pose proof (rune_len_bounds r).
    rewrite Z.add_0_r in Hm. cbn [app] in Ha. rewrite Hm in Ha by lia. by injection Ha as ->.
  - unfold last_end. rewrite Hal, app_assoc in Hb. rewrite <- alen_app in Hb.
    rewrite idx_spans_last in Hb by (by destruct v1, v2). rewrite last_span_app in Hb by done. by injection Hb as ->.
Qed.

(** ** Slice *)
Lemma range_valid_true n v s e :
  repr n v → boundary (ns_norm n) s → boundary (ns_norm n) e → range_is_valid n (NRange s e) = Ret true.
Proof.
  intros (Hs & Hn & _) H1 H2. unfold range_is_valid. cbn [r_start r_end]. rewrite Hn in *.
  rewrite is_rune_boundary_true by done. cbn [mbind outcome_bind]. by rewrite is_rune_boundary_true.
Qed.

Lemma slice_chars n v1 v2 v3 :
  wf_as n (v1 ++ v2 ++ v3) → v2 ≠ [] →
  ∃ n', slice n (NRange (alen v1) (alen (v1 ++ v2))) = Ret (Some n') ∧ piece_of n v2 n'.
Proof.
  intros (Hr & Hv & Hal) Hne. pose proof Hr as (Hs & Hn & Hal').
  pose proof (aligned_mid _ _ _ _ Hal) as Hal2.
  assert (H1 : boundary (ns_norm n) (alen v1)) by (rewrite Hn; by apply aboundary_app).
  assert (H2 : boundary (ns_norm n) (alen (v1 ++ v2))).
  { rewrite Hn. rewrite app_assoc in Hs |- *. by apply aboundary_app. }
  pose proof (first_start_ok _ _ Hal2 Hne) as Hf. pose proof (last_end_ok _ _ Hal2 Hne) as Hl.
  destruct (text_at_total (ns_orig n) (first_start v2) (last_end v2)) as (x & Hx).
  { apply boundary_range in Hf. lia. }
  { destruct (first_start_in v2 Hne) as (y & Hy & <-). pose proof (last_end_ge _ _ _ Hal2 Hy).
    pose proof (aligned_in _ _ _ Hal2 Hy) as [? _]. lia. }
  { apply boundary_range in Hl. lia. }
  pose proof Hx as Hx'. apply text_at_sub in Hx'.
  unfold slice. rewrite (range_valid_true n _ _ _ Hr H1 H2). cbn [mbind outcome_bind negb coerce_to_norm].
  rewrite (coerce_to_orig_chars n v1 v2 v3 Hr Hne). cbn [mbind outcome_bind negb].
  unfold get_original_range. rewrite (coerce_to_orig_chars n v1 v2 v3 Hr Hne). cbn [mbind outcome_bind negb].
  rewrite Hx'. cbn [mbind outcome_bind]. unfold get_range. cbn [coerce_to_norm negb].
  rewrite Hn, Hal', !fmap_app, !encode_app, !spans_of_app.
  rewrite (sub_app3 (encode v1.*1) (encode v2.*1) _ (alen v1) (alen (v1 ++ v2))); [|done|apply alen_app].
  cbn [mbind outcome_bind].
  rewrite (sub_app3 (spans_of v1) (spans_of v2) _ (alen v1) (alen (v1 ++ v2)));
    [|by rewrite zlen_spans|by rewrite !zlen_spans, alen_app].
  cbn [mbind outcome_bind default]. eexists. split; [reflexivity|].
  split; [|split; [|done]].
  - split; [|split]; cbn [ns_norm ns_al].
    + rewrite shift_spans_chars. rewrite !fmap_app, !scalars_app in Hs. tauto.
    + by rewrite shift_spans_chars.
    + rewrite shift_spans_spans. apply map_ext. intros [? ?]. cbn. by rewrite !Z.add_opp_r.
  - intros _. done.
Qed.

Lemma sub_empty {A} (l : list A) i : 0 <= i <= zlen l → sub l i i = Ret [].
Proof.
  intros H. destruct (sub_total l i i) as (x & Hx); [lia..|]. rewrite Hx. apply sub_zlen in Hx.
  destruct x; [done|]. rewrite zlen_cons in Hx. pose proof (zlen_nonneg x). lia.
Qed.

(** An empty range: fine as long as its position also exists in the original string. *)
Lemma slice_empty n v i :
  repr n v → boundary (ns_norm n) i → i <= zlen (ns_orig n) →
  slice n (NRange i i) = Ret (Some (NS [] [] [] (ns_shift n + i))).
Proof.
  intros Hr Hb Hi. pose proof (boundary_range _ _ Hb) as Hi'.
  unfold slice. rewrite (range_valid_true n v i i Hr Hb Hb). cbn [mbind outcome_bind negb coerce_to_norm].
  unfold get_original_range, coerce_to_orig, r_len. cbn [r_start r_end]. rewrite Z.sub_diag. cbn [Z.eqb].
  cbn [mbind outcome_bind negb]. rewrite (sub_empty (ns_orig n)) by lia. cbn [mbind outcome_bind].
  unfold get_range. cbn [coerce_to_norm negb]. rewrite (sub_empty (ns_norm n)) by lia. cbn [mbind outcome_bind].
  rewrite sub_empty; [done|]. destruct Hr as (_ & Hn & Hal). rewrite Hal, zlen_spans. unfold alen. rewrite <- Hn. lia.
Qed.

Lemma slice_empty_panics n v i :
  repr n v → boundary (ns_norm n) i → zlen (ns_orig n) < i → slice n (NRange i i) = Panic.
Proof.
  intros Hr Hb Hi.
  unfold slice. rewrite (range_valid_true n v i i Hr Hb Hb). cbn [mbind outcome_bind negb coerce_to_norm].
  unfold get_original_range, coerce_to_orig, r_len. cbn [r_start r_end]. rewrite Z.sub_diag. cbn [Z.eqb].
  cbn [mbind outcome_bind negb]. rewrite (sub_panic (ns_orig n)) by lia. done.
Qed.

(** Whatever Slice returns is well formed. *)
Lemma slice_norm_invalid n v s e :
  repr n v → ¬ (boundary (ns_norm n) s ∧ boundary (ns_norm n) e) → slice n (NRange s e) = Ret None.
Proof.
  intros (Hs & Hn & _) H. rewrite Hn in H. unfold slice, range_is_valid. cbn [r_start r_end]. rewrite Hn.
  destruct (is_rune_boundary_total (encode v.*1) s) as (b1 & H1). rewrite H1. cbn [mbind outcome_bind].
  destruct (is_rune_boundary_total (encode v.*1) e) as (b2 & H2). rewrite H2.
  pose proof (is_rune_boundary_spec _ _ _ Hs H1) as S1. pose proof (is_rune_boundary_spec _ _ _ Hs H2) as S2.
  destruct b1; [|done]. destruct b2; [|done]. destruct H. tauto.
Qed.

Lemma slice_orig_invalid n s e :
  valid_utf8 (ns_orig n) = true → ¬ (boundary (ns_orig n) s ∧ boundary (ns_orig n) e) →
  slice n (ORange s e) = Ret None.
Proof.
  intros (rs & Hs & Ho)%valid_utf8_spec H. rewrite Ho in H. unfold slice, range_is_valid. cbn [r_start r_end]. rewrite Ho.
  destruct (is_rune_boundary_total (encode rs) s) as (b1 & H1). rewrite H1. cbn [mbind outcome_bind].
  destruct (is_rune_boundary_total (encode rs) e) as (b2 & H2). rewrite H2.
  pose proof (is_rune_boundary_spec _ _ _ Hs H1) as S1. pose proof (is_rune_boundary_spec _ _ _ Hs H2) as S2.
  destruct b1; [|done]. destruct b2; [|done]. destruct H. tauto.
Qed.

Lemma within_spans orig a b v1 v2 v3 :
  aligned_over orig (v1 ++ v2 ++ v3) → within a b v1 v2 v3 → Forall (λ s, a <= s.1 ∧ s.2 <= b) v2.*2.
Proof.
  intros Hal (W1 & W2 & W3 & W4). apply aligned_mid in Hal. apply Forall_app in W1 as [_ W1].
  rewrite Forall_fmap. rewrite Forall_forall in W1 |- *. intros p Hp. cbn. split; [|by apply W1].
  assert (Hin : p.2 ∈ v2.*2) by (apply elem_of_list_fmap; eauto).
  pose proof (first_start_le _ _ _ Hal Hin). destruct v2 as [|[r c] v2]; [by apply elem_of_nil in Hp|].
  destruct (W4 _ _ eq_refl) as [? _]. cbn in *. lia.
Qed.

Lemma valid_range_orig n s e :
  valid_utf8 (ns_orig n) = true → boundary (ns_orig n) s → boundary (ns_orig n) e →
  range_is_valid n (ORange s e) = Ret true.
Proof.
  intros (rs & Hs & Ho)%valid_utf8_spec H1 H2. unfold range_is_valid. cbn [r_start r_end]. rewrite Ho in *.
  rewrite is_rune_boundary_true by done. cbn [mbind outcome_bind]. by rewrite is_rune_boundary_true.
Qed.

(** Slice by original range: the characters whose spans lie in it. *)
Lemma slice_orig n v a b :
  wf_as n v → boundary (ns_orig n) a → boundary (ns_orig n) b → a < b →
  ∃ v1 v2 v3, v = v1 ++ v2 ++ v3 ∧ within a b v1 v2 v3
    ∧ if decide (v1 ++ v2 = []) then slice n (ORange a b) = Ret None
      else ∃ n' x, slice n (ORange a b) = Ret (Some n') ∧ text_at (ns_orig n) a b x
         ∧ n' = NS x (encode v2.*1) (spans_of (shift_spans (- a) v2)) (ns_shift n + a).
Proof.
  intros (Hr & Hv & Hal) Ha Hb Hab.
  destruct (coerce_to_norm_spec n v a b Hr Hab) as (v1 & v2 & v3 & -> & W & H).
  exists v1, v2, v3. split; [done|]. split; [done|]. unfold slice.
  rewrite (valid_range_orig n a b Hv Ha Hb). cbn [mbind outcome_bind negb]. rewrite H.
  destruct (decide (v1 ++ v2 = [])) as [|Hne]; [done|]. cbn [negb coerce_to_orig mbind outcome_bind].
  pose proof (boundary_range _ _ Ha). pose proof (boundary_range _ _ Hb).
  destruct (text_at_total (ns_orig n) a b) as (x & Hx); [lia..|]. pose proof Hx as Hx'. apply text_at_sub in Hx'.
  unfold get_original_range. cbn [coerce_to_orig mbind outcome_bind negb]. rewrite Hx'. cbn [mbind outcome_bind].
  unfold get_range. rewrite H. cbn [negb]. destruct Hr as (Hs & Hn & Hal').
  rewrite Hn, Hal', !fmap_app, !encode_app, !spans_of_app.
  rewrite (sub_app3 (encode v1.*1) (encode v2.*1) _ (alen v1) (alen (v1 ++ v2))); [|done|apply alen_app].
  cbn [mbind outcome_bind].
  rewrite (sub_app3 (spans_of v1) (spans_of v2) _ (alen v1) (alen (v1 ++ v2)));
    [|by rewrite zlen_spans|by rewrite !zlen_spans, alen_app].
  cbn [mbind outcome_bind default]. eexists _, x. split; [reflexivity|]. split; [done|]. f_equal.
  rewrite shift_spans_spans. apply map_ext. intros [? ?]. cbn. by rewrite !Z.add_opp_r.
Qed.

Lemma empty_wf s : wf (NS [] [] [] s).
Proof. exists []. split; [repeat split; constructor|]. split; [done|]. split; constructor. Qed.

Lemma boundary_dec s i : valid_utf8 s = true → boundary s i ∨ ¬ boundary s i.
Proof.
  intros (rs & Hs & ->)%valid_utf8_spec. destruct (is_rune_boundary_total (encode rs) i) as (b & H).
  pose proof (is_rune_boundary_spec _ _ _ Hs H) as E. destruct b; [left; by apply E|right].
  intros Hb. by apply E in Hb.
Qed.

Lemma slice_wf n r n' : wf n → slice n r = Ret (Some n') → wf n'.
Proof.
  intros (v & Hwf) H. pose proof Hwf as (Hr & Hv & Hal). pose proof Hr as (Hs & Hn & Hal').
  assert (Hvn : valid_utf8 (ns_norm n) = true) by (rewrite Hn; apply valid_utf8_encode).
  destruct r as [a b|s e].
  - destruct (boundary_dec _ a Hv) as [Ha|Ha]; [|rewrite slice_orig_invalid in H by tauto; done].
    destruct (boundary_dec _ b Hv) as [Hb|Hb]; [|rewrite slice_orig_invalid in H by tauto; done].
    destruct (Z.lt_trichotomy a b) as [Hab|[->|Hab]].
    + destruct (slice_orig n v a b Hwf Ha Hb Hab) as (v1 & v2 & v3 & -> & W & HH).
      destruct (decide (v1 ++ v2 = [])); [congruence|]. destruct HH as (n2 & x & H2 & Hx & ->).
      rewrite H in H2. injection H2 as ->. exists (shift_spans (- a) v2). split; [|split]; cbn [ns_orig].
      * split; [|split]; cbn [ns_norm ns_al]; rewrite ?shift_spans_chars; [|done|done].
        rewrite !fmap_app, !scalars_app in Hs. tauto.
      * by eapply valid_sub.
      * eapply aligned_shift; [done|done|done|by apply aligned_mid in Hal|]. by eapply within_spans.
    + unfold slice in H. rewrite (valid_range_orig n b b Hv Hb Hb) in H. cbn [mbind outcome_bind negb] in H.
      unfold get_original_range, get_range, coerce_to_norm, r_len in H. cbn [r_start r_end] in H.
      rewrite Z.sub_diag in H. cbn [Z.eqb negb coerce_to_orig mbind outcome_bind] in H.
      apply boundary_range in Hb. rewrite (sub_empty (ns_orig n)) in H by lia. cbn [mbind outcome_bind] in H.
      apply bind_Ret in H as (x & Hx & H). apply bind_Ret in Hx as (y & Hy & [= <-]).
      pose proof (sub_bounds _ _ _ _ Hy). rewrite sub_empty in Hy by lia. injection Hy as <-.
      rewrite sub_empty in H; [injection H as <-; apply empty_wf|].
      rewrite Hal', zlen_spans. unfold alen. rewrite <- Hn. lia.
    + unfold slice in H. rewrite (valid_range_orig n a b Hv Ha Hb) in H. cbn [mbind outcome_bind negb] in H.
      unfold coerce_to_norm, r_len in H. cbn [r_start r_end] in H.
      replace (b - a =? 0) with false in H by lia. replace (b <? a) with true in H by lia. done.
  - destruct (boundary_dec _ s Hvn) as [Ha|Ha]; [|rewrite (slice_norm_invalid n v) in H by tauto; done].
    destruct (boundary_dec _ e Hvn) as [Hb|Hb]; [|rewrite (slice_norm_invalid n v) in H by tauto; done].
    destruct (Z.lt_trichotomy s e) as [Hab|[->|Hab]].
    + rewrite Hn in Ha, Hb. destruct (aboundary_split2 v s e Hs Ha Hb ltac:(lia)) as (v1 & v2 & v3 & -> & -> & ->).
      assert (Hne : v2 ≠ []). { intros ->. rewrite app_nil_r in Hab. lia. }
      destruct (slice_chars n v1 v2 v3 Hwf Hne) as (n2 & H2 & Hp). rewrite H in H2. injection H2 as <-.
      eexists. by eapply piece_wf.
    + destruct (Z.le_gt_cases e (zlen (ns_orig n))) as [Hle|Hgt].
      * rewrite (slice_empty n v e Hr Hb Hle) in H. injection H as <-. apply empty_wf.
      * rewrite (slice_empty_panics n v e Hr Hb Hgt) in H. done.
    + unfold slice in H. rewrite (range_valid_true n v s e Hr Ha Hb) in H.
      cbn [mbind outcome_bind negb coerce_to_norm] in H.
      unfold coerce_to_orig, r_len in H. cbn [r_start r_end] in H.
      replace (e - s =? 0) with false in H by lia. replace (e <? s) with true in H by lia. done.
Qed.
