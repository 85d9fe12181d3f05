(** Proofs about the split patterns. *)
From Verif Require Import GoBase Utf8Facts Strutils SplitPattern SpecText SliceFacts StrutilsFacts.
From Coq Require Import ZifyBool.

Lemma place_covers segs i : covers i (place i segs) (i + zlen (encode (concat segs.*1))).
Proof.
  revert i. induction segs as [|[t m] segs IH]; intros i; cbn.
  - rewrite zlen_nil. lia.
  - rewrite encode_app, zlen_app. pose proof (zlen_nonneg (encode t)). split; [done|]. split; [lia|].
    rewrite Z.add_assoc. apply IH.
Qed.

Lemma place_app a b i : place i (a ++ b) = place i a ++ place (i + zlen (encode (concat a.*1))) b.
Proof.
  revert i. induction a as [|[t m] a IH]; intros i; cbn.
  - by rewrite zlen_nil, Z.add_0_r.
  - f_equal. rewrite IH, encode_app, zlen_app. by rewrite Z.add_assoc.
Qed.

Lemma place_boundaries segs pre post :
  scalars pre → scalars (concat segs.*1) → scalars post →
  Forall (λ c, boundary (encode (pre ++ concat segs.*1 ++ post)) (c_start c)
             ∧ boundary (encode (pre ++ concat segs.*1 ++ post)) (c_end c))
         (place (zlen (encode pre)) segs).
Proof.
  revert pre. induction segs as [|[t m] segs IH]; intros pre Hp Hs Hq; cbn; [constructor|].
  cbn in Hs. apply scalars_app in Hs as [Ht Hs].
  constructor; cbn.
  - split.
    + apply boundary_app; [done|]. rewrite !scalars_app; auto.
    + rewrite <- zlen_app, <- encode_app. rewrite <- app_assoc, app_assoc.
      apply boundary_app; [apply scalars_app; auto|]. rewrite scalars_app; auto.
  - specialize (IH (pre ++ t)). rewrite (encode_app pre t), zlen_app in IH.
    replace (pre ++ (t ++ concat segs.*1) ++ post) with ((pre ++ t) ++ concat segs.*1 ++ post)
      by by rewrite <- !app_assoc.
    apply IH; [apply scalars_app; auto|done|done].
Qed.

Lemma covers_le i cs len : covers i cs len → i <= len.
Proof.
  revert i. induction cs as [|c cs IH]; intros i; cbn; [lia|].
  intros (_ & H1 & H2%IH). lia.
Qed.

Lemma cover_place rs cs i pre :
  scalars pre → scalars rs → i = zlen (encode pre) →
  covers i cs (zlen (encode (pre ++ rs))) →
  Forall (λ c, boundary (encode (pre ++ rs)) (c_start c) ∧ boundary (encode (pre ++ rs)) (c_end c)) cs →
  ∃ segs, concat segs.*1 = rs ∧ cs = place i segs.
Proof.
  revert i pre rs. induction cs as [|c cs IH]; intros i pre rs Hp Hs Hi Hc HB.
  - cbn in Hc. exists []. split; [|done]. cbn. rewrite encode_app, zlen_app in Hc.
    destruct rs as [|r rs]; [done|]. pose proof (encode_pos r rs). lia.
  - cbn in Hc. destruct Hc as (Hst & Hle & Hc). inversion HB as [|? ? [_ He] HB']; subst.
    destruct (boundary_split (pre ++ rs) (c_end c)) as (r1 & r2 & Heq & Hl);
      [apply scalars_app; auto|done|].
    assert (∃ t, r1 = pre ++ t ∧ rs = t ++ r2) as (t & -> & ->).
    { destruct (app_eq_inv _ _ _ _ Heq) as [(k & -> & ->)|(k & -> & ->)].
      - exists []. destruct k as [|x k]; [by rewrite !app_nil_r|].
        rewrite encode_app, zlen_app in Hle. pose proof (encode_pos x k). lia.
      - by exists k. }
    apply scalars_app in Hs as [Ht Hs].
    rewrite app_assoc in Hc, HB'.
    destruct (IH (c_end c) (pre ++ t) r2) as (segs & <- & ->); try done.
    { apply scalars_app; auto. }
    exists ((t, c_match c) :: segs). split; [done|]. cbn.
    rewrite encode_app, zlen_app in Hl. rewrite <- Hl, <- Hst. by destruct c.
Qed.

(** A covering capture list with boundary ends is a list of placed segments. *)
Lemma boundary_cover_place rs cs :
  scalars rs → boundary_cover (encode rs) cs ↔ ∃ segs, concat segs.*1 = rs ∧ cs = place 0 segs.
Proof.
  intros Hs. split.
  - intros [Hc HB]. apply (cover_place rs cs 0 []); try done. constructor.
  - intros (segs & <- & ->). split.
    + apply (place_covers segs 0).
    + pose proof (place_boundaries segs [] [] ltac:(constructor) Hs ltac:(constructor)) as H.
      cbn in H. by rewrite app_nil_r in H.
Qed.

(** ** FromFunc, FromRune *)
Lemma func_loop_spec f rs run i :
  Forall (λ r, f r = false) run →
  ∃ segs, func_loop f (rune_positions i rs) (i - zlen (encode run)) i
          = place (i - zlen (encode run)) segs
        ∧ concat segs.*1 = run ++ rs ∧ rune_segmented f segs.
Proof.
  revert run i. induction rs as [|r rs IH]; intros run i Hrun; cbn [rune_positions func_loop].
  - destruct run as [|x run].
    + exists []. cbn. rewrite zlen_nil. replace (_ <? i) with false by lia. auto.
    + exists [(x :: run, false)]. pose proof (encode_pos x run).
      replace (_ <? i) with true by lia. cbn [place concat fmap list_fmap rune_segmented fst].
      repeat split; try done. do 2 f_equal. lia.
  - destruct (f r) eqn:Hf; cbn [negb].
    + destruct (IH [] (i + rune_len r)) as (segs & Hl & Hcat & Hseg); [constructor|].
      cbn in Hcat. change (zlen (encode [])) with 0 in Hl. rewrite Z.sub_0_r in Hl. rewrite Hl.
      assert (Hr : zlen (encode [r]) = rune_len r).
      { rewrite zlen_encode_cons. cbn. rewrite zlen_nil. lia. }
      destruct run as [|x run].
      * exists (([r], true) :: segs). change (zlen (encode [])) with 0. rewrite Z.sub_0_r.
        replace (i <? i) with false by lia. cbn [place concat fmap list_fmap fst rune_segmented app].
        rewrite Hr. rewrite Hcat. split; [done|]. split; [done|]. split; [|done]. eauto.
      * exists ((x :: run, false) :: ([r], true) :: segs). pose proof (encode_pos x run).
        replace (_ <? i) with true by lia. cbn [place concat fmap list_fmap fst rune_segmented app].
        rewrite Hr. replace (i - _ + _) with i by lia. rewrite Hcat.
        repeat split; try done. eauto.
    + destruct (IH (run ++ [r]) (i + rune_len r)) as (segs & Hl & Hcat & Hseg).
      { apply Forall_app; auto. }
      rewrite encode_app, zlen_app, zlen_encode_cons in Hl. change (zlen (encode [])) with 0 in Hl.
      replace (i + rune_len r - (zlen (encode run) + (rune_len r + 0))) with (i - zlen (encode run)) in Hl by lia.
      exists segs. rewrite Hl. split; [done|]. split; [|done]. by rewrite Hcat, <- app_assoc.
Qed.

Lemma func_pattern_spec f rs :
  scalars rs →
  ∃ segs, func_pattern f (encode rs) = Ret (Ok (place 0 segs)) ∧ concat segs.*1 = rs
        ∧ (if decide (rs = []) then segs = [([], false)] else rune_segmented f segs).
Proof.
  intros Hs. unfold func_pattern. destruct rs as [|r rs].
  - exists [([], false)]. done.
  - pose proof (encode_pos r rs). replace (zlen _ =? 0) with false by lia.
    rewrite range_str_encode by done.
    destruct (func_loop_spec f (r :: rs) [] 0) as (segs & Hl & Hcat & Hseg); [constructor|].
    change (zlen (encode [])) with 0 in Hl. change (0 - 0) with 0 in Hl.
    exists segs. rewrite Hl. done.
Qed.

(** ** FromRegexp *)
Lemma ordered_le lo ms hi : ordered_ranges lo ms hi → lo <= hi.
Proof. revert lo. induction ms as [|[a b] ms IH]; cbn; [lia|]. intros lo (? & ? & ?%IH). lia. Qed.

Lemma ranges_of_cons k c cs :
  ranges_of k (c :: cs) = (if Bool.eqb (c_match c) k then [(c_start c, c_end c)] else []) ++ ranges_of k cs.
Proof.
  unfold ranges_of. rewrite filter_cons. destruct (decide (c_match c = k)) as [->|H].
  - by rewrite Bool.eqb_reflx.
  - apply Bool.eqb_false_iff in H. by rewrite H.
Qed.

Lemma match_loop_spec len ms prev :
  ordered_ranges prev ms len →
  covers prev (match_loop len ms prev) len
  ∧ ranges_of true (match_loop len ms prev) = ms
  ∧ Forall (λ c, c_match c = false → c_start c < c_end c) (match_loop len ms prev).
Proof.
  revert prev. induction ms as [|[a b] ms IH]; intros prev Hm; cbn [match_loop].
  - cbn in Hm. destruct (prev =? len) eqn:E; cbn.
    + repeat split; [lia|constructor].
    + repeat split; [lia|]. constructor; [cbn; lia|constructor].
  - cbn in Hm. destruct Hm as (H1 & H2 & H3). destruct (IH b H3) as (Hc & Hr & Hn).
    destruct (prev =? a) eqn:E; cbn [negb app].
    + replace a with prev in * by lia. rewrite ranges_of_cons, Hr. repeat split; try done. by constructor.
    + rewrite !ranges_of_cons, Hr. repeat split; try done; try (cbn; lia).
      constructor; [cbn; lia|]. constructor; [done|exact Hn].
Qed.

Lemma regexp_pattern_spec engine s :
  s ≠ [] → ordered_ranges 0 (engine s) (zlen s) →
  ∃ cs, regexp_pattern engine s = Ret (Ok cs)
      ∧ covers 0 cs (zlen s) ∧ ranges_of true cs = engine s
      ∧ Forall (λ c, c_match c = false → c_start c < c_end c) cs.
Proof.
  intros Hne Hm. unfold regexp_pattern. destruct s as [|b s]; [done|].
  rewrite zlen_cons. pose proof (zlen_nonneg s). replace (1 + zlen s =? 0) with false by lia.
  rewrite zlen_cons in Hm. eexists. split; [done|]. by apply match_loop_spec.
Qed.

(** Ends of captures are 0, [len] or ends of matches. *)
Lemma match_loop_ends (P : Z → Prop) len ms prev :
  P prev → P len → Forall (λ m, P m.1 ∧ P m.2) ms →
  Forall (λ c, P (c_start c) ∧ P (c_end c)) (match_loop len ms prev).
Proof.
  intros Hp Hl Hms. revert prev Hp. induction Hms as [|[a b] ms [Ha Hb] Hms IH]; intros prev Hp; cbn [match_loop].
  - destruct (prev =? len); cbn; constructor; auto.
  - cbn in Ha, Hb. apply Forall_app. split; [destruct (prev =? a); cbn; constructor; auto|].
    constructor; auto.
Qed.

Lemma regexp_pattern_boundary engine rs :
  scalars rs → ordered_ranges 0 (engine (encode rs)) (zlen (encode rs)) →
  Forall (λ m, boundary (encode rs) m.1 ∧ boundary (encode rs) m.2) (engine (encode rs)) →
  ∃ cs, regexp_pattern engine (encode rs) = Ret (Ok cs) ∧ boundary_cover (encode rs) cs.
Proof.
  intros Hs Hm Hb. destruct (decide (rs = [])) as [->|Hne].
  - exists [Capture 0 0 false]. split; [done|]. split; [cbn; auto with lia|].
    constructor; [|constructor]. split; apply (boundary_0 []); done.
  - destruct (regexp_pattern_spec engine (encode rs)) as (cs & Hp & Hc & _); [|done|].
    { intros ?%encode_nil_inv. done. }
    exists cs. split; [done|]. split; [done|].
    unfold regexp_pattern in Hp. destruct (zlen (encode rs) =? 0) eqn:E.
    { destruct rs as [|r rs]; [done|]. pose proof (encode_pos r rs). lia. }
    injection Hp as <-. apply match_loop_ends; [by apply boundary_0|by apply boundary_len|done].
Qed.

(** ** FromRegexp2 *)
Lemma match2_loop_spec rs ms e k prev len :
  scalars rs → matches2_ok rs k ms → 0 <= k <= zlen rs → len = zlen (encode rs) →
  prev = zlen (encode (take (Z.to_nat k) rs)) →
  match2_loop rs len ms e prev =
    match e with
    | Some er => Ret (Err er)
    | None => Ret (Ok (match_loop len (map (match2_range rs) ms) prev))
    end
  ∧ ordered_ranges prev (map (match2_range rs) ms) len
  ∧ Forall (λ m, boundary (encode rs) m.1 ∧ boundary (encode rs) m.2) (map (match2_range rs) ms).
Proof.
  intros Hs Hms Hk -> ->. revert k Hms Hk. induction ms as [|[i t] ms IH]; intros k Hms Hk.
  - cbn. split; [by destruct e|]. split; [|constructor].
    rewrite <- (take_drop (Z.to_nat k) rs) at 2. rewrite encode_app, zlen_app.
    pose proof (zlen_nonneg (encode (drop (Z.to_nat k) rs))). lia.
  - cbn [matches2_ok] in Hms. destruct Hms as (a & x & b & Hrs & -> & Hki & -> & Hms).
    pose proof (zlen_nonneg a) as Ha. pose proof (zlen_nonneg x) as Hx. pose proof (zlen_nonneg b) as Hb.
    assert (Hlen : zlen rs = zlen a + zlen x + zlen b) by (rewrite Hrs, !zlen_app; lia).
    assert (Hta : take (Z.to_nat (zlen a)) rs = a).
    { rewrite Hrs. unfold zlen. rewrite Nat2Z.id. apply take_app. }
    assert (Htax : take (Z.to_nat (zlen a + zlen x)) rs = a ++ x).
    { rewrite Hrs, app_assoc. replace (Z.to_nat _) with (length (a ++ x)); [apply take_app|].
      rewrite app_length. unfold zlen. lia. }
    destruct (IH (zlen a + zlen x) Hms ltac:(lia)) as (Hl & Ho & HB).
    rewrite Htax in Hl, Ho. rewrite encode_app, zlen_app in Hl, Ho.
    assert (Hm2 : match2_range rs (zlen a, encode x) = (zlen (encode a), zlen (encode a) + zlen (encode x))).
    { unfold match2_range. cbn [fst snd]. by rewrite Hta. }
    assert (Hprev : zlen (encode (take (Z.to_nat k) rs)) <= zlen (encode a)).
    { rewrite Hrs. rewrite take_app_le by (unfold zlen in *; lia).
      rewrite <- (take_drop (Z.to_nat k) a) at 2. rewrite encode_app, zlen_app.
      pose proof (zlen_nonneg (encode (drop (Z.to_nat k) a))). lia. }
    split; [|split].
    + cbn [match2_loop map]. unfold match2_bytes. cbn [fst snd].
      assert (Hsub : sub rs 0 (zlen a) = Ret a).
      { rewrite Hrs. by apply sub_prefix. }
      rewrite Hsub. cbn [mbind outcome_bind fst snd]. rewrite Hl, Hm2.
      destruct e as [er|]; cbn [mbind outcome_bind]; [done|].
      cbn [match_loop]. done.
    + cbn [map ordered_ranges]. rewrite Hm2. split; [done|]. pose proof (zlen_nonneg (encode x)). split; [lia|]. done.
    + cbn [map]. constructor; [|done]. rewrite Hm2. cbn [fst snd]. subst rs.
      apply scalars_app in Hs as [H1 Hs]. apply scalars_app in Hs as [H2 H3].
      split; [apply boundary_app; [done|apply scalars_app; auto]|].
      rewrite <- zlen_app, <- encode_app, app_assoc. apply boundary_app; [apply scalars_app; auto|done].
Qed.

Lemma regexp2_pattern_spec engine rs ms :
  scalars rs → rs ≠ [] → engine (encode rs) = (ms, None) → matches2_ok rs 0 ms →
  ∃ cs, regexp2_pattern engine (encode rs) = Ret (Ok cs)
      ∧ boundary_cover (encode rs) cs
      ∧ ranges_of true cs = map (match2_range rs) ms
      ∧ Forall (λ c, c_match c = false → c_start c < c_end c) cs.
Proof.
  intros Hs Hne He Hm. unfold regexp2_pattern.
  destruct (zlen (encode rs) =? 0) eqn:E.
  { destruct rs as [|r rs]; [done|]. pose proof (encode_pos r rs). lia. }
  rewrite He, runes_encode_scalars by done. cbn [fst snd].
  destruct (match2_loop_spec rs ms None 0 0 (zlen (encode rs))) as (Hl & Ho & HB); try done.
  { pose proof (zlen_nonneg rs). lia. }
  rewrite Hl. eexists. split; [done|].
  destruct (match_loop_spec _ _ _ Ho) as (Hc & Hr & Hn). split; [|done].
  split; [done|]. apply match_loop_ends; [by apply boundary_0|by apply boundary_len|done].
Qed.

Lemma regexp2_pattern_err engine rs ms e :
  scalars rs → rs ≠ [] → engine (encode rs) = (ms, Some e) → matches2_ok rs 0 ms →
  regexp2_pattern engine (encode rs) = Ret (Err e).
Proof.
  intros Hs Hne He Hm. unfold regexp2_pattern.
  destruct (zlen (encode rs) =? 0) eqn:E.
  { destruct rs as [|r rs]; [done|]. pose proof (encode_pos r rs). lia. }
  rewrite He, runes_encode_scalars by done. cbn [fst snd].
  destruct (match2_loop_spec rs ms (Some e) 0 0 (zlen (encode rs))) as (Hl & Ho & HB); try done.
  pose proof (zlen_nonneg rs). lia.
Qed.

(** ** FromString *)
Lemma take_eq_text_at p pre s :
  take (length p) s = p ↔ text_at (pre ++ s) (zlen pre) (zlen pre + zlen p) p.
Proof.
  split.
  - intros H. exists pre, (drop (length p) s). split; [|done].
    f_equal. rewrite <- H at 1. by rewrite take_drop.
  - intros (a & b & Heq & Hl & _). apply app_inj_1 in Heq as [_ ->]; [|unfold zlen in Hl; lia].
    apply take_app.
Qed.

Lemma find_literal_spec p s pre i k :
  p ≠ [] → i = zlen pre → (k <= length s)%nat →
  leftmost_occurrences p (pre ++ s) (i + Z.of_nat k) (find_literal p s i k).
Proof.
  intros Hp. revert pre i k. induction s as [|b s IH]; intros pre i k -> Hk.
  - cbn [find_literal leftmost_occurrences]. intros j Hj (a & c & Heq & -> & _).
    apply (f_equal length) in Heq. rewrite !app_length in Heq. cbn in Heq.
    destruct p; [done|]. cbn in Heq. unfold zlen in Hj. lia.
  - cbn [find_literal]. destruct k as [|k].
    + assert (Hpre : pre ++ b :: s = (pre ++ [b]) ++ s) by by rewrite <- app_assoc.
      case_bool_decide as Hm.
      * cbn [leftmost_occurrences]. rewrite Z.add_0_r. split; [lia|].
        split; [by apply take_eq_text_at|]. split; [lia|].
        replace (zlen pre + zlen p) with ((zlen pre + 1) + Z.of_nat (length p - 1)).
        2: { destruct p; [done|]. rewrite zlen_cons. cbn [length]. unfold zlen. lia. }
        rewrite Hpre. apply IH; [rewrite zlen_app; done|].
        apply (f_equal length) in Hm. rewrite take_length in Hm. cbn [length] in Hm. lia.
      * rewrite Hpre.
        specialize (IH (pre ++ [b]) (zlen pre + 1) 0%nat ltac:(rewrite zlen_app; done) ltac:(lia)).
        rewrite Z.add_0_r in *.
        assert (Hno : ¬ text_at ((pre ++ [b]) ++ s) (zlen pre) (zlen pre + zlen p) p).
        { rewrite <- Hpre. by rewrite <- take_eq_text_at. }
        destruct (find_literal p s (zlen pre + 1) 0) as [|[a c] ms]; cbn [leftmost_occurrences] in *.
        -- intros j Hj. destruct (decide (j = zlen pre)) as [->|]; [done|]. apply IH. lia.
        -- destruct IH as (H1 & H2 & H3 & H4). split; [lia|]. split; [done|]. split; [|done].
           intros j Hj. destruct (decide (j = zlen pre)) as [->|]; [done|]. apply H3. lia.
    + assert (Hpre : pre ++ b :: s = (pre ++ [b]) ++ s) by by rewrite <- app_assoc.
      rewrite Hpre. replace (zlen pre + Z.of_nat (S k)) with ((zlen pre + 1) + Z.of_nat k) by lia.
      apply IH; [rewrite zlen_app; done|]. cbn [length] in Hk. lia.
Qed.

Lemma leftmost_ordered p s lo ms :
  lo <= zlen s → leftmost_occurrences p s lo ms → ordered_ranges lo ms (zlen s).
Proof.
  revert lo. induction ms as [|[a b] ms IH]; intros lo Hlo; cbn [leftmost_occurrences ordered_ranges]; [done|].
  intros (H1 & (x & y & Heq & -> & ->) & _ & H4). split; [done|].
  pose proof (zlen_nonneg p). split; [lia|]. apply IH; [|done].
  rewrite Heq, !zlen_app. pose proof (zlen_nonneg y). lia.
Qed.

(** An occurrence of valid UTF-8 in valid UTF-8 is on character boundaries. *)
Lemma occurrence_boundary rs ps a b :
  scalars rs → scalars ps → ps ≠ [] → text_at (encode rs) a b (encode ps) →
  boundary (encode rs) a ∧ boundary (encode rs) b.
Proof.
  intros Hs Hp Hne (x & y & Heq & -> & ->). destruct ps as [|p ps]; [done|].
  destruct (encode_rune_head p) as (h & t & Hh & Hc & _).
  pose proof Heq as Heq'. rewrite encode_cons, Hh in Heq'. cbn in Heq'. rewrite <- app_assoc in Heq'.
  destruct (encode_split_noncont _ _ _ _ Heq' Hc) as (r1 & r2 & -> & <- & Hr2).
  apply scalars_app in Hs as [Hs1 Hs2]. split; [by apply boundary_app|].
  assert (Hr2' : encode r2 = encode (p :: ps) ++ y).
  { rewrite Hr2, encode_cons, Hh. cbn. by rewrite <- app_assoc. }
  assert (Hr : r2 = (p :: ps) ++ runes y).
  { apply (f_equal runes) in Hr2'. rewrite runes_encode_scalars in Hr2' by done.
    by rewrite runes_encode_app, map_sanitize_id in Hr2' by done. }
  rewrite Hr, <- zlen_app, <- encode_app, app_assoc. rewrite Hr in Hs2.
  apply scalars_app in Hs2 as [_ Hs2]. apply boundary_app; [apply scalars_app; auto|done].
Qed.

Lemma leftmost_boundaries rs ps lo ms :
  scalars rs → scalars ps → ps ≠ [] → leftmost_occurrences (encode ps) (encode rs) lo ms →
  Forall (λ m, boundary (encode rs) m.1 ∧ boundary (encode rs) m.2) ms.
Proof.
  intros Hs Hp Hne. revert lo. induction ms as [|[a b] ms IH]; intros lo; [constructor|].
  cbn [leftmost_occurrences]. intros (_ & H2 & _ & H4). constructor; [|by eapply IH].
  by apply (occurrence_boundary rs ps).
Qed.

Lemma string_pattern_spec ps rs :
  scalars ps → scalars rs → ps ≠ [] → rs ≠ [] →
  ∃ cs, string_pattern (encode ps) (encode rs) = Ret (Ok cs)
      ∧ boundary_cover (encode rs) cs
      ∧ leftmost_occurrences (encode ps) (encode rs) 0 (ranges_of true cs)
      ∧ Forall (λ c, c_match c = false → c_start c < c_end c) cs.
Proof.
  intros Hp Hs Hpne Hrne. unfold string_pattern.
  destruct (zlen (encode ps) =? 0) eqn:E.
  { destruct ps as [|r l]; [done|]. pose proof (encode_pos r l). lia. }
  rewrite valid_utf8_encode.
  assert (Hpe : encode ps ≠ []) by by intros ?%encode_nil_inv.
  pose proof (find_literal_spec (encode ps) (encode rs) [] 0 0 Hpe eq_refl ltac:(lia)) as Hl.
  cbn [app] in Hl. rewrite Z.add_0_r in Hl.
  pose proof (leftmost_ordered _ _ 0 _ (zlen_nonneg _) Hl) as Ho.
  pose proof (leftmost_boundaries _ _ _ _ Hs Hp Hpne Hl) as HB.
  destruct (regexp_pattern_spec (λ s, find_literal (encode ps) s 0 0) (encode rs)) as (cs & Hc & H1 & H2 & H3);
    [by intros ?%encode_nil_inv|done|].
  destruct (regexp_pattern_boundary (λ s, find_literal (encode ps) s 0 0) rs) as (cs' & Hc' & HBC); [done|done|done|].
  exists cs. split; [done|]. rewrite H2. rewrite Hc in Hc'. injection Hc' as <-. done.
Qed.

(** Any bytes at all. *)
Lemma string_pattern_any p s :
  valid_utf8 p = true → p ≠ [] → s ≠ [] →
  ∃ cs, string_pattern p s = Ret (Ok cs)
      ∧ covers 0 cs (zlen s)
      ∧ leftmost_occurrences p s 0 (ranges_of true cs)
      ∧ Forall (λ c, c_match c = false → c_start c < c_end c) cs.
Proof.
  intros Hv Hp Hs. unfold string_pattern.
  destruct (zlen p =? 0) eqn:E.
  { destruct p as [|x p]; [done|]. rewrite zlen_cons in E. pose proof (zlen_nonneg p). lia. }
  rewrite Hv.
  pose proof (find_literal_spec p s [] 0 0 Hp eq_refl ltac:(lia)) as Hl.
  cbn [app] in Hl. rewrite Z.add_0_r in Hl.
  pose proof (leftmost_ordered _ _ 0 _ (zlen_nonneg _) Hl) as Ho.
  destruct (regexp_pattern_spec (λ s, find_literal p s 0 0) s) as (cs & Hc & H1 & H2 & H3); [done|done|].
  exists cs. split; [done|]. rewrite H2. done.
Qed.

(** The empty literal: one non-match whose end is the number of characters. *)
Lemma string_pattern_empty s : string_pattern [] s = Ret (Ok [Capture 0 (zlen (runes s)) false]).
Proof. reflexivity. Qed.

(** ** Invert *)
Definition flip (c : capture) : capture := Capture (c_start c) (c_end c) (negb (c_match c)).

Lemma flip_flip c : flip (flip c) = c.
Proof. destruct c. unfold flip. cbn. by rewrite negb_involutive. Qed.

Lemma invert_spec sp s :
  invert sp s = match sp s with
                | Ret (Ok cs) => Ret (Ok (map flip cs))
                | Ret (Err e) => Ret (Err e)
                | Panic => Panic
                end.
Proof. unfold invert. destruct (sp s) as [[cs|e]|]; done. Qed.

Lemma invert_invert sp s : invert (invert sp) s = sp s.
Proof.
  rewrite invert_spec, invert_spec. destruct (sp s) as [[cs|e]|]; [|done|done].
  do 2 f_equal. rewrite map_map. rewrite <- (map_id cs) at 2. apply map_ext. apply flip_flip.
Qed.

Lemma invert_ranges (sp : pattern) s cs cs' kind :
  sp s = Ret (Ok cs) → invert sp s = Ret (Ok cs') → ranges_of kind cs' = ranges_of (negb kind) cs.
Proof.
  intros H1 H2. rewrite invert_spec, H1 in H2. injection H2 as <-.
  clear H1. induction cs as [|c cs IH]; [done|]. cbn [map]. rewrite !ranges_of_cons, IH. cbn.
  by destruct (c_match c), kind.
Qed.

Lemma func_pattern_cover f rs :
  scalars rs → ∃ cs, func_pattern f (encode rs) = Ret (Ok cs) ∧ boundary_cover (encode rs) cs.
Proof.
  intros Hs. destruct (func_pattern_spec f rs Hs) as (segs & H & Hc & _). exists (place 0 segs).
  split; [done|]. apply boundary_cover_place; eauto.
Qed.

Lemma string_pattern_refuted :
  ¬ (∀ ps rs, scalars ps → scalars rs →
     ∃ cs, string_pattern (encode ps) (encode rs) = Ret (Ok cs) ∧ covers 0 cs (zlen (encode rs))).
Proof.
  intros H. destruct (H [] [0xE9]) as (cs & Hc & Hcov); [by repeat constructor..|].
  vm_compute in Hc. injection Hc as <-. destruct Hcov as (_ & _ & Hcov). vm_compute in Hcov. discriminate.
Qed.

Lemma string_pattern_empty_ascii rs :
  Forall (λ r, 0 <= r < 128) rs →
  ∃ cs, string_pattern [] (encode rs) = Ret (Ok cs) ∧ covers 0 cs (zlen (encode rs)) ∧ ranges_of true cs = [].
Proof.
  intros H. rewrite string_pattern_empty. eexists. split; [done|].
  rewrite runes_encode. split; [|done]. cbn. rewrite zlen_encode_ascii by done.
  unfold zlen. rewrite map_length. lia.
Qed.

Lemma rune_segmented_unique f segs segs' :
  rune_segmented f segs → rune_segmented f segs' → concat segs.*1 = concat segs'.*1 → segs = segs'.
Proof.
  revert segs'. induction segs as [|[t m] segs IH]; intros [|[t' m'] segs'] Hs Hs' Hc.
  - done.
  - exfalso. cbn in Hs', Hc. destruct Hs' as [H' _]. destruct m'; [destruct H' as (r & -> & _)|destruct H' as (H' & _)].
    + done.
    + by destruct t'.
  - exfalso. cbn in Hs, Hc. destruct Hs as [H _]. destruct m; [destruct H as (r & -> & _)|destruct H as (H & _)].
    + done.
    + by destruct t.
  - assert (Hnb : ∀ t segs, Forall (λ r, f r = false) t → rune_segmented f segs →
                   match segs with (_, false) :: _ => False | _ => True end →
                   ∀ t2 segs2, Forall (λ r, f r = false) t2 → rune_segmented f segs2 →
                   match segs2 with (_, false) :: _ => False | _ => True end →
                   t ++ concat segs.*1 = t2 ++ concat segs2.*1 → t = t2).
    { clear. intros t. induction t as [|x t IH]; intros segs Ht Hs Hn t2 segs2 Ht2 Hs2 Hn2 Heq.
      - destruct t2 as [|y t2]; [done|]. exfalso. inversion Ht2; subst.
        destruct segs as [|[u [|]] segs]; [done| |done]. cbn in Hs. destruct Hs as [(r & -> & Hr) _].
        cbn in Heq. injection Heq as -> _. congruence.
      - destruct t2 as [|y t2].
        + exfalso. inversion Ht; subst.
          destruct segs2 as [|[u [|]] segs2]; [done| |done]. cbn in Hs2. destruct Hs2 as [(r & -> & Hr) _].
          cbn in Heq. injection Heq as -> _. congruence.
        + cbn in Heq. injection Heq as -> Heq. f_equal. inversion Ht; subst. inversion Ht2; subst.
          by apply (IH segs) with (segs2 := segs2). }
    cbn [rune_segmented] in Hs, Hs'. destruct Hs as [H Hs]. destruct Hs' as [H' Hs'].
    rewrite !fmap_cons in Hc. cbn [fst concat] in Hc.
    destruct m, m'.
    + destruct H as (r & -> & _), H' as (r' & -> & _). cbn in Hc. injection Hc as -> Hc. f_equal. by apply IH.
    + exfalso. destruct H as (r & -> & Hr), H' as (Hne & Hf & _). destruct t' as [|x t']; [done|].
      cbn in Hc. injection Hc as -> _. inversion Hf; subst. congruence.
    + exfalso. destruct H' as (r & -> & Hr), H as (Hne & Hf & _). destruct t as [|x t]; [done|].
      cbn in Hc. injection Hc as -> _. inversion Hf; subst. congruence.
    + destruct H as (_ & Hf & Hn), H' as (_ & Hf' & Hn').
      assert (t = t') as -> by by eapply (Hnb t segs Hf Hs Hn t' segs').
      f_equal. apply app_inv_head in Hc. by apply IH.
Qed.

(** The matches of a function pattern are the accepted characters. *)
Lemma segmented_ranges f segs i a b : rune_segmented f segs →
  (a, b) ∈ ranges_of true (place i segs) ↔
  ∃ l x r, concat segs.*1 = l ++ x :: r ∧ f x = true ∧ a = i + zlen (encode l) ∧ b = a + rune_len x.
Proof.
  revert i. induction segs as [|[t m] segs IH]; intros i Hs.
  { cbn. split; [by intros ?%elem_of_nil|]. intros ([|] & x & r & E & _); done. }
  destruct Hs as [Ht Hs]. specialize (IH (i + zlen (encode t)) Hs). unfold ranges_of in *. cbn [place].
  rewrite filter_cons, fmap_cons. cbn [c_match fst concat]. destruct m.
  - destruct Ht as (x & -> & Hx). rewrite decide_True by done. cbn [map c_start c_end]. rewrite elem_of_cons, IH. clear IH.
    rewrite zlen_encode_cons, zlen_encode_nil. cbn [app]. split.
    + intros [[= -> ->]|(l & y & r & E & Hy & -> & ->)].
      * exists [], x, (concat segs.*1). rewrite zlen_encode_nil. split; [done|]. split; [done|]. lia.
      * exists (x :: l), y, r. rewrite E, zlen_encode_cons. split; [done|]. split; [done|]. lia.
    + intros ([|y l] & z & r & E & Hz & -> & ->); cbn [app] in E; injection E as <- E.
      * left. rewrite zlen_encode_nil. f_equal; lia.
      * right. exists l, z, r. rewrite zlen_encode_cons. split; [done|]. split; [done|]. lia.
  - destruct Ht as (_ & Ht & _). rewrite decide_False by done. rewrite IH. clear IH. split.
    + intros (l & y & r & E & Hy & -> & ->). exists (t ++ l), y, r. rewrite E, encode_app, zlen_app, <- app_assoc. split; [done|]. split; [done|]. lia.
    + intros (l & y & r & E & Hy & -> & ->). assert (∃ l', l = t ++ l') as [l' ->].
      { clear -Ht E Hy. revert l E. induction Ht as [|z t Hz Ht IH]; intros l E; [by exists l|]. destruct l as [|w l]; cbn in E; injection E as -> E; [congruence|].
        destruct (IH l E) as [l' ->]. by exists l'. }
      rewrite <- app_assoc in E. apply app_inv_head in E. exists l', y, r. rewrite encode_app, zlen_app. split; [done|]. split; [done|]. lia.
Qed.
