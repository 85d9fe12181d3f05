(** Proofs about functions of the caller that panic or have state. *)
From Coq Require Import ZifyBool.
From Verif Require Import GoBase Utf8Facts Strutils SplitPattern SpecText SliceFacts StrutilsFacts NormString SpecNorm NormFacts PatternFacts Callbacks SpecCallbacks.
Import GoBase NormString SpecNorm.
#[local] Open Scope Z_scope.

Lemma answers_or_panics {St B} (f : callback St B) st rs :
  (∃ bs st', answers f st rs bs st') ∨ panics f st rs.
Proof.
  revert st. induction rs as [|r rs IH]; intros st; [left; eexists _, _; constructor|].
  destruct (f st r) as [[st1 b]|] eqn:E.
  - destruct (IH st1) as [(bs & st' & H)|(l & x & r' & bs & st2 & -> & H1 & H2)].
    + left. eexists _, _. by econstructor.
    + right. exists (r :: l), x, r', (b :: bs), st2. split; [done|]. split; [by econstructor|done].
  - right. exists [], r, rs, [], st. split; [done|]. split; [constructor|done].
Qed.

Lemma answers_length {St B} (f : callback St B) st rs bs st' : answers f st rs bs st' → length bs = length rs.
Proof. induction 1; cbn; lia. Qed.

(** ** Map *)
Lemma map_loop_answers {St} (f : callback St Z) st rs bs st' :
  answers f st rs bs st' → map_loop_cb f st rs = Ret (st', map (λ b, (b, 0)) bs).
Proof.
  induction 1 as [|st r st1 b rs bs st2 H1 H2 IH]; [done|]. cbn [map_loop_cb]. rewrite H1. cbn [mbind outcome_bind fst snd].
  rewrite IH. done.
Qed.

Lemma map_loop_panics {St} (f : callback St Z) st rs : panics f st rs → map_loop_cb f st rs = Panic.
Proof.
  intros (l & x & r & bs & st1 & -> & H & Hp). induction H as [st|st y st2 b l bs st3 H1 H2 IH]; cbn [app map_loop_cb].
  - by rewrite Hp.
  - rewrite H1. cbn [mbind outcome_bind fst snd]. by rewrite (IH Hp).
Qed.

Definition answer_chars (bs : list Z) (v : atext) : atext := zip (map sanitize bs) v.*2.

Lemma rewrite_answers bs prev v :
  length bs = length v → rewrite_chars prev v (map (λ b, (b, 0)) bs) = Some (answer_chars bs v).
Proof.
  unfold answer_chars. revert prev v. induction bs as [|b bs IH]; intros prev [|[x a] v] Hl; try done.
  cbn [map rewrite_chars fst]. change (1 <=? 0) with false. cbv iota.
  change (Z.to_nat (- 0)) with 0%nat. rewrite drop_0, take_0, fmap_nil. cbn [last default].
  rewrite decide_True by lia. rewrite IH by (cbn in Hl; lia). done.
Qed.

Lemma answer_chars_scalars bs v : scalars (answer_chars bs v).*1.
Proof.
  unfold answer_chars. revert v. induction bs as [|b bs IH]; intros [|p v]; try by constructor.
  constructor; [apply sanitize_scalar|apply IH].
Qed.

Lemma map_cb_spec {St} (f : callback St Z) st n v bs st' :
  repr n v → answers f st v.*1 bs st' →
  map_runes_cb n f st = Ret (st', NS (ns_orig n) (encode (answer_chars bs v).*1) (spans_of (answer_chars bs v)) (ns_shift n)).
Proof.
  intros Hr Ha. unfold map_runes_cb. rewrite (repr_runes n v Hr), (map_loop_answers _ _ _ _ _ Ha). cbn [mbind outcome_bind fst snd].
  pose proof (transform_spec n [] v (map (λ r, (r, 0)) bs) Hr) as H. rewrite alen_nil in H.
  rewrite H, rewrite_answers; [done|]. apply answers_length in Ha. by rewrite fmap_length in Ha.
Qed.

(** ** Filter *)
Lemma filter_loop_answers {St} (f : callback St bool) keep st rs bs st' last a b :
  answers f st rs bs st' → bs = map keep rs →
  filter_loop_cb f st rs last a b = Ret (st', filter_loop keep rs last a b).
Proof.
  intros H. revert last a b. induction H as [|st r st1 c rs bs st2 H1 H2 IH]; intros last a b E; [done|].
  cbn [map] in E. injection E as -> E. cbn [filter_loop_cb filter_loop]. rewrite H1. cbn [mbind outcome_bind fst snd].
  destruct (keep r); cbn [negb]; [|by apply IH]. destruct last; [|by apply IH]. by rewrite IH.
Qed.

Lemma filter_loop_panics {St} (f : callback St bool) st rs last a b : panics f st rs → filter_loop_cb f st rs last a b = Panic.
Proof.
  intros (l & x & r & bs & st1 & -> & H & Hp). revert last a b.
  induction H as [st|st y st2 c l bs st3 H1 H2 IH]; intros last a b; cbn [app filter_loop_cb].
  - by rewrite Hp.
  - rewrite H1. cbn [mbind outcome_bind fst snd]. destruct (negb c); [by apply IH|]. destruct last; [|by apply IH].
    by rewrite IH.
Qed.

(** ** FromFunc *)
Lemma merged_match c cs : c_match c = true → merged_rest cs → merged_rest (c :: cs).
Proof.
  intros Hc H [|c0 cs1] c1 c2 cs2 E.
  - injection E as <- _. by left.
  - injection E as <- E. by eapply H.
Qed.

Lemma merged_before a c cs : c_match c = true → merged_rest cs → merged_rest (a :: c :: cs).
Proof.
  intros Hc H [|c0 cs1] c1 c2 cs2 E.
  - injection E as <- <- _. by right.
  - injection E as <- E. eapply (merged_match c cs Hc H); exact E.
Qed.

Lemma merged_short cs : (length cs <= 1)%nat → merged_rest cs.
Proof. intros H cs1 c1 c2 cs2 ->. rewrite app_length in H. cbn in H. lia. Qed.

Lemma func_loop_answers {St} (f : callback St bool) st rs bs st' i lo :
  answers f st rs bs st' → lo <= i →
  ∃ cs, func_loop_cb f st (rune_positions i rs) lo i = Ret (st', cs)
   ∧ covers lo cs (i + zlen (encode rs)) ∧ ranges_of true cs = accepted i rs bs
   ∧ Forall (λ c, c_start c < c_end c) cs ∧ merged_rest cs.
Proof.
  intros H. revert i lo. induction H as [st|st r st1 c rs bs st2 H1 H2 IH]; intros i lo Hlo; cbn [rune_positions func_loop_cb accepted].
  - eexists. split; [done|]. change (zlen (encode [])) with 0. destruct (lo <? i) eqn:E; (split; [cbn; lia|]); (split; [done|]); split; [|apply merged_short; cbn; lia| |apply merged_short; cbn; lia]; repeat constructor; cbn; lia.
  - assert (Hr : zlen (encode [r]) = rune_len r).
    { rewrite zlen_encode_cons. cbn. rewrite zlen_nil. lia. }
    pose proof (encode_pos r []) as Hp. rewrite Hr in Hp. rewrite Hr, zlen_encode_cons, H1. cbn [mbind outcome_bind fst snd].
    destruct c; cbn [negb].
    + destruct (IH (i + rune_len r) (i + rune_len r)) as (cs & E & Hc & Hm & Hne & Hmg); [lia|]. rewrite E. cbn [mbind outcome_bind fst snd].
      eexists. split; [done|]. rewrite <- Z.add_assoc in Hc. split.
      * destruct (lo <? i) eqn:El; cbn; repeat split; try done; lia.
      * split; [rewrite <- Hm; by destruct (lo <? i)|]. split.
        -- destruct (lo <? i) eqn:El; repeat constructor; try done; cbn; lia.
        -- destruct (lo <? i); cbn [app]; [by apply merged_before|by apply merged_match].
    + destruct (IH (i + rune_len r) lo) as (cs & E & Hc & Hm); [lia|]. rewrite <- Z.add_assoc in Hc. eauto 10.
Qed.

Lemma func_loop_same {St} (f : callback St bool) g st rs bs st' i lo lseen :
  answers f st rs bs st' → bs = map g rs →
  func_loop_cb f st (rune_positions i rs) lo lseen = Ret (st', func_loop g (rune_positions i rs) lo lseen).
Proof.
  intros H. revert i lo lseen. induction H as [|st r st1 c rs bs st2 H1 H2 IH]; intros i lo lseen E; [done|].
  cbn [map] in E. injection E as -> E. cbn [rune_positions func_loop_cb func_loop]. rewrite H1. cbn [mbind outcome_bind fst snd].
  destruct (g r); cbn [negb]; [|by apply IH]. by rewrite IH.
Qed.

Lemma func_loop_panics {St} (f : callback St bool) st rs i lo lseen :
  panics f st rs → func_loop_cb f st (rune_positions i rs) lo lseen = Panic.
Proof.
  intros (l & x & r & bs & st1 & -> & H & Hp). revert i lo lseen.
  induction H as [st|st y st2 c l bs st3 H1 H2 IH]; intros i lo lseen; cbn [app rune_positions func_loop_cb].
  - by rewrite Hp.
  - rewrite H1. cbn [mbind outcome_bind fst snd]. destruct (negb c); [by apply IH|]. by rewrite IH.
Qed.

Lemma func_cb_spec {St} (f : callback St bool) st rs bs st' :
  scalars rs → rs ≠ [] → answers f st rs bs st' →
  ∃ cs, func_pattern_cb f st (encode rs) = Ret (st', Ok cs)
   ∧ covers 0 cs (zlen (encode rs)) ∧ ranges_of true cs = accepted 0 rs bs
   ∧ Forall (λ c, c_start c < c_end c) cs ∧ merged_rest cs.
Proof.
  intros Hs Hne Ha. unfold func_pattern_cb. destruct rs as [|r rs]; [done|].
  pose proof (encode_pos r rs). replace (zlen _ =? 0) with false by lia. rewrite range_str_encode by done.
  destruct (func_loop_answers f st (r :: rs) bs st' 0 0 Ha) as (cs & E & Hc & Hm); [lia|]. rewrite E.
  eexists. split; [done|]. done.
Qed.

Lemma func_cb_same {St} (f : callback St bool) g st rs st' :
  scalars rs → answers f st rs (map g rs) st' →
  func_pattern_cb f st (encode rs) = (x ← func_pattern g (encode rs); Ret (st', x)).
Proof.
  intros Hs Ha. unfold func_pattern_cb, func_pattern. destruct rs as [|r rs].
  - inversion Ha. done.
  - pose proof (encode_pos r rs). replace (zlen _ =? 0) with false by lia. rewrite range_str_encode by done.
    by rewrite (func_loop_same f g st _ _ st' 0 0 0 Ha eq_refl).
Qed.

Lemma func_cb_panics {St} (f : callback St bool) st rs : scalars rs → panics f st rs → func_pattern_cb f st (encode rs) = Panic.
Proof.
  intros Hs Hp. unfold func_pattern_cb. destruct rs as [|r rs].
  - destruct Hp as ([|] & ? & ? & ? & ? & ? & _); done.
  - pose proof (encode_pos r rs). replace (zlen _ =? 0) with false by lia. rewrite range_str_encode by done.
    by rewrite func_loop_panics.
Qed.

(** ** Filter, by position *)
Lemma filter_cb_text {St} (f : callback St bool) st rs bs st' last a b :
  answers f st rs bs st' →
  ∃ x, filter_loop_cb f st rs last a b = Ret (st', x)
   ∧ x.1.*1 = (match last with Some l => [l] | None => [] end) ++ picked rs bs.
Proof.
  intros H. revert last a b. induction H as [|st r st1 c rs bs st2 H1 H2 IH]; intros last a b; cbn [filter_loop_cb picked].
  { eexists. split; [done|]. by destruct last. }
  rewrite H1. cbn [mbind outcome_bind fst snd]. destruct c; cbn [negb app]; [|apply IH].
  destruct last as [l|].
  - destruct (IH (Some r) 0 b) as (x & E & Hx). rewrite E. cbn [mbind outcome_bind fst snd]. eexists. split; [done|].
    cbn [fst]. rewrite fmap_cons. by rewrite Hx.
  - destruct (IH (Some r) 0 a) as (x & E & Hx). eauto.
Qed.

Lemma filter_cb_some {St} (f : callback St bool) st v bs st' l (removed rs : Z) :
  answers f st v.*1 bs st' →
  ∃ tl, filter_loop_cb f st v.*1 (Some l) removed rs = Ret (st', (tl, rs))
   ∧ (∀ prev x a pend, removed = zlen pend →
        rewrite_chars prev ((x, a) :: pend ++ v) tl = Some ((sanitize l, a) :: map_chars id (picked v bs))).
Proof.
  revert st bs l removed. induction v as [|[r b] v IH]; intros st bs l removed Ha; rewrite ?fmap_cons in *; cbn [filter_loop_cb fst picked] in *.
  - inversion Ha; subst. eexists. split; [done|]. intros prev x a pend ->. cbn [rewrite_chars].
    pose proof (zlen_nonneg pend). replace (1 <=? - zlen pend) with false by lia.
    replace (Z.to_nat (- - zlen pend)) with (length pend) by (unfold zlen; lia).
    rewrite app_nil_r. destruct (decide _) as [_|Hc]; [|lia]. done.
  - inversion Ha as [|? ? st1 c ? bs' ? H1 H2]; subst. rewrite H1. cbn [mbind outcome_bind fst snd picked]. destruct c; cbn [negb app].
    + destruct (IH _ _ r 0 H2) as (tl & Hl & Hrw). rewrite Hl. cbn [mbind outcome_bind fst snd].
      eexists. split; [done|]. intros prev x a pend ->. cbn [rewrite_chars].
      pose proof (zlen_nonneg pend). replace (1 <=? - zlen pend) with false by lia.
      replace (Z.to_nat (- - zlen pend)) with (length pend) by (unfold zlen; lia).
      rewrite drop_app, take_app. destruct (decide _) as [_|Hc]; [|rewrite app_length in Hc; lia].
      rewrite (Hrw _ r b [] eq_refl : rewrite_chars _ ((r, b) :: v) tl = _). done.
    + destruct (IH _ _ l (removed + 1) H2) as (tl & Hl & Hrw). rewrite Hl.
      eexists. split; [done|]. intros prev x a pend ->.
      rewrite <- (Hrw prev x a (pend ++ [(r, b)])) by (rewrite zlen_app; done).
      by rewrite <- app_assoc.
Qed.

Lemma picked_scalars (v : atext) bs : scalars v.*1 → scalars (picked v bs).*1.
Proof.
  revert bs. induction v as [|p v IH]; intros [|b bs] H; cbn [picked]; try constructor.
  rewrite fmap_cons in H. inversion H; subst. destruct b; cbn [app]; [|by apply IH]. rewrite fmap_cons. constructor; [done|by apply IH].
Qed.

Lemma answers_app {St B} (f : callback St B) st l r b0 b2 st' :
  length b0 = length l → answers f st (l ++ r) (b0 ++ b2) st' →
  ∃ st1, answers f st l b0 st1 ∧ answers f st1 r b2 st'.
Proof.
  revert st b0. induction l as [|x l IH]; intros st [|b b0] Hl H; try done.
  - exists st. split; [constructor|done].
  - cbn [app] in H. inversion H as [|? ? s1 ? ? ? ? H1 H2]; subst.
    destruct (IH s1 b0) as (st1 & Ha & Hb); [cbn in Hl; lia|done|]. exists st1. split; [by econstructor|done].
Qed.

Lemma filter_cb_front {St} (f : callback St bool) st l b0 st1 r a :
  answers f st l b0 st1 → Forall (λ b, b = false) b0 →
  filter_loop_cb f st (l ++ r) None a 0 = filter_loop_cb f st1 r None (a + zlen l) 0.
Proof.
  intros H. revert a. induction H as [st|st x s1 c l bs st2 H1 H2 IH]; intros a Hf.
  - cbn [app]. f_equal. unfold zlen. cbn [length]. lia.
  - inversion Hf; subst. cbn [app filter_loop_cb]. rewrite H1. cbn [mbind outcome_bind fst snd negb]. rewrite IH by done.
    rewrite zlen_cons. f_equal. lia.
Qed.

Lemma picked_front {A} (v0 v2 : list A) b0 b2 :
  length b0 = length v0 → Forall (λ b, b = false) b0 → picked (v0 ++ v2) (b0 ++ b2) = picked v2 b2.
Proof.
  revert v0. induction b0 as [|b b0 IH]; intros [|x v0] Hl Hf; try done. inversion Hf; subst. cbn [app picked]. apply IH; [cbn in Hl; lia|done].
Qed.

Lemma filter_cb_spec {St} (f : callback St bool) st n v0 v2 b0 b2 st' :
  repr n (v0 ++ v2) → answers f st (v0 ++ v2).*1 (b0 ++ b2) st' → length b0 = length v0 →
  Forall (λ b, b = false) b0 → b2 = [] ∨ Forall (λ q, q.1 < 128) v0 ∧ head b2 = Some true →
  let w := picked (v0 ++ v2) (b0 ++ b2) in
  filter_runes_cb n f st = Ret (st', NS (ns_orig n) (encode w.*1) (spans_of w) (ns_shift n)).
Proof.
  intros Hr Ha Hl Hf Hc w. pose proof Hr as (Hs & _). unfold filter_runes_cb. rewrite (repr_runes n _ Hr).
  unfold w. rewrite picked_front by done. rewrite fmap_app in *.
  destruct (answers_app f st v0.*1 v2.*1 b0 b2 st') as (st1 & H0 & H2); [by rewrite fmap_length|done|].
  rewrite (filter_cb_front f st _ b0 st1 _ 0 H0 Hf).
  destruct Hc as [->|[Hasc Hh]].
  - destruct v2 as [|p v2]; [|inversion H2]. inversion H2; subst. cbn [fmap list_fmap filter_loop_cb mbind outcome_bind fst snd picked].
    pose proof (transform_spec n [] (v0 ++ []) [] Hr) as H. rewrite alen_nil in H. rewrite H. done.
  - destruct b2 as [|b b2]; [done|]. injection Hh as ->. destruct v2 as [|[r b] v2]; [inversion H2|]. rewrite fmap_cons in *. cbn [filter_loop_cb fst] in *.
    inversion H2 as [|? ? st2 c ? bs' ? H3 H4]; subst. rewrite H3. cbn [mbind outcome_bind fst snd negb].
    destruct (filter_cb_some f st2 v2 b2 st' r 0 (0 + zlen v0.*1) H4) as (tl & E & Hrw). rewrite E. cbn [mbind outcome_bind fst snd].
    apply Forall_app in Hs as [Hs0 Hs2].
    replace (0 + zlen v0.*1) with (alen v0) by (rewrite alen_ascii by done; unfold zlen; rewrite fmap_length; lia).
    rewrite (transform_spec n v0 ((r, b) :: v2) tl Hr).
    rewrite (Hrw _ r b [] eq_refl : rewrite_chars _ ((r, b) :: v2) tl = _). cbn [mbind outcome_bind fst snd picked app].
    inversion Hs2 as [|? ? Hx Hv]; subst. cbn [fst] in Hx. rewrite (sanitize_id r) by done.
    rewrite map_chars_id by (by apply picked_scalars). done.
Qed.

Lemma first_true (bs : list bool) :
  Forall (λ b, b = false) bs ∨ ∃ b0 b2, bs = b0 ++ true :: b2 ∧ Forall (λ b, b = false) b0.
Proof.
  induction bs as [|[] bs IH]; [left; constructor|right; exists [], bs; split; [done|constructor]|].
  destruct IH as [H|(b0 & b2 & -> & H)]; [left; by constructor|]. right. exists (false :: b0), b2. split; [done|by constructor].
Qed.

(** ** The captures are determined *)
Lemma ranges_cons c cs : ranges_of true (c :: cs) = (if c_match c then [(c_start c, c_end c)] else []) ++ ranges_of true cs.
Proof. unfold ranges_of. rewrite filter_cons. destruct (decide _) as [E|E]; by destruct (c_match c). Qed.

Lemma merged_tail c cs : merged_rest (c :: cs) → merged_rest cs.
Proof. intros H cs1 c1 c2 cs2 ->. by apply (H (c :: cs1) c1 c2 cs2). Qed.

Lemma rest_end i c cs len :
  covers i (c :: cs) len → c_match c = false → merged_rest (c :: cs) →
  c_end c = match ranges_of true cs with [] => len | (a, _) :: _ => a end.
Proof.
  intros (_ & _ & H) Hc Hm. destruct cs as [|d cs]; [done|]. destruct H as (H & _).
  destruct (Hm [] c d cs eq_refl) as [E|E]; [congruence|]. rewrite ranges_cons, E. cbn. lia.
Qed.

Lemma rest_start i c cs len a b l :
  covers i (c :: cs) len → c_match c = false → merged_rest (c :: cs) → c_start c < c_end c →
  ranges_of true (c :: cs) = (a, b) :: l → i < a.
Proof.
  intros Hc Hn Hm Hlt E. pose proof (rest_end i c cs len Hc Hn Hm) as H. rewrite ranges_cons, Hn in E. cbn [app] in E.
  rewrite E in H. destruct Hc as (? & _). lia.
Qed.

Lemma covers_le i cs len : covers i cs len → i <= len.
Proof. revert i. induction cs as [|c cs IH]; intros i; cbn; [lia|]. intros (? & ? & H%IH). lia. Qed.

Lemma captures_unique i cs cs' len :
  covers i cs len → covers i cs' len → ranges_of true cs = ranges_of true cs' →
  Forall (λ c, c_start c < c_end c) cs → Forall (λ c, c_start c < c_end c) cs' →
  merged_rest cs → merged_rest cs' → cs = cs'.
Proof.
  revert i cs'. induction cs as [|c cs IH]; intros i [|d cs'] Hc Hd Hr Hp Hp' Hm Hm'; [done| | |].
  - destruct Hd as (? & ? & H%covers_le). inversion Hp'; subst. cbn in Hc. lia.
  - destruct Hc as (? & ? & H%covers_le). inversion Hp; subst. cbn in Hd. lia.
  - inversion Hp as [|? ? Hp1 Hp2]; inversion Hp' as [|? ? Hq1 Hq2]; subst.
    destruct (c_match c) eqn:E, (c_match d) eqn:E'.
    + rewrite !ranges_cons, E, E' in Hr. cbn [app] in Hr. injection Hr as Hs He Hr.
      assert (c = d) as -> by (destruct c, d; cbn in *; congruence). f_equal.
      destruct Hc as (_ & _ & Hc), Hd as (_ & _ & Hd).
      apply (IH _ cs' Hc Hd Hr Hp2 Hq2); eapply merged_tail; eauto.
    + exfalso. rewrite ranges_cons, E in Hr. cbn [app] in Hr. symmetry in Hr.
      pose proof (rest_start i d cs' len _ _ _ Hd E' Hm' Hq1 Hr). destruct Hc as (? & _). lia.
    + exfalso. rewrite (ranges_cons d), E' in Hr. cbn [app] in Hr.
      pose proof (rest_start i c cs len _ _ _ Hc E Hm Hp1 Hr). destruct Hd as (? & _). lia.
    + pose proof (rest_end i c cs len Hc E Hm) as H1. pose proof (rest_end i d cs' len Hd E' Hm') as H2.
      rewrite !ranges_cons, E, E' in Hr. cbn [app] in Hr. rewrite Hr in H1.
      destruct Hc as (Hs & _ & Hc), Hd as (Hs' & _ & Hd).
      assert (c = d) as -> by (destruct c, d; cbn in *; congruence). f_equal.
      apply (IH _ cs' Hc Hd Hr Hp2 Hq2); eapply merged_tail; eauto.
Qed.
