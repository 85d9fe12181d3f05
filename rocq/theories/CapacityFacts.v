(** Spare capacity makes no difference to TransformRange and Slice. *)
From Coq Require Import ZifyBool.
From Verif Require Import GoBase Strutils NormString SpecNorm SpecInvalid Utf8Facts SliceFacts NormFacts InvalidFacts Capacity.
Import GoBase.
#[local] Open Scope Z_scope.

Lemma sub_Panic {A} (l : list A) i j : sub l i j = Panic ↔ ¬ (0 <= i <= j ∧ j <= zlen l).
Proof. unfold sub. destruct (_ && _) eqn:E; split; intros H; try done; lia. Qed.
Lemma sub_cap_in {A} (l spare : list A) i j : j <= zlen l → sub_cap l spare i j = sub l i j.
Proof.
  intros H. unfold sub_cap, sub. rewrite zlen_app. pose proof (zlen_nonneg spare).
  destruct ((0 <=? i) && (i <=? j)) eqn:E; cbn [andb]; [|done].
  replace (j <=? zlen l + zlen spare) with true by lia. replace (j <=? zlen l) with true by lia.
  f_equal. rewrite drop_app_le by (unfold zlen in *; lia). rewrite take_app_le; [done|].
  rewrite drop_length. unfold zlen in *. lia.
Qed.
Lemma sub_cap_rest {A} (l spare : list A) j : sub l j (zlen l) ≠ Panic → sub_cap l spare 0 j = sub l 0 j.
Proof. intros H. apply sub_cap_in. rewrite sub_Panic in H. lia. Qed.

Lemma tr_loop_cap_same al dest : ∀ offset rs rspare, tr_loop_cap al dest offset rs rspare = tr_loop al dest offset rs.
Proof.
  induction dest as [|[r change] dest IH]; intros offset rs rspare; [done|]. cbn [tr_loop_cap tr_loop].
  destruct (if 1 <=? change then _ else _) as [a|]; cbn [mbind outcome_bind]; [|done].
  destruct (if change <=? 0 then _ else _) as [[size rs1]|]; cbn [mbind outcome_bind]; [|done].
  destruct (change <=? -1) eqn:E; cbn [mbind outcome_bind].
  - destruct (sub rs1 (- change) (zlen rs1)) as [rest|] eqn:Er.
    + rewrite sub_cap_rest by (rewrite Er; done).
      destruct (sub rs1 0 (- change)) as [removed|]; cbn [mbind outcome_bind]; [by rewrite IH|done].
    + destruct (sub_cap rs1 rspare 0 (- change)), (sub rs1 0 (- change)); done.
  - by rewrite IH.
Qed.

Lemma sub_zlen {A} (l x : list A) i j : sub l i j = Ret x → 0 <= i <= j ∧ j <= zlen l ∧ zlen x = j - i.
Proof.
  unfold sub. destruct (_ && _) eqn:E; [|done]. intros [= <-]. unfold zlen in *. rewrite take_length, drop_length. lia.
Qed.

Lemma transform_range_cap_same n spare rspare r dest k :
  match transform_range n r dest k with
  | Panic => transform_range_cap n spare rspare r dest k = Panic
  | Ret n' => ∃ c, transform_range_cap n spare rspare r dest k = Ret (n', c)
      ∧ (c = None ∧ n' = n ∨ c = Some (zlen (ns_al n')))
  end.
Proof.
  unfold transform_range, transform_range_cap. destruct (coerce_to_norm n r) as [[s e] ok].
  destruct ok; cbn [negb]; [|exists None; split; [done|by left]].
  destruct (sub (ns_norm n) s e) as [replaced|] eqn:H1; cbn [mbind outcome_bind]; [|done].
  destruct (sub replaced 0 k) as [removed0|]; cbn [mbind outcome_bind]; [|done].
  destruct (sub replaced k (zlen replaced)) as [rest|]; cbn [mbind outcome_bind]; [|done].
  rewrite tr_loop_cap_same.
  destruct (tr_loop (ns_al n) dest (zlen removed0 + s) (runes rest)) as [x|]; cbn [mbind outcome_bind]; [|done].
  pose proof (zlen_nonneg x.1) as Hx. apply sub_zlen in H1.
  destruct (sub (ns_al n) e (zlen (ns_al n))) as [al_after|] eqn:Ea.
  - pose proof (sub_zlen _ _ _ _ Ea) as Hz.
    replace (zlen (ns_al n) - (e - s) + zlen x.1 <? 0) with false by lia.
    rewrite (sub_cap_in _ _ 0 s) by lia.
    destruct (sub (ns_al n) 0 s) as [al_before|] eqn:Eb; cbn [mbind outcome_bind]; [|done].
    pose proof (sub_zlen _ _ _ _ Eb).
    destruct (sub (ns_norm n) 0 s) as [norm_before|]; cbn [mbind outcome_bind]; [|done].
    destruct (sub (ns_norm n) e (zlen (ns_norm n))) as [norm_after|]; cbn [mbind outcome_bind]; [|done].
    eexists. split; [done|]. right. cbn [ns_al]. f_equal. rewrite !zlen_app. lia.
  - destruct (sub (ns_al n) 0 s) as [al_before|]; cbn [mbind outcome_bind]; destruct (_ <? 0); try done;
      destruct (sub_cap (ns_al n) spare 0 s); done.
Qed.

Lemma slice_cap_same n spare r : zlen (ns_norm n) <= zlen (ns_al n) → slice_cap n spare r = slice n r.
Proof.
  intros Hn. unfold slice_cap, slice.
  destruct (range_is_valid n r) as [v|] eqn:Hv; cbn [mbind outcome_bind]; [|done].
  destruct v; cbn [negb]; [|done].
  assert (coerce_to_orig_cap n spare r = coerce_to_orig n r) as Hc.
  { destruct r as [s e|s e]; cbn [coerce_to_orig_cap coerce_to_orig]; [done|]. cbn [r_len].
    unfold range_is_valid in Hv. cbn [r_start r_end] in Hv.
    assert (e <= zlen (ns_norm n)) as He.
    { apply bind_Ret in Hv as (b & Hb & Hv). destruct b; [|done]. unfold is_rune_boundary in Hv.
      pose proof (zlen_nonneg (ns_norm n)). destruct ((e =? 0) || (e =? zlen (ns_norm n))) eqn:E1; [lia|].
      destruct ((e <? 0) || (zlen (ns_norm n) <? e)) eqn:E2; [done|lia]. }
    rewrite sub_cap_in by lia. done. }
  destruct (coerce_to_norm n r) as [[n_s n_e] ok] eqn:Hnr. destruct ok; cbn [negb]; [|done].
  unfold get_original_range_cap, get_original_range. rewrite Hc.
  destruct (coerce_to_orig n r) as [[[o_s o_e] ok]|]; cbn [mbind outcome_bind]; [|done].
  destruct ok; cbn [negb]; [|done].
  destruct (sub (ns_orig n) o_s o_e) as [x|]; cbn [mbind outcome_bind]; [|done].
  unfold get_range. rewrite Hnr. cbn [negb].
  destruct (sub (ns_norm n) n_s n_e) as [y|] eqn:Hy; cbn [mbind outcome_bind]; [|done].
  apply sub_zlen in Hy. by rewrite sub_cap_in by lia.
Qed.

(** ** CoerceRangeToOriginal *)
Lemma coerce_cap_iff n spare r :
  coerce_to_orig_cap n spare r ≠ coerce_to_orig n r
  ↔ ∃ s e, r = NRange s e ∧ 0 <= s < e ∧ zlen (ns_al n) < e <= zlen (ns_al n) + zlen spare.
Proof.
  split.
  - intros H. destruct r as [s e|s e]; cbn [coerce_to_orig_cap coerce_to_orig] in H; [done|]. exists s, e. split; [done|].
    unfold r_len in H. cbn [r_start r_end] in H. destruct (_ =? 0) eqn:E0; [done|]. destruct (e <? s) eqn:E1; [done|].
    destruct (_ && _ && _) eqn:E2; [done|].
    destruct (Z.le_gt_cases e (zlen (ns_al n))) as [He|He]; [by rewrite sub_cap_in in H|].
    assert (sub (ns_al n) s e = Panic) as Hp by (apply sub_Panic; lia). rewrite Hp in H. cbn [mbind outcome_bind] in H.
    destruct (sub_cap (ns_al n) spare s e) as [x|] eqn:Hx; cbn [mbind outcome_bind] in H; [|done].
    unfold sub_cap in Hx. apply sub_zlen in Hx. rewrite zlen_app in Hx. lia.
  - intros (s & e & -> & Hs & He). unfold coerce_to_orig_cap, coerce_to_orig, r_len. cbn [r_start r_end].
    pose proof (zlen_nonneg (ns_al n)).
    replace (e - s =? 0) with false by lia. replace (e <? s) with false by lia.
    replace ((zlen (ns_norm n) =? 0) && (s =? 0) && (e =? 0)) with false by lia.
    assert (sub (ns_al n) s e = Panic) as -> by (apply sub_Panic; lia). cbn [mbind outcome_bind].
    destruct (sub_cap (ns_al n) spare s e) as [x|] eqn:Hx; cbn [mbind outcome_bind].
    + apply sub_zlen in Hx as (_ & _ & Hx). destruct x as [|a x]; [unfold zlen in Hx; cbn [length] in Hx; lia|].
      change (idx (a :: x) 0) with (Ret a). cbn [mbind outcome_bind].
      rewrite zlen_cons in Hx |- *. unfold idx. replace (0 <=? 1 + zlen x - 1) with true by lia.
      destruct ((a :: x) !! Z.to_nat (1 + zlen x - 1)) eqn:E; [done|].
      apply lookup_ge_None in E. cbn [length] in E. unfold zlen in *. lia.
    + apply sub_Panic in Hx. rewrite zlen_app in Hx. lia.
Qed.

(** ** Alignments are at least as many as bytes *)
Lemma tr_loop_zlen al dest : ∀ offset rs x, tr_loop al dest offset rs = Ret x → zlen x.1 = zlen x.2.
Proof.
  induction dest as [|[r change] dest IH]; intros offset rs x; cbn [tr_loop]; [by intros [= <-]|].
  intros H. apply bind_Ret in H as (a & _ & H). apply bind_Ret in H as ([size rs1] & _ & H).
  apply bind_Ret in H as ([total rs2] & _ & H). apply bind_Ret in H as (z & Hz & [= <-]).
  apply IH in Hz. cbn [fst snd]. rewrite !zlen_app, Hz. unfold zlen. by rewrite repeat_length.
Qed.
Lemma transform_range_le n r dest k n' : zlen (ns_norm n) <= zlen (ns_al n) → transform_range n r dest k = Ret n' →
  zlen (ns_norm n') <= zlen (ns_al n').
Proof.
  intros Hn. unfold transform_range. destruct (coerce_to_norm n r) as [[s e] ok]. destruct ok; cbn [negb]; [|by intros [= <-]].
  intros H. apply bind_Ret in H as (replaced & H1 & H). apply bind_Ret in H as (removed0 & _ & H).
  apply bind_Ret in H as (rest & _ & H). apply bind_Ret in H as (x & Hx & H).
  apply bind_Ret in H as (ab & Hab & H). apply bind_Ret in H as (aa & Haa & H).
  apply bind_Ret in H as (nb & Hnb & H). apply bind_Ret in H as (na & Hna & [= <-]).
  apply tr_loop_zlen in Hx. apply sub_zlen in Hab, Haa, Hnb, Hna. cbn [ns_norm ns_al]. rewrite !zlen_app. lia.
Qed.
Lemma slice_le n r n' : slice n r = Ret (Some n') → zlen (ns_norm n') <= zlen (ns_al n').
Proof.
  unfold slice. intros H. apply bind_Ret in H as (v & _ & H). destruct v; cbn [negb] in H; [|done].
  destruct (coerce_to_norm n r) as [[n_s n_e] ok] eqn:Hc. destruct ok; cbn [negb] in H; [|done].
  apply bind_Ret in H as ([[o_s o_e] ok] & _ & H). destruct ok; cbn [negb] in H; [|done].
  apply bind_Ret in H as (o & _ & H). apply bind_Ret in H as (x & Hx & H). apply bind_Ret in H as (als & Ha & [= <-]).
  unfold get_range in Hx. rewrite Hc in Hx. cbn [negb] in Hx. apply bind_Ret in Hx as (y & Hy & [= <-]).
  apply sub_zlen in Hy, Ha. cbn [ns_norm ns_al default]. unfold zlen in *. rewrite map_length. cbn. lia.
Qed.
Lemma fresh_zlen s : zlen (ns_al (from_string s)) = zlen s + 2 * bad_bytes s.
Proof.
  change (zlen (alignments_from_string s) = zlen s + 2 * bad_bytes s).
  rewrite alignments_spread, zlen_spans. unfold alen. by rewrite spread_chars, <- encode_runes_zlen.
Qed.
