(** OriginalAlignments. *)
From Coq Require Import ZifyBool Sorted.
From stdpp Require Import list_numbers.
From Verif Require Import GoBase Utf8Facts Strutils SplitPattern NormString SpecText SpecNorm SliceFacts StrutilsFacts
  PatternFacts NormFacts NormEdits NormInv.

(** Number of alignments that end by [i], and that start by [i]. *)
Definition ended (als : list (Z * Z)) (i : Z) : Z := zlen (base.filter (λ a : Z * Z, a.2 <= i) als).
Definition started (als : list (Z * Z)) (i : Z) : Z := zlen (base.filter (λ a : Z * Z, a.1 <= i) als).

Lemma ended_app a b i : ended (a ++ b) i = ended a i + ended b i.
Proof. unfold ended. by rewrite filter_app, zlen_app. Qed.
Lemma started_app a b i : started (a ++ b) i = started a i + started b i.
Proof. unfold started. by rewrite filter_app, zlen_app. Qed.

Lemma filter_all {A} (P : A → Prop) `{∀ x, Decision (P x)} l : Forall P l → base.filter P l = l.
Proof. induction 1; [done|]. rewrite filter_cons_True by done. congruence. Qed.
Lemma filter_none {A} (P : A → Prop) `{∀ x, Decision (P x)} l : Forall (λ x, ¬ P x) l → base.filter P l = [].
Proof. induction 1; [done|]. by rewrite filter_cons_False. Qed.

Lemma ended_all als i : Forall (λ a : Z * Z, a.2 <= i) als → ended als i = zlen als.
Proof. intros H. unfold ended. by rewrite filter_all. Qed.
Lemma ended_none als i : Forall (λ a : Z * Z, i < a.2) als → ended als i = 0.
Proof.
  intros H. unfold ended. rewrite filter_none; [done|]. eapply Forall_impl; [exact H|]. cbn. lia.
Qed.
Lemma started_all als i : Forall (λ a : Z * Z, a.1 <= i) als → started als i = zlen als.
Proof. intros H. unfold started. by rewrite filter_all. Qed.
Lemma started_none als i : Forall (λ a : Z * Z, i < a.1) als → started als i = 0.
Proof.
  intros H. unfold started. rewrite filter_none; [done|]. eapply Forall_impl; [exact H|]. cbn. lia.
Qed.

Definition entry (als : list (Z * Z)) (d i : Z) : Z * Z := (d + ended als i, d + started als i).

Lemma Forall_repeat {A} (P : A → Prop) x k : P x → Forall P (repeat x k).
Proof. intros H. induction k; constructor; done. Qed.

Lemma map_seqZ_const {A} (f : Z → A) x lo len :
  (∀ i, lo <= i < lo + len → f i = x) → map f (seqZ lo len) = repeat x (Z.to_nat len).
Proof.
  intros H. destruct (Z.le_gt_cases len 0) as [Hle|Hgt].
  { rewrite seqZ_nil by done. by replace (Z.to_nat len) with 0%nat by lia. }
  assert (Hall : Forall (λ y, y = x) (map f (seqZ lo len))).
  { apply Forall_map, Forall_forall. intros i Hi. apply elem_of_seqZ in Hi. apply H. lia. }
  assert (Hl : length (map f (seqZ lo len)) = Z.to_nat len) by (by rewrite map_length, seqZ_length).
  revert Hall Hl. generalize (map f (seqZ lo len)) as l. clear. intros l Hall. revert len.
  generalize (Z.to_nat) as g. intros g len <-. clear g len. induction Hall; cbn; congruence.
Qed.

Lemma seqZ_split lo a b : 0 <= a → 0 <= b → seqZ lo (a + b) = seqZ lo a ++ seqZ (lo + a) b.
Proof. apply seqZ_app. Qed.

Definition sorted_spans (als : list (Z * Z)) : Prop :=
  StronglySorted before als ∧ Forall (λ a, a.1 <= a.2) als.

Lemma oa_loop_spec als last offset len :
  sorted_spans (last :: als) → 0 <= len →
  ∃ body last' off' len',
    oa_loop als last offset len = Ret (body, (last', off', len'))
    ∧ body ++ repeat (off', off' + len') (Z.to_nat (last'.2 - last'.1))
      = map (entry (repeat last (Z.to_nat len) ++ als) offset) (seqZ last.1 (last'.2 - last.1))
    ∧ off' + len' = offset + len + zlen als
    ∧ last.1 <= last'.1 ∧ last'.1 <= last'.2 ∧ Forall (λ a, a.2 <= last'.2) (last :: als)
    ∧ last' ∈ last :: als.
Proof.
  revert last offset len. induction als as [|a als IH]; intros last offset len [Hss Hok] Hlen; cbn [oa_loop].
  { eexists [], last, offset, len. split; [done|]. inversion Hok; subst.
    split; [|split; [rewrite zlen_nil; lia|split; [lia|split; [done|split; [by repeat constructor|apply elem_of_list_here]]]]].
    cbn [app]. rewrite app_nil_r. symmetry. apply map_seqZ_const. intros i Hi. unfold entry.
    rewrite ended_none, started_all by (apply Forall_repeat; lia). rewrite zlen_repeat. f_equal; lia. }
  inversion Hss as [|? ? Hss' HF]; subst. inversion Hok as [|? ? Hl Hok']; subst.
  inversion Hss' as [|? ? Hss2 HF2]; subst. inversion Hok' as [|? ? Ha Hok2]; subst.
  inversion HF as [|? ? Hla HF1]; subst.
  destruct (bool_decide (last = a)) eqn:E.
  - apply bool_decide_eq_true in E as ->.
    destruct (IH a offset (len + 1)) as (body & l' & o' & n' & H1 & H2 & H3 & H4 & H5 & H6 & H7); [done|lia|].
    exists body, l', o', n'. split; [done|]. split; [|split; [rewrite zlen_cons; lia|]].
    + rewrite H2. f_equal. f_equal. replace (Z.to_nat (len + 1)) with (Z.to_nat len + 1)%nat by lia.
      rewrite repeat_app, <- app_assoc. done.
    + split; [done|]. split; [done|]. inversion H6; subst. split; [by repeat constructor|]. by apply elem_of_list_further.
  - apply bool_decide_eq_false in E. destruct Hla as [?|Hla]; [done|].
    replace (a.1 <? last.2) with false by lia.
    destruct (IH a (offset + len) 1) as (body & l' & o' & n' & H1 & H2 & H3 & H4 & H5 & H6 & H7); [done|lia|].
    rewrite H1. cbn [mbind outcome_bind fst snd]. eexists _, l', o', n'. split; [reflexivity|].
    assert (Hge : Forall (λ b, a.1 <= b.1 ∧ b.1 <= b.2) (a :: als)).
    { constructor; [split; [lia|done]|]. rewrite Forall_forall in HF2, Hok2 |- *. intros b Hb.
      pose proof (Hok2 b Hb). destruct (HF2 b Hb) as [<-|Hb']; lia. }
    inversion H6; subst.
    split; [|split; [rewrite zlen_cons; lia|split; [lia|split; [done|split; [constructor; [lia|by constructor]|by apply elem_of_list_further]]]]].
    replace (l'.2 - last.1) with ((last.2 - last.1) + ((a.1 - last.2) + (l'.2 - a.1))) by lia.
    rewrite !seqZ_app by lia. rewrite !map_app, <- !app_assoc.
    replace (last.1 + (last.2 - last.1)) with last.2 by lia.
    replace (last.2 + (a.1 - last.2)) with a.1 by lia.
    f_equal; [|f_equal].
    + symmetry. apply map_seqZ_const. intros i Hi. unfold entry. rewrite ended_app, started_app.
      rewrite (ended_none (repeat _ _)), (started_all (repeat _ _)) by (apply Forall_repeat; lia).
      rewrite ended_none, started_none by (eapply Forall_impl; [exact Hge|]; cbn; lia).
      rewrite zlen_repeat. f_equal; lia.
    + symmetry. apply map_seqZ_const. intros i Hi. unfold entry. rewrite ended_app, started_app.
      rewrite (ended_all (repeat _ _)), (started_all (repeat _ _)) by (apply Forall_repeat; lia).
      rewrite ended_none, started_none by (eapply Forall_impl; [exact Hge|]; cbn; lia).
      rewrite zlen_repeat. f_equal; lia.
    + rewrite H2. apply map_ext_in. intros i Hi. apply elem_of_list_In, elem_of_seqZ in Hi. unfold entry.
      rewrite (ended_app (repeat last _)), (started_app (repeat last _)).
      rewrite (ended_all (repeat last _)), (started_all (repeat last _)) by (apply Forall_repeat; lia).
      rewrite zlen_repeat. change (Z.to_nat 1) with 1%nat. cbn [repeat app]. f_equal; lia.
Qed.

Lemma spans_sorted_spans orig v : aligned_over orig v → sorted_spans (spans_of v).
Proof.
  intros Hal. split; [by apply spans_sorted, Hal|]. apply Forall_forall. intros a Ha.
  apply elem_of_list_lookup in Ha as (k & Hk).
  assert (Hi : idx (spans_of v) (Z.of_nat k) = Ret a) by (apply idx_lookup; split; [lia|by rewrite Nat2Z.id]).
  apply idx_spans_in in Hi. destruct Hal as [Hok _]. rewrite Forall_forall in Hok. by apply Hok.
Qed.

Lemma original_alignments_spec n v :
  wf_as n v → v ≠ [] →
  original_alignments n
  = Ret (map (λ i, (ended (spans_of v) i, started (spans_of v) i)) (seqZ 0 (zlen (ns_orig n)))).
Proof.
  intros ((_ & _ & Hal) & Hv & Ha) Hne. unfold original_alignments. rewrite Hal.
  pose proof (spans_sorted_spans _ _ Ha) as Hsort.
  assert (Hin : Forall (span_ok (ns_orig n)) (spans_of v)).
  { apply Forall_forall. intros a Hin. apply elem_of_list_lookup in Hin as (k & Hk).
    destruct Ha as [Hok _]. rewrite Forall_forall in Hok. apply Hok, (idx_spans_in v (Z.of_nat k)).
    apply idx_lookup. split; [lia|by rewrite Nat2Z.id]. }
  assert (Hpos : spans_of v ≠ []).
  { intros H. apply Hne, alen_0. rewrite <- zlen_spans, H. done. }
  destruct (spans_of v) as [|first als]; [done|].
  change (idx (first :: als) 0) with (Ret first). cbn [mbind outcome_bind].
  destruct (oa_loop_spec (first :: als) first 0 0) as (body & l' & o' & n' & H1 & H2 & H3 & H4 & H5 & H6 & H7).
  { destruct Hsort as [S1 S2]. inversion S1 as [|? ? S3 S4]; subst. inversion S2; subst. split; constructor; try done.
    constructor; [apply before_refl|done]. }
  { lia. }
  rewrite H1. cbn [mbind outcome_bind]. rewrite H2. clear H1 H2 body.
  rewrite Forall_cons in Hin. destruct Hin as [Hf Hin]. pose proof (span_ok_nonneg _ _ Hf) as Hf'.
  assert (Hge : Forall (λ b, first.1 <= b.1 ∧ b.1 <= b.2 ∧ b.2 <= zlen (ns_orig n)) (first :: als)).
  { constructor; [lia|]. rewrite Forall_forall in Hin |- *. intros b Hb.
    pose proof (span_ok_nonneg _ _ (Hin b Hb)). destruct Hsort as [S1 _]. inversion S1 as [|? ? _ S4]; subst.
    rewrite Forall_forall in S4. destruct (S4 b Hb) as [<-|?]; lia. }
  assert (Hl' : l'.2 <= zlen (ns_orig n)).
  { rewrite Forall_forall in Hge. apply Hge. by apply elem_of_cons in H7 as [->|H7]; [apply elem_of_list_here|]. }
  assert (Hgap : repeat (0, 0) (Z.to_nat first.1)
    = map (λ i, (ended (first :: als) i, started (first :: als) i)) (seqZ 0 first.1)).
  { symmetry. apply map_seqZ_const. intros i Hi.
    rewrite ended_none, started_none by (eapply Forall_impl; [exact Hge|]; cbn; lia). done. }
  rewrite Hgap. f_equal. change (Z.to_nat 0) with 0%nat. cbn [repeat app].
  replace (map (entry (first :: als) 0)) with (map (λ i, (ended (first :: als) i, started (first :: als) i))) by done.
  rewrite <- map_app.
  replace (seqZ 0 first.1 ++ seqZ first.1 (l'.2 - first.1)) with (seqZ 0 l'.2).
  2: { pose proof (seqZ_app 0 first.1 (l'.2 - first.1)) as Hsq. rewrite Z.add_0_l in Hsq. rewrite <- Hsq by lia.
       f_equal. lia. }
  replace (zlen (map _ (seqZ 0 l'.2))) with l'.2 by (unfold zlen; rewrite map_length, seqZ_length; lia).
  replace (seqZ 0 (zlen (ns_orig n))) with (seqZ 0 l'.2 ++ seqZ l'.2 (zlen (ns_orig n) - l'.2)).
  2: { pose proof (seqZ_app 0 l'.2 (zlen (ns_orig n) - l'.2)) as Hsq. rewrite Z.add_0_l in Hsq. rewrite <- Hsq by lia.
       f_equal. lia. }
  rewrite map_app. f_equal. symmetry.
  apply map_seqZ_const. intros i Hi. inversion H6 as [|? ? _ H8]; subst.
  rewrite ended_all by (eapply Forall_impl; [exact H8|]; cbn; lia).
  rewrite started_all; [f_equal; lia|]. rewrite Forall_forall in H8, Hge |- *. intros b Hb. specialize (H8 b Hb).
  specialize (Hge b Hb). lia.
Qed.

(** The bytes whose alignment ends by [i] come first, so do those that start by [i]: the entry for
    [i] is the range of the bytes whose alignment contains [i]. *)
Lemma prefix_count {A} (P : A → Prop) `{∀ x, Decision (P x)} l k x :
  (∀ i j a b, l !! i = Some a → l !! j = Some b → (i <= j)%nat → P b → P a) →
  l !! k = Some x → (P x ↔ Z.of_nat k < zlen (base.filter P l)).
Proof.
  revert k. induction l as [|y l IH]; intros k Hmono Hk; [done|]. rewrite filter_cons.
  assert (Hm : ∀ i j a b, l !! i = Some a → l !! j = Some b → (i <= j)%nat → P b → P a).
  { intros i j a b Ha Hb Hij. apply (Hmono (S i) (S j)); [done|done|lia]. }
  destruct (decide (P y)) as [Hy|Hy].
  - rewrite zlen_cons. destruct k as [|k].
    + injection Hk as ->. pose proof (zlen_nonneg (base.filter P l)). split; [lia|done].
    + rewrite (IH k Hm Hk). lia.
  - assert (Hnone : base.filter P l = []).
    { apply filter_none, Forall_forall. intros z Hz Hpz. apply elem_of_list_lookup in Hz as (j & Hj).
      apply Hy. apply (Hmono 0%nat (S j) y z); [done|done|lia|done]. }
    rewrite Hnone, zlen_nil. split; [|lia]. intros Hx. destruct Hy.
    by apply (Hmono 0%nat k y x); [|done|lia|].
Qed.

Lemma sorted_mono als i j a b :
  sorted_spans als → als !! i = Some a → als !! j = Some b → (i <= j)%nat → a.1 <= b.1 ∧ a.2 <= b.2.
Proof.
  intros [Hs Hok] Ha Hb Hij. destruct (decide (i = j)) as [->|Hne].
  - rewrite Ha in Hb. injection Hb as ->. lia.
  - assert (before a b) as Hab by (eapply SS_lookup; [exact Hs| |done|done]; lia).
    rewrite Forall_forall in Hok. pose proof (Hok a ltac:(by eapply elem_of_list_lookup_2)).
    pose proof (Hok b ltac:(by eapply elem_of_list_lookup_2)). destruct Hab as [->|?]; lia.
Qed.

Lemma entry_spec orig v i k a :
  aligned_over orig v → idx (spans_of v) k = Ret a →
  (ended (spans_of v) i <= k < started (spans_of v) i ↔ a.1 <= i < a.2).
Proof.
  intros Hal [Hk Hl]%idx_lookup. pose proof (spans_sorted_spans _ _ Hal) as Hs.
  pose proof (prefix_count (λ a : Z * Z, a.2 <= i) (spans_of v) (Z.to_nat k) a) as HE.
  pose proof (prefix_count (λ a : Z * Z, a.1 <= i) (spans_of v) (Z.to_nat k) a) as HS.
  rewrite Z2Nat.id in HE, HS by done. unfold ended, started. rewrite Z.le_ngt. rewrite <- HE, <- HS; [lia| |done| |done].
  - intros i' j' x y Hx Hy Hij. pose proof (sorted_mono _ _ _ _ _ Hs Hx Hy Hij). lia.
  - intros i' j' x y Hx Hy Hij. pose proof (sorted_mono _ _ _ _ _ Hs Hx Hy Hij). lia.
Qed.

Lemma ended_started orig v i :
  aligned_over orig v → 0 <= ended (spans_of v) i <= started (spans_of v) i ∧ started (spans_of v) i <= alen v.
Proof.
  intros Hal. destruct (spans_sorted_spans _ _ Hal) as [_ Hok]. rewrite <- zlen_spans. unfold ended, started.
  induction Hok as [|a l Ha Hok IH]; [done|]. rewrite !filter_cons.
  destruct (decide (a.2 <= i)), (decide (a.1 <= i)); rewrite ?zlen_cons; lia.
Qed.
