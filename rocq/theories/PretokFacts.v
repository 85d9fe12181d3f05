(** Facts about the pre-tokenizers. *)
From Coq Require Import ZifyBool Sorted.
From stdpp Require Import relations list_numbers.
From Verif Require Import GoBase Utf8Facts Strutils SplitPattern NormString Bpe Encodings PreTokString Normalizers PreTokenizers SpecText SpecNorm SpecSplit SpecHist SpecPts SpecPretok
  SliceFacts StrutilsFacts PatternFacts NormFacts NormEdits NormInv NormReplace NormSlice NormSplit HistFacts SplitExact RangeFacts PtsFacts.
Import GoBase NormString SpecNorm.
#[local] Open Scope Z_scope.

(** ** Plain strings *)
Lemma fresh_shift d i rs : shift_spans d (fresh i rs) = fresh (i + d) rs.
Proof.
  revert i. induction rs as [|r rs IH]; intros i; [done|]. cbn [fresh shift_spans map]. f_equal; [|].
  - cbn. do 2 f_equal. lia.
  - unfold shift_spans in IH. rewrite IH. f_equal. lia.
Qed.

Lemma fresh_inj i rs v1 v2 : fresh i rs = v1 ++ v2 → v1 = fresh i v1.*1 ∧ v2 = fresh (i + alen v1) v2.*1.
Proof.
  intros H. pose proof (f_equal (fmap fst) H) as Hf. rewrite fresh_chars, fmap_app in Hf. rewrite Hf, fresh_app in H.
  apply app_inj_1 in H as [H1 H2]; [by split|]. apply (f_equal length) in Hf.
  pose proof (f_equal length (fresh_chars i v1.*1)) as E. by rewrite !fmap_length in E.
Qed.

Lemma plain_from_string rs : scalars rs → from_string (encode rs) = plain 0 rs.
Proof.
  intros H. destruct (from_string_repr rs H) as (_ & H1 & H2). rewrite fresh_chars in H1.
  unfold plain. rewrite <- H2. done.
Qed.

Lemma plain_wf k rs : scalars rs → wf_as (plain k rs) (fresh 0 rs).
Proof.
  intros H. destruct (from_string_wf rs H) as ((H1 & H2 & H3) & H4 & H5). rewrite plain_from_string in * by done.
  split_and!; done.
Qed.

Lemma alen_fresh i rs : alen (fresh i rs) = zlen (encode rs).
Proof. unfold alen. by rewrite fresh_chars. Qed.

Lemma plain_piece k rs j t n' l r :
  rs = l ++ t ++ r → j = zlen (encode l) → t ≠ [] → piece_of (plain k rs) (fresh j t) n' → n' = plain (k + j) t.
Proof.
  intros -> -> Ht ((_ & H1 & H2) & H3 & _). destruct H3 as [H3 H4]; [by destruct t|].
  assert (Hfs : first_start (fresh (zlen (encode l)) t) = zlen (encode l)) by (by destruct t).
  destruct (tiles_ends _ _ _ (tiles_fresh (zlen (encode l)) t)) as [_ Hle]; [by destruct t|].
  rewrite Hfs in *. rewrite fresh_shift in H1, H2. replace (zlen (encode l) + - zlen (encode l)) with 0 in * by lia.
  rewrite fresh_chars in H1. rewrite Hle in H3.
  assert (ns_orig n' = encode t) as Ho.
  { destruct H3 as (a & c & E & Ea & Eb). cbn [ns_orig plain] in E. rewrite !encode_app in E.
    apply app_inj_1 in E as [<- E]; [|unfold zlen in Ea; lia]. apply app_inj_1 in E as [<- _]; [done|].
    unfold zlen in *. lia. }
  destruct n' as [o m al sh]. cbn in *. unfold plain. by f_equal.
Qed.

(** ** Splitting plain strings *)
Fixpoint spots (k : Z) (segs : segments) : list (Z * list Z * bool) :=
  match segs with [] => [] | (t, m) :: segs' => (k, t, m) :: spots (k + zlen (encode t)) segs' end.

#[global] Instance behaviour_eq_dec : EqDecision behaviour.
Proof. solve_decision. Defined.
Definition stays (b : behaviour) (s : Z * list Z * bool) : Prop := s.1.2 ≠ [] ∧ (b ≠ Removed ∨ s.2 = false).
Definition remaining (b : behaviour) (k : Z) (segs : segments) : list (Z * list Z) :=
  (base.filter (stays b) (spots k segs)).*1.

Lemma non_empty_cons x l : non_empty (x :: l) = if decide (ns_norm (sp_ns x) ≠ []) then x :: non_empty l else non_empty l.
Proof. unfold non_empty. by rewrite filter_cons. Qed.

Lemma kept_isolated gs :
  grouping Isolated (map (λ g : asegments, g.*2) gs) →
  map group_text (kept_groups Isolated gs) = (concat gs).*1.
Proof.
  unfold kept_groups. cbn [grouping]. induction gs as [|g gs IH]; [done|]. cbn [map concat].
  intros H. apply Forall_cons in H as [Hg H]. rewrite filter_cons, decide_True by done. cbn [map].
  rewrite IH by done. rewrite fmap_app.
  destruct g as [|[t m] [|]]; [by destruct Hg| |by destruct Hg]. cbn. unfold group_text. cbn. by rewrite app_nil_r.
Qed.

Lemma spots_pieces b k rs a segs l ps :
  rs = l ++ concat (texts_of segs).*1 → concat segs.*1 = fresh a (concat (texts_of segs).*1) → a = zlen (encode l) →
  Forall2 (piece_of (plain k rs)) (base.filter (λ s : _ * bool, b ≠ Removed ∨ s.2 = false) segs).*1 ps →
  non_empty (splits_from_ns ps) = map plain_split (remaining b (k + a) (texts_of segs)).
Proof.
  revert l a ps. induction segs as [|[t m] segs IH]; intros l a ps Hrs Hf Ha H.
  { inversion H; subst. done. }
  rewrite filter_cons in H. cbn [texts_of map spots] in *. unfold remaining. cbn [spots]. rewrite filter_cons.
  cbn [fmap list_fmap concat fst snd] in Hrs, Hf. symmetry in Hf. pose proof (fresh_inj _ _ _ _ Hf) as [Ht Hs].
  assert (Ht1 : t = fresh a t.*1) by done.
  assert (IH' : ∀ ps, Forall2 (piece_of (plain k rs)) (base.filter (λ s : _ * bool, b ≠ Removed ∨ s.2 = false) segs).*1 ps →
    non_empty (splits_from_ns ps) = map plain_split (remaining b (k + (a + alen t)) (texts_of segs))).
  { intros ps' Hp. apply (IH (l ++ t.*1)); [by rewrite Hrs, <- app_assoc| |by rewrite encode_app, zlen_app, Ha|exact Hp].
    unfold texts_of at 1. assert (E : concat (map (λ s, (s.1.*1, s.2)) segs).*1 = (concat segs.*1).*1) by apply texts_of_concat.
    rewrite E. exact Hs. }
  change (zlen (encode t.*1)) with (alen t). rewrite <- Z.add_assoc. unfold remaining in IH'.
  destruct (decide (b ≠ Removed ∨ _)) as [Hd|Hd].
  - rewrite fmap_cons in H. apply Forall2_cons_inv_l in H as (n' & ps' & H1 & H2 & ->).
    unfold splits_from_ns. cbn [map]. rewrite non_empty_cons. cbn [sp_ns].
    destruct (decide (ns_norm n' ≠ [])) as [Hn|Hn].
    + assert (Hnt : t ≠ []). { intros ->. apply Hn. by apply (piece_norm_nil _ _ _ H1). }
      rewrite decide_True by (split; [by intros E%fmap_nil_inv|done]). rewrite (fmap_cons fst). cbn [map]. f_equal; [|by apply IH'].
      unfold plain_split. cbn [fst snd]. f_equal. rewrite Ht1 in H1.
      eapply (plain_piece k rs _ _ _ l); [exact Hrs|done|by intros E%fmap_nil_inv|exact H1].
    + assert (Hnt : t = []). { apply (piece_norm_nil _ _ _ H1). destruct (ns_norm n'); [done|by destruct Hn]. }
      rewrite decide_False by (intros [E _]; by subst). by apply IH'.
  - rewrite decide_False by (intros [_ E]; by apply Hd). by apply IH'.
Qed.

Lemma split_plain b k rs p segs :
  scalars rs → b = Removed ∨ b = Isolated → p (encode rs) = Ret (Ok (place 0 segs)) → concat segs.*1 = rs →
  ∃ ps, split (plain k rs) p b = Ret (Ok ps) ∧ non_empty (splits_from_ns ps) = map plain_split (remaining b k segs).
Proof.
  intros Hs Hb Hp Hc. pose proof (plain_wf k rs Hs) as Hwf.
  destruct (texts_of_inv (fresh 0 rs) segs) as (asegs & Ha & Ht); [by rewrite fresh_chars|].
  assert (Hcov : boundary_cover (ns_norm (plain k rs)) (place 0 segs)).
  { apply (cover_segments _ (fresh 0 rs)); [apply Hwf|]. exists asegs. by rewrite Ht. }
  destruct (split_exact _ _ p b _ Hwf Hp Hcov) as (asegs' & gs & H1 & H2 & [H3 H4] & [[_ H5]|[_ (ps & H5 & H6)]]).
  - exfalso. destruct H5 as (g1 & g & g2 & -> & _ & _ & H5). cbn [ns_orig plain] in H5.
    assert (Hl : alen (fresh 0 rs) = zlen (encode rs)) by apply alen_fresh.
    rewrite <- H1, <- H3 in Hl. rewrite <- concat_group_text, map_app, concat_app, alen_app in Hl.
    match type of Hl with _ + alen ?x = _ => pose proof (alen_nonneg x) end. lia.
  - exists ps. split; [done|]. rewrite <- Ht in H2 |- *. apply segs_unique in H2; [|congruence]. subst asegs'.
    assert (Htx : concat (texts_of asegs).*1 = rs) by (by rewrite Ht).
    rewrite <- (Z.add_0_r k) at 1. apply (spots_pieces b k rs 0 asegs [] ps); [by rewrite Htx|by rewrite Htx|done|].
    assert (Hk : map group_text (kept_groups b gs) = (base.filter (λ s : _ * bool, b ≠ Removed ∨ s.2 = false) asegs).*1).
    { destruct Hb as [->| ->].
      - rewrite (kept_removed gs H4), H3. f_equal. apply list_filter_iff. naive_solver.
      - rewrite (kept_isolated gs H4), H3. f_equal. symmetry.
        clear. induction asegs as [|x l IH]; [done|]. rewrite filter_cons, decide_True by (by left). by rewrite IH. }
    rewrite <- Hk. clear -H6. induction H6; constructor; done.
Qed.

(** ** Running a split function on strings without tokens *)
Lemma stateless_eq f st i n : stateless f st i n = (x ← f n; Ret (tt, x.1, x.2)).
Proof. done. Qed.

Lemma run_split_all f o l rs :
  Forall2 (λ n r, ∃ n' items, f n = Ret (n', Ok items) ∧ non_empty items = r) l rs →
  run_split f (Pts o (splits_from_ns l)) = Ret (Pts o (concat rs), None).
Proof.
  intros H. unfold run_split, pts_split. cbn [p_splits p_original].
  assert (∀ i, ∃ old, split_loop (stateless f) tt i (splits_from_ns l) = Ret (tt, old, Ok (concat rs))) as Hl.
  { induction H as [|n r l rs (n' & items & Hf & Hr) H IH]; intros i; [by exists []|].
    destruct (IH (i + 1)) as (old & E). exists (PSplit n' None :: old).
    unfold splits_from_ns. cbn [map split_loop sp_tokens sp_ns]. rewrite stateless_eq, Hf. cbn [mbind outcome_bind fst snd].
    unfold splits_from_ns in E. rewrite E. cbn [mbind outcome_bind]. rewrite non_empty_filter, Hr. done. }
  destruct (Hl 0) as (old & E). rewrite E. done.
Qed.

Lemma plain_splits fs : map plain_split fs = splits_from_ns (map (λ x, plain x.1 x.2) fs).
Proof. unfold splits_from_ns. rewrite map_map. done. Qed.

Lemma pts_from_plain rs : scalars rs → pts_from_string (encode rs) = Pts (encode rs) (map plain_split [(0, rs)]).
Proof. intros H. unfold pts_from_string, pts_from_ns. rewrite plain_from_string by done. done. Qed.

Lemma run_split_plain p b o fs gss :
  b = Removed ∨ b = Isolated →
  Forall2 (λ x segs, scalars x.2 ∧ p (encode x.2) = Ret (Ok (place 0 segs)) ∧ concat segs.*1 = x.2) fs gss →
  run_split (split_by p b) (Pts o (map plain_split fs))
  = Ret (Pts o (map plain_split (concat (zip_with (λ x segs, remaining b x.1 segs) fs gss))), None).
Proof.
  intros Hb H. rewrite plain_splits. erewrite (run_split_all _ _ _ (zip_with (λ x segs, map plain_split (remaining b x.1 segs)) fs gss)).
  - do 3 f_equal. clear. revert gss. induction fs as [|x fs IH]; intros [|g gss]; try done. cbn. rewrite map_app. f_equal. apply IH.
  - induction H as [|x segs fs gss (H1 & H2 & H3) H IH]; constructor; [|done].
    destruct (split_plain b x.1 x.2 p segs H1 Hb H2 H3) as (ps & E & E').
    eexists _, _. unfold split_by. rewrite E. cbn [mbind outcome_bind]. split; [done|]. done.
Qed.

(** ** Runs *)
Lemma spots_bounds k segs x : x ∈ spots k segs → k <= x.1.1 ∧ x.1.1 + zlen (encode x.1.2) <= k + zlen (encode (concat segs.*1)).
Proof.
  revert k. induction segs as [|[t m] segs IH]; intros k; [by intros ?%elem_of_nil|].
  cbn [spots]. cbn [fmap list_fmap concat fst snd]. rewrite encode_app, zlen_app. intros [->|H]%elem_of_cons; cbn [fst snd].
  - pose proof (zlen_nonneg (encode (concat segs.*1))). lia.
  - apply IH in H. pose proof (zlen_nonneg (encode t)). lia.
Qed.

Lemma in_order_cons x fs : in_order (x :: fs) ↔ in_order fs ∧ ∀ y, y ∈ fs → x.1 + zlen (encode x.2) <= y.1.
Proof.
  unfold in_order. split.
  - inversion 1 as [|? ? H1 H2]; subst. rewrite Forall_forall in H2. done.
  - intros [H1 H2]. constructor; [done|]. by apply Forall_forall.
Qed.

Lemma remaining_in b k segs x : x ∈ remaining b k segs ↔ ∃ m, (x, m) ∈ spots k segs ∧ stays b (x, m).
Proof.
  unfold remaining. rewrite elem_of_list_fmap. split.
  - intros ([y m] & -> & [H1 H2]%elem_of_list_filter). by exists m.
  - intros (m & H1 & H2). exists (x, m). split; [done|]. by apply elem_of_list_filter.
Qed.

Lemma remaining_in_order b k segs : in_order (remaining b k segs).
Proof.
  revert k. induction segs as [|[t m] segs IH]; intros k; [constructor|].
  unfold remaining. cbn [spots]. rewrite filter_cons. destruct (decide _); [|apply IH].
  rewrite (fmap_cons fst). cbn [fst]. apply in_order_cons. split; [apply IH|].
  intros y (m' & H & _)%remaining_in. apply spots_bounds in H. cbn [fst snd] in *. lia.
Qed.

(** Where the spots are. *)
Lemma spots_occur l segs x m : (x, m) ∈ spots (zlen (encode l)) segs →
  ∃ s1 s2, segs = s1 ++ (x.2, m) :: s2 ∧ x.1 = zlen (encode (l ++ concat s1.*1)).
Proof.
  revert l. induction segs as [|[t m'] segs IH]; intros l; [by intros ?%elem_of_nil|]. cbn [spots].
  intros [[= -> ->]|H]%elem_of_cons.
  - exists [], segs. split; [done|]. cbn. by rewrite app_nil_r.
  - rewrite <- zlen_app, <- encode_app in H. apply IH in H as (s1 & s2 & -> & H). exists ((t, m') :: s1), s2.
    split; [done|]. rewrite H. cbn. by rewrite app_assoc.
Qed.
Lemma spots_occur_inv l s1 t m s2 :
  (zlen (encode (l ++ concat s1.*1)), t, m) ∈ spots (zlen (encode l)) (s1 ++ (t, m) :: s2).
Proof.
  revert l. induction s1 as [|[t' m'] s1 IH]; intros l; cbn [app spots].
  - cbn. rewrite app_nil_r. by apply elem_of_list_here.
  - apply elem_of_list_further. rewrite <- zlen_app, <- encode_app.
    cbn [fmap list_fmap concat fst]. rewrite app_assoc. apply IH.
Qed.

Lemma rune_segmented_app f s1 s2 : rune_segmented f (s1 ++ s2) ↔
  rune_segmented f s1 ∧ rune_segmented f s2 ∧ ((∃ t, last s1 = Some (t, false)) → ¬ ∃ t, head s2 = Some (t, false)).
Proof.
  induction s1 as [|[t m] s1 IH]; [cbn; naive_solver|]. cbn [app rune_segmented]. rewrite IH.
  assert (E : last ((t, m) :: s1) = match s1 with [] => Some (t, m) | _ => last s1 end) by (by destruct s1). rewrite E.
  destruct m.
  - destruct s1; naive_solver.
  - destruct s1 as [|[t' m'] s1]; cbn [app].
    + destruct s2 as [|[t'' [|]] s2]; cbn; naive_solver.
    + naive_solver.
Qed.

Lemma segmentation f rs : scalars rs → ∃ segs, concat segs.*1 = rs ∧ rune_segmented f segs.
Proof.
  intros H. destruct (decide (rs = [])) as [->|Hn]; [by exists []|].
  destruct (func_pattern_spec f rs H) as (segs & _ & H1 & H2). rewrite decide_False in H2 by done. by exists segs.
Qed.

Lemma rune_segmented_last f segs t m : rune_segmented f segs → last segs = Some (t, m) → ∃ c, last (concat segs.*1) = Some c ∧ f c = m.
Proof.
  intros H (s & ->)%last_Some. apply rune_segmented_app in H as (_ & H & _).
  rewrite fmap_app, concat_app. cbn. rewrite app_nil_r. cbn in H. destruct m.
  - destruct H as [(r & -> & Hr) _]. exists r. rewrite last_app. done.
  - destruct H as [(Hn & H & _) _]. destruct (last t) as [c|] eqn:E; [|by apply last_None in E].
    exists c. rewrite last_app, E. split; [done|]. rewrite Forall_forall in H. apply H.
    rewrite last_lookup in E. by eapply elem_of_list_lookup_2.
Qed.
Lemma rune_segmented_head f segs t m : rune_segmented f segs → head segs = Some (t, m) → ∃ c, head (concat segs.*1) = Some c ∧ f c = m.
Proof.
  destruct segs as [|[t' m'] segs]; [done|]. intros H [= -> ->]. cbn in H |- *. destruct m.
  - destruct H as [(r & -> & Hr) _]. by exists r.
  - destruct H as [(Hn & H & _) _]. destruct t as [|c t]; [done|]. exists c. apply Forall_cons in H. naive_solver.
Qed.

(** The non-matches of the segmentation are the runs. *)
Lemma segmented_runs f segs t s1 s2 : segs = s1 ++ (t, false) :: s2 → rune_segmented f segs →
  run_of f (concat segs.*1) (zlen (encode (concat s1.*1)), t).
Proof.
  intros -> H. apply rune_segmented_app in H as (H1 & H2 & H3). exists (concat s1.*1), (concat s2.*1).
  split; [|]. { split; [|done]. by rewrite fmap_app, concat_app. }
  cbn in H2. destruct H2 as [(Hn & Hf & Hh) H2]. split; [done|]. split; [done|]. split.
  - intros c Hc. destruct (last s1) as [[t' m']|] eqn:E.
    + destruct (rune_segmented_last _ _ _ _ H1 E) as (c' & Hc' & <-). rewrite Hc in Hc'. injection Hc' as <-.
      destruct (f c) eqn:Ef; [done|]. exfalso. apply H3; [by eexists|by eexists].
    + apply last_None in E as ->. done.
  - intros c Hc. destruct s2 as [|[t' m'] s2]; [done|].
    destruct (rune_segmented_head _ _ _ _ H2 eq_refl) as (c' & Hc' & <-). rewrite Hc in Hc'. injection Hc' as <-.
    by destruct (f c).
Qed.
Lemma runs_segmented f segs x : scalars (concat segs.*1) → rune_segmented f segs → run_of f (concat segs.*1) x →
  ∃ s1 s2, segs = s1 ++ (x.2, false) :: s2 ∧ x.1 = zlen (encode (concat s1.*1)).
Proof.
  intros Hs Hseg (l & r & [Hrs Hx] & Hn & Hf & Hl & Hr). rewrite Hrs in Hs.
  apply Forall_app in Hs as [Sl [_ Sr]%Forall_app].
  destruct (segmentation f l Sl) as (s1 & E1 & R1). destruct (segmentation f r Sr) as (s2 & E2 & R2).
  exists s1, s2. rewrite E1. split; [|done].
  apply (rune_segmented_unique f); [done| |].
  - apply rune_segmented_app. split; [done|]. split.
    + cbn. split; [|done]. split; [done|]. split; [done|]. destruct s2 as [|[t [|]] s2]; [done|done|].
      destruct (rune_segmented_head _ _ _ _ R2 eq_refl) as (c & Hc & Hm). rewrite E2 in Hc. apply Hr in Hc. congruence.
    + intros (t & Ht). destruct (rune_segmented_last _ _ _ _ R1 Ht) as (c & Hc & Hm). rewrite E1 in Hc. apply Hl in Hc. congruence.
  - rewrite fmap_app, concat_app, E1. cbn [fmap list_fmap concat fst]. by rewrite E2.
Qed.
(** The matches are the single characters. *)
Lemma segmented_ones f segs t s1 s2 : segs = s1 ++ (t, true) :: s2 → rune_segmented f segs →
  ∃ c, t = [c] ∧ f c = true.
Proof. intros -> H. apply rune_segmented_app in H as (_ & H & _). cbn in H. naive_solver. Qed.
Lemma ones_segmented f segs l c r : scalars (concat segs.*1) → rune_segmented f segs → concat segs.*1 = l ++ [c] ++ r → f c = true →
  ∃ s1 s2, segs = s1 ++ ([c], true) :: s2 ∧ l = concat s1.*1.
Proof.
  intros Hs Hseg Hrs Hc. rewrite Hrs in Hs. apply Forall_app in Hs as [Sl [_ Sr]%Forall_app].
  destruct (segmentation f l Sl) as (s1 & E1 & R1). destruct (segmentation f r Sr) as (s2 & E2 & R2).
  exists s1, s2. split; [|done]. apply (rune_segmented_unique f); [done| |].
  - apply rune_segmented_app. split; [done|]. split; [|by intros _ (? & ?)]. cbn. split; [by exists c|done].
  - rewrite fmap_app, concat_app, E1. cbn [fmap list_fmap concat fst]. by rewrite E2.
Qed.

(** What FromFunc gives, the empty text included. *)
Lemma func_pattern_some f rs : scalars rs → ∃ segs segs', func_pattern f (encode rs) = Ret (Ok (place 0 segs))
  ∧ concat segs.*1 = rs ∧ rune_segmented f segs' ∧ concat segs'.*1 = rs ∧ ∀ b k, remaining b k segs = remaining b k segs'.
Proof.
  intros H. destruct (func_pattern_spec f rs H) as (segs & H1 & H2 & H3). destruct (decide (rs = [])) as [->|Hn].
  - exists segs, []. subst segs. split_and!; done.
  - exists segs, segs. split_and!; done.
Qed.

(** The segments that FromFunc gives: none empty, unless the text is. *)
Lemma segmented_nonempty f segs : rune_segmented f segs → Forall (λ s : list Z * bool, s.1 ≠ []) segs.
Proof.
  induction segs as [|[t m] segs IH]; [constructor|]. cbn [rune_segmented]. intros [H1 H2]. constructor; [|by apply IH].
  cbn. destruct m; [by destruct H1 as (r & -> & _)|by destruct H1].
Qed.
Definition pattern_cuts (p : pattern) (w : list Z) (segs : segments) : Prop :=
  scalars w ∧ p (encode w) = Ret (Ok (place 0 segs)) ∧ concat segs.*1 = w ∧ (Forall (λ s, s.1 ≠ []) segs ∨ w = []).
Lemma func_cut f rs : scalars rs → ∃ segs segs', pattern_cuts (func_pattern f) rs segs
  ∧ rune_segmented f segs' ∧ concat segs'.*1 = rs ∧ ∀ b k, remaining b k segs = remaining b k segs'.
Proof.
  intros H. destruct (func_pattern_spec f rs H) as (segs & H1 & H2 & H3). destruct (decide (rs = [])) as [->|Hn].
  - exists segs, []. subst segs. split_and!; try done. split_and!; try done. by right.
  - exists segs, segs. split_and!; try done. split_and!; try done. left. by apply segmented_nonempty in H3.
Qed.

(** ** Delimiters *)
Lemma delimited_segs f rs : scalars rs →
  ∃ segs, pattern_cuts (func_pattern f) rs segs
    ∧ in_order (remaining Removed 0 segs) ∧ ∀ x, x ∈ remaining Removed 0 segs ↔ run_of f rs x.
Proof.
  intros Hs. destruct (func_cut f rs Hs) as (segs & segs' & H1 & H3 & H4 & H5).
  exists segs. split; [done|]. rewrite H5. split; [apply remaining_in_order|].
  intros x. rewrite remaining_in. change 0 with (zlen (encode [])). split.
  - intros (m & (s1 & s2 & Hsp & Hx)%spots_occur & [_ [?|Hm]]); [done|]. cbn in Hm. subst m.
    pose proof (segmented_runs f _ _ _ _ Hsp H3) as Hr. rewrite H4 in Hr. destruct x as [k t]. cbn in *. by rewrite Hx.
  - intros Hr. exists false. split; [|split; [|by right]].
    + rewrite <- H4 in Hr, Hs. destruct (runs_segmented f segs' x Hs H3 Hr) as (s1 & s2 & -> & Hx).
      pose proof (spots_occur_inv [] s1 x.2 false s2) as Hsp. cbn [app] in Hsp. rewrite <- Hx in Hsp. by destruct x.
    + by destruct Hr as (? & ? & ? & ? & ?).
Qed.
Lemma delimited f rs : scalars rs →
  ∃ fs, run_split (split_by (func_pattern f) Removed) (pts_from_string (encode rs)) = Ret (Pts (encode rs) (map plain_split fs), None)
    ∧ in_order fs ∧ ∀ x, x ∈ fs ↔ run_of f rs x.
Proof.
  intros Hs. rewrite pts_from_plain by done. destruct (delimited_segs f rs Hs) as (segs & (H0 & H1 & H2 & _) & H3 & H4).
  erewrite (run_split_plain _ Removed _ _ [segs]); [|by left|by repeat constructor].
  exists (remaining Removed 0 segs). cbn [zip_with concat fst]. by rewrite app_nil_r.
Qed.

(** ** BERT: white space removed, then punctuation isolated *)
Lemma suffix_without f (l : list Z) : ∃ l1 l2, l = l1 ++ l2 ∧ Forall (λ c, f c = false) l2 ∧ ∀ c, last l1 = Some c → f c = true.
Proof.
  induction l as [|c l IH] using rev_ind; [by exists [], []|]. destruct (f c) eqn:E.
  - exists (l ++ [c]), []. rewrite app_nil_r. split_and!; [done|constructor|]. intros c' Hc. rewrite last_snoc in Hc. by injection Hc as <-.
  - destruct IH as (l1 & l2 & -> & H1 & H2). exists l1, (l2 ++ [c]). rewrite <- app_assoc. split_and!; [done| |done].
    apply Forall_app. split; [done|by constructor].
Qed.
Lemma prefix_without f (r : list Z) : ∃ r1 r2, r = r1 ++ r2 ∧ Forall (λ c, f c = false) r1 ∧ ∀ c, head r2 = Some c → f c = true.
Proof.
  induction r as [|c r IH]; [by exists [], []|]. destruct (f c) eqn:E.
  - exists [], (c :: r). split_and!; [done|constructor|]. by intros c' [= <-].
  - destruct IH as (r1 & r2 & -> & H1 & H2). exists (c :: r1), r2. split_and!; [done|by constructor|done].
Qed.

Lemma in_order_app fs gs : in_order (fs ++ gs) ↔ in_order fs ∧ in_order gs ∧ ∀ x y, x ∈ fs → y ∈ gs → x.1 + zlen (encode x.2) <= y.1.
Proof. apply SS_app. Qed.

Lemma in_order_concat fs gss :
  in_order fs → Forall2 (λ x gs, in_order gs ∧ ∀ y, y ∈ gs → x.1 <= y.1 ∧ y.1 + zlen (encode y.2) <= x.1 + zlen (encode x.2)) fs gss →
  in_order (concat gss).
Proof.
  intros Ho H. induction H as [|x gs fs gss [H1 H2] H IH]; [constructor|]. apply in_order_cons in Ho as [Ho Hx]. cbn [concat].
  apply in_order_app. split; [done|]. split; [by apply IH|]. intros y z Hy Hz.
  apply elem_of_list_In, in_concat in Hz as (gs' & Hg & Hz). apply elem_of_list_In in Hg, Hz.
  apply elem_of_list_lookup in Hg as (i & Hg). destruct (Forall2_lookup_r _ _ _ _ _ H Hg) as (x' & Hx' & _ & Hb).
  apply elem_of_list_lookup_2, Hx in Hx'. apply Hb in Hz. apply H2 in Hy. lia.
Qed.

Lemma scalars_app a b : scalars (a ++ b) ↔ scalars a ∧ scalars b.
Proof. apply Forall_app. Qed.

Lemma isolated_in f k l t segs x : k = zlen (encode l) → scalars t → rune_segmented f segs → concat segs.*1 = t →
  x ∈ remaining Isolated k segs ↔ ∃ l' r', t = l' ++ x.2 ++ r' ∧ x.1 = zlen (encode (l ++ l'))
    ∧ ((∃ c, x.2 = [c] ∧ f c = true) ∨ run_of f t (zlen (encode l'), x.2)).
Proof.
  intros -> Hs Hseg <-. rewrite remaining_in. split.
  - intros (m & (s1 & s2 & Hsp & Hx)%spots_occur & _). exists (concat s1.*1), (concat s2.*1).
    split; [rewrite Hsp, fmap_app, concat_app; done|]. split; [done|]. destruct m.
    + left. by eapply segmented_ones.
    + right. by eapply segmented_runs.
  - intros (l' & r' & Ht & Hx & [(c & Hc & Hf)|Hr]).
    + rewrite Hc in Ht. destruct (ones_segmented f segs l' c r' Hs Hseg Ht Hf) as (s1 & s2 & Hsp & ->). exists true. split.
      * pose proof (spots_occur_inv l s1 [c] true s2) as H. rewrite <- Hsp, <- Hx in H. destruct x as [k t]. cbn in *. by subst.
      * split; [cbn; by rewrite Hc|by left].
    + destruct (runs_segmented f segs _ Hs Hseg Hr) as (s1 & s2 & Hsp & Hl). cbn [fst snd] in *. exists false. split.
      * pose proof (spots_occur_inv l s1 x.2 false s2) as H. rewrite <- Hsp in H.
        rewrite encode_app, zlen_app in Hx, H. rewrite <- Hl, <- Hx in H. by destruct x.
      * split; [|by left]. by destruct Hr as (? & ? & ? & ? & ?).
Qed.

Lemma prefix_by_length (a b a' b' : list Z) : a ++ b = a' ++ b' → zlen (encode a) = zlen (encode a') → a = a' ∧ b = b'.
Proof.
  intros H Hl. apply List.app_eq_app in H as (m & [[-> ->]|[-> ->]]); rewrite encode_app, zlen_app in Hl;
    (destruct m as [|c m]; [by rewrite !app_nil_r|]); pose proof (encode_pos c m); lia.
Qed.

Lemma bert_in f g rs x : scalars rs →
  bert_piece f g rs x ↔ ∃ y l r, run_of f rs y ∧ occurs y.2 l r (zlen (encode l), x.2) ∧ x.1 = y.1 + zlen (encode l)
    ∧ ((∃ c, x.2 = [c] ∧ g c = true) ∨ run_of g y.2 (zlen (encode l), x.2)).
Proof.
  intros Hs. split.
  - intros [(l & c & r & [Hrs Hx] & Hc & Hf & Hg)|(l & r & [Hrs Hx] & Hn & Hfg & Hl & Hr)].
    + destruct (suffix_without f l) as (l1 & l2 & -> & Hl2 & Hl1). destruct (prefix_without f r) as (r1 & r2 & -> & Hr1 & Hr2).
      exists (zlen (encode l1), l2 ++ [c] ++ r1), l2, r1. split; [|split; [|split; [|left; eauto]]].
      * exists l1, r2. cbn [fst snd]. split_and!; [split; [|done]| | |done|done].
        -- cbn [fst snd]. rewrite Hrs, Hc, <- !app_assoc. done.
        -- by destruct l2.
        -- rewrite !Forall_app. split_and!; [done|by constructor|done].
      * split; [by rewrite Hc|done].
      * rewrite Hx, encode_app, zlen_app. done.
    + destruct (suffix_without f l) as (l1 & l2 & -> & Hl2 & Hl1). destruct (prefix_without f r) as (r1 & r2 & -> & Hr1 & Hr2).
      exists (zlen (encode l1), l2 ++ x.2 ++ r1), l2, r1. split; [|split; [|split; [|right]]].
      * exists l1, r2. cbn [fst snd]. split_and!; [split; [|done]| | |done|done].
        -- cbn [fst snd]. rewrite Hrs, <- !app_assoc. done.
        -- destruct l2; [|done]. cbn. intros E. by apply app_nil in E as [E _].
        -- rewrite !Forall_app. split_and!; [done| |done]. eapply Forall_impl; [exact Hfg|]. cbn. intros c Hc. by apply orb_false_iff in Hc as [? ?].
      * done.
      * rewrite Hx, encode_app, zlen_app. done.
      * exists l2, r1. cbn [fst snd]. split_and!; [done|done| | |].
        -- eapply Forall_impl; [exact Hfg|]. cbn. intros c Hc. by apply orb_false_iff in Hc as [? ?].
        -- intros c Hc. specialize (Hl c). rewrite last_app, Hc in Hl. specialize (Hl eq_refl). cbn in Hl.
           assert (f c = false). { rewrite Forall_forall in Hl2. apply Hl2. rewrite last_lookup in Hc. by eapply elem_of_list_lookup_2. }
           by rewrite H in Hl.
        -- intros c Hc. destruct r1 as [|c' r1]; [done|]. injection Hc as ->. specialize (Hr c eq_refl). cbn in Hr.
           apply Forall_cons in Hr1 as [Hr1 _]. by rewrite Hr1 in Hr.
  - intros (y & l & r & (L & R & [Hrs Hy] & Hn & Hf & HL & HR) & [Ho _] & Hx & [(c & Hc & Hg)|Hr]); cbn [fst snd] in *.
    + left. exists (L ++ l), c, (r ++ R). split_and!; [split| | |done].
      * rewrite Hrs, Ho, <- !app_assoc. done.
      * rewrite Hx, Hy, encode_app, zlen_app. done.
      * done.
      * rewrite Ho, !Forall_app, Hc in Hf. destruct Hf as (_ & Hf & _). by apply Forall_cons in Hf as [? _].
    + right. destruct Hr as (l' & r' & [Ho' Hl'] & Hn' & Hg & Hl & Hr). cbn [fst snd] in *.
      assert (l' = l ∧ r' = r) as [-> ->].
      { assert (Sl : scalars y.2). { rewrite Hrs, !scalars_app in Hs. tauto. }
        rewrite Ho in Ho', Sl. symmetry in Ho'. apply prefix_by_length in Ho' as [-> Ho']; [|done]. by apply app_inv_head in Ho'. }
      exists (L ++ l), (r ++ R). split_and!; [split|done| | |].
      * rewrite Hrs, Ho, <- !app_assoc. done.
      * rewrite Hx, Hy, encode_app, zlen_app. done.
      * rewrite Ho, !Forall_app in Hf. destruct Hf as (_ & Hf & _). rewrite Forall_forall in *. intros c Hc. rewrite Hf, Hg; done.
      * intros c Hc. rewrite last_app in Hc. destruct (last l) eqn:E; [|by rewrite HL]. injection Hc as <-. rewrite Hl by done. apply orb_true_r.
      * intros c Hc. destruct r as [|c' r]; [by rewrite HR|]. injection Hc as ->. rewrite Hr by done. apply orb_true_r.
Qed.

Lemma bert_segs f g rs : scalars rs →
  ∃ segs gss, pattern_cuts (func_pattern f) rs segs
    ∧ let fs := remaining Removed 0 segs in
      Forall2 (λ x segs, pattern_cuts (func_pattern g) x.2 segs) fs gss
      ∧ let fs' := concat (zip_with (λ x segs, remaining Isolated x.1 segs) fs gss) in
        in_order fs' ∧ ∀ x, x ∈ fs' ↔ bert_piece f g rs x.
Proof.
  intros Hs. destruct (delimited_segs f rs Hs) as (segs0 & E & Ho & Hfs). exists segs0.
  set (fs := remaining Removed 0 segs0) in *.
  assert (Hsc : Forall (λ x, scalars x.2 ∧ ∃ l r, occurs rs l r x) fs).
  { apply Forall_forall. intros x Hx. apply Hfs in Hx as (l & r & [Hx Hx'] & _). split; [|by exists l, r].
    rewrite Hx, !scalars_app in Hs. tauto. }
  assert (∃ gss gss', Forall2 (λ x segs, pattern_cuts (func_pattern g) x.2 segs) fs gss
    ∧ Forall2 (λ x gs, ∃ segs, rune_segmented g segs ∧ concat segs.*1 = x.2 ∧ gs = remaining Isolated x.1 segs) fs gss'
    ∧ zip_with (λ x segs, remaining Isolated x.1 segs) fs gss = gss') as (gss & gss' & H1 & H2 & H3).
  { clear -Hsc. induction Hsc as [|x fs [Hx _] Hsc (gss & gss' & H1 & H2 & H3)]; [by exists [], []; repeat constructor|].
    destruct (func_cut g x.2 Hx) as (segs & segs' & E1 & E3 & E4 & E5).
    exists (segs :: gss), (remaining Isolated x.1 segs :: gss'). split_and!; [by constructor| |by cbn; f_equal].
    constructor; [|done]. exists segs'. rewrite E5. done. }
  exists gss. split; [done|]. cbv zeta. split; [done|]. rewrite H3. split.
  - apply (in_order_concat fs); [done|]. eapply Forall2_impl; [exact H2|]. intros x gs (segs & H4 & H5 & ->).
    split; [apply remaining_in_order|]. intros y (m & Hy & _)%remaining_in. apply spots_bounds in Hy. rewrite H5 in Hy. done.
  - intros x. rewrite (bert_in _ _ _ _ Hs). rewrite elem_of_list_In, in_concat. split.
    + intros (gs & Hgs & Hx). apply elem_of_list_In in Hgs, Hx. apply elem_of_list_lookup in Hgs as (i & Hgs).
      destruct (Forall2_lookup_r _ _ _ _ _ H2 Hgs) as (y & Hy & segs & H4 & H5 & ->).
      apply elem_of_list_lookup_2 in Hy. rewrite Forall_forall in Hsc. destruct (Hsc y Hy) as (Sy & L & R & [Hrs Hy']).
      apply (isolated_in _ _ L y.2 segs x Hy' Sy H4 H5) in Hx as (l & r & Hyx & Hx & Hc).
      exists y, l, r. split; [by apply Hfs|]. split; [done|]. split; [rewrite Hx, encode_app, zlen_app, Hy'; done|done].
    + intros (y & l & r & Hy & [Hyx _] & Hx & Hc). apply Hfs in Hy. pose proof Hy as Hy0. apply elem_of_list_lookup in Hy as (i & Hy).
      destruct (Forall2_lookup_l _ _ _ _ _ H2 Hy) as (gs & Hgs & segs & H4 & H5 & ->).
      exists (remaining Isolated y.1 segs). split; [by apply elem_of_list_In; eapply elem_of_list_lookup_2|]. apply elem_of_list_In.
      rewrite Forall_forall in Hsc. destruct (Hsc y Hy0) as (Sy & L & R & [Hrs Hy']).
      apply (isolated_in g _ L y.2 segs x Hy' Sy H4 H5). exists l, r. split; [done|].
      split; [rewrite Hx, encode_app, zlen_app, Hy'; done|done].
Qed.

Lemma bert_pieces u rs : scalars rs →
  ∃ fs, bert_pretokenizer u (pts_from_string (encode rs)) = Ret (Pts (encode rs) (map plain_split fs), None)
    ∧ in_order fs ∧ ∀ x, x ∈ fs ↔ bert_piece white_space (u_punct u) rs x.
Proof.
  intros Hs. destruct (bert_segs white_space (u_punct u) rs Hs) as (segs & gss & (H0 & H1 & H2 & _) & H3 & H4).
  unfold bert_pretokenizer. rewrite pts_from_plain by done.
  erewrite (run_split_plain _ Removed _ _ [segs]); [|by left|by repeat constructor]. cbn [mbind outcome_bind zip_with concat fst]. rewrite app_nil_r.
  erewrite (run_split_plain _ Isolated); [|by right|eapply Forall2_impl; [exact H3|]; by intros x y (? & ? & ? & _)].
  eexists. by split.
Qed.
