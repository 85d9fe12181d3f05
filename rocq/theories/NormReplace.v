(** Replace. *)
From Coq Require Import ZifyBool Sorted.
From Verif Require Import GoBase Utf8Facts Strutils SplitPattern NormString SpecText SpecNorm SliceFacts StrutilsFacts
  PatternFacts NormFacts NormEdits NormInv.

Lemma tr_loop_insert al crs off rs a :
  scalars crs → (if off <? 1 then Ret (0, 0) else idx al (off - 1)) = Ret a →
  tr_loop al (map (λ r, (r, 1)) crs) off rs
  = Ret (spans_of (map (λ r, (r, a)) crs), encode crs).
Proof.
  intros Hs Ha. induction Hs as [|r crs Hr Hs IH]; [done|]. cbn [map tr_loop].
  replace (1 <=? 1) with true by done. replace (1 <=? 0) with false by done. replace (1 <=? -1) with false by done.
  rewrite Ha. cbn. by rewrite !Z.add_0_r, IH.
Qed.

Lemma zlen_le_encode rs : zlen rs <= zlen (encode rs).
Proof.
  induction rs as [|r rs IH]; [done|]. rewrite zlen_encode_cons, zlen_cons. pose proof (rune_len_bounds r). lia.
Qed.

Lemma atexts_const (a : Z * Z) (crs : list Z) : (map (λ r, (r, a)) crs).*1 = crs.
Proof. induction crs as [|r crs IH]; [done|]. cbn. by rewrite IH. Qed.

(** One replacement. *)
Lemma replace_step n out seg rest crs :
  repr n (out ++ seg ++ rest) → scalars crs →
  ∃ n' a, transform_range n (NRange (alen out) (alen (out ++ seg))) (map (λ r, (r, 1)) crs) (zlen seg) = Ret n'
    ∧ repr n' (out ++ map (λ r, (r, a)) crs ++ rest) ∧ same_origin n n'
    ∧ (if decide (seg = []) then a = last_span out else a ∈ seg.*2)
    ∧ (Forall (λ p : Z * (Z * Z), p.1 < 128) seg → a = last_span (out ++ seg)).
Proof.
  intros (Hs & Hn & Hal) Hc.
  assert (Hseg : zlen seg <= alen seg).
  { unfold alen. etransitivity; [|apply zlen_le_encode]. unfold zlen. by rewrite fmap_length. }
  pose proof (alen_nonneg out) as Hout. pose proof (zlen_nonneg seg) as Hseg0.
  assert (∃ a, (if zlen seg + alen out <? 1 then Ret (0, 0) else idx (ns_al n) (zlen seg + alen out - 1)) = Ret a
     ∧ (if decide (seg = []) then a = last_span out else a ∈ seg.*2)
     ∧ (Forall (λ p : Z * (Z * Z), p.1 < 128) seg → a = last_span (out ++ seg))) as (a & Ha & Hin & Hasc).
  { destruct (decide (seg = [])) as [->|Hne].
    - rewrite zlen_nil, Z.add_0_l. destruct (alen out <? 1) eqn:E.
      + assert (out = []) as -> by (apply alen_0; lia). by exists (0, 0).
      + assert (out ≠ []). { intros ->. by rewrite alen_nil in E. }
        rewrite Hal, idx_spans_last by done. exists (last_span out). by rewrite app_nil_r.
    - assert (0 < zlen seg) by (destruct seg; [done|rewrite zlen_cons; pose proof (zlen_nonneg seg); lia]).
      replace (zlen seg + alen out <? 1) with false by lia.
      rewrite Hal, spans_of_app, idx_app_r by (rewrite zlen_spans; lia). rewrite zlen_spans.
      rewrite spans_of_app, idx_app_l by (rewrite zlen_spans; lia).
      destruct (idx_total (spans_of seg) (zlen seg + alen out - 1 - alen out)) as (a & Ha).
      { rewrite zlen_spans. lia. }
      exists a. split; [done|]. split; [by apply idx_spans_in in Ha|]. intros HA.
      assert (alen seg = zlen seg) as Hal2.
      { apply alen_ascii; [exact HA|]. rewrite !fmap_app, !scalars_app in Hs. tauto. }
      rewrite last_span_app by done.
      replace (zlen seg + alen out - 1 - alen out) with (alen seg - 1) in Ha by lia.
      pose proof (idx_spans_last seg [] Hne) as Hl. rewrite app_nil_r in Hl. rewrite Ha in Hl. by injection Hl. }
  eexists _, a. split; [|split; [|split; [|split; [exact Hin|exact Hasc]]]].
  - unfold transform_range. cbn [coerce_to_norm negb].
    rewrite Hn. replace (encode (out ++ seg ++ rest).*1) with (encode out.*1 ++ encode seg.*1 ++ encode rest.*1)
      by (by rewrite !fmap_app, !encode_app).
    rewrite (sub_app3 _ _ _ (alen out) (alen (out ++ seg))); [|reflexivity|apply alen_app]. cbn [mbind outcome_bind].
    destruct (sub_total (encode seg.*1) 0 (zlen seg)) as (x1 & Hx1); [lia|lia|done|].
    rewrite Hx1. cbn [mbind outcome_bind]. rewrite (sub_zlen _ _ _ _ Hx1), Z.sub_0_r.
    destruct (sub_total (encode seg.*1) (zlen seg) (zlen (encode seg.*1))) as (x2 & Hx2); [lia|done|lia|].
    rewrite Hx2. cbn [mbind outcome_bind].
    rewrite (tr_loop_insert _ _ _ _ a) by done. cbn [mbind outcome_bind fst snd].
    rewrite Hal, !spans_of_app.
    rewrite (sub_prefix (spans_of out) _ (alen out)) by (by rewrite zlen_spans). cbn [mbind outcome_bind].
    rewrite (app_assoc (spans_of out)), (sub_suffix (spans_of out ++ spans_of seg) _ (alen (out ++ seg))); [|by rewrite zlen_app, !zlen_spans, alen_app|done].
    cbn [mbind outcome_bind]. rewrite (sub_prefix (encode out.*1) _ (alen out)) by done. cbn [mbind outcome_bind].
    rewrite (app_assoc (encode out.*1)), (sub_suffix (encode out.*1 ++ encode seg.*1) _ (alen (out ++ seg))); [|by rewrite zlen_app, alen_app|done].
    reflexivity.
  - rewrite !fmap_app, !scalars_app in Hs. split; [|split]; cbn [ns_norm ns_al].
    + rewrite !fmap_app, !scalars_app, atexts_const. tauto.
    + by rewrite !fmap_app, !encode_app, atexts_const.
    + by rewrite !spans_of_app.
  - done.
Qed.

Lemma replace_loop_spec crs segs out n i off :
  scalars crs → repr n (out ++ concat segs.*1) → i + off = alen out →
  ∃ n' res, replace_loop n (place i (texts_of segs)) (encode crs) off = Ret n'
    ∧ replaced crs out segs res ∧ repr n' res ∧ same_origin n n'.
Proof.
  intros Hc. revert out n i off. induction segs as [|[seg m] segs IH]; intros out n i off Hr Hi.
  { cbn. exists n, out. cbn in Hr. rewrite app_nil_r in Hr. done. }
  cbn [fmap list_fmap concat fst] in Hr. cbn [texts_of map place replace_loop fst snd c_match c_start c_end].
  fold (texts_of segs). destruct m; cbn [negb].
  - pose proof (alen_nonneg out) as Hout.
    pose proof (zlen_nonneg (encode seg.*1)) as Hseg0.
    rewrite !Z.max_r by lia. rewrite Hi.
    replace (i + zlen (encode seg.*1) + off) with (alen (out ++ seg)) by (rewrite alen_app; unfold alen in *; lia).
    pose proof Hr as (Hs & Hn & _). rewrite Hn.
    replace (encode (out ++ seg ++ concat segs.*1).*1) with (encode out.*1 ++ encode seg.*1 ++ encode (concat segs.*1).*1)
      by (by rewrite !fmap_app, !encode_app).
    rewrite (sub_app3 _ _ _ (alen out) (alen (out ++ seg))); [|reflexivity|apply alen_app]. cbn [mbind outcome_bind].
    rewrite (runes_encode_scalars seg.*1) by (rewrite !fmap_app, !scalars_app in Hs; tauto).
    replace (zlen seg.*1) with (zlen seg) by (unfold zlen; by rewrite fmap_length).
    destruct (replace_step n out seg (concat segs.*1) crs Hr Hc) as (n1 & a & H1 & Hr1 & Ho1 & Ha & Ha').
    rewrite (runes_encode_scalars crs) by done. rewrite H1. cbn [mbind outcome_bind].
    rewrite app_assoc in Hr1.
    destruct (IH (out ++ map (λ r, (r, a)) crs) n1 (i + zlen (encode seg.*1))
      (off + (zlen (encode crs) - (i + zlen (encode seg.*1) - i))) Hr1) as (n' & res & H2 & Hres & Hr2 & Ho2).
    { rewrite alen_app. unfold alen at 2. rewrite atexts_const. lia. }
    exists n', res. split; [done|]. split; [|split; [done|]].
    + exists a. split; [done|]. split; [done|]. done.
    + destruct Ho1, Ho2. split; congruence.
  - rewrite app_assoc in Hr.
    destruct (IH (out ++ seg) n (i + zlen (encode seg.*1)) off Hr) as (n' & res & H).
    { rewrite alen_app. unfold alen in *. lia. }
    by exists n', res.
Qed.

Lemma texts_of_concat segs : concat (texts_of segs).*1 = (concat segs.*1).*1.
Proof. induction segs as [|[s m] segs IH]; [done|]. cbn. rewrite fmap_app. by rewrite <- IH. Qed.

(** A cut of the plain text is a cut of the aligned text. *)
Lemma texts_of_inv (v : atext) (ss : segments) :
  concat ss.*1 = v.*1 → ∃ segs, concat segs.*1 = v ∧ texts_of segs = ss.
Proof.
  revert v. induction ss as [|[t m] ss IH]; intros v H; cbn in H.
  - symmetry in H. apply fmap_nil_inv in H as ->. by exists [].
  - symmetry in H. apply fmap_app_inv in H as (v1 & v2 & -> & H2 & ->). symmetry in H2.
    destruct (IH v2 (eq_sym H2)) as (segs & <- & <-). by exists ((v1, m) :: segs).
Qed.

Lemma cover_segments n v cs :
  repr n v → boundary_cover (ns_norm n) cs ↔ ∃ segs, concat segs.*1 = v ∧ cs = place 0 (texts_of segs).
Proof.
  intros (Hs & Hn & _). rewrite Hn, boundary_cover_place by done. split.
  - intros (ss & Hss & ->). destruct (texts_of_inv v ss Hss) as (segs & H1 & <-). by exists segs.
  - intros (segs & <- & ->). exists (texts_of segs). by rewrite texts_of_concat.
Qed.

Lemma replace_spec n v (p : pattern) cs crs :
  repr n v → p (ns_norm n) = Ret (Ok cs) → boundary_cover (ns_norm n) cs → scalars crs →
  ∃ n' segs res, replace n p (encode crs) = Ret (Ok n')
    ∧ concat segs.*1 = v ∧ cs = place 0 (texts_of segs)
    ∧ replaced crs [] segs res ∧ repr n' res ∧ same_origin n n'.
Proof.
  intros Hr Hp Hcov Hc. apply (cover_segments n v cs Hr) in Hcov as (segs & Hsegs & ->).
  destruct (replace_loop_spec crs segs [] n 0 0 Hc) as (n' & res & H1 & H2 & H3 & H4).
  { cbn. by rewrite Hsegs. } { done. }
  exists n', segs, res. split; [|done]. unfold replace. rewrite Hp. cbn [mbind outcome_bind].
  by rewrite H1.
Qed.

Lemma replaced_text crs out segs res :
  replaced crs out segs res → res.*1 = out.*1 ++ concat (map (λ s, if s.2 : bool then crs else s.1.*1) segs).
Proof.
  revert out. induction segs as [|[seg m] segs IH]; intros out; cbn [replaced map concat fst snd].
  - intros ->. by rewrite app_nil_r.
  - destruct m.
    + intros (a & _ & _ & H%IH). rewrite H, fmap_app, atexts_const, <- app_assoc. done.
    + intros H%IH. rewrite H, fmap_app, <- app_assoc. done.
Qed.

Lemma Forall_const {A B} (P : B → Prop) (b : B) (l : list A) : P b → Forall P (map (λ r, (r, b)) l).*2.
Proof. intros H. induction l; constructor; done. Qed.

Lemma in_const {A B} (b x : B) (l : list A) : x ∈ (map (λ r, (r, b)) l).*2 → x = b.
Proof. induction l as [|a l IH]; cbn; [by intros ?%elem_of_nil|]. intros [->|H]%elem_of_cons; [done|by apply IH]. Qed.

Lemma last_span_in v : v ≠ [] → last_span v ∈ v.*2.
Proof.
  intros H. destruct (exists_last H) as (v' & p & ->). rewrite last_span_snoc, fmap_app. apply elem_of_app. right.
  apply elem_of_list_here.
Qed.

Lemma aligned_replace orig out seg rest (a : Z * Z) crs :
  valid_utf8 orig = true → aligned_over orig (out ++ seg ++ rest) →
  (if decide (seg = []) then a = last_span out else a ∈ seg.*2) →
  aligned_over orig (out ++ map (λ r, (r, a)) crs ++ rest).
Proof.
  intros Hv [Hok Hss] Ha. rewrite !fmap_app, !Forall_app in Hok. destruct Hok as (Ok1 & Ok2 & Ok3).
  rewrite !fmap_app, !SS_app in Hss. destruct Hss as (S1 & (S2 & S3 & S23) & S123).
  rewrite Forall_forall in Ok1, Ok2, Ok3.
  assert (HP : span_ok orig a ∧ (∀ x, x ∈ out.*2 → before x a) ∧ (∀ y, y ∈ rest.*2 → before a y)).
  { destruct (decide (seg = [])) as [->|Hne].
    - destruct (decide (out = [])) as [->|Hne].
      + subst a. change (last_span []) with (0, 0). split; [by apply span_ok_00|].
        split; [by intros x ?%elem_of_nil|].
        intros y Hy. right. apply Ok3, span_ok_nonneg in Hy. cbn. lia.
      + subst a. pose proof (last_span_in out Hne) as Hin. split; [by apply Ok1|]. split.
        * intros x Hx. destruct (exists_last Hne) as (o' & p & ->). rewrite last_span_snoc.
          rewrite fmap_app in Hx, S1. apply SS_app in S1 as (_ & _ & S1).
          apply elem_of_app in Hx as [Hx|Hx]; [apply S1; [done|apply elem_of_list_here]|].
          apply elem_of_list_singleton in Hx as ->. apply before_refl.
        * intros y Hy. apply S123; [done|]. apply elem_of_app. by right.
    - split; [by apply Ok2|]. split.
      + intros x Hx. apply S123; [done|]. apply elem_of_app. by left.
      + intros y Hy. by apply S23. }
  destruct HP as (Hoka & Hb & Haf). split.
  - rewrite !fmap_app, !Forall_app, !Forall_forall. split; [done|]. split; [|done].
    intros x ->%in_const. done.
  - rewrite !fmap_app, !SS_app. split; [done|]. split; [split; [|split; [done|]]|].
    + clear. induction crs as [|r crs IH]; cbn; constructor; [done|]. apply Forall_const, before_refl.
    + intros x y ->%in_const Hy. by apply Haf.
    + intros x y Hx [->%in_const|Hy]%elem_of_app; [by apply Hb|]. apply S123; [done|]. apply elem_of_app. by right.
Qed.

Lemma replaced_aligned orig crs segs out res :
  valid_utf8 orig = true → aligned_over orig (out ++ concat segs.*1) → replaced crs out segs res →
  aligned_over orig res.
Proof.
  intros Hv. revert out. induction segs as [|[seg m] segs IH]; intros out Hal; cbn [replaced].
  - intros ->. cbn in Hal. by rewrite app_nil_r in Hal.
  - cbn [fmap list_fmap concat fst] in Hal. destruct m.
    + intros (a & Ha & _ & H). eapply IH; [|exact H]. rewrite <- app_assoc. by eapply aligned_replace.
    + intros H. eapply IH; [|exact H]. by rewrite <- app_assoc.
Qed.

Lemma replace_wf n (p : pattern) cs crs n' :
  wf n → p (ns_norm n) = Ret (Ok cs) → boundary_cover (ns_norm n) cs → scalars crs →
  replace n p (encode crs) = Ret (Ok n') → wf n' ∧ same_origin n n'.
Proof.
  intros (v & Hr & Hv & Hal) Hp Hcov Hc H.
  destruct (replace_spec n v p cs crs Hr Hp Hcov Hc) as (n2 & segs & res & H1 & H2 & -> & H3 & H4 & H5).
  rewrite H in H1. injection H1 as <-. split; [|done]. exists res. destruct H5 as [Ho Hsh].
  split; [done|]. rewrite Ho. split; [done|]. eapply replaced_aligned; [done| |exact H3]. cbn. by rewrite H2.
Qed.
