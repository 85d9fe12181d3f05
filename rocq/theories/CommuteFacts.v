(** Proofs for C76: normalizing characters before or after cutting. *)
From Coq Require Import ZifyBool Sorted.
From stdpp Require Import relations list_numbers.
From Verif Require Import GoBase Utf8Facts Strutils SplitPattern NormString Bpe Encodings Normalizers PreTokString PreTokenizers SpecText SpecNorm SpecSplit SpecHist SpecPts SpecPretok SpecNormalizers SpecCommute
  SliceFacts StrutilsFacts PatternFacts NormFacts NormInv NormReplace NormSlice NormSplit SplitExact RangeFacts NormEdits HistFacts PtsFacts PretokFacts ByteFacts EndFacts NormalizersFacts TwiceFacts SettledFacts WordPieceFacts.
Import GoBase NormString SpecNorm.
#[local] Open Scope Z_scope.

(** ** One string *)
Definition recast (f : Z → Z) (v : atext) : atext := map (λ p, (sanitize (f p.1), p.2)) v.
Definition rsegs (f : Z → Z) (segs : asegments) : asegments := map (λ s, (recast f s.1, s.2)) segs.
Definition func_segs (g : Z → bool) (ss : segments) : Prop :=
  if decide (concat ss.*1 = []) then ss = [([], false)] else rune_segmented g ss.

Lemma split_func n v g b : wf_as n v →
  ∃ segs gs ps, concat segs.*1 = v ∧ func_segs g (texts_of segs) ∧ grouped b segs gs
    ∧ split n (func_pattern g) b = Ret (Ok ps) ∧ Forall2 (λ g p, piece_of n (group_text g) p) (kept_groups b gs) ps.
Proof.
  intros Hwf. pose proof Hwf as ((Hs & Hn & _) & _).
  destruct (func_pattern_spec g v.*1 Hs) as (ss & Hp & Hc & Hf). rewrite <- Hn in Hp.
  destruct (texts_of_inv v ss Hc) as (segs & Ha & Ht).
  assert (Hcov : boundary_cover (ns_norm n) (place 0 ss)).
  { apply (cover_segments _ v); [apply Hwf|]. exists segs. by rewrite Ht. }
  destruct (split_exact _ _ _ b _ Hwf Hp Hcov) as (segs' & gs & H1 & H2 & H3 & H4).
  rewrite <- Ht in H2. apply segs_unique in H2; [|congruence]. subst segs'.
  assert (Hfs : func_segs g (texts_of segs)) by (unfold func_segs; by rewrite Ht, Hc).
  destruct H4 as [[_ H5]|[_ (ps & H5 & H6)]]; [exfalso|by exists segs, gs, ps].
  destruct H5 as (g1 & h & g2 & -> & _ & Hh & H5). destruct H3 as [H3 H4].
  unfold func_segs in Hfs. rewrite Ht, Hc in Hfs. destruct (decide (v.*1 = [])) as [Hv|Hv].
  - apply fmap_nil_inv in Hv. assert (Hl : alen v = 0) by (by rewrite Hv). rewrite <- Ha, <- H3 in Hl.
    rewrite <- concat_group_text, map_app, concat_app, alen_app in Hl. pose proof (zlen_nonneg (ns_orig n)).
    match type of Hl with _ + alen ?x = _ => pose proof (alen_nonneg x) end. lia.
  - apply segmented_nonempty in Hfs. rewrite <- Ht, <- H3 in Hfs. rewrite concat_app in Hfs. cbn [concat] in Hfs.
    unfold texts_of in Hfs. rewrite !map_app in Hfs. apply Forall_app in Hfs as [_ Hfs]. apply Forall_app in Hfs as [Hfs _].
    assert (Hhn : h ≠ []).
    { intros ->. apply (grouping_nonempty b _ [] H4); [|done]. rewrite map_app. cbn. set_solver. }
    destruct h as [|[t m] h]; [done|]. unfold group_text in Hh. cbn in Hh. apply app_eq_nil in Hh as [-> _].
    apply Forall_cons in Hfs as [Hfs _]. by apply Hfs.
Qed.

Lemma recast_shift f d v : recast f (shift_spans d v) = shift_spans d (recast f v).
Proof. unfold recast, shift_spans. rewrite !map_map. done. Qed.
Lemma recast_app f v w : recast f (v ++ w) = recast f v ++ recast f w.
Proof. apply map_app. Qed.
Lemma recast_first f v : first_start (recast f v) = first_start v.
Proof. by destruct v as [|[]]. Qed.
Lemma recast_last f v : last_span (recast f v) = last_span v.
Proof. unfold last_span, recast. f_equal. f_equal. induction v as [|x v IH]; [done|]. cbn. by f_equal. Qed.
Lemma recast_chars f v : (recast f v).*1 = map (λ r, sanitize (f r)) v.*1.
Proof. unfold recast. induction v as [|x v IH]; [done|]. cbn. by f_equal. Qed.
Lemma recast_nil f v : recast f v = [] ↔ v = [].
Proof. split; [apply map_eq_nil|by intros ->]. Qed.
Lemma rsegs_concat f segs : concat (rsegs f segs).*1 = recast f (concat segs.*1).
Proof. induction segs as [|[t m] segs IH]; [done|]. unfold rsegs in *. cbn [map]. rewrite !fmap_cons. cbn [concat fst]. by rewrite recast_app, IH. Qed.
Lemma rsegs_kinds f segs : (rsegs f segs).*2 = segs.*2.
Proof. induction segs as [|[t m] segs IH]; [done|]. cbn. by f_equal. Qed.
Lemma rsegs_app f a b : rsegs f (a ++ b) = rsegs f a ++ rsegs f b.
Proof. apply map_app. Qed.
Lemma rsegs_text f g : group_text (rsegs f g) = recast f (group_text g).
Proof. apply rsegs_concat. Qed.
Lemma rsegs_grouped f b segs gs : grouped b segs gs → grouped b (rsegs f segs) (map (rsegs f) gs).
Proof.
  intros [H1 H2]. split.
  - rewrite <- H1. clear. induction gs as [|g gs IH]; [done|]. cbn [map concat]. by rewrite IH, rsegs_app.
  - rewrite map_map. erewrite map_ext; [exact H2|]. intros g. apply rsegs_kinds.
Qed.
Lemma rsegs_kept f b gs : kept_groups b (map (rsegs f) gs) = map (rsegs f) (kept_groups b gs).
Proof.
  unfold kept_groups. induction gs as [|g gs IH]; [done|]. cbn [map]. rewrite !filter_cons, rsegs_kinds, IH. by destruct (decide _).
Qed.
Lemma rsegs_segmented f g segs : scalars (concat segs.*1).*1 → (∀ c, scalar c = true → g (sanitize (f c)) = g c) →
  rune_segmented g (texts_of segs) → rune_segmented g (texts_of (rsegs f segs)).
Proof.
  intros Hs Hg. induction segs as [|[t m] segs IH]; [done|]. cbn [texts_of rsegs map rune_segmented fst snd].
  rewrite fmap_cons in Hs. cbn [concat fst] in Hs. rewrite fmap_app in Hs. apply Forall_app in Hs as [Hs1 Hs2].
  intros [H1 H2]. split; [|by apply IH]. rewrite recast_chars. destruct m.
  - destruct H1 as (r & E & Hr). exists (sanitize (f r)). rewrite E in *. split; [done|]. apply Forall_cons in Hs1 as [Hr1 _]. by rewrite Hg.
  - destruct H1 as (E & H1 & H3). split; [by intros ?%map_eq_nil|]. split; [|by destruct segs as [|[t' []] segs]].
    apply Forall_map. rewrite Forall_forall in H1. unfold scalars in Hs1. rewrite Forall_forall in Hs1. apply Forall_forall. intros c Hc.
    rewrite Hg by auto. auto.
Qed.

Lemma recast_piece f n n2 w p p2 : w ≠ [] → same_origin n n2 → piece_of n w p → piece_of n2 (recast f w) p2 → map_runes p f = Ret p2.
Proof.
  intros Hw [Ho1 Ho2] (H1 & H2 & _) (H3 & H4 & _). destruct (map_runes_text p _ f H1) as (p' & -> & _ & R & Os). f_equal.
  change (repr p' (recast f (shift_spans (- first_start w) w))) in R. rewrite recast_shift in R. rewrite recast_first in *.
  eapply same_ns; [exact H3|exact R|]. destruct (H2 Hw) as [T1 S1]. destruct H4 as [T2 S2]; [by rewrite recast_nil|].
  unfold last_end in T2. rewrite recast_last in T2. rewrite Ho1 in T2. destruct Os as [O1 O2].
  split; [|congruence]. rewrite O1. eapply text_at_fun; [exact T1|exact T2].
Qed.

Lemma split_recast n n2 f g b : wf n → (∀ c, scalar c = true → g (sanitize (f c)) = g c) → map_runes n f = Ret n2 →
  ∃ ps ps2, split n (func_pattern g) b = Ret (Ok ps) ∧ split n2 (func_pattern g) b = Ret (Ok ps2)
    ∧ ∃ l l2, non_empty (splits_from_ns ps) = splits_from_ns l ∧ non_empty (splits_from_ns ps2) = splits_from_ns l2
        ∧ Forall2 (λ p p2, map_runes p f = Ret p2) l l2.
Proof.
  intros (v & Hwf) Hg Hm. destruct (map_runes_wf n f n2) as [Hwf2 Ho]; [by exists v|done|].
  destruct (map_runes_text n v f) as (n' & E & _ & R & _); [apply Hwf|]. rewrite Hm in E. injection E as <-.
  pose proof (wf_repr _ _ Hwf2 R) as Hw2. change (wf_as n2 (recast f v)) in Hw2.
  destruct (split_func n v g b Hwf) as (segs & gs & ps & H1 & H2 & H3 & H4 & H5).
  destruct (split_func n2 _ g b Hw2) as (segs2 & gs2 & ps2 & K1 & K2 & K3 & K4 & K5).
  exists ps, ps2. split; [done|]. split; [done|].
  assert (segs2 = rsegs f segs) as ->.
  { assert (Hsc : scalars v.*1) by apply Hwf.
    assert (Hc : ∀ s : asegments, concat (texts_of s).*1 = (concat s.*1).*1) by apply texts_of_concat.
    apply (segs_unique 0); [by rewrite rsegs_concat, K1, H1|]. f_equal. unfold func_segs in H2, K2. rewrite Hc in H2, K2. rewrite H1 in H2. rewrite K1, recast_chars in K2.
    destruct (decide (v.*1 = [])) as [Hv|Hv].
    - rewrite Hv in K2. rewrite decide_True in K2 by done. rewrite K2. destruct segs as [|[t m] [|]]; try done. cbn in H2. injection H2 as Ht ->. apply fmap_nil_inv in Ht as ->. done.
    - rewrite decide_False in K2 by (by intros ?%map_eq_nil). apply (rune_segmented_unique g); [done| |by rewrite !Hc, rsegs_concat, K1, H1].
      apply rsegs_segmented; [by rewrite H1|done|done]. }
  pose proof (grouped_unique _ _ _ _ K3 (rsegs_grouped f b segs gs H3)) as ->. rewrite rsegs_kept in K5.
  clear -H5 K5 Ho. revert ps ps2 H5 K5. induction (kept_groups b gs) as [|h hs IH]; intros ps ps2 H5 K5.
  { inversion H5; subst. inversion K5; subst. by exists [], []. }
  apply Forall2_cons_inv_l in H5 as (p & ps' & P1 & H5 & ->). cbn [map] in K5. apply Forall2_cons_inv_l in K5 as (p2 & ps2' & P2 & K5 & ->).
  destruct (IH _ _ H5 K5) as (l & l2 & E1 & E2 & E3). rewrite rsegs_text in P2. pose proof (piece_norm_nil _ _ _ P1) as N1. pose proof (piece_norm_nil _ _ _ P2) as N2. rewrite recast_nil in N2.
  unfold splits_from_ns in *. cbn [map]. rewrite !non_empty_cons. cbn [sp_ns]. rewrite E1, E2.
  destruct (decide (group_text h = [])) as [Hh|Hh].
  - rewrite (decide_False (P := ns_norm p ≠ [])) by (intros D; apply D; by apply N1). rewrite (decide_False (P := ns_norm p2 ≠ [])) by (intros D; apply D; by apply N2). by exists l, l2.
  - rewrite (decide_True (P := ns_norm p ≠ [])) by (by rewrite N1). rewrite (decide_True (P := ns_norm p2 ≠ [])) by (by rewrite N2).
    exists (p :: l), (p2 :: l2). split; [done|]. split; [done|]. constructor; [|done]. by eapply recast_piece.
Qed.

(** ** All the splits *)
Lemma normalize_with_map f p : Forall (λ x, wf (sp_ns x)) (p_splits p) →
  ∃ l, normalize_with (no_error (λ n, map_runes n f)) p = Ret (Pts (p_original p) l, None)
    ∧ Forall2 (λ x y, sp_tokens y = sp_tokens x
        ∧ match sp_tokens x with Some _ => y = x | None => map_runes (sp_ns x) f = Ret (sp_ns y) end) (p_splits p) l.
Proof.
  destruct p as [o l]. cbn [p_splits p_original]. unfold normalize_with, pts_normalize. cbn [p_splits p_original]. intros H.
  set (F := λ (_ : unit) n, _).
  assert (∃ l', normalize_loop F tt l = Ret (tt, l', None) ∧ Forall2 (λ x y, sp_tokens y = sp_tokens x
        ∧ match sp_tokens x with Some _ => y = x | None => map_runes (sp_ns x) f = Ret (sp_ns y) end) l l') as (l' & E & Hl); [|by exists l'; rewrite E].
  induction H as [|[n ts] l Hx _ (l' & E & IH)]; [by exists []|]. cbn [normalize_loop sp_tokens sp_ns]. destruct ts as [ts|].
  - exists (PSplit n (Some ts) :: l'). rewrite E. cbn [mbind outcome_bind]. split; [done|]. by constructor.
  - destruct Hx as (v & Hr & _). cbn [sp_ns] in Hr. destruct (map_runes_text n v f Hr) as (n' & Hn & _). exists (PSplit n' None :: l').
    replace (F tt n) with (Ret (tt, n', @None err)) by (unfold F, no_error; by rewrite Hn). cbn [mbind outcome_bind fst snd]. rewrite E. cbn [mbind outcome_bind]. split; [done|]. by constructor.
Qed.
Lemma normalize_with_inv f p l :
  Forall2 (λ x y, sp_tokens y = sp_tokens x
        ∧ match sp_tokens x with Some _ => y = x | None => map_runes (sp_ns x) f = Ret (sp_ns y) end) (p_splits p) l →
  normalize_with (no_error (λ n, map_runes n f)) p = Ret (Pts (p_original p) l, None).
Proof.
  destruct p as [o k]. cbn [p_splits p_original]. unfold normalize_with, pts_normalize. cbn [p_splits p_original]. intros H.
  set (F := λ (_ : unit) n, _). assert (normalize_loop F tt k = Ret (tt, l, None)) as E; [|by rewrite E].
  induction H as [|[n ts] [n' ts'] k l [H1 H2] _ IH]; [done|]. cbn [normalize_loop sp_tokens sp_ns] in *. subst ts'. destruct ts as [ts|].
  - rewrite IH. cbn [mbind outcome_bind]. by rewrite H2.
  - replace (F tt n) with (Ret (tt, n', @None err)) by (unfold F, no_error; by rewrite H2). cbn [mbind outcome_bind fst snd]. rewrite IH. done.
Qed.

Lemma split_loop_recast f g b i l l2 :
  keeps g f → Forall (λ x, wf (sp_ns x)) l →
  Forall2 (λ x y, sp_tokens y = sp_tokens x
        ∧ match sp_tokens x with Some _ => y = x | None => map_runes (sp_ns x) f = Ret (sp_ns y) end) l l2 →
  ∃ o o2 r r2, split_loop (stateless (split_by (func_pattern g) b)) tt i l = Ret (tt, o, Ok r)
    ∧ split_loop (stateless (split_by (func_pattern g) b)) tt i l2 = Ret (tt, o2, Ok r2)
    ∧ Forall2 (λ x y, sp_tokens y = sp_tokens x
        ∧ match sp_tokens x with Some _ => y = x | None => map_runes (sp_ns x) f = Ret (sp_ns y) end) r r2.
Proof.
  intros Hg Hw H. revert i. induction H as [|[n ts] [n' ts'] l l2 [H1 H2] H IH]; intros i; [by exists [], [], [], []|].
  apply Forall_cons in Hw as [Hn Hw]. specialize (IH Hw (i + 1)). destruct IH as (o & o2 & r & r2 & E1 & E2 & E3).
  cbn [split_loop sp_tokens sp_ns] in *. subst ts'. destruct ts as [ts|].
  - injection H2 as ->. rewrite E1, E2. cbn [mbind outcome_bind]. eexists _, _, _, _. split; [done|]. split; [done|]. by constructor.
  - destruct (split_recast n n' f g b Hn Hg H2) as (ps & ps2 & S1 & S2 & k & k2 & N1 & N2 & Hk).
    rewrite !stateless_eq. assert (B1 : split_by (func_pattern g) b n = Ret (n, Ok (splits_from_ns ps))) by (unfold split_by; by rewrite S1).
    assert (B2 : split_by (func_pattern g) b n' = Ret (n', Ok (splits_from_ns ps2))) by (unfold split_by; by rewrite S2). rewrite B1, B2. cbn [mbind outcome_bind fst snd]. rewrite E1, E2. cbn [mbind outcome_bind].
    eexists _, _, _, _. split; [done|]. split; [done|]. rewrite !non_empty_filter, N1, N2. apply Forall2_app; [|done].
    clear -Hk. unfold splits_from_ns. induction Hk; constructor; done.
Qed.

Lemma split_either_order f g b p : keeps g f → Forall (λ x, wf (sp_ns x)) (p_splits p) →
  either_order (run_split (split_by (func_pattern g) b)) (no_error (λ n, map_runes n f)) p.
Proof.
  intros Hg Hw. destruct (normalize_with_map f p Hw) as (l & E & Hl).
  destruct (split_loop_recast f g b 0 _ _ Hg Hw Hl) as (o & o2 & r & r2 & E1 & E2 & E3).
  exists (Pts (p_original p) r), (Pts (p_original p) l), (Pts (p_original p) r2).
  unfold run_split, pts_split. rewrite E1. cbn [p_splits p_original]. rewrite E2. cbn [mbind outcome_bind].
  split; [done|]. split; [by apply (normalize_with_inv f (Pts (p_original p) r) r2)|]. done.
Qed.

Lemma either_order_then pre1 pre2 pre nz p :
  (∀ q, pre q = (x ← pre1 q; let '(p1, e) := x in match e with Some _ => Ret (p1, e) | None => pre2 p1 end)) →
  either_order pre1 nz p → (∀ p1, pre1 p = Ret (p1, None) → either_order pre2 nz p1) → either_order pre nz p.
Proof.
  intros Hp (p1 & p2 & q & H1 & H2 & H3 & H4) H. destruct (H p1 H1) as (r1 & r2 & q' & K1 & K2 & K3 & K4).
  rewrite K3 in H2. injection H2 as ->. exists r1, p2, q'. rewrite !Hp, H1, H4. cbn [mbind outcome_bind]. done.
Qed.

(** ** A text that shows the difference: a character twice *)
Definition pair_pieces (b : behaviour) (m : bool) : nat :=
  if m then match b with Removed => 0 | _ => 2 end else 1.
Lemma pair_split n c g b o : b ≠ Contiguous → scalar c = true → wf n → ns_norm n = encode [c; c] →
  ∃ l, run_split (split_by (func_pattern g) b) (Pts o [PSplit n None]) = Ret (Pts o (splits_from_ns l), None) ∧ length l = pair_pieces b (g c).
Proof.
  intros Hb Hc (v & Hwf) Hn. destruct (split_func n v g b Hwf) as (segs & gs & ps & H1 & H2 & H3 & H4 & H5).
  pose proof Hwf as ((Hs & Hv & _) & _). assert (v.*1 = [c; c]) as Ev. { apply encode_inj_scalars; [done|by repeat constructor|congruence]. }
  assert (Hcc : concat (texts_of segs).*1 = [c; c]). { rewrite <- Ev, <- H1. apply texts_of_concat. }
  unfold func_segs in H2. rewrite Hcc in H2. rewrite decide_False in H2 by done.
  exists (map sp_ns (non_empty (splits_from_ns ps))).
  assert (Hne : non_empty (splits_from_ns ps) = splits_from_ns (map sp_ns (non_empty (splits_from_ns ps)))).
  { clear. unfold splits_from_ns. induction ps as [|p ps IH]; [done|]. cbn [map]. rewrite non_empty_cons. destruct (decide _); [cbn [map sp_ns]; by f_equal|done]. }
  split.
  { change [PSplit n None] with (splits_from_ns [n]). erewrite (run_split_all _ _ _ [non_empty (splits_from_ns ps)]).
    - cbn [concat]. rewrite app_nil_r. by rewrite <- Hne.
    - constructor; [|constructor]. exists n, (splits_from_ns ps). unfold split_by. rewrite H4. done. }
  assert (Hx : texts_of segs = if g c then [([c], true); ([c], true)] else [([c; c], false)]).
  { apply (rune_segmented_unique g); [done| |by destruct (g c)]. destruct (g c) eqn:E; cbn [rune_segmented]; repeat split; try done; eauto. }
  assert (Hk : segs.*2 = if g c then [true; true] else [false]).
  { transitivity (texts_of segs).*2; [|by rewrite Hx; destruct (g c)]. unfold texts_of. clear. induction segs as [|[] ? IH]; [done|]. cbn. by f_equal. }
  assert (Hg : map (λ g0 : asegments, g0.*2) gs = if g c then [[true]; [true]] else [[false]]).
  { destruct H3 as [H3 H6]. apply (grouping_unique b); [done| |].
    - assert (∀ R : list bool → list bool → Prop, R [true] [true] → adjacent R [[true]; [true]]) as Ha by (intros R HR [|[|]] x y; cbn; naive_solver).
      assert (∀ R : list bool → list bool → Prop, adjacent R [[false]]) as Ha1 by (intros R [|] x y; cbn; naive_solver).
      destruct b, (g c); cbn; try done; repeat match goal with |- _ ∧ _ => split | |- Forall _ _ => constructor end; auto; naive_solver.
    - assert (Hcm : ∀ l : list asegments, concat (map (λ g : asegments, g.*2) l) = (concat l).*2).
      { induction l as [|h l IH]; [done|]. cbn [map concat]. by rewrite fmap_app, IH. }
      rewrite Hcm, H3, Hk. by destruct (g c). }
  assert (Hns : Forall (λ h, group_text h ≠ []) (kept_groups b gs)).
  { apply segmented_nonempty in H2. destruct H3 as [<- H6]. apply Forall_forall. intros h [_ Hh]%elem_of_list_filter Ht.
    pose proof (grouping_nonempty b _ h.*2 H6) as Hn0. destruct h as [|[t m] h]; [apply Hn0; [|done]; apply elem_of_list_In, in_map_iff; exists []; split; [done|by apply elem_of_list_In]|].
    unfold group_text in Ht. cbn in Ht. apply app_eq_nil in Ht as [-> _]. rewrite Forall_forall in H2.
    apply (H2 ([], m)); [|done]. unfold texts_of. apply elem_of_list_In, in_map_iff. exists ([], m). split; [done|].
    apply in_concat. exists (([], m) :: h). split; [by apply elem_of_list_In|by left]. }
  rewrite map_length. transitivity (length (kept_groups b gs)).
  - clear -H5 Hns. induction H5 as [|h p hs ps Hp H5 IH]; [done|]. apply Forall_cons in Hns as [Hh Hns]. unfold splits_from_ns. cbn [map]. rewrite non_empty_cons.
    rewrite decide_True; [cbn; f_equal; by apply IH|]. cbn [sp_ns]. by rewrite (piece_norm_nil _ _ _ Hp).
  - unfold kept_groups. clear -Hg Hb. unfold pair_pieces. destruct (g c).
    + destruct gs as [|g1 [|g2 [|]]]; try done. cbn in Hg. injection Hg as E1 E2. rewrite !filter_cons. rewrite E1, E2. by destruct b.
    + destruct gs as [|g1 [|]]; try done. cbn in Hg. injection Hg as E1. rewrite !filter_cons. rewrite E1. by destruct b.
Qed.

Lemma normalize_with_length f p q e : normalize_with (no_error (λ n, map_runes n f)) p = Ret (q, e) → Forall (λ x, wf (sp_ns x)) (p_splits p) → length (p_splits q) = length (p_splits p).
Proof.
  intros H Hw. destruct (normalize_with_map f p Hw) as (l & E & Hl). rewrite E in H. injection H as <- <-. cbn. symmetry. by eapply Forall2_length.
Qed.
Lemma normalize_with_single f n o q e : normalize_with (no_error (λ n, map_runes n f)) (Pts o [PSplit n None]) = Ret (q, e) →
  ∃ n2, map_runes n f = Ret n2 ∧ q = Pts o [PSplit n2 None].
Proof.
  unfold normalize_with, pts_normalize, no_error. cbn [p_splits normalize_loop sp_tokens sp_ns]. intros H.
  destruct (map_runes n f) as [n2|]; [|done]. cbn [mbind outcome_bind fst snd p_original] in H. injection H as <- <-. by exists n2.
Qed.

Lemma order_needs f g b : b ≠ Contiguous →
  (∀ rs, scalars rs → either_order (run_split (split_by (func_pattern g) b)) (no_error (λ n, map_runes n f)) (pts_from_string (encode rs))) → keeps g f.
Proof.
  intros Hb H c Hc. assert (Hs : scalars [c; c]) by (by repeat constructor).
  destruct (H [c; c] Hs) as (p1 & p2 & q & H1 & H2 & H3 & H4). unfold pts_from_string, pts_from_ns in *.
  rewrite plain_from_string in * by done. assert (Hw : wf (plain 0 [c; c])) by (eexists; by apply plain_wf).
  destruct (pair_split (plain 0 [c; c]) c g b (ns_orig (plain 0 [c; c])) Hb Hc Hw eq_refl) as (l & E & Hl). rewrite E in H1. injection H1 as <-.
  destruct (normalize_with_single _ _ _ _ _ H3) as (n2 & Hn2 & ->).
  destruct (holds_map (plain 0 [c; c]) [c; c] f n2) as [(Hw2 & _ & Ht2) _]; [by split_and!|done|]. cbn [map] in Ht2.
  destruct (pair_split n2 (sanitize (f c)) g b (ns_orig (plain 0 [c; c])) Hb (sanitize_scalar _) Hw2 Ht2) as (l2 & E2 & Hl2). rewrite E2 in H4. injection H4 as <-.
  assert (Hlen : length l2 = length l).
  { assert (Hn : ∀ k o (q : pts) e, normalize_with (no_error (λ n, map_runes n f)) (Pts o (splits_from_ns k)) = Ret (q, e) → e = None → length (p_splits q) = length k).
    { clear. intros k o q e. unfold normalize_with, pts_normalize. cbn [p_splits p_original]. set (F := λ (_ : unit) n, _). intros H ->.
      apply bind_Ret in H as ([[[] q'] e'] & H & Hq). cbn in Hq. injection Hq as -> ->. apply bind_Ret in H as ([[[] l] e'] & H & Hq). injection Hq as <- ->. cbn.
      revert l H. induction k as [|n k IH]; intros l H; cbn in H; [by injection H as <-|].
      apply bind_Ret in H as ([[[] n1] e1] & H1 & H). destruct e1; [done|]. apply bind_Ret in H as ([[[] l1] e2] & H2 & H). injection H as <- ->. cbn. f_equal. by apply IH. }
    apply Hn in H2; [|done]. cbn in H2. unfold splits_from_ns in H2. by rewrite map_length in H2. }
  rewrite Hl, Hl2 in Hlen. unfold pair_pieces in Hlen. by destruct b, (g c), (g (sanitize (f c))).
Qed.
