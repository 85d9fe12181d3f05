(** Facts on the one way in which the byte-level pre-tokenizer panics. *)
From Coq Require Import ZifyBool Sorted.
From stdpp Require Import relations list_numbers.
From Verif Require Import GoBase Utf8Facts Strutils SplitPattern NormString Bpe Encodings PreTokString Normalizers PreTokenizers SpecText SpecNorm SpecSplit SpecHist SpecPts SpecPretok
  SliceFacts StrutilsFacts PatternFacts NormFacts NormEdits NormInv NormReplace NormSlice NormSplit HistFacts SplitExact RangeFacts PtsFacts PretokFacts ByteFacts.
Import GoBase NormString SpecNorm.
#[local] Open Scope Z_scope.

(** Every capture on its own, one of them empty and past the end of the original. *)
Lemma split_isolated_panics n v p s1 m s2 :
  wf_as n v → p (ns_norm n) = Ret (Ok (place 0 (texts_of (s1 ++ ([], m) :: s2)))) → concat (s1 ++ ([], m) :: s2).*1 = v →
  zlen (ns_orig n) < alen (concat s1.*1) → split n p Isolated = Panic.
Proof.
  intros Hwf Hp Hc Hl. set (segs := s1 ++ ([], m) :: s2) in *.
  assert (Hcov : boundary_cover (ns_norm n) (place 0 (texts_of segs))).
  { apply (cover_segments _ v); [apply Hwf|]. by exists segs. }
  destruct (split_exact _ _ p Isolated _ Hwf Hp Hcov) as (segs' & gs & H1 & H2 & [H3 H4] & H5).
  apply segs_unique in H2; [|congruence]. subst segs'.
  destruct H5 as [[H5 _]|[H5 _]]; [done|]. destruct H5.
  assert (Hgs : gs = map (λ s, [s]) segs).
  { rewrite <- H3. clear -H4. cbn [grouping] in H4. rewrite Forall_map in H4.
    induction H4 as [|g gs Hg H IH]; [done|]. cbn [concat]. rewrite map_app, <- IH. f_equal.
    destruct g as [|s [|]]; cbn in Hg; [naive_solver|done|naive_solver]. }
  exists (map (λ s, [s]) s1), [([], m)], (map (λ s, [s]) s2). split; [by rewrite Hgs; unfold segs; rewrite map_app|].
  split; [done|]. split; [done|]. rewrite concat_group_text.
  assert (E : concat (map (λ s : list (Z * (Z * Z)) * bool, [s]) s1) = s1).
  { clear. induction s1 as [|s s1 IH]; [done|]. cbn. by rewrite IH. }
  by rewrite E.
Qed.

Lemma byte_level_panics engine rs b ms : scalars rs →
  let v := if b : bool then prefixed white_space 32 (fresh 0 rs) else fresh 0 rs in
  v ≠ [] → engine (encode v.*1) = (ms, None) → matches2_ok v.*1 0 ms →
  Exists (λ m, m.2 = [] ∧ zlen (encode rs) < (match2_range v.*1 m).1) ms →
  byte_level engine b (pts_from_string (encode rs)) = Panic.
Proof.
  intros Hs v Hv He Hm Hlost. rewrite pts_from_plain by done. pose proof (plain_wf 0 rs Hs) as Hwf.
  destruct (prefix_step _ _ white_space 32 b starts_with_whitespace Hwf eq_refl) as (n1 & H1 & Hwf1 & Ho1).
  { intros x a w E. pose proof Hwf as ((Hsc & Hn & _) & _). rewrite Hn, E. rewrite E in Hsc. apply starts_with_whitespace_char. by apply Forall_cons in Hsc as [? _]. }
  change (encode_rune 32) with [32] in H1. fold v in Hwf1. pose proof Hwf1 as (Hr1 & _). pose proof Hr1 as (Hsc1 & Hn1 & _).
  destruct (regexp2_pattern_spec engine v.*1 ms Hsc1 ltac:(by intros E%fmap_nil_inv) He Hm) as (cs & Hcs & Hcov & Hrg & Hng).
  rewrite <- Hn1 in Hcov. pose proof (proj1 (cover_segments n1 v cs Hr1) Hcov) as (segs & Hsegs & ->).
  apply Exists_exists in Hlost as (m & Hin & Hm0 & Hlt).
  assert (Hr : match2_range v.*1 m ∈ ranges_of true (place 0 (texts_of segs))) by (rewrite Hrg; by apply elem_of_list_fmap_1).
  rewrite ranges_place in Hr. apply elem_of_list_fmap in Hr as ([[i t] k] & Er & Hr). apply elem_of_list_filter in Hr as [Hk Hr]. cbn [fst snd] in *. subst k.
  assert (t = []) as ->.
  { unfold match2_range in Er. rewrite Hm0 in Er. injection Er as E1 E2. destruct t as [|c t]; [done|]. pose proof (encode_pos c t). change (zlen (@nil Z)) with 0 in E2. rewrite Z.add_0_r in E2. lia. }
  change 0 with (zlen (encode [])) in Hr. apply spots_occur in Hr as (t1 & t2 & Et & Ei). cbn [fst snd app] in *.
  unfold texts_of in Et. symmetry in Et. symmetry in Et. apply fmap_app_inv in Et as (s1 & s2' & Es1 & Es2 & ->).
  destruct s2' as [|[t' k'] s2]; [done|]. rewrite fmap_cons in Es2. injection Es2 as Et' <- ->. cbn [fst snd] in *. symmetry in Et'. apply fmap_nil_inv in Et' as ->.
  assert (Hp : split n1 (regexp2_pattern engine) Isolated = Panic).
  { eapply (split_isolated_panics n1 v _ s1 true s2 Hwf1); [by rewrite Hn1|done|].
    destruct Ho1 as [-> _]. cbn [ns_orig plain]. rewrite Er in Hlt. cbn [fst] in Hlt. rewrite Ei in Hlt. subst t1.
    change (s1.*1) with (s1.*1). replace (alen (concat s1.*1)) with (zlen (encode (concat (texts_of s1).*1))); [exact Hlt|]. by rewrite texts_of_concat. }
  unfold byte_level. rewrite plain_splits. unfold run_split, pts_split, stateless, splits_from_ns. cbn [p_splits p_original map split_loop sp_tokens sp_ns].
  unfold byte_level_split. cbn [fst snd]. rewrite H1. cbn [mbind outcome_bind]. unfold split_by. by rewrite Hp.
Qed.
