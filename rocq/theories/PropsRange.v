(** Property theorems C13-C22 (slices, splits, range conversions) and C27's consequence for Split. *)
From Coq Require Import ZifyBool String.
From stdpp Require Import relations.
From Verif Require Import GoBase Utf8Facts Strutils SplitPattern NormString SpecText SpecNorm SpecSplit SpecHist SliceFacts
  StrutilsFacts PatternFacts NormFacts NormEdits NormInv NormReplace NormSlice NormSplit NormOA SplitExact HistFacts RangeFacts Lit PropsNorm.
Import NormString.

(** C13: [a] and [b] are the spans of the first and the last byte of the range. *)
Theorem C13_slice :
  ∀ n i j, wf n → boundary (ns_norm n) i → boundary (ns_norm n) j → i < j →
  ∃ n' a b, slice n (NRange i j) = Ret (Some n') ∧ wf n'
    ∧ idx (ns_al n) i = Ret a ∧ idx (ns_al n) (j - 1) = Ret b
    ∧ text_at (ns_norm n) i j (ns_norm n')
    ∧ text_at (ns_orig n) a.1 b.2 (ns_orig n')
    ∧ zlen (ns_al n') = j - i
    ∧ ∀ k s, i <= k < j → idx (ns_al n) k = Ret s →
        ∃ s', idx (ns_al n') (k - i) = Ret s'
            ∧ ns_shift n' + s'.1 = ns_shift n + s.1 ∧ ns_shift n' + s'.2 = ns_shift n + s.2.
Proof. exact slice_bytes. Qed.
Print Assumptions C13_slice.

(** Every reachable string qualifies. *)
Theorem C13_reachable_wf : ∀ n, reachable n → wf n.
Proof. exact reachable_wf. Qed.
Print Assumptions C13_reachable_wf.

(** A slice of a slice: "aé野b", bytes 1..6, then bytes 2..5 of that. *)
Example C13_example :
  (m ← slice (from_string (encode [97; 0xE9; 0x91CE; 98])) (NRange 1 6);
   match m with Some m => slice m (NRange 2 5) | None => Panic end)
  = Ret (Some (NS (encode [0x91CE]) (encode [0x91CE]) [(0, 3); (0, 3); (0, 3)] 3)).
Proof. vm_compute. reflexivity. Qed.

(** C14 *)
Theorem C14_slice_rejects :
  ∀ n s e, wf n →
  (¬ (boundary (ns_norm n) s ∧ boundary (ns_norm n) e) → slice n (NRange s e) = Ret None)
  ∧ (¬ (boundary (ns_orig n) s ∧ boundary (ns_orig n) e) → slice n (ORange s e) = Ret None).
Proof.
  intros n s e (v & Hr & Hv & _). split; intros H; [by eapply slice_norm_invalid|by apply slice_orig_invalid].
Qed.
Print Assumptions C14_slice_rejects.

(** Out of bounds: whatever the bytes, well formed or not. *)
Theorem C14_slice_out_of_bounds :
  ∀ n s e, (¬ (0 <= s <= zlen (ns_norm n)) ∨ ¬ (0 <= e <= zlen (ns_norm n)) → slice n (NRange s e) = Ret None)
  ∧ (¬ (0 <= s <= zlen (ns_orig n)) ∨ ¬ (0 <= e <= zlen (ns_orig n)) → slice n (ORange s e) = Ret None).
Proof.
  assert (Hf : ∀ t i, ¬ (0 <= i <= zlen t) → is_rune_boundary t i = Ret false).
  { intros t i H. unfold is_rune_boundary. pose proof (zlen_nonneg t). replace ((i =? 0) || (i =? zlen t)) with false by lia.
    by replace ((i <? 0) || (zlen t <? i)) with true by lia. }
  intros n s e. unfold slice, range_is_valid. cbn [r_start r_end]. split; intros [H|H].
  - by rewrite (Hf _ _ H).
  - destruct (is_rune_boundary_total (ns_norm n) s) as [[|] ->]; cbn [mbind outcome_bind]; [by rewrite (Hf _ _ H)|done].
  - by rewrite (Hf _ _ H).
  - destruct (is_rune_boundary_total (ns_orig n) s) as [[|] ->]; cbn [mbind outcome_bind]; [by rewrite (Hf _ _ H)|done].
Qed.
Print Assumptions C14_slice_out_of_bounds.

(** The other ranges: one that ends before it starts is rejected as well; an empty one is taken for a position in the
    original and the normalized string at once, so that Slice panics if it lies behind the end of the other string. *)
Theorem C14_slice_degenerate :
  ∀ n i j, wf n →
  (boundary (ns_norm n) i → boundary (ns_norm n) j →
     (j < i → slice n (NRange i j) = Ret None)
     ∧ (i = j → slice n (NRange i j) = if i <=? zlen (ns_orig n) then Ret (Some (NS [] [] [] (ns_shift n + i))) else Panic))
  ∧ (boundary (ns_orig n) i → boundary (ns_orig n) j →
     (j < i → slice n (ORange i j) = Ret None)
     ∧ (i = j → slice n (ORange i j) = if i <=? zlen (ns_norm n) then Ret (Some (NS [] [] [] (ns_shift n + i))) else Panic)).
Proof. exact slice_degenerate. Qed.
Print Assumptions C14_slice_degenerate.

(** By original range: the whole range of the original string, and the characters to which CoerceRangeToNormalized converts it
    (C21), in their places; rejected if there is none by the end of the range. *)
Theorem C14_slice_original :
  ∀ n a b, wf n → boundary (ns_orig n) a → boundary (ns_orig n) b → a < b →
  match coerce_to_norm n (ORange a b) with
  | ((i, j), true) =>
    ∃ n', slice n (ORange a b) = Ret (Some n') ∧ wf n' ∧ text_at (ns_orig n) a b (ns_orig n') ∧ text_at (ns_norm n) i j (ns_norm n')
      ∧ ns_shift n' = ns_shift n + a ∧ zlen (ns_al n') = j - i
      ∧ ∀ k s, i <= k < j → idx (ns_al n) k = Ret s → idx (ns_al n') (k - i) = Ret (s.1 - a, s.2 - a)
  | (_, false) => slice n (ORange a b) = Ret None
  end.
Proof. exact slice_original. Qed.
Print Assumptions C14_slice_original.

(** "a" with "xyz" prepended: empty ranges before and behind the end of the original string; a reversed range. Then "xyza" with
    all but the last character removed: the original range of "yz" holds nothing any more. *)
Example C14_example_degenerate :
  (n ← prepend (from_string [97]) [120; 121; 122]; Ret (map (slice n) [NRange 1 1; NRange 3 3; NRange 2 1; ORange 1 0; ORange 1 1]))
  = Ret [Ret (Some (NS [] [] [] 1)); Panic; Ret None; Ret None; Ret (Some (NS [] [] [] 1))]
  ∧ (n ← filter_runes (from_string [120; 121; 122; 97]) (λ r, r =? 97); Ret (map (slice n) [ORange 1 3; ORange 1 4; ORange 4 4]))
  = Ret [Ret None; Ret (Some (NS [121; 122; 97] [97] [(2, 3)] 1)); Panic].
Proof. split; vm_compute; reflexivity. Qed.

(** "é!": cut inside é; past the end; negative. *)
Example C14_example :
  let n := from_string (encode [0xE9; 33]) in
  wf n ∧ map (slice n) [NRange 1 3; NRange 0 1; NRange 0 4; ORange 1 2; ORange (-1) 2]
  = [Ret None; Ret None; Ret None; Ret None; Ret None].
Proof. split; [eexists; apply from_string_wf; by repeat constructor|]. vm_compute. reflexivity. Qed.

(** C15, full statement: Split succeeds. False: an empty capture that lies past the end of the (shorter)
    original string makes Slice panic. Here "a" is replaced by "abc", and the pattern matches the
    empty text at the end. *)
Theorem C15_split_refuted :
  ¬ (∀ n (p : pattern) b cs, reachable n → p (ns_norm n) = Ret (Ok cs) → boundary_cover (ns_norm n) cs →
     ∃ ps, split n p b = Ret (Ok ps)).
Proof.
  intros H.
  set (n := NS [97] [97; 98; 99] [(0, 1); (0, 1); (0, 1)] 0).
  specialize (H n (λ _, Ret (Ok [Capture 0 3 false; Capture 3 3 true])) Isolated [Capture 0 3 false; Capture 3 3 true]).
  destruct H as (ps & H).
  - exists [97]. split; [by repeat constructor|]. eapply rtc_l; [|apply rtc_refl].
    eapply (edit_replace _ (func_pattern (λ r, r =? 97)) _ [97; 98; 99]);
      [vm_compute; reflexivity| |by repeat constructor|vm_compute; reflexivity].
    change [97] with (encode [97]). apply boundary_cover_place; [by repeat constructor|].
    exists [([97], true)]. done.
  - done.
  - change (ns_norm n) with (encode [97; 98; 99]). apply boundary_cover_place; [by repeat constructor|].
    exists [([97; 98; 99], false); ([], true)]. done.
  - vm_compute in H. discriminate.
Qed.
Print Assumptions C15_split_refuted.

(** What holds, for every well-formed string, covering pattern and behaviour: exactly one of
    - some kept group of captures has no text and lies past the end of the original string; Split panics;
    - Split succeeds and the pieces' texts concatenate to the text, or to that of the non-matches. *)
Theorem C15_split_text_partial :
  ∀ n (p : pattern) b cs, wf n → p (ns_norm n) = Ret (Ok cs) → boundary_cover (ns_norm n) cs →
  (split n p b = Panic ∧ ∃ c, c ∈ cs ∧ c_start c = c_end c ∧ zlen (ns_orig n) < c_end c)
  ∨ ∃ ps segs, split n p b = Ret (Ok ps)
      ∧ ns_norm n = encode (concat segs.*1) ∧ cs = place 0 segs
      ∧ concat (map ns_norm ps)
        = encode (concat (match b with Removed => base.filter (λ s, s.2 = false) segs | _ => segs end).*1).
Proof.
  intros n p b cs (v & Hwf) Hp Hcov.
  destruct (split_exact n v p b cs Hwf Hp Hcov) as (segs & gs & Hv & Hcs & Hg & [[Hx Hl]|(_ & ps & Hx & Hps)]).
  - left. split; [done|]. destruct Hl as (gs1 & g & gs2 & -> & Hk & Hgt & Hlen). destruct Hg as [Hc Hg].
    destruct g as [|[t m] g].
    { exfalso. eapply (grouping_nonempty b _ [] Hg); [|done]. rewrite map_app. apply elem_of_app. right. apply elem_of_list_here. }
    unfold group_text in Hgt. rewrite fmap_cons in Hgt. cbn [concat fst] in Hgt. apply app_nil in Hgt as [-> _].
    exists (Capture (alen (concat (map group_text gs1))) (alen (concat (map group_text gs1))) m).
    split; [|split; [done|exact Hlen]]. rewrite Hcs, <- Hc, concat_app. cbn [concat app]. unfold texts_of. rewrite map_app.
    change (map (λ s, (s.1.*1, s.2)) (concat gs1)) with (texts_of (concat gs1)).
    rewrite place_app. apply elem_of_app. right. rewrite Z.add_0_l, texts_of_alen. cbn [map place fst snd].
    change (group_text (concat gs1)) with (concat (concat gs1).*1). rewrite <- concat_group_text.
    change (zlen (encode [].*1)) with 0. rewrite Z.add_0_r. apply elem_of_list_here.
  - right. exists ps, (texts_of segs). split; [done|]. pose proof Hwf as ((_ & Hn & _) & _).
    assert (Ht : ∀ l : list (list (Z * (Z * Z)) * bool), concat (texts_of l).*1 = (concat l.*1).*1).
    { induction l as [|[t m] l IH]; [done|]. cbn [texts_of map]. rewrite !fmap_cons. cbn [concat fst].
      rewrite fmap_app. f_equal. exact IH. }
    split; [by rewrite Ht, Hv|]. split; [done|]. rewrite (pieces_text _ _ _ _ Hps). f_equal.
    destruct Hg as [Hc Hg]. destruct b.
    1:{ rewrite kept_groups_removed by done. rewrite Hc, <- Ht. f_equal.
      clear. induction segs as [|[t m] l IH]; [done|]. cbn [texts_of map]. rewrite !filter_cons. cbn [snd].
      destruct m; [rewrite !decide_False by done|rewrite !decide_True by done]; [exact IH|].
      cbn [texts_of map]. rewrite !fmap_cons. f_equal. exact IH. }
    all: rewrite kept_groups_all by done; rewrite concat_group_text, Hc, Ht; done.
Qed.
Print Assumptions C15_split_text_partial.

(** No capture past the end of the original string: Split succeeds. *)
Theorem C15_split_succeeds_partial :
  ∀ n (p : pattern) b cs, wf n → p (ns_norm n) = Ret (Ok cs) → boundary_cover (ns_norm n) cs →
  Forall (λ c, c_start c < c_end c ∨ c_end c <= zlen (ns_orig n)) cs →
  ∃ ps, split n p b = Ret (Ok ps).
Proof.
  intros n p b cs Hwf Hp Hcov Hemp.
  destruct (C15_split_text_partial n p b cs Hwf Hp Hcov) as [[_ (c & Hc & H1 & H2)]|(ps & segs & H & _)]; [|eauto].
  rewrite Forall_forall in Hemp. destruct (Hemp c Hc); lia.
Qed.
Print Assumptions C15_split_succeeds_partial.

(** "a-é--b" by '-': Removed, then Isolated. *)
Example C15_example :
  let n := from_string (encode [97; 45; 0xE9; 45; 45; 98]) in
  let texts b := (r ← split n (rune_pattern 45) b; match r with Ok ps => Ret (map ns_norm ps) | Err _ => Panic end) in
  texts Removed = Ret [[97]; [0xC3; 0xA9]; [98]]
  ∧ texts Isolated = Ret [[97]; [45]; [0xC3; 0xA9]; [45]; [45]; [98]]
  ∧ split (from_string []) (rune_pattern 45) Isolated = Ret (Ok [from_string []]).
Proof. vm_compute. auto. Qed.

(** C16: the pieces are the kept groups of segments, one by one, in order; which groups there are is
    determined by [grouped]. The panic is that of C15. *)
Theorem C16_split_groups :
  ∀ n v (p : pattern) b cs, wf_as n v → p (ns_norm n) = Ret (Ok cs) → boundary_cover (ns_norm n) cs →
  ∃ segs gs, concat segs.*1 = v ∧ cs = place 0 (texts_of segs) ∧ grouped b segs gs
    ∧ ((split n p b = Panic ∧ lost_piece b (ns_orig n) gs)
       ∨ (¬ lost_piece b (ns_orig n) gs ∧ ∃ ps, split n p b = Ret (Ok ps)
           ∧ Forall2 (λ g p, piece_of n (group_text g) p) (kept_groups b gs) ps)).
Proof. exact split_exact. Qed.
Print Assumptions C16_split_groups.

(** One way to cut the text into the captures' segments, one way to group them. *)
Theorem C16_groups_unique :
  ∀ b (segs segs' : list (list (Z * (Z * Z)) * bool)) gs gs',
  concat segs.*1 = concat segs'.*1 → place 0 (texts_of segs) = place 0 (texts_of segs') →
  grouped b segs gs → grouped b segs' gs' → segs = segs' ∧ gs = gs'.
Proof.
  intros b segs segs' gs gs' H1 H2 H3 H4. assert (segs = segs') as <- by by apply (segs_unique 0).
  split; [done|]. by eapply grouped_unique.
Qed.
Print Assumptions C16_groups_unique.

(** "a--b-" by '-', the other three behaviours. *)
Example C16_example :
  let n := from_string (encode [97; 45; 45; 98; 45]) in
  let texts b := (r ← split n (rune_pattern 45) b; match r with Ok ps => Ret (map ns_norm ps) | Err _ => Panic end) in
  texts Contiguous = Ret [[97]; [45; 45]; [98]; [45]]
  ∧ texts MergedWithPrevious = Ret [[97; 45]; [45]; [98; 45]]
  ∧ texts MergedWithNext = Ret [[97]; [45]; [45; 98]; [45]]
  ∧ (r ← split n (invert (rune_pattern 45)) Contiguous; match r with Ok ps => Ret (map ns_norm ps) | Err _ => Panic end)
    = Ret [[97]; [45; 45]; [98]; [45]].
Proof. vm_compute. auto. Qed.

Example C16_grouping_example :
  grouping MergedWithNext [[false]; [true]; [true; false]; [true]]
  ∧ ¬ grouping MergedWithNext [[false]; [true]; [true]; [false]; [true]].
Proof.
  split.
  - split; [by repeat (constructor; [naive_solver|])|]. intros [|[|[|[|i]]]] x y; cbn; naive_solver.
  - intros [_ H]. by apply (H 2%nat [true] [false]).
Qed.

(** C17: of the pieces with text. (Pieces without text have an empty original text.) *)
Theorem C17_split_offsets :
  ∀ n (p : pattern) b cs ps, wf n → p (ns_norm n) = Ret (Ok cs) → boundary_cover (ns_norm n) cs →
  split n p b = Ret (Ok ps) →
  Forall (λ q, wf q ∧ (ns_norm q = [] → ns_orig q = [])
    ∧ (ns_norm q ≠ [] →
       ns_shift n <= o_start (original_offsets q) ∧ o_start (original_offsets q) <= o_end (original_offsets q)
       ∧ o_end (original_offsets q) <= ns_shift n + zlen (ns_orig n)
       ∧ text_at (ns_orig n) (o_start (original_offsets q) - ns_shift n) (o_end (original_offsets q) - ns_shift n) (ns_orig q))) ps
  ∧ ∀ i j q r, (i < j)%nat → ps !! i = Some q → ps !! j = Some r → ns_norm q ≠ [] → ns_norm r ≠ [] →
      o_start (original_offsets q) <= o_start (original_offsets r)
      ∧ o_end (original_offsets q) <= o_end (original_offsets r)
      ∧ (o_end (original_offsets q) <= o_start (original_offsets r)
         ∨ ∃ a c, last (ns_al q) = Some a ∧ head (ns_al r) = Some c
             ∧ ns_shift q + a.1 = ns_shift r + c.1 ∧ ns_shift q + a.2 = ns_shift r + c.2).
Proof.
  intros n p b cs ps (v & Hwf) Hp Hcov Hsp. pose proof Hwf as (_ & _ & Hal).
  destruct (split_exact n v p b cs Hwf Hp Hcov) as (segs & gs & Hv & Hcs & [Hc Hg] & [[Hx Hl]|(_ & ps' & Hx & Hps)]); [congruence|].
  rewrite Hsp in Hx. injection Hx as <-.
  assert (Hgs : concat (map group_text gs) = v) by (by rewrite concat_group_text, Hc).
  assert (Hsub : ∀ i g, kept_groups b gs !! i = Some g → ∃ v1 v3, v = v1 ++ group_text g ++ v3).
  { intros i g Hi. apply elem_of_list_lookup_2 in Hi. apply elem_of_list_filter in Hi as [_ Hi].
    apply elem_of_list_split in Hi as (g1 & g2 & ->). exists (concat (map group_text g1)), (concat (map group_text g2)).
    by rewrite <- Hgs, map_app, concat_app. }
  split.
  - apply Forall_lookup. intros i q Hq. destruct (Forall2_lookup_r _ _ _ _ _ Hps Hq) as (g & Hi & Hpo).
    destruct (Hsub i g Hi) as (v1 & v3 & Heq). rewrite Heq in Hwf, Hal. pose proof (piece_wf _ _ _ _ _ Hwf Hpo) as Hwq.
    split; [by eexists|]. split.
    + intros He. apply (piece_norm_nil _ _ _ Hpo) in He. by apply Hpo.
    + intros Hne. assert (Hgt : group_text g ≠ []) by (intros E; apply Hne; by apply (piece_norm_nil _ _ _ Hpo)).
      apply aligned_mid in Hal. pose proof (start_le_end _ _ Hal Hgt) as Hle.
      pose proof (first_start_ok _ _ Hal Hgt) as Hb1%boundary_range. pose proof (last_end_ok _ _ Hal Hgt) as Hb2%boundary_range.
      pose proof Hpo as (_ & Ho & _). destruct (Ho Hgt) as [Ht Hs].
      rewrite (piece_offsets _ _ _ Hpo Hgt Hle). cbn [o_start o_end]. split; [lia|]. split; [lia|]. split; [lia|].
      by replace (ns_shift n + first_start (group_text g) - ns_shift n) with (first_start (group_text g)) by lia;
         replace (ns_shift n + last_end (group_text g) - ns_shift n) with (last_end (group_text g)) by lia.
  - intros i j q r Hij Hq Hr Hnq Hnr.
    destruct (Forall2_lookup_r _ _ _ _ _ Hps Hq) as (g & Hi & Hpg). destruct (Forall2_lookup_r _ _ _ _ _ Hps Hr) as (h & Hj & Hph).
    assert (Hgt : group_text g ≠ []) by (intros E; apply Hnq; by apply (piece_norm_nil _ _ _ Hpg)).
    assert (Hht : group_text h ≠ []) by (intros E; apply Hnr; by apply (piece_norm_nil _ _ _ Hph)).
    destruct (filter_lookup_order _ gs i j g h Hi Hj Hij) as (i' & j' & Hi' & Hj' & Hij').
    destruct (groups_between (map group_text gs) i' j' (group_text g) (group_text h)) as (x & y & z & Heq);
      [by rewrite list_lookup_fmap, Hi'|by rewrite list_lookup_fmap, Hj'|done|].
    rewrite Hgs in Heq. rewrite Heq in Hal, Hwf.
    pose proof (groups_ordered _ _ _ _ _ _ Hal Hgt Hht) as (H1 & H2 & H3).
    assert (Hag : aligned_over (ns_orig n) (group_text g)) by (apply aligned_app in Hal as [_ Hal]; by apply aligned_app in Hal as [Hal _]).
    assert (Hah : aligned_over (ns_orig n) (group_text h)).
    { do 3 apply aligned_app in Hal as [_ Hal]. by apply aligned_app in Hal as [Hal _]. }
    rewrite (piece_offsets _ _ _ Hpg Hgt (start_le_end _ _ Hag Hgt)), (piece_offsets _ _ _ Hph Hht (start_le_end _ _ Hah Hht)).
    cbn [o_start o_end]. split; [lia|]. split; [lia|]. destruct H3 as [H3|H3]; [left; lia|right].
    destruct Hpg as ((_ & _ & Hqa) & Hqo & _). destruct Hph as ((_ & _ & Hra) & Hro & _).
    destruct (Hqo Hgt) as [_ Hqs]. destruct (Hro Hht) as [_ Hrs].
    exists ((last_span (group_text g)).1 + - first_start (group_text g), (last_span (group_text g)).2 + - first_start (group_text g)).
    destruct (group_text h) as [|[c s] w] eqn:Eh; [done|]. exists (s.1 + - first_start ((c, s) :: w), s.2 + - first_start ((c, s) :: w)).
    split; [|split].
    + rewrite Hqa. rewrite <- shift_last by done. apply last_spans. by destruct (group_text g).
    + rewrite Hra. unfold shift_spans. cbn [map]. by rewrite head_spans.
    + rewrite Hqs, Hrs, H3. cbn [first_start fst snd]. lia.
Qed.
Print Assumptions C17_split_offsets.

(** "é-b" with "é" mapped to "e" (2 bytes to 1): offsets are those of the original. *)
Example C17_example :
  (n ← map_runes (from_string (encode [0xE9; 45; 98])) (λ r, if r =? 0xE9 then 101 else r);
   r ← split n (rune_pattern 45) Isolated;
   match r with Ok ps => Ret (map (λ p, (ns_norm p, original_offsets p)) ps) | Err _ => Panic end)
  = Ret [([101], Offsets 0 2); ([45], Offsets 2 3); ([98], Offsets 3 4)].
Proof. vm_compute. reflexivity. Qed.

(** Pieces that share a span: "a" replaced by "bc", split into "b" and "c". *)
Example C17_shared_example :
  (n ← replace (from_string [97; 33]) (rune_pattern 97) [98; 99];
   match n with
   | Ok n => r ← split n (rune_pattern 98) Isolated;
             match r with Ok ps => Ret (map (λ p, (ns_norm p, original_offsets p)) ps) | Err _ => Panic end
   | Err _ => Panic
   end)
  = Ret [([98], Offsets 0 1); ([99; 33], Offsets 0 2)].
Proof. vm_compute. reflexivity. Qed.

(** C18, full statement. False once an edit removed text: " a" trimmed has the single piece "a", whose
    original text is "a". *)
Theorem C18_recombine_refuted :
  ¬ (∀ n (p : pattern) b cs ps, reachable n → p (ns_norm n) = Ret (Ok cs) → boundary_cover (ns_norm n) cs →
     b ≠ Removed → split n p b = Ret (Ok ps) → concat (map ns_orig ps) = ns_orig n).
Proof.
  intros H.
  specialize (H (NS [32; 97] [97] [(1, 2)] 0) (λ _, Ret (Ok [Capture 0 1 false])) Isolated [Capture 0 1 false]
    [NS [97] [97] [(0, 1)] 1]).
  assert (E : [97] = [32; 97]); [|done]. apply H.
  - exists [32; 97]. split; [by repeat constructor|]. eapply rtc_l; [|apply rtc_refl].
    eapply (edit_trim _ true true). vm_compute. reflexivity.
  - done.
  - change (ns_norm _) with (encode [97]). apply boundary_cover_place; [by repeat constructor|]. by exists [([97], false)].
  - done.
  - vm_compute. reflexivity.
Qed.
Print Assumptions C18_recombine_refuted.

(** It also fails the other way round, with text that appears twice: "a" replaced by "bc". *)
Theorem C18_recombine_twice_refuted :
  ¬ (∀ n (p : pattern) b cs ps, reachable n → p (ns_norm n) = Ret (Ok cs) → boundary_cover (ns_norm n) cs →
     b ≠ Removed → split n p b = Ret (Ok ps) → zlen (concat (map ns_orig ps)) <= zlen (ns_orig n)).
Proof.
  intros H.
  specialize (H (NS [97] [98; 99] [(0, 1); (0, 1)] 0) (rune_pattern 98) Isolated [Capture 0 1 true; Capture 1 2 false]
    [NS [97] [98] [(0, 1)] 0; NS [97] [99] [(0, 1)] 0]).
  assert (E : zlen [97; 97] <= zlen [97]); [|by vm_compute in E]. apply H.
  - exists [97]. split; [by repeat constructor|]. eapply rtc_l; [|apply rtc_refl].
    eapply (edit_replace _ (func_pattern (λ r, r =? 97)) _ [98; 99]);
      [vm_compute; reflexivity| |by repeat constructor|vm_compute; reflexivity].
    change [97] with (encode [97]). apply boundary_cover_place; [by repeat constructor|].
    exists [([97], true)]. done.
  - vm_compute. reflexivity.
  - change (ns_norm _) with (encode [98; 99]). apply boundary_cover_place; [by repeat constructor|].
    by exists [([98], true); ([99], false)].
  - done.
  - vm_compute. reflexivity.
Qed.
Print Assumptions C18_recombine_twice_refuted.

(** What holds: strings whose characters' spans follow each other from the start to the end of the
    original string. Missing: strings edited otherwise (see the refutations). *)
Theorem C18_recombine_partial :
  ∀ n v (p : pattern) b cs ps, wf_as n v → tiles 0 v (zlen (ns_orig n)) →
  p (ns_norm n) = Ret (Ok cs) → boundary_cover (ns_norm n) cs →
  b ≠ Removed → split n p b = Ret (Ok ps) → concat (map ns_orig ps) = ns_orig n.
Proof.
  intros n v p b cs ps Hwf Ht Hp Hcov Hb Hsp.
  destruct (split_exact n v p b cs Hwf Hp Hcov) as (segs & gs & Hv & Hcs & [Hc Hg] & [[Hx Hl]|(_ & ps' & Hx & Hps)]); [congruence|].
  rewrite Hsp in Hx. injection Hx as <-. rewrite (kept_groups_all _ _ Hb) in Hps.
  assert (Hgs : concat (map group_text gs) = v) by (by rewrite concat_group_text, Hc).
  pose proof (tiled_pieces n 0 (zlen (ns_orig n)) (map group_text gs) ps) as H. rewrite Hgs in H.
  specialize (H Ht ltac:(lia) ltac:(lia)). rewrite sub_full in H.
  assert (Hf : Forall2 (piece_of n) (map group_text gs) ps) by (by apply Forall2_fmap_l). specialize (H Hf). by injection H.
Qed.
Print Assumptions C18_recombine_partial.

(** Fresh strings are such strings, and Map keeps them so. *)
Theorem C18_tiled_partial :
  (∀ rs, scalars rs → wf_as (from_string (encode rs)) (fresh 0 rs) ∧ tiles 0 (fresh 0 rs) (zlen (encode rs)))
  ∧ ∀ n v f, wf_as n v → tiles 0 v (zlen (ns_orig n)) →
    ∃ n' v', map_runes n f = Ret n' ∧ wf_as n' v' ∧ tiles 0 v' (zlen (ns_orig n')).
Proof.
  split.
  - intros rs Hs. split; [by apply from_string_wf|]. apply (tiles_fresh 0 rs).
  - intros n v f Hwf Ht. pose proof Hwf as (Hr & Hv & Hal). destruct (C07_map n v f Hr) as (n' & Hm & Hr' & Ho & Hs).
    exists n', (map (λ p, (sanitize (f p.1), p.2)) v). split; [done|]. split.
    + split; [done|]. rewrite Ho. split; [done|]. unfold aligned_over in *.
      assert (E : (map (λ p : Z * (Z * Z), (sanitize (f p.1), p.2)) v).*2 = v.*2).
      { clear. induction v as [|p v IH]; [done|]. cbn [map]. rewrite !fmap_cons. cbn [snd]. by rewrite IH. }
      by rewrite E.
    + rewrite Ho. by apply (tiles_map (λ r, sanitize (f r))).
Qed.
Print Assumptions C18_tiled_partial.

(** "Éa b": lower-cased, then split at the space. *)
Example C18_example :
  (n ← map_runes (from_string (encode [0xC9; 97; 32; 98])) (λ r, if r =? 0xC9 then 0xE9 else r);
   r ← split n (rune_pattern 32) MergedWithPrevious;
   match r with Ok ps => Ret (map (λ p, (ns_norm p, ns_orig p)) ps) | Err _ => Panic end)
  = Ret [(encode [0xE9; 97; 32], encode [0xC9; 97; 32]); ([98], [98])].
Proof. vm_compute. reflexivity. Qed.

(** C19 *)
Theorem C19_original_alignments :
  ∀ n, wf n → ns_norm n ≠ [] →
  ∃ l, original_alignments n = Ret l ∧ zlen l = zlen (ns_orig n)
    ∧ ∀ i s e, idx l i = Ret (s, e) →
        0 <= s <= e ∧ e <= zlen (ns_norm n)
        ∧ ∀ k a, idx (ns_al n) k = Ret a → (s <= k < e ↔ a.1 <= i < a.2) ∧ (k < s ↔ a.2 <= i).
Proof.
  intros n (v & Hwf) Hne. pose proof Hwf as ((Hs & Hn & Ha) & Hv & Hal).
  assert (Hvn : v ≠ []) by (intros ->; by rewrite Hn in Hne).
  eexists. split; [by apply (original_alignments_spec n v)|]. pose proof (zlen_nonneg (ns_orig n)). split.
  { unfold zlen at 1. rewrite map_length, seqZ_length. lia. }
  intros i s e Hi. apply idx_lookup in Hi as [Hi0 Hi]. rewrite list_lookup_fmap in Hi.
  destruct (seqZ 0 (zlen (ns_orig n)) !! Z.to_nat i) as [i'|] eqn:E; [|done]. apply lookup_seqZ in E as [-> E].
  cbn in Hi. injection Hi as <- <-. rewrite Z2Nat.id by done.
  pose proof (ended_started (ns_orig n) v i Hal) as [H1 H2]. split; [done|]. split; [rewrite Hn; exact H2|].
  intros k a Hk. rewrite Ha in Hk. split; [by eapply entry_spec|].
  pose proof (spans_sorted_spans _ _ Hal) as Hso. apply idx_lookup in Hk as [Hk0 Hk].
  rewrite (prefix_count (λ a : Z * Z, a.2 <= i) (spans_of v) (Z.to_nat k) a).
  - rewrite Z2Nat.id by done. done.
  - intros p q x y Hx Hy Hpq Hle. pose proof (sorted_mono _ _ _ _ _ Hso Hx Hy Hpq). lia.
  - done.
Qed.
Print Assumptions C19_original_alignments.

(** On an empty string it panics, even though the string is well formed. *)
Theorem C19_empty_panics : ∀ n, wf n → ns_norm n = [] → original_alignments n = Panic.
Proof.
  intros n (v & (Hs & Hn & Ha) & _) He. unfold original_alignments.
  assert (v = []) as -> by (apply alen_0; unfold alen; rewrite <- Hn, He; done). by rewrite Ha.
Qed.
Print Assumptions C19_empty_panics.

(** On any string at all: it panics exactly if there are no alignments, or if two neighbouring ones are different and
    the second one starts before the first one ends. *)
Theorem C19_panics_iff :
  ∀ n, original_alignments n = Panic ↔ ns_al n = [] ∨ ∃ i a b, ns_al n !! i = Some a ∧ ns_al n !! S i = Some b ∧ a ≠ b ∧ b.1 < a.2.
Proof.
  assert (Hl : ∀ als last offset len, oa_loop als last offset len = Panic ↔ ∃ i a b, (last :: als) !! i = Some a ∧ als !! i = Some b ∧ a ≠ b ∧ b.1 < a.2).
  { induction als as [|b als IH]; intros last offset len; cbn [oa_loop].
    - split; [done|]. intros (i & a & b & _ & H & _). done.
    - assert (Hs : (last ≠ b ∧ b.1 < last.2) ∨ (∃ i a c, (b :: als) !! i = Some a ∧ als !! i = Some c ∧ a ≠ c ∧ c.1 < a.2)
        ↔ ∃ i a c, (last :: b :: als) !! i = Some a ∧ (b :: als) !! i = Some c ∧ a ≠ c ∧ c.1 < a.2).
      { split.
        - intros [[H1 H2]|(i & a & c & H)]; [by exists 0%nat, last, b|by exists (S i), a, c].
        - intros ([|i] & a & c & H1 & H2 & H3 & H4); [left|right; by exists i, a, c]. cbn in H1, H2. injection H1 as <-. by injection H2 as <-. }
      rewrite <- Hs. case_bool_decide as E.
      + subst b. rewrite IH. tauto.
      + destruct (decide (b.1 < last.2)) as [E2|E2].
        * replace (b.1 <? last.2) with true by lia. tauto.
        * replace (b.1 <? last.2) with false by lia. rewrite <- (IH b (offset + len) 1).
          destruct (oa_loop als b (offset + len) 1); cbn [mbind outcome_bind]; [|tauto]. split; [done|]. intros [[_ ?]|?]; [lia|done]. }
  intros n. unfold original_alignments. destruct (ns_al n) as [|a als]; [cbn; tauto|]. cbn [idx]. change (idx (a :: als) 0) with (Ret a). cbn [mbind outcome_bind].
  pose proof (Hl (a :: als) a 0 0) as H. destruct (oa_loop (a :: als) a 0 0) as [[body [[last off] len]]|]; cbn [mbind outcome_bind].
  - split; [done|]. intros [?|(i & x & y & H1 & H2 & H3 & H4)]; [done|]. discriminate (proj2 H (ex_intro _ (S i) (ex_intro _ x (ex_intro _ y (conj H1 (conj H2 (conj H3 H4))))))).
  - split; [|done]. intros _. right. destruct H as [H _]. destruct (H eq_refl) as ([|i] & x & y & H1 & H2 & H3 & H4).
    + cbn in H1, H2. injection H1 as <-. by injection H2 as <-.
    + by exists i, x, y.
Qed.
Print Assumptions C19_panics_iff.

(** " é" trimmed, then "é" replaced by "ee": original byte 0 has no counterpart, 1 and 2 have both. *)
Example C19_example :
  (n ← trim_left_right (from_string (encode [32; 0xE9])) true true;
   m ← replace n (rune_pattern 0xE9) [101; 101];
   match m with Ok m => original_alignments m | Err _ => Panic end) = Ret [(0, 0); (0, 2); (0, 2)]
  ∧ (n ← filter_runes (from_string [97; 98; 99; 100]) (λ r, negb (byte_in 98 99 r)); original_alignments n) = Ret [(0, 1); (1, 1); (1, 1); (1, 2)]
  ∧ original_alignments (NS [97; 98] [97; 98] [(0, 2); (1, 2)] 0) = Panic
  ∧ original_alignments (NS [97; 98] [97; 98] [(0, 2); (0, 2)] 0) = Ret [(0, 2); (0, 2)].
Proof. vm_compute. auto. Qed.

(** C20: smallest range that contains the spans of all bytes of s..e. *)
Theorem C20_to_original :
  ∀ n s e, wf n → 0 <= s → s < e → e <= zlen (ns_norm n) →
  ∃ lo hi, coerce_to_orig n (NRange s e) = Ret ((lo, hi), true)
    ∧ (∀ k a, s <= k < e → idx (ns_al n) k = Ret a → lo <= a.1 ∧ a.2 <= hi)
    ∧ ∀ lo' hi', (∀ k a, s <= k < e → idx (ns_al n) k = Ret a → lo' <= a.1 ∧ a.2 <= hi') → lo' <= lo ∧ hi <= hi'.
Proof.
  intros n s e (v & Hwf) H1 H2 H3. pose proof Hwf as (Hr & Hv & Hal). pose proof Hr as (Hs & Hn & Ha).
  pose proof (repr_len _ _ Hr) as Hlen. unfold ns_len in Hlen.
  destruct (coerce_to_orig_bytes n s e) as (a & b & Hsa & Heb & Hc); [done|done|rewrite Ha, zlen_spans; lia|].
  exists a.1, b.2. split; [done|]. pose proof (spans_sorted_spans _ _ Hal) as Hso. rewrite Ha in *. split.
  - intros k c Hk Hkc. apply idx_lookup in Hsa as [? Hsa], Heb as [? Heb], Hkc as [? Hkc].
    split; [by apply (sorted_mono _ _ _ _ _ Hso Hsa Hkc); lia|by apply (sorted_mono _ _ _ _ _ Hso Hkc Heb); lia].
  - intros lo' hi' H. split; [apply (H s a); [lia|done]|apply (H (e - 1) b); [lia|done]].
Qed.
Print Assumptions C20_to_original.

(** Empty ranges come back with the same numbers; reversed ones are refused. *)
Theorem C20_to_original_degenerate :
  ∀ n s e, (s = e → coerce_to_orig n (NRange s e) = Ret ((s, e), true))
         ∧ (e < s → coerce_to_orig n (NRange s e) = Ret ((0, 0), false)).
Proof.
  intros n s e. unfold coerce_to_orig, r_len. cbn [r_start r_end]. split; intros H.
  - by replace (e - s =? 0) with true by lia.
  - replace (e - s =? 0) with false by lia. by replace (e <? s) with true by lia.
Qed.
Print Assumptions C20_to_original_degenerate.

(** "éa" with "é" mapped to "e": bytes 0..1 come from bytes 0..2. *)
Example C20_example :
  (n ← map_runes (from_string (encode [0xE9; 97])) (λ r, if r =? 0xE9 then 101 else r);
   x ← coerce_to_orig n (NRange 0 1); y ← coerce_to_orig n (NRange 0 2); Ret (x, y))
  = Ret (((0, 2), true), ((0, 3), true)).
Proof. vm_compute. reflexivity. Qed.

(** C21 *)
Theorem C21_to_normalized :
  ∀ n a b, wf n → a < b →
  let '((i, j), ok) := coerce_to_norm n (ORange a b) in
  if (ok : bool) then
    0 <= i <= j ∧ j <= zlen (ns_norm n) ∧ boundary (ns_norm n) i ∧ boundary (ns_norm n) j
    ∧ (∃ k s, idx (ns_al n) k = Ret s ∧ s.2 <= b)
    ∧ (∀ k s, idx (ns_al n) k = Ret s → i <= k < j → a <= s.1 ∧ s.2 <= b)
    ∧ (∀ k s, idx (ns_al n) k = Ret s → a <= s.1 → s.1 < s.2 → s.2 <= b → i <= k < j)
    ∧ (i < j → ∃ s, idx (ns_al n) i = Ret s ∧ s.1 < s.2)
  else ∀ k s, idx (ns_al n) k = Ret s → b < s.2.
Proof. exact coerce_to_norm_bytes. Qed.
Print Assumptions C21_to_normalized.

(** For any alignments, one that gives a start also gives an end: the case of a start without an end (normalizedstring.go:387-388)
    never arises. *)
Theorem C21_dead_case : ∀ als a b start, ctn_loop als 0 a b (-1) (-1) = (start, -1) → start = -1.
Proof.
  assert (H : ∀ als i a b start en, 0 <= i → (start ≠ -1 → en ≠ -1) → (ctn_loop als i a b start en).1 ≠ -1 → (ctn_loop als i a b start en).2 ≠ -1).
  { intros als i a b start en. revert i start en. induction als as [|[x y] als IH]; intros i start en Hi H; cbn [ctn_loop]; [done|]. destruct (b <? y) eqn:E; [done|].
    apply IH; [lia|]. replace (y <=? b) with true by lia. lia. }
  intros als a b start E. destruct (Z.eq_dec start (-1)) as [|Hn]; [done|]. specialize (H als 0 a b (-1) (-1)). rewrite E in H. destruct H; done.
Qed.
Print Assumptions C21_dead_case.
(** Only an end, for a range that starts inside a character; neither; and both. *)
Example C21_dead_case_example :
  map (λ als, ctn_loop als 0 1 3 (-1) (-1)) [ [(0, 2); (2, 4)]; [(0, 4)]; [(0, 1); (1, 3); (3, 4)] ] = [(-1, 1); (-1, -1); (1, 2)].
Proof. reflexivity. Qed.

(** There and back, from the original. *)
Theorem C21_round_trip_original :
  ∀ n a b i j, wf n → a < b → coerce_to_norm n (ORange a b) = ((i, j), true) → i < j →
  ∃ a' b', coerce_to_orig n (NRange i j) = Ret ((a', b'), true) ∧ a <= a' ∧ b' <= b.
Proof.
  intros n a b i j Hwf Hab Hc Hij. pose proof (coerce_to_norm_bytes n a b Hwf Hab) as H. rewrite Hc in H.
  destruct H as (H1 & H2 & _ & _ & _ & H3 & _). destruct (C20_to_original n i j Hwf) as (lo & hi & Ho & _ & Hmin); [lia..|].
  exists lo, hi. split; [done|]. apply Hmin. intros k s Hk Hs. by apply (H3 k).
Qed.
Print Assumptions C21_round_trip_original.

(** There and back, from the normalized: no byte with a non-empty span is lost. *)
Theorem C21_round_trip_normalized :
  ∀ n i j a b, wf n → 0 <= i → i < j → j <= zlen (ns_norm n) →
  coerce_to_orig n (NRange i j) = Ret ((a, b), true) → a < b →
  ∃ i' j', coerce_to_norm n (ORange a b) = ((i', j'), true)
    ∧ ∀ k s, i <= k < j → idx (ns_al n) k = Ret s → s.1 < s.2 → i' <= k < j'.
Proof.
  intros n i j a b Hwf H1 H2 H3 Ho Hab.
  destruct (C20_to_original n i j Hwf H1 H2 H3) as (lo & hi & Ho' & Hin & _). rewrite Ho in Ho'. injection Ho' as <- <-.
  pose proof (coerce_to_norm_bytes n a b Hwf Hab) as H. destruct (coerce_to_norm n (ORange a b)) as [[i' j'] ok] eqn:Hc.
  destruct ok.
  - exists i', j'. split; [done|]. destruct H as (_ & _ & _ & _ & _ & _ & H & _). intros k s Hk Hs Hlt.
    destruct (Hin k s Hk Hs). by apply (H k s).
  - exfalso. assert (zlen (ns_al n) = zlen (ns_norm n)) as Hl.
    { destruct Hwf as (v & (_ & Hn & Ha) & _). rewrite Ha, Hn, zlen_spans. done. }
    destruct (idx_total (ns_al n) i) as (s & Hs); [lia|]. pose proof (H i s Hs). destruct (Hin i s ltac:(lia) Hs). lia.
Qed.
Print Assumptions C21_round_trip_normalized.

(** "aéb" with "é" mapped to "e" and "a" filtered out. *)
Example C21_example :
  (n ← map_runes (from_string (encode [97; 0xE9; 98])) (λ r, if r =? 0xE9 then 101 else r);
   n ← filter_runes n (λ r, negb (r =? 97));
   Ret (ns_norm n, map (coerce_to_norm n) [ORange 0 3; ORange 1 4; ORange 0 1; ORange 3 9; ORange 2 3]))
  = Ret ([101; 98], [((0, 1), true); ((0, 2), true); ((0, 0), false); ((1, 2), true); ((1, 1), true)])
  ∧ (n ← transform (from_string [97; 98]) [(120, 1); (97, 0); (98, 0)] 0; Ret (ns_norm n, map (coerce_to_norm n) [ORange 0 1; ORange 0 2; ORange 1 2]))
    = Ret ([120; 97; 98], [((1, 2), true); ((1, 3), true); ((2, 3), true)]).
Proof. vm_compute. auto. Qed.

(** C22, full statement. False: a request past the end of "a" panics in all three of them. *)
Theorem C22_range_requests_refuted :
  ∃ n, reachable n ∧ coerce_to_orig n (NRange 0 2) = Panic ∧ get_range n (NRange 0 2) = Panic
     ∧ get_original_range n (ORange 0 2) = Panic.
Proof.
  exists (from_string [97]). split; [|vm_compute; auto]. exists [97]. split; [by repeat constructor|]. apply rtc_refl.
Qed.
Print Assumptions C22_range_requests_refuted.

(** CoerceRangeToNormalized does not panic, but hands out out-of-range ranges. *)
Theorem C22_not_reported_refuted :
  ∃ n, reachable n ∧ coerce_to_norm n (NRange 0 2) = ((0, 2), true) ∧ coerce_to_norm n (ORange 7 7) = ((7, 7), true).
Proof.
  exists (from_string [97]). split; [|vm_compute; auto]. exists [97]. split; [by repeat constructor|]. apply rtc_refl.
Qed.
Print Assumptions C22_not_reported_refuted.

(** What holds, for every well-formed string and all integers: requests of the string's own kind panic
    exactly if out of range (or reversed); requests of the other kind never panic (original to
    normalized) or panic exactly if out of range (normalized to original), are refused if reversed, and
    if empty are taken to have the same numbers. *)
Theorem C22_get_range_partial :
  ∀ n s e, wf n →
  (if decide (0 <= s ∧ s <= e ∧ e <= zlen (ns_norm n))
   then ∃ x, get_range n (NRange s e) = Ret (Some x) ∧ text_at (ns_norm n) s e x
   else get_range n (NRange s e) = Panic)
  ∧ (s < e → get_range n (ORange s e) ≠ Panic)
  ∧ (e < s → get_range n (ORange s e) = Ret None)
  ∧ (s = e → get_range n (ORange s e) = get_range n (NRange s e)).
Proof.
  intros n s e Hwf. split; [|split; [|split]].
  - rewrite get_range_norm. destruct (decide _) as [H|H].
    + destruct (sub_total (ns_norm n) s e) as (x & Hx); [lia..|]. exists x. rewrite Hx. split; [done|]. by apply text_at_sub.
    + by rewrite sub_panic.
  - intros H. destruct (get_range_orig n s e Hwf H) as [->|(i & j & x & _ & _ & ->)]; done.
  - intros H. unfold get_range, coerce_to_norm, r_len. cbn [r_start r_end].
    replace (e - s =? 0) with false by lia. by replace (e <? s) with true by lia.
  - intros ->. unfold get_range, coerce_to_norm, r_len. cbn [r_start r_end]. by replace (e - e =? 0) with true by lia.
Qed.
Print Assumptions C22_get_range_partial.

Theorem C22_get_original_range_partial :
  ∀ n s e, wf n →
  (if decide (0 <= s ∧ s <= e ∧ e <= zlen (ns_orig n))
   then ∃ x, get_original_range n (ORange s e) = Ret (Some x) ∧ text_at (ns_orig n) s e x
   else get_original_range n (ORange s e) = Panic)
  ∧ (s < e → if decide (0 <= s ∧ e <= zlen (ns_norm n))
             then ∃ x lo hi, get_original_range n (NRange s e) = Ret (Some x) ∧ text_at (ns_orig n) lo hi x
                    ∧ coerce_to_orig n (NRange s e) = Ret ((lo, hi), true)
             else get_original_range n (NRange s e) = Panic)
  ∧ (e < s → get_original_range n (NRange s e) = Ret None)
  ∧ (s = e → get_original_range n (NRange s e) = get_original_range n (ORange s e)).
Proof.
  intros n s e Hwf. split; [|split; [|split]].
  - unfold get_original_range. cbn [coerce_to_orig mbind outcome_bind negb]. destruct (decide _) as [H|H].
    + destruct (sub_total (ns_orig n) s e) as (x & Hx); [lia..|]. exists x. rewrite Hx. split; [done|]. by apply text_at_sub.
    + by rewrite sub_panic.
  - intros H. assert (zlen (ns_al n) = zlen (ns_norm n)) as Hl.
    { destruct Hwf as (v & (_ & Hn & Ha) & _). rewrite Ha, Hn, zlen_spans. done. }
    destruct (decide _) as [Hin|Hout].
    + destruct (coerce_to_orig_bytes n s e) as (a & b & Ha & Hb & Hc); [lia..|]. unfold get_original_range. rewrite Hc.
      cbn [mbind outcome_bind negb]. destruct Hwf as (v & Hr & Hv & Hal). pose proof (spans_sorted_spans _ _ Hal) as Hso.
      destruct Hr as (_ & _ & Hal'). rewrite Hal' in Ha, Hb. pose proof (aligned_in _ _ _ Hal (idx_spans_in _ _ _ Ha)) as (Ha0 & Ha1%boundary_range & _).
      pose proof (aligned_in _ _ _ Hal (idx_spans_in _ _ _ Hb)) as (Hb0 & _ & Hb1%boundary_range).
      apply idx_lookup in Ha as [? Ha], Hb as [? Hb]. pose proof (sorted_mono _ _ _ _ _ Hso Ha Hb ltac:(lia)).
      destruct (sub_total (ns_orig n) a.1 b.2) as (x & Hx); [lia..|]. exists x, a.1, b.2. rewrite Hx. split; [done|].
      split; [by apply text_at_sub|done].
    + unfold get_original_range, coerce_to_orig, r_len. cbn [r_start r_end].
      replace (e - s =? 0) with false by lia. replace (e <? s) with false by lia.
      replace ((zlen (ns_norm n) =? 0) && (s =? 0) && (e =? 0)) with false by lia.
      rewrite sub_panic by lia. done.
  - intros H. unfold get_original_range, coerce_to_orig, r_len. cbn [r_start r_end].
    replace (e - s =? 0) with false by lia. by replace (e <? s) with true by lia.
  - intros ->. unfold get_original_range, coerce_to_orig, r_len. cbn [r_start r_end]. by replace (e - e =? 0) with true by lia.
Qed.
Print Assumptions C22_get_original_range_partial.

Example C22_example :
  let n := from_string (encode [97; 0xE9]) in
  map (get_range n) [NRange 1 3; NRange 2 1; ORange 0 99; ORange 3 1] = [Ret (Some [0xC3; 0xA9]); Panic; Ret (Some [97; 0xC3; 0xA9]); Ret None]
  ∧ map (get_original_range n) [NRange 1 3; NRange 2 1; NRange 0 4] = [Ret (Some [0xC3; 0xA9]); Ret None; Panic].
Proof. vm_compute. auto. Qed.

(** C27, for Split: the two results hold complementary segments. *)
Theorem C27_split_complement :
  ∀ n v (p : pattern) cs, wf_as n v → p (ns_norm n) = Ret (Ok cs) → boundary_cover (ns_norm n) cs →
  ∃ segs, concat segs.*1 = v ∧ cs = place 0 (texts_of segs)
    ∧ (∀ ps, split n p Removed = Ret (Ok ps) → Forall2 (piece_of n) (base.filter (λ s, s.2 = false) segs).*1 ps)
    ∧ (∀ ps, split n (invert p) Removed = Ret (Ok ps) → Forall2 (piece_of n) (base.filter (λ s, s.2 = true) segs).*1 ps).
Proof.
  intros n v p cs Hwf Hp Hcov. pose proof Hwf as (Hr & _).
  pose proof Hcov as (segs & Hv & Hcs)%(cover_segments n v cs Hr). exists segs. split; [done|]. split; [done|]. split; intros ps H.
  - by eapply split_removed_pieces.
  - rewrite <- flip_filter. eapply (split_removed_pieces n v (invert p)); [done| |by rewrite flip_fst| |exact H].
    + unfold invert. rewrite Hp. cbn [mbind outcome_bind]. done.
    + rewrite Hcs. apply flip_place.
Qed.
Print Assumptions C27_split_complement.

Example C27_split_example :
  let n := from_string [97; 45; 98; 45; 45] in
  let texts p := (r ← split n p Removed; match r with Ok ps => Ret (map ns_norm ps) | Err _ => Panic end) in
  texts (rune_pattern 45) = Ret [[97]; [98]] ∧ texts (invert (rune_pattern 45)) = Ret [[45]; [45]; [45]].
Proof. vm_compute. auto. Qed.
