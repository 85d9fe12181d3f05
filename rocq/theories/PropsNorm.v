(** Property theorems C03-C12 (NormalizedString: creation, edits, histories). *)
From Coq Require Import ZifyBool String.
From stdpp Require Import relations.
From Verif Require Import GoBase Utf8Facts Strutils SplitPattern NormString SpecText SpecNorm SpecHist SliceFacts
  StrutilsFacts PatternFacts NormFacts NormEdits NormInv NormReplace NormSlice HistFacts Lit.
Import NormString.

(** C03: the identity alignment. *)
Theorem C03_from_string :
  ∀ rs, scalars rs → let n := from_string (encode rs) in
  ns_norm n = encode rs ∧ ns_orig n = encode rs ∧ original_offsets n = Offsets 0 (zlen (encode rs))
  ∧ zlen (ns_al n) = zlen (encode rs)
  ∧ ∀ l r l' i, rs = l ++ r :: l' → 0 <= i < rune_len r →
      idx (ns_al n) (zlen (encode l) + i) = Ret (zlen (encode l), zlen (encode l) + rune_len r).
Proof.
  intros rs Hs n. pose proof (from_string_repr rs Hs) as (_ & _ & Hal). fold n in Hal.
  split; [done|]. split; [done|]. split; [done|].
  split; [rewrite Hal, zlen_spans; unfold alen; by rewrite fresh_chars|].
  intros l r l' i -> Hi. rewrite Hal, fresh_app. cbn [fresh].
  pose proof (idx_spans_middle (fresh 0 l) r (0 + zlen (encode l), 0 + zlen (encode l) + rune_len r)
    (fresh (0 + zlen (encode l) + rune_len r) l') i Hi) as H.
  unfold alen in H. rewrite fresh_chars in H. rewrite H. by rewrite !Z.add_0_l.
Qed.
Print Assumptions C03_from_string.

(** "aé!" *)
Example C03_example :
  from_string (encode [97; 0xE9; 33])
  = NS [97; 0xC3; 0xA9; 33] [97; 0xC3; 0xA9; 33] [(0, 1); (1, 3); (1, 3); (3, 4)] 0.
Proof. vm_compute. reflexivity. Qed.

(** C04, full statement: no side conditions in [edit]. False: Append takes a rune index for a byte
    index. Here Append("x") on "𝕠ab" leaves a text that is not UTF-8. *)
Theorem C04_append_refuted :
  ¬ (∀ rs p n', scalars rs → append (from_string (encode rs)) p = Ret n' → valid_utf8 (ns_norm n') = true).
Proof.
  intros H. specialize (H [0x1D560; 97; 98] [120]). destruct (append (from_string (encode [0x1D560; 97; 98])) [120]) as [n'|] eqn:E;
    [|vm_compute in E; discriminate].
  specialize (H n' ltac:(by repeat constructor) eq_refl). vm_compute in E. injection E as <-. vm_compute in H. done.
Qed.
Print Assumptions C04_append_refuted.

(** What holds: all histories of calls that return, under the side conditions listed with [edit]
    (on Append, Replace and TransformRange only). Missing: Append elsewhere (refuted above). *)
Theorem C04_history_partial : ∀ n, reachable n → invariants n.
Proof. intros n H. by apply wf_invariants, reachable_wf. Qed.
Print Assumptions C04_history_partial.

(** The invariants also hold in the form used by the other theorems. *)
Theorem C04_history_aligned_partial : ∀ n, reachable n → ∃ v, wf_as n v.
Proof. exact reachable_wf. Qed.
Print Assumptions C04_history_aligned_partial.

(** " Éa野": trim, map, replace "a" by "bc", slice. *)
Example C04_example :
  ∃ n, reachable n ∧ ns_norm n = encode [98; 99; 0x91CE] ∧ ns_shift n = 3
     ∧ ns_al n = [(0, 1); (0, 1); (1, 4); (1, 4); (1, 4)] ∧ ns_orig n = encode [97; 0x91CE].
Proof.
  eexists. split; [|split; [|split; [|split]]].
  - exists [32; 0xC9; 97; 0x91CE]. split; [by repeat constructor|].
    eapply rtc_l; [eapply (edit_trim _ true true); vm_compute; reflexivity|].
    eapply rtc_l; [eapply (edit_map _ (λ r, if r =? 0xC9 then 0xE9 else r)); vm_compute; reflexivity|].
    eapply rtc_l.
    { eapply (edit_replace _ (func_pattern (λ r, r =? 97)) _ [98; 99]);
        [vm_compute; reflexivity| |by repeat constructor|vm_compute; reflexivity].
      change [195; 169; 97; 233; 135; 142] with (encode [0xE9; 97; 0x91CE]).
      apply boundary_cover_place; [by repeat constructor|].
      exists [([0xE9], false); ([97], true); ([0x91CE], false)]. done. }
    eapply rtc_l; [eapply (edit_slice _ (NRange 2 7)); vm_compute; reflexivity|]. apply rtc_refl.
  - done.
  - done.
  - done.
  - done.
Qed.

(** C05: whatever the string and the arguments. *)
Theorem C05_original_untouched :
  ∀ n n', (∃ f, map_runes n f = Ret n') ∨ (∃ keep, filter_runes n keep = Ret n')
    ∨ (∃ l r, trim_left_right n l r = Ret n') ∨ (∃ p, prepend n p = Ret n') ∨ (∃ p, append n p = Ret n')
    ∨ (∃ p c, replace n p c = Ret (Ok n')) ∨ (∃ d o, transform n d o = Ret n')
    ∨ (∃ r d o, transform_range n r d o = Ret n') →
  ns_orig n' = ns_orig n ∧ original_offsets n' = original_offsets n.
Proof.
  intros n n' H. assert (Hso : same_origin n n').
  { destruct H as [(f & H)|[(f & H)|[(l & r & H)|[(p & H)|[(p & H)|[(p & c & H)|[(d & o & H)|(r & d & o & H)]]]]]]].
    - by eapply transform_range_origin.
    - by eapply transform_range_origin.
    - unfold trim_left_right in H. destruct (_ && _) in H; [by injection H as <-|]. by eapply transform_range_origin.
    - unfold prepend in H. destruct (_ =? _) in H; [by injection H as <-|].
      apply bind_Ret in H as (x & _ & H). by eapply transform_range_origin.
    - unfold append in H. destruct (_ =? _) in H; [by injection H as <-|].
      apply bind_Ret in H as (x & _ & H). by eapply transform_range_origin.
    - unfold replace in H. apply bind_Ret in H as ([cs|er] & _ & H); [|done].
      apply bind_Ret in H as (m & H & [= <-]). by eapply replace_loop_origin.
    - by eapply transform_range_origin.
    - by eapply transform_range_origin. }
  destruct Hso as [H1 H2]. split; [done|]. unfold original_offsets, ns_orig_len. by rewrite H1, H2.
Qed.
Print Assumptions C05_original_untouched.

Example C05_example :
  ∃ n n', n = NS (bytes_of " ab") (bytes_of "ab") [(1, 2); (2, 3)] 7 ∧ append n (bytes_of "xy") = Ret n'
    ∧ ns_norm n' = bytes_of "abxy" ∧ original_offsets n' = Offsets 7 10.
Proof. do 2 eexists. split; [done|]. split; [vm_compute; reflexivity|done]. Qed.

(** C06: the range holds [v0 ++ v2], of which [v0] is skipped by the initial offset. *)
Theorem C06_transform_range :
  ∀ n v1 v0 v2 v3 dest w,
  repr n (v1 ++ v0 ++ v2 ++ v3) →
  rewrite_chars (last_span (v1 ++ v0)) v2 dest = Some w →
  ∃ n', transform_range n (NRange (alen v1) (alen (v1 ++ v0 ++ v2))) dest (alen v0) = Ret n'
      ∧ repr n' (v1 ++ w ++ v3) ∧ same_origin n n' ∧ w.*1 = map sanitize dest.*1.
Proof.
  intros n v1 v0 v2 v3 dest w Hr Hw.
  destruct (transform_range_repr n v1 v0 v2 v3 dest w Hr Hw) as (n' & H1 & H2 & H3).
  exists n'. split; [done|]. split; [done|]. split; [done|].
  clear -Hw. revert Hw. generalize (last_span (v1 ++ v0)) as prev. intros prev. revert prev v2 w.
  induction dest as [|[r c] dest IH]; intros prev src w; cbn [rewrite_chars].
  { by intros [= <-]. }
  rewrite fmap_cons. cbn [map fst]. destruct (1 <=? c).
  - destruct (rewrite_chars prev src dest) as [w'|] eqn:E; [|done]. intros [= <-]. rewrite fmap_cons. cbn [fst].
    by rewrite (IH _ _ _ E).
  - destruct src as [|[x a] src]; [done|]. destruct (decide _); [|done].
    destruct (rewrite_chars _ _ dest) as [w'|] eqn:E; [|done]. intros [= <-]. rewrite fmap_cons. cbn [fst].
    by rewrite (IH _ _ _ E).
Qed.
Print Assumptions C06_transform_range.

(** If the changes consume more characters than the range holds, it panics. *)
Theorem C06_transform_overrun :
  ∀ n v1 v0 v2 v3 dest,
  repr n (v1 ++ v0 ++ v2 ++ v3) → rewrite_chars (last_span (v1 ++ v0)) v2 dest = None →
  transform_range n (NRange (alen v1) (alen (v1 ++ v0 ++ v2))) dest (alen v0) = Panic.
Proof. intros n v1 v0 v2 v3 dest Hr Hw. rewrite (transform_range_spec n v1 v0 v2 v3 dest Hr). by rewrite Hw. Qed.
Print Assumptions C06_transform_overrun.

(** "aéb野c": in "éb野" drop é, replace b by X and remove 野, then insert y. *)
Example C06_example :
  let n := from_string (encode [97; 0xE9; 98; 0x91CE; 99]) in
  repr n ([(97, (0, 1))] ++ [(0xE9, (1, 3))] ++ [(98, (3, 4)); (0x91CE, (4, 7))] ++ [(99, (7, 8))])
  ∧ rewrite_chars (1, 3) [(98, (3, 4)); (0x91CE, (4, 7))] [(88, -1); (121, 1)]
    = Some [(88, (3, 4)); (121, (4, 7))]
  ∧ transform_range n (NRange 1 7) [(88, -1); (121, 1)] 2
    = Ret (NS (encode [97; 0xE9; 98; 0x91CE; 99]) (encode [97; 88; 121; 99])
              [(0, 1); (3, 4); (4, 7); (7, 8)] 0)
  ∧ transform n [(88, -1); (89, -1); (90, 0)] 0
    = Ret (NS (encode [97; 0xE9; 98; 0x91CE; 99]) [88; 89; 90] [(0, 1); (3, 4); (7, 8)] 0).
Proof.
  split; [apply (from_string_repr [97; 0xE9; 98; 0x91CE; 99]); by repeat constructor|].
  vm_compute; auto.
Qed.

(** C07. ([sanitize] is what string(r) does to a rune that is no character: U+FFFD.) *)
Theorem C07_map :
  ∀ n v f, repr n v →
  ∃ n', map_runes n f = Ret n' ∧ repr n' (map (λ p, (sanitize (f p.1), p.2)) v) ∧ same_origin n n'.
Proof.
  intros n v f Hr. eexists. split; [by apply map_runes_spec|]. split; [|done].
  split; [apply map_chars_scalars|]. done.
Qed.
Print Assumptions C07_map.

(** K (Kelvin sign, 3 bytes) to k. *)
Example C07_example :
  map_runes (from_string (encode [0x212A; 98])) (λ r, if r =? 0x212A then 107 else r)
  = Ret (NS (encode [0x212A; 98]) [107; 98] [(0, 3); (3, 4)] 0).
Proof. vm_compute. reflexivity. Qed.

(** C08, full statement. False: Filter passes the number of runes removed at the front as a number of
    bytes. A combining acute removed from the front of "abc" panics. *)
Definition C08_statement : Prop :=
  ∀ n v keep, wf_as n v →
  ∃ n', filter_runes n keep = Ret n' ∧ repr n' (base.filter (λ p, keep p.1 = true) v) ∧ same_origin n n'.
Theorem C08_filter_refuted : ¬ C08_statement.
Proof.
  intros H. destruct (H (from_string (encode [0x301; 97; 98; 99])) (fresh 0 [0x301; 97; 98; 99]) (λ r, r <? 0x300))
    as (n' & H1 & _).
  - apply from_string_wf. by repeat constructor.
  - vm_compute in H1. discriminate.
Qed.
Print Assumptions C08_filter_refuted.

(** Where it does not panic the spans may be wrong: removing é from "éa" (bytes 0..2, 2..3) leaves an
    "a" that points to é. *)
Theorem C08_filter_wrong_span_refuted :
  ∃ n v keep n', wf_as n v ∧ filter_runes n keep = Ret n'
    ∧ base.filter (λ p, keep p.1 = true) v = [(97, (2, 3))] ∧ ns_norm n' = [97] ∧ ns_al n' = [(0, 2)].
Proof.
  exists (from_string (encode [0xE9; 97])), (fresh 0 [0xE9; 97]), (λ r, r <? 128). eexists.
  split; [apply from_string_wf; by repeat constructor|].
  split; [vm_compute; reflexivity|]. split; [vm_compute; reflexivity|done].
Qed.
Print Assumptions C08_filter_wrong_span_refuted.

(** What holds: the characters removed at the front are ASCII (none removed there is the common case,
    and nothing is required if no character is kept). Missing: other characters removed at the front. *)
Theorem C08_filter_partial :
  ∀ n v keep, repr n v →
  (∀ v0 p v2, v = v0 ++ p :: v2 → Forall (λ q, keep q.1 = false) v0 → keep p.1 = true →
     Forall (λ q, q.1 < 128) v0) →
  ∃ n', filter_runes n keep = Ret n' ∧ repr n' (base.filter (λ p, keep p.1 = true) v) ∧ same_origin n n'.
Proof.
  intros n v keep Hr Hlead. pose proof Hr as (Hs & _).
  assert (Hfin : filter_runes n keep
     = Ret (NS (ns_orig n) (encode (base.filter (λ p, keep p.1 = true) v).*1)
               (spans_of (base.filter (λ p, keep p.1 = true) v)) (ns_shift n))).
  { assert (Hcase : Forall (λ p, keep p.1 = false) v ∨
      ∃ v0 p v2, v = v0 ++ p :: v2 ∧ Forall (λ q, keep q.1 = false) v0 ∧ keep p.1 = true).
    { clear. induction v as [|p v IH]; [by left|]. destruct (keep p.1) eqn:E.
      - right. exists [], p, v. done.
      - destruct IH as [IH|(v0 & q & v2 & -> & H0 & Hq)]; [left; by constructor|right].
        exists (p :: v0), q, v2. split; [done|]. split; [by constructor|done]. }
    destruct Hcase as [Hall|(v0 & p & v2 & -> & H0 & Hp)].
    - apply (filter_runes_spec n v keep [] v Hr); [done|constructor|by right].
    - apply (filter_runes_spec n _ keep v0 (p :: v2) Hr); [done| |left; right; eauto].
      specialize (Hlead v0 p v2 eq_refl H0 Hp). rewrite Forall_forall in H0, Hlead |- *. auto. }
  eexists. split; [exact Hfin|]. split; [|done]. split; [by apply scalars_filter|]. done.
Qed.
Print Assumptions C08_filter_partial.

(** The text, at least, is right whenever Filter returns. *)
Theorem C08_filter_text_partial :
  ∀ n v keep n', repr n v → filter_runes n keep = Ret n' →
  ns_norm n' = encode (base.filter (λ p, keep p.1 = true) v).*1.
Proof.
  intros n v keep n' Hr H. apply filter_runes_text in H. rewrite H, (repr_runes _ _ Hr). f_equal.
  clear. induction v as [|p v IH]; [done|]. rewrite fmap_cons, !filter_cons. destruct (decide _); [|done].
  rewrite fmap_cons. by f_equal.
Qed.
Print Assumptions C08_filter_text_partial.

(** "-é-野-" without the dashes. *)
Example C08_example :
  filter_runes (from_string (encode [45; 0xE9; 45; 0x91CE; 45])) (λ r, negb (r =? 45))
  = Ret (NS (encode [45; 0xE9; 45; 0x91CE; 45]) (encode [0xE9; 0x91CE])
            [(1, 3); (1, 3); (4, 7); (4, 7); (4, 7)] 0).
Proof. vm_compute. reflexivity. Qed.

(** C09, full statement; false for the same reason as C08: an ideographic space (3 bytes) before
    "abcdefgh" makes Trim panic. *)
Definition C09_statement : Prop :=
  ∀ n left right lead mid trail, wf_as n (lead ++ mid ++ trail) → trimmed left right lead mid trail →
  ∃ n', trim_left_right n left right = Ret n' ∧ repr n' mid ∧ same_origin n n'.
Theorem C09_trim_refuted : ¬ C09_statement.
Proof.
  intros H. pose (rs := [0x3000; 97; 98; 99; 100; 101; 102; 103; 104]).
  destruct (H (from_string (encode rs)) true true [(0x3000, (0, 3))] (fresh 3 [97; 98; 99; 100; 101; 102; 103; 104]) [])
    as (n' & H1 & _).
  - apply (from_string_wf rs). by repeat constructor.
  - split; [by repeat constructor|]. split; [constructor|]. split.
    + intros p m [= <- <-]. done.
    + intros p m Hm. apply (f_equal last) in Hm. rewrite last_snoc in Hm. injection Hm as <-. done.
  - vm_compute in H1. discriminate.
Qed.
Print Assumptions C09_trim_refuted.

(** What holds: the leading white space is ASCII, or the text is all white space. Missing: other
    leading white space. (Every text is lead ++ mid ++ trail in exactly this way.) *)
Theorem C09_trim_partial :
  ∀ n left right lead mid trail,
  repr n (lead ++ mid ++ trail) → trimmed left right lead mid trail →
  Forall (λ p, p.1 < 128) lead ∨ mid = [] →
  ∃ n', trim_left_right n left right = Ret n' ∧ repr n' mid ∧ same_origin n n'.
Proof. exact trim_spec. Qed.
Print Assumptions C09_trim_partial.

Theorem C09_trim_text_partial :
  ∀ n left right lead mid trail n',
  repr n (lead ++ mid ++ trail) → trimmed left right lead mid trail →
  trim_left_right n left right = Ret n' → ns_norm n' = encode mid.*1.
Proof. exact trim_text. Qed.
Print Assumptions C09_trim_text_partial.

(** The decomposition exists for every text. *)
Theorem C09_trimmed_exists :
  ∀ left right (v : list (Z * (Z * Z))), ∃ lead mid trail, v = lead ++ mid ++ trail ∧ trimmed left right lead mid trail.
Proof.
  intros left right v.
  assert (Hlead : ∀ v : list (Z * (Z * Z)), ∃ l m, v = l ++ m ∧ Forall white l ∧ ∀ p w, m = p :: w → ¬ white p).
  { clear. induction v as [|p v (l & m & -> & H1 & H2)]; [by exists [], []|].
    destruct (decide (white_space p.1 = true)) as [Hw|Hw].
    - exists (p :: l), m. split; [done|]. split; [by constructor|done].
    - exists [], (p :: l ++ m). split; [done|]. split; [constructor|]. intros q w [= <- <-]. done. }
  assert (Htrail : ∀ v : list (Z * (Z * Z)), ∃ m t, v = m ++ t ∧ Forall white t ∧ ∀ p w, m = w ++ [p] → ¬ white p).
  { intros u. destruct (Hlead (rev u)) as (l & m & Heq & H1 & H2). exists (rev m), (rev l). split.
    - rewrite <- rev_app_distr, <- Heq. by rewrite rev_involutive.
    - split; [by apply Forall_rev|]. intros p w Hm. apply (H2 p (rev w)).
      rewrite <- (rev_involutive m), Hm, rev_app_distr. done. }
  destruct left, right.
  - destruct (Hlead v) as (l & m & -> & H1 & H2). destruct (Htrail m) as (m' & t & -> & H3 & H4).
    exists l, m', t. split; [done|]. split; [done|]. split; [done|]. split; [|done].
    intros p w Hm. apply (H2 p (w ++ t)). by rewrite Hm.
  - destruct (Hlead v) as (l & m & -> & H1 & H2). exists l, m, []. split; [by rewrite app_nil_r|].
    split; [done|]. split; [constructor|]. done.
  - destruct (Htrail v) as (m & t & -> & H1 & H2). exists [], m, t. split; [done|]. split; [constructor|]. done.
  - exists [], v, []. split; [by rewrite app_nil_r|]. split; [constructor|]. split; [constructor|]. done.
Qed.
Print Assumptions C09_trimmed_exists.

(** " \té U+3000" *)
Example C09_example :
  trim_left_right (from_string (encode [32; 9; 0xE9; 32; 0x3000])) true true
  = Ret (NS (encode [32; 9; 0xE9; 32; 0x3000]) (encode [0xE9]) [(2, 4); (2, 4)] 0)
  ∧ trim_left_right (from_string [32; 9]) true true = Ret (NS [32; 9] [] [] 0).
Proof. vm_compute. auto. Qed.

(** C10, full statement; false for the empty p: Prepend("") changes the span of the first character
    to (0, 0). *)
Definition C10_statement : Prop :=
  ∀ n x a v ps, wf_as n ((x, a) :: v) → scalars ps →
  ∃ n', prepend n (encode ps) = Ret n' ∧ repr n' (map (λ r, (r, a)) ps ++ (x, a) :: v) ∧ same_origin n n'.
Theorem C10_prepend_refuted : ¬ C10_statement.
Proof.
  intros H. destruct (H (from_string [97]) 97 (0, 1) [] []) as (n' & H1 & (_ & _ & H2) & _).
  - apply (from_string_wf [97]). by repeat constructor.
  - constructor.
  - vm_compute in H1. injection H1 as <-. vm_compute in H2. discriminate.
Qed.
Print Assumptions C10_prepend_refuted.

(** What holds: everything for non-empty p (any bytes: a bad byte counts as U+FFFD) and for empty
    strings. Missing: p = "". *)
Theorem C10_prepend_partial :
  ∀ n x a v p, repr n ((x, a) :: v) → p ≠ [] →
  ∃ n', prepend n p = Ret n' ∧ repr n' (map (λ r, (r, a)) (runes p) ++ (x, a) :: v) ∧ same_origin n n'.
Proof. exact prepend_spec. Qed.
Print Assumptions C10_prepend_partial.
Theorem C10_prepend_empty_string : ∀ n p, ns_norm n = [] → prepend n p = Ret n.
Proof. exact prepend_empty_text. Qed.
Print Assumptions C10_prepend_empty_string.

(** U+2581 before "éa". *)
Example C10_example :
  prepend (from_string (encode [0xE9; 97])) (encode [0x2581])
  = Ret (NS (encode [0xE9; 97]) (encode [0x2581; 0xE9; 97]) [(0, 2); (0, 2); (0, 2); (0, 2); (0, 2); (2, 3)] 0).
Proof. vm_compute. reflexivity. Qed.

(** C11, full statement; false: see C04. Appending "x" to "éa" panics, and on "éab" it writes
    "ébx". *)
Definition C11_statement : Prop :=
  ∀ n x a v ps, wf_as n (v ++ [(x, a)]) → scalars ps →
  ∃ n', append n (encode ps) = Ret n' ∧ repr n' (v ++ (x, a) :: map (λ r, (r, a)) ps) ∧ same_origin n n'.
Theorem C11_append_refuted : ¬ C11_statement.
Proof.
  intros H. destruct (H (from_string (encode [0xE9; 97])) 97 (2, 3) [(0xE9, (0, 2))] [120]) as (n' & H1 & (_ & H2 & _) & _).
  - apply (from_string_wf [0xE9; 97]). by repeat constructor.
  - by repeat constructor.
  - vm_compute in H1. discriminate.
Qed.
Print Assumptions C11_append_refuted.
Theorem C11_append_wrong_text_refuted :
  ∃ n', append (from_string (encode [0xE9; 97; 98])) [120] = Ret n' ∧ ns_norm n' = encode [0xE9; 98; 120].
Proof. eexists. split; [vm_compute; reflexivity|done]. Qed.
Print Assumptions C11_append_wrong_text_refuted.

(** What holds: all characters but the last are ASCII, or the string is empty. Missing: other texts. *)
Theorem C11_append_partial :
  ∀ n v x a p, repr n (v ++ [(x, a)]) → Forall (λ q, q.1 < 128) v →
  ∃ n', append n p = Ret n' ∧ repr n' (v ++ (x, a) :: map (λ r, (r, a)) (runes p)) ∧ same_origin n n'.
Proof. exact append_spec. Qed.
Print Assumptions C11_append_partial.
Theorem C11_append_empty_string : ∀ n p, ns_norm n = [] → append n p = Ret n.
Proof. exact append_empty_text. Qed.
Print Assumptions C11_append_empty_string.

(** "a野" followed by "é". *)
Example C11_example :
  append (from_string (encode [97; 0x91CE])) (encode [0xE9])
  = Ret (NS (encode [97; 0x91CE]) (encode [97; 0x91CE; 0xE9]) [(0, 1); (1, 4); (1, 4); (1, 4); (1, 4); (1, 4)] 0)
  (* nothing left to append to, nothing to begin with *)
  ∧ (n ← filter_runes (from_string [97]) (λ _, false); append n [98]) = Ret (NS [97] [] [] 0)
  ∧ append (from_string []) [98] = Ret (NS [] [] [] 0).
Proof. vm_compute. auto. Qed.

(** C12. *)
Theorem C12_replace :
  ∀ n v (p : pattern) cs content,
  repr n v → p (ns_norm n) = Ret (Ok cs) → boundary_cover (ns_norm n) cs → scalars content →
  ∃ n' segs res, replace n p (encode content) = Ret (Ok n')
    ∧ concat segs.*1 = v ∧ cs = place 0 (texts_of segs)
    ∧ replaced content [] segs res ∧ repr n' res ∧ same_origin n n'.
Proof. exact replace_spec. Qed.
Print Assumptions C12_replace.

(** The text alone: every match becomes the content, nothing else changes. *)
Theorem C12_replace_text :
  ∀ n v (p : pattern) cs content,
  repr n v → p (ns_norm n) = Ret (Ok cs) → boundary_cover (ns_norm n) cs → scalars content →
  ∃ n' segs, replace n p (encode content) = Ret (Ok n')
    ∧ concat segs.*1 = v ∧ cs = place 0 (texts_of segs)
    ∧ ns_norm n' = encode (concat (map (λ s, if s.2 : bool then content else s.1.*1) segs)).
Proof.
  intros n v p cs content Hr Hp Hc Hs.
  destruct (replace_spec n v p cs content Hr Hp Hc Hs) as (n' & segs & res & H1 & H2 & H3 & H4 & (_ & H5 & _) & _).
  exists n', segs. split; [done|]. split; [done|]. split; [done|]. rewrite H5. by rewrite (replaced_text _ _ _ _ H4).
Qed.
Print Assumptions C12_replace_text.

(** A failing pattern leaves nothing changed and its error is returned. *)
Theorem C12_replace_error :
  ∀ n (p : pattern) content er, p (ns_norm n) = Ret (Err er) → replace n p content = Ret (Err er).
Proof. intros n p content er H. unfold replace. by rewrite H. Qed.
Print Assumptions C12_replace_error.

(** "a é" with ' ' replaced by U+2581. *)
Example C12_example :
  replace (from_string (encode [97; 32; 0xE9])) (rune_pattern 32) (encode [0x2581])
  = Ret (Ok (NS (encode [97; 32; 0xE9]) (encode [97; 0x2581; 0xE9])
                [(0, 1); (1, 2); (1, 2); (1, 2); (2, 4); (2, 4)] 0)).
Proof. vm_compute. reflexivity. Qed.
