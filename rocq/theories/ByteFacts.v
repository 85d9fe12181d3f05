(** Facts about the metaspace and byte-level pre-tokenizers. *)
From Coq Require Import ZifyBool Sorted.
From stdpp Require Import relations list_numbers.
From Verif Require Import GoBase Utf8Facts Strutils SplitPattern NormString Bpe Encodings PreTokString Normalizers PreTokenizers SpecText SpecNorm SpecSplit SpecHist SpecPts SpecPretok
  SliceFacts StrutilsFacts PatternFacts NormFacts NormEdits NormInv NormReplace NormSlice NormSplit HistFacts SplitExact RangeFacts PtsFacts PretokFacts.
Import GoBase NormString SpecNorm.
#[local] Open Scope Z_scope.

(** ** The byte table *)
Lemma byte_to_rune_spec b : 0 <= b < 256 → byte_to_rune b = Ret (byte_char b).
Proof.
  intros H. unfold byte_to_rune. assert (E : byte_to_rune_table = map byte_char (seqZ 0 256)) by (vm_compute; reflexivity).
  rewrite E. apply idx_lookup. split; [lia|]. rewrite list_lookup_fmap, lookup_seqZ_lt by lia. cbn. do 2 f_equal. lia.
Qed.
Lemma byte_chars : NoDup (map byte_char (seqZ 0 256)).
Proof. apply (bool_decide_unpack _). vm_compute. exact I. Qed.
Lemma byte_char_range b : 0 <= b < 256 → shown (byte_char b) = true ∧ shown b = true ∨ 256 <= byte_char b < 324 ∧ shown b = false.
Proof.
  intros H. assert (Hall : Forall (λ b, shown (byte_char b) = true ∧ shown b = true ∨ (256 <= byte_char b ∧ byte_char b < 324) ∧ shown b = false) (seqZ 0 256)).
  { apply (bool_decide_unpack _). vm_compute. exact I. }
  rewrite Forall_forall in Hall. apply Hall. apply elem_of_seqZ. lia.
Qed.
Lemma byte_char_inj a b : 0 <= a < 256 → 0 <= b < 256 → byte_char a = byte_char b → a = b.
Proof.
  intros Ha Hb E. pose proof byte_chars as H.
  assert (La : map byte_char (seqZ 0 256) !! Z.to_nat a = Some (byte_char a)).
  { rewrite list_lookup_fmap, lookup_seqZ_lt by lia. cbn [fmap option_fmap option_map]. do 2 f_equal. lia. }
  assert (Lb : map byte_char (seqZ 0 256) !! Z.to_nat b = Some (byte_char b)).
  { rewrite list_lookup_fmap, lookup_seqZ_lt by lia. cbn [fmap option_fmap option_map]. do 2 f_equal. lia. }
  rewrite E in La. pose proof (NoDup_lookup _ _ _ _ H La Lb). lia.
Qed.
Lemma byte_char_scalar b : 0 <= b < 256 → scalar (byte_char b) = true.
Proof. intros H. destruct (byte_char_range b H) as [[H1 H2]|[H1 _]]; unfold scalar, shown in *; lia. Qed.

(** ** Bytes of a text *)
Lemma byte_changes_of_spec i bs : Forall (λ c, 0 <= c <= 255) bs → 0 <= i →
  byte_changes_of i bs = Ret (match bs with [] => [] | b :: bs' => (byte_char b, if 0 <? i then 1 else 0) :: map (λ b, (byte_char b, 1)) bs' end).
Proof.
  intros H. revert i. induction H as [|b bs Hb H IH]; intros i Hi; [done|]. cbn [byte_changes_of].
  rewrite byte_to_rune_spec by lia. cbn [mbind outcome_bind]. rewrite IH by lia. cbn [mbind outcome_bind]. do 2 f_equal.
  destruct bs; [done|]. cbn [map]. destruct (0 <? i + 1) eqn:E; [done|lia].
Qed.

Lemma encode_rune_bytes r : Forall (λ c, 0 <= c <= 255) (encode_rune r).
Proof. pose proof (encode_bytes [r]) as H. cbn [encode flat_map] in H. by rewrite app_nil_r in H. Qed.

Definition rune_changes (r : Z) : list (Z * Z) :=
  match encode_rune r with [] => [] | b :: bs => (byte_char b, 0) :: map (λ b, (byte_char b, 1)) bs end.

Lemma byte_changes_spec pre rs : byte_changes (encode (pre ++ rs)) rs (zlen (encode pre)) = Ret (flat_map rune_changes rs).
Proof.
  revert pre. induction rs as [|r rs IH]; intros pre; [done|]. cbn [byte_changes].
  assert (E : sub (encode (pre ++ r :: rs)) (zlen (encode pre)) (zlen (encode pre) + rune_len r) = Ret (encode_rune r)).
  { rewrite encode_app, encode_cons. by apply sub_app3. }
  rewrite E. cbn [mbind outcome_bind]. rewrite byte_changes_of_spec; [|apply encode_rune_bytes|lia]. cbn [mbind outcome_bind].
  specialize (IH (pre ++ [r])). rewrite <- app_assoc in IH. cbn [app] in IH.
  rewrite (encode_app pre [r]), zlen_app, zlen_encode_cons, zlen_encode_nil, Z.add_0_r in IH. rewrite IH. cbn [mbind outcome_bind flat_map]. done.
Qed.

Lemma rewrite_insert_app prev src ins dest :
  rewrite_chars prev src (map (λ b, (byte_char b, 1)) ins ++ dest)
  = (w ← rewrite_chars prev src dest; Some (map (λ b, (sanitize (byte_char b), prev)) ins ++ w)).
Proof.
  induction ins as [|b ins IH]; [cbn; by destruct (rewrite_chars prev src dest)|]. cbn [map app rewrite_chars].
  change (1 <=? 1) with true. cbv iota. rewrite IH. by destruct (rewrite_chars prev src dest).
Qed.

Lemma sanitize_byte b : 0 <= b <= 255 → sanitize (byte_char b) = byte_char b.
Proof. intros H. apply sanitize_id. apply byte_char_scalar. lia. Qed.

Lemma rewrite_bytes prev v : rewrite_chars prev v (flat_map rune_changes v.*1) = Some (byte_text v).
Proof.
  revert prev. induction v as [|[r a] v IH]; intros prev; [done|].
  cbn [fmap list_fmap flat_map fst byte_text]. unfold rune_changes at 1. cbn [fst snd]. pose proof (encode_rune_bytes r) as Hb.
  assert (Hne : encode_rune r ≠ []). { pose proof (rune_len_bounds r). unfold rune_len, zlen in *. destruct (encode_rune r); cbn in *; [lia|done]. }
  destruct (encode_rune r) as [|b bs] eqn:E; [done|]. apply Forall_cons in Hb as [Hb Hbs].
  cbn [app rewrite_chars map]. change (1 <=? 0) with false. cbv iota. rewrite decide_True by lia.
  change (Z.to_nat (- 0)) with 0%nat. rewrite drop_0, take_0, fmap_nil. cbn [last default].
  rewrite rewrite_insert_app, IH. cbn [mbind option_bind]. rewrite sanitize_byte by done. do 2 f_equal.
  unfold byte_text. f_equal. clear -Hbs. induction Hbs as [|x l Hx H IH]; [done|]. cbn [map]. rewrite sanitize_byte by done. by rewrite IH.
Qed.

Lemma byte_text_scalars v : scalars (byte_text v).*1.
Proof.
  eapply rewrite_chars_scalars. apply (rewrite_bytes (0, 0)).
Qed.

Lemma byte_level_normalize_spec n v : repr n v →
  byte_level_normalize n = Ret (NS (ns_orig n) (encode (byte_text v).*1) (spans_of (byte_text v)) (ns_shift n)).
Proof.
  intros Hr. unfold byte_level_normalize. rewrite (repr_runes _ _ Hr). pose proof Hr as (_ & Hn & _). rewrite Hn.
  pose proof (byte_changes_spec [] v.*1) as E. cbn [app] in E. change (zlen (encode [])) with 0 in E. rewrite E. cbn [mbind outcome_bind].
  pose proof (transform_spec n [] v (flat_map rune_changes v.*1) Hr) as T. rewrite alen_nil in T. rewrite T, rewrite_bytes. done.
Qed.

Lemma byte_text_shift d v : byte_text (shift_spans d v) = shift_spans d (byte_text v).
Proof.
  induction v as [|[r a] v IH]; [done|]. unfold byte_text, shift_spans in *. cbn [map flat_map fst snd]. rewrite map_app, IH. f_equal.
  rewrite map_map. done.
Qed.

Lemma byte_text_nil v : byte_text v = [] ↔ v = [].
Proof.
  split; [|by intros ->]. destruct v as [|[r a] v]; [done|]. unfold byte_text. cbn [flat_map fst snd]. intros [H _]%app_nil.
  pose proof (rune_len_bounds r). unfold rune_len, zlen in *. destruct (encode_rune r); cbn in *; [lia|done].
Qed.
Lemma byte_text_first v : first_start (byte_text v) = first_start v.
Proof.
  destruct v as [|[r a] v]; [done|]. unfold byte_text. cbn [flat_map fst snd].
  pose proof (rune_len_bounds r). unfold rune_len, zlen in *. destruct (encode_rune r); cbn in *; [lia|done].
Qed.
Lemma byte_text_app v w : byte_text (v ++ w) = byte_text v ++ byte_text w.
Proof. apply flat_map_app. Qed.
Lemma byte_text_last v : last_span (byte_text v) = last_span v.
Proof.
  destruct v as [|[r a] v _] using rev_ind; [done|]. rewrite byte_text_app. unfold byte_text at 2. cbn [flat_map fst snd].
  rewrite app_nil_r, last_span_snoc.
  pose proof (rune_len_bounds r) as Hb. unfold rune_len, zlen in *. destruct (encode_rune r) as [|b bs _] using rev_ind; cbn in *; [lia|].
  rewrite map_app. cbn [map]. rewrite app_assoc. apply last_span_snoc.
Qed.

(** A piece spelled in bytes. *)
Lemma byte_piece n v n' : piece_of n v n' → ∃ n'', byte_level_normalize n' = Ret n'' ∧ piece_of n (byte_text v) n''.
Proof.
  intros (H1 & H2 & H3). eexists. split; [by apply byte_level_normalize_spec|]. unfold piece_of.
  rewrite byte_text_first. unfold last_end. rewrite byte_text_last. split_and!.
  - rewrite byte_text_shift. split_and!; [|done|done]. rewrite <- byte_text_shift. apply byte_text_scalars.
  - intros Hn. cbn [ns_orig ns_shift]. apply H2. intros Hv. apply Hn. by apply byte_text_nil.
  - intros Hn. cbn. by apply H3, byte_text_nil.
Qed.

(** ** Normalizing strings without tokens *)
Lemma normalize_all f o l l' : Forall2 (λ n n', f n = Ret n') l l' →
  pts_normalize (λ (_ : unit) n, n' ← f n; Ret (tt, n', None)) tt (Pts o (splits_from_ns l)) = Ret (tt, Pts o (splits_from_ns l'), None).
Proof.
  intros H. unfold pts_normalize. cbn [p_splits p_original].
  assert (E : normalize_loop (λ (_ : unit) n, n' ← f n; Ret (tt, n', None)) tt (splits_from_ns l) = Ret (tt, splits_from_ns l', None)).
  { unfold splits_from_ns. induction H as [|n n' l l' Hf H IH]; [done|]. cbn [map normalize_loop sp_tokens sp_ns]. rewrite Hf. cbn [mbind outcome_bind].
    rewrite IH. done. }
  rewrite E. done.
Qed.

(** ** Splitting edited strings *)
Lemma split_isolated n v p segs :
  wf_as n v → p (ns_norm n) = Ret (Ok (place 0 (texts_of segs))) → concat segs.*1 = v →
  (∀ s1 m s2, segs = s1 ++ ([], m) :: s2 → alen (concat s1.*1) <= zlen (ns_orig n)) →
  ∃ ps, split n p Isolated = Ret (Ok ps) ∧ Forall2 (piece_of n) segs.*1 ps.
Proof.
  intros Hwf Hp Hc Hl.
  assert (Hcov : boundary_cover (ns_norm n) (place 0 (texts_of segs))).
  { apply (cover_segments _ v); [apply Hwf|]. by exists segs. }
  destruct (split_exact _ _ p Isolated _ Hwf Hp Hcov) as (segs' & gs & H1 & H2 & [H3 H4] & H5).
  apply segs_unique in H2; [|congruence]. subst segs'.
  destruct H5 as [[_ H5]|[_ (ps & H5 & H6)]].
  - exfalso. destruct H5 as (g1 & g & g2 & -> & _ & Hg & H5). rewrite concat_app in H3. cbn [concat] in H3.
    rewrite map_app in H4. cbn [grouping map] in H4. apply Forall_app in H4 as [_ H4]. apply Forall_cons in H4 as [H4 _].
    assert (∃ m, g = [([], m)]) as (m & ->).
    { destruct g as [|[t m] [|]]; cbn in H4; [naive_solver| |naive_solver]. unfold group_text in Hg. cbn in Hg. rewrite app_nil_r in Hg. subst t. by exists m. }
    specialize (Hl (concat g1) m (concat g2)). rewrite concat_group_text in H5. rewrite <- H3 in Hl. specialize (Hl eq_refl). lia.
  - exists ps. split; [done|]. pose proof (kept_isolated gs H4) as Hk. rewrite H3 in Hk. rewrite <- Hk.
    clear -H6. induction H6; constructor; done.
Qed.

Lemma non_empty_pieces n ts ps : Forall2 (piece_of n) ts ps →
  ∃ ps', non_empty (splits_from_ns ps) = splits_from_ns ps' ∧ Forall2 (piece_of n) (base.filter (λ t, t ≠ []) ts) ps'.
Proof.
  induction 1 as [|t p ts ps H1 H (ps' & E & IH)]; [exists []; split; [done|constructor]|]. unfold splits_from_ns in *. cbn [map]. rewrite non_empty_cons, filter_cons.
  cbn [sp_ns]. rewrite E. pose proof (piece_norm_nil _ _ _ H1) as Hn. destruct t as [|x t].
  - rewrite (decide_False (P := ns_norm p ≠ [])) by (intros D; by apply D, Hn). rewrite decide_False by (by intros []). by exists ps'.
  - rewrite (decide_True (P := ns_norm p ≠ [])) by (by intros ?%Hn). rewrite decide_True by done. exists (p :: ps'). split; [done|]. by constructor.
Qed.

Lemma piece_same_origin n n' v q : same_origin n n' → piece_of n' v q → piece_of n v q.
Proof. intros [H1 H2] (H3 & H4 & H5). rewrite H1, H2 in H4. done. Qed.

Lemma spans_inj (v w : atext) : v.*1 = w.*1 → spans_of v = spans_of w → v = w.
Proof.
  revert w. induction v as [|[r a] v IH]; intros [|[r' a'] w]; intros H1 H2; try done. rewrite !fmap_cons in H1. cbn [fst] in H1.
  injection H1 as <- H1. rewrite !spans_of_cons in H2. apply app_inj_1 in H2 as [H2 H3]; [|by rewrite !repeat_length].
  rewrite (IH w H1 H3). do 2 f_equal. pose proof (rune_len_bounds r). unfold rune_len, zlen in *.
  destruct (length (encode_rune r)); [lia|]. by injection H2.
Qed.
Lemma repr_unique n v w : repr n v → repr n w → v = w.
Proof.
  intros (H1 & H2 & H3) (H4 & H5 & H6). apply spans_inj; [|congruence]. apply encode_inj_scalars; congruence.
Qed.
Lemma wf_repr n v : wf n → repr n v → wf_as n v.
Proof. intros (w & Hw) Hv. destruct Hw as (H1 & H2). rewrite (repr_unique _ _ _ Hv H1) in *. by split. Qed.

(** ** The prefix *)
Lemma starts_with_char x rs c : scalar x = true → scalar c = true → starts_with (encode (x :: rs)) (encode_rune c) = (x =? c).
Proof.
  intros Hx Hc. unfold starts_with. destruct (Z.eqb_spec x c) as [->|Hne].
  - apply bool_decide_eq_true. by rewrite encode_cons, take_app.
  - apply bool_decide_eq_false. intros E. apply Hne. rewrite <- (take_drop (length (encode_rune c)) (encode (x :: rs))) in E at 1.
    assert (E' : encode (x :: rs) = encode_rune c ++ drop (length (encode_rune c)) (encode (x :: rs))).
    { rewrite <- (take_drop (length (encode_rune c)) (encode (x :: rs))) at 1. f_equal. rewrite take_drop in E. done. }
    rewrite encode_cons in E' at 1. apply (f_equal decode) in E'. rewrite !decode_encode_rune in E'.
    injection E' as E' _ _. by rewrite !sanitize_id in E'.
Qed.

Lemma prefix_step n v (skip : Z → bool) c b starts :
  wf_as n v → scalar c = true → (∀ x a w, v = (x, a) :: w → starts (ns_norm n) = skip x) →
  ∃ n1, (if b && negb (starts (ns_norm n)) then prepend n (encode_rune c) else Ret n) = Ret n1
    ∧ wf_as n1 (if b : bool then prefixed skip c v else v) ∧ same_origin n n1.
Proof.
  intros Hwf Hc Hs. destruct b; cbn [andb]; [|by exists n]. destruct v as [|[x a] v].
  - cbn [prefixed]. pose proof Hwf as ((_ & Hn & _) & _). rewrite prepend_empty_text by done. exists n. by destruct (negb _).
  - rewrite (Hs x a v eq_refl). cbn [prefixed]. destruct (skip x); cbn [negb]; [by exists n|].
    pose proof Hwf as (Hr & _). destruct (prepend_spec n x a v (encode_rune c) Hr) as (n1 & H1 & H2 & H3).
    { pose proof (rune_len_bounds c). unfold rune_len, zlen in *. destruct (encode_rune c); cbn in *; [lia|done]. }
    exists n1. split; [done|]. split; [|done]. assert (E : runes (encode_rune c) = [c]).
    { pose proof (runes_encode_scalars [c]) as R. cbn [encode flat_map] in R. rewrite app_nil_r in R. apply R. by constructor. }
    rewrite E in H2. cbn [map app] in H2. apply wf_repr; [|done]. by apply (prepend_wf n (encode_rune c)); [exists ((x, a) :: v)|].
Qed.

(** ** Replacing the spaces *)
Lemma place_inj i s s' : concat s.*1 = concat s'.*1 → place i s = place i s' → s = s'.
Proof.
  revert i s'. induction s as [|[t m] s IH]; intros i [|[t' m'] s'] Hc H; try done. cbn [place] in H.
  cbn [fmap list_fmap concat fst] in Hc. injection H as Hl -> H. apply prefix_by_length in Hc as [-> Hc]; [|lia]. f_equal. by eapply IH.
Qed.

Lemma replaced_spaces c out segs res : rune_segmented (λ x, x =? 32) (texts_of segs) → replaced [c] out segs res →
  res = out ++ spaces_to c (concat segs.*1).
Proof.
  revert out. induction segs as [|[t [|]] segs IH]; intros out Hseg H; cbn [replaced texts_of map rune_segmented] in *.
  - subst. cbn. by rewrite app_nil_r.
  - destruct Hseg as [(r & Ht & Hr) Hseg]. destruct t as [|[r' a'] [|]]; [done| |done]. cbn in Ht. injection Ht as ->.
    destruct H as (a & _ & Ha & H). apply IH in H; [|done]. rewrite Ha in H.
    + rewrite last_span_snoc in H. rewrite H, <- app_assoc. f_equal. cbn [fmap list_fmap concat fst app]. unfold spaces_to. cbn [map fst snd].
      rewrite Hr. done.
    + constructor; [cbn; lia|constructor].
  - destruct Hseg as [(Hn & Hf & _) Hseg]. apply IH in H; [|done]. rewrite H, <- app_assoc. f_equal.
    cbn [fmap list_fmap concat fst]. unfold spaces_to. rewrite map_app. f_equal. cbn [fst] in Hf. rewrite Forall_fmap in Hf. clear -Hf.
    induction Hf as [|[x a] t Hx H IH]; [done|]. cbn in *. rewrite Hx. f_equal. done.
Qed.

Lemma replace_spaces n v c : wf_as n v → scalar c = true →
  ∃ n', replace n (rune_pattern 32) (encode_rune c) = Ret (Ok n') ∧ wf_as n' (spaces_to c v) ∧ same_origin n n'.
Proof.
  intros Hwf Hc. pose proof Hwf as (Hr & _). pose proof Hr as (Hs & Hn & _).
  destruct (func_pattern_spec (λ x, x =? 32) v.*1 Hs) as (ss & H1 & H2 & H3).
  assert (Hcov : boundary_cover (ns_norm n) (place 0 ss)).
  { destruct (texts_of_inv v ss H2) as (asegs & Ha & Ht). apply (cover_segments n v); [done|]. exists asegs. by rewrite Ht. }
  assert (Hp : rune_pattern 32 (ns_norm n) = Ret (Ok (place 0 ss))) by (by rewrite Hn).
  assert (Hsc : scalars [c]) by (by constructor).
  assert (E : encode [c] = encode_rune c) by (cbn; by rewrite app_nil_r).
  destruct (replace_spec n v (rune_pattern 32) _ [c] Hr Hp Hcov Hsc) as (n' & segs & res & H4 & H5 & H6 & H7 & H8 & H9).
  rewrite E in H4. exists n'. split; [done|]. split; [|done].
  assert (ss = texts_of segs) as ->. { eapply place_inj; [|exact H6]. rewrite texts_of_concat, H5. done. }
  destruct (decide (v.*1 = [])) as [->%fmap_nil_inv|Hv].
  - destruct segs as [|[t m] [|]]; try done. injection H3 as Ht ->. apply fmap_nil_inv in Ht as ->. cbn in H7. subst res.
    apply wf_repr; [|done]. rewrite <- E in H4. by apply (replace_wf n (rune_pattern 32) _ [c] _ (ex_intro _ _ Hwf) Hp Hcov Hsc H4).
  - apply replaced_spaces in H7; [|done]. cbn [app] in H7. rewrite H5 in H7. subst res.
    apply wf_repr; [|done]. rewrite <- E in H4. by apply (replace_wf n (rune_pattern 32) _ [c] _ (ex_intro _ _ Hwf) Hp Hcov Hsc H4).
Qed.

(** ** Cutting before a character *)
Lemma kept_groups_all b gs : b ≠ Removed → kept_groups b gs = gs.
Proof.
  intros Hb. unfold kept_groups. induction gs as [|g gs IH]; [done|]. rewrite filter_cons, decide_True by (by destruct b). by rewrite IH.
Qed.

(** Groups of MergedWithNext over a segmentation by single characters. *)
Lemma merged_with_next_groups c segs gs :
  rune_segmented (λ x, x =? c) (texts_of segs) → grouped MergedWithNext segs gs → cut_before c (map (λ g, (group_text g).*1) gs).
Proof.
  intros Hseg [<- Hg]. cbn [grouping] in Hg. destruct Hg as [Hg Ha].
  assert (Hshape : ∀ g gs, rune_segmented (λ x, x =? c) (texts_of (concat (g :: gs))) → (g.*2 = [true] ∨ g.*2 = [false] ∨ g.*2 = [true; false]) →
    (∃ x r, (group_text g).*1 = x :: r ∧ c ∉ r) ∧ (head g.*2 = Some true → head (group_text g).*1 = Some c)).
  { clear. intros g gs Hseg Hg. cbn [concat] in Hseg. unfold texts_of in Hseg. rewrite map_app in Hseg.
    apply rune_segmented_app in Hseg as [Hseg _].
    assert (Hrun : ∀ t : atext, Forall (λ r, (r =? c) = false) t.*1 → c ∉ t.*1).
    { intros t Ht Hin. rewrite Forall_forall in Ht. apply Ht in Hin. lia. }
    destruct Hg as [Hg|[Hg|Hg]].
    - destruct g as [|[t m] [|]]; try done. injection Hg as ->. cbn in Hseg. destruct Hseg as [(r & Ht & Hr) _].
      unfold group_text. cbn. rewrite app_nil_r, Ht. assert (r = c) as -> by lia. split; [|done]. exists c, []. split; [done|]. by intros ?%elem_of_nil.
    - destruct g as [|[t m] [|]]; try done. injection Hg as ->. cbn in Hseg. destruct Hseg as [(Hn & Hf & _) _].
      unfold group_text. cbn. rewrite app_nil_r. split; [|done]. apply Hrun in Hf. destruct t.*1 as [|x r]; [done|]. exists x, r. split; [done|].
      intros Hin. apply Hf. by apply elem_of_list_further.
    - destruct g as [|[t m] [|[t' m'] [|]]]; try done. injection Hg as -> ->. cbn in Hseg. destruct Hseg as [(r & Ht & Hr) [(Hn & Hf & _) _]].
      unfold group_text. cbn. rewrite app_nil_r, fmap_app, Ht. assert (r = c) as -> by lia. split; [|done]. exists c, t'.*1. split; [done|]. by apply Hrun. }
  split.
  - rewrite Forall_map in Hg. clear Ha. induction Hg as [|g gs Hg1 Hg IH]; constructor.
    + by apply (Hshape g gs).
    + apply IH. cbn [concat] in Hseg. unfold texts_of in *. rewrite map_app in Hseg. by apply rune_segmented_app in Hseg as (_ & ? & _).
  - destruct gs as [|g gs]; [constructor|]. cbn [map tail]. apply Forall_map, Forall_forall. intros g' Hin. cbn.
    apply elem_of_list_split in Hin as (gs1 & gs2 & ->).
    assert (∃ h hs, g :: gs1 = hs ++ [h]) as (h & hs & Eh).
    { destruct (exists_last (l := g :: gs1)) as (hs & h & E); [done|]. eauto. }
    assert (El : g :: gs1 ++ g' :: gs2 = hs ++ h :: g' :: gs2). { change (g :: gs1 ++ g' :: gs2) with ((g :: gs1) ++ g' :: gs2). by rewrite Eh, <- app_assoc. }
    rewrite El in *. clear El Eh. rewrite map_app in Hg, Ha. cbn [map] in Hg, Ha.
    apply Forall_app in Hg as [_ Hg]. apply Forall_cons in Hg as [Hh Hg]. apply Forall_cons in Hg as [Hg _].
    rewrite concat_app in Hseg. unfold texts_of in Hseg. rewrite map_app in Hseg. apply rune_segmented_app in Hseg as (_ & Hseg & _).
    cbn [concat] in Hseg. pose proof Hseg as Hseg0. rewrite map_app in Hseg. apply rune_segmented_app in Hseg as (_ & Hseg & Hadj).
    apply (Hshape g' gs2); [done|done|].
    destruct (head g'.*2) as [[|]|] eqn:Eg; [done| |by destruct Hg as [Hg|[Hg|Hg]]; rewrite Hg in Eg].
    exfalso. destruct (last h.*2) as [[|]|] eqn:Eh.
    + apply (Ha (length hs) h.*2 g'.*2); [| |done].
      * rewrite lookup_app_r by (by rewrite map_length). rewrite map_length, Nat.sub_diag. done.
      * rewrite lookup_app_r by (rewrite map_length; lia). rewrite map_length. replace (S (length hs) - length hs)%nat with 1%nat by lia. done.
    + apply Hadj.
      * destruct h as [|[t m] h _] using rev_ind; [done|]. rewrite fmap_app in Eh; change ([(t, m)].*2) with [m] in Eh; rewrite last_snoc in Eh. injection Eh as ->. exists t.*1. rewrite map_app. apply last_snoc.
      * destruct g' as [|[t m] g']; [done|]. injection Eg as ->. by exists t.*1.
    + by destruct Hh as [Hh|[Hh|Hh]]; rewrite Hh in Eh.
Qed.

Lemma split_before n v c : wf_as n v → v ≠ [] →
  ∃ ts ps, split n (rune_pattern c) MergedWithNext = Ret (Ok ps) ∧ concat ts = v ∧ cut_before c (map (λ t : atext, t.*1) ts) ∧ Forall2 (piece_of n) ts ps.
Proof.
  intros Hwf Hv. pose proof Hwf as ((Hs & Hn & _) & _).
  destruct (func_pattern_spec (λ x, x =? c) v.*1 Hs) as (ss & H1 & H2 & H3). rewrite decide_False in H3 by (by intros E%fmap_nil_inv).
  destruct (texts_of_inv v ss H2) as (segs & Hc & <-).
  assert (Hp : rune_pattern c (ns_norm n) = Ret (Ok (place 0 (texts_of segs)))) by (by rewrite Hn).
  assert (Hcov : boundary_cover (ns_norm n) (place 0 (texts_of segs))) by (apply (cover_segments n v); [apply Hwf|by exists segs]).
  destruct (split_exact _ _ _ MergedWithNext _ Hwf Hp Hcov) as (segs' & gs & H4 & H5 & H6 & H7).
  apply segs_unique in H5; [|congruence]. subst segs'. pose proof (merged_with_next_groups c segs gs H3 H6) as Hcut.
  assert (Hmap : map (λ g : asegments, (group_text g).*1) gs = map (λ t : atext, t.*1) (map group_text gs)) by (by rewrite map_map).
  destruct H7 as [[_ H7]|[_ (ps & H7 & H8)]].
  - exfalso. destruct H7 as (g1 & g & g2 & -> & _ & Hg & _). destruct Hcut as [Hcut _]. rewrite map_app in Hcut. apply Forall_app in Hcut as [_ Hcut].
    cbn [map] in Hcut. apply Forall_cons in Hcut as [(x & r & E & _) _]. by rewrite Hg in E.
  - exists (map group_text gs), ps. split; [done|]. split; [rewrite concat_group_text; destruct H6 as [-> _]; done|]. split; [by rewrite <- Hmap|].
    rewrite kept_groups_all in H8 by done. clear -H8. induction H8; constructor; done.
Qed.

Lemma split_nothing n (p : pattern) cs b : wf_as n [] → p (ns_norm n) = Ret (Ok cs) → boundary_cover (ns_norm n) cs →
  ∃ ps, split n p b = Ret (Ok ps) ∧ non_empty (splits_from_ns ps) = [].
Proof.
  intros Hwf Hp Hcov. destruct (split_exact _ _ p b _ Hwf Hp Hcov) as (segs & gs & H1 & H2 & [H3 H4] & H5).
  assert (Hnil : Forall (λ g, group_text g = []) gs).
  { rewrite <- H3, <- concat_group_text in H1. clear -H1. induction gs as [|g gs IH]; [done|]. cbn in H1. apply app_nil in H1 as [H1 H2]. constructor; auto. }
  destruct H5 as [[_ H5]|[_ (ps & H5 & H6)]].
  - exfalso. destruct H5 as (g1 & g & g2 & -> & _ & _ & H5). apply Forall_app in Hnil as [Hnil _].
    assert (E : concat (map group_text g1) = []). { clear -Hnil. induction Hnil as [|g gs Hg H IH]; [done|]. cbn. by rewrite Hg, IH. }
    rewrite E, alen_nil in H5. pose proof (zlen_nonneg (ns_orig n)). lia.
  - exists ps. split; [done|]. unfold kept_groups in H6. clear -Hnil H6.
    assert (Hk : Forall (λ g, group_text g = []) (base.filter (λ g : asegments, kept b g.*2) gs)).
    { apply Forall_forall. intros g [_ Hg]%elem_of_list_filter. rewrite Forall_forall in Hnil. auto. }
    induction H6 as [|g p gs' ps Hp H IH]; [done|]. apply Forall_cons in Hk as [Hg Hk]. unfold splits_from_ns. cbn [map]. rewrite non_empty_cons.
    rewrite decide_False; [by apply IH|]. intros D. apply D. cbn [sp_ns]. apply (piece_norm_nil _ _ _ Hp). done.
Qed.

Lemma filter_all {A} (P : A → Prop) `{∀ x, Decision (P x)} (l : list A) : Forall P l → base.filter P l = l.
Proof. induction 1 as [|x l Hx H' IH]; [done|]. by rewrite filter_cons, decide_True, IH. Qed.

Lemma metaspace_at n v c b : wf_as n v → let c' := sanitize c in
  ∃ ts l, metaspace c b (pts_from_ns n) = Ret (Pts (ns_orig n) (splits_from_ns l), None)
    ∧ concat ts = spaces_to c' (if b : bool then prefixed (λ x, x =? c') c' v else v)
    ∧ cut_before c (map (λ t : atext, t.*1) ts) ∧ Forall2 (piece_of n) ts l.
Proof.
  intros Hwf c'. assert (Hc : scalar c' = true) by apply sanitize_scalar. assert (Ec : encode_rune c = encode_rune c') by (symmetry; apply encode_rune_sanitize).
  destruct (prefix_step _ _ (λ x, x =? c') c' b (λ s, starts_with s (encode_rune c')) Hwf Hc) as (n1 & H1 & Hwf1 & Ho1).
  { intros x a w E. pose proof Hwf as ((Hsc & Hn & _) & _). rewrite Hn, E. rewrite E in Hsc. apply starts_with_char; [|done]. by apply Forall_cons in Hsc as [? _]. }
  destruct (replace_spaces n1 _ c' Hwf1 Hc) as (n2 & H2 & Hwf2 & Ho2). unfold metaspace.
  assert (Ho : same_origin n n2) by (destruct Ho1, Ho2; split; congruence).
  set (v2 := spaces_to c' _) in *. destruct (decide (v2 = [])) as [Hv|Hv].
  - rewrite Hv in Hwf2. pose proof Hwf2 as ((Hsc & Hn & _) & _).
    destruct (func_pattern_cover (λ x, x =? c) [] Hsc) as (cs & Hcs & Hcov).
    destruct (split_nothing n2 (rune_pattern c) cs MergedWithNext Hwf2) as (ps & E & Ee); [by rewrite Hn|by rewrite Hn|].
    change (pts_from_ns n) with (Pts (ns_orig n) (splits_from_ns [n])). erewrite (run_split_all _ _ _ [[]]).
    2: { cbn [map]. constructor; [|constructor]. exists n2, (splits_from_ns ps). split; [|done]. unfold metaspace_split. cbn [fst snd]. rewrite Ec, H1. cbn [mbind outcome_bind].
      rewrite H2. cbn [mbind outcome_bind]. unfold split_by. rewrite E. done. }
    exists [], []. split_and!; [done|done|by repeat constructor|constructor].
  - destruct (split_before n2 v2 c Hwf2 Hv) as (ts & ps & E & Hts & Hcut & Hps).
    destruct (non_empty_pieces _ _ _ Hps) as (ps' & Ee & Hps').
    rewrite filter_all in Hps'.
    2: { destruct Hcut as [Hcut _]. rewrite Forall_map in Hcut. eapply Forall_impl; [exact Hcut|]. cbn. intros t (x & r & Ht & _) ->. done. }
    change (pts_from_ns n) with (Pts (ns_orig n) (splits_from_ns [n])). erewrite (run_split_all _ _ _ [splits_from_ns ps']).
    2: { cbn [map]. constructor; [|constructor]. exists n2, (splits_from_ns ps). split; [|done]. unfold metaspace_split. cbn [fst snd]. rewrite Ec, H1. cbn [mbind outcome_bind].
      rewrite H2. cbn [mbind outcome_bind]. unfold split_by. rewrite E. done. }
    cbn [concat]. rewrite app_nil_r. exists ts, ps'. split_and!; [done|done|done|].
    eapply Forall2_impl; [exact Hps'|]. intros t q. by apply piece_same_origin.
Qed.

Lemma metaspace_spec rs c b : scalars rs → let c' := sanitize c in
  ∃ ts l, metaspace c b (pts_from_string (encode rs)) = Ret (Pts (encode rs) (splits_from_ns l), None)
    ∧ concat ts = spaces_to c' (if b : bool then prefixed (λ x, x =? c') c' (fresh 0 rs) else fresh 0 rs)
    ∧ cut_before c (map (λ t : atext, t.*1) ts) ∧ Forall2 (piece_of (from_string (encode rs))) ts l.
Proof. intros Hs c'. exact (metaspace_at _ _ c b (from_string_wf rs Hs)). Qed.

(** ** Byte level *)
Lemma starts_with_whitespace_char x rs : scalar x = true → starts_with_whitespace (encode (x :: rs)) = white_space x.
Proof. intros H. unfold starts_with_whitespace. rewrite encode_cons. unfold runes. rewrite decode_encode_rune. cbn. by rewrite sanitize_id. Qed.

Lemma ranges_place i segs kind : ranges_of kind (place i segs) = map (λ x, (x.1.1, x.1.1 + zlen (encode x.1.2))) (base.filter (λ x, x.2 = kind) (spots i segs)).
Proof.
  unfold ranges_of. revert i. induction segs as [|[t m] segs IH]; intros i; [done|]. cbn [place spots]. rewrite !filter_cons. cbn [c_match snd].
  destruct (decide (m = kind)); cbn [map]; by rewrite IH.
Qed.

Lemma byte_level_at engine n v0 b ms : wf_as n v0 →
  let v := if b : bool then prefixed white_space 32 v0 else v0 in
  v ≠ [] → engine (encode v.*1) = (ms, None) → matches2_ok v.*1 0 ms →
  (Forall (λ m, m.2 = [] → (match2_range v.*1 m).1 <= zlen (ns_orig n)) ms) →
  ∃ segs l, byte_level engine b (pts_from_ns n) = Ret (Pts (ns_orig n) (splits_from_ns l), None)
    ∧ concat segs.*1 = v ∧ ranges_of true (place 0 (texts_of segs)) = map (match2_range v.*1) ms ∧ Forall (λ s, s.2 = false → s.1 ≠ []) segs
    ∧ Forall2 (λ t, piece_of n (byte_text t)) (base.filter (λ t, t ≠ []) segs.*1) l.
Proof.
  intros Hwf v Hv He Hm Hlost.
  destruct (prefix_step _ _ white_space 32 b starts_with_whitespace Hwf eq_refl) as (n1 & H1 & Hwf1 & Ho1).
  { intros x a w E. pose proof Hwf as ((Hsc & Hn & _) & _). rewrite Hn, E. rewrite E in Hsc. apply starts_with_whitespace_char. by apply Forall_cons in Hsc as [? _]. }
  change (encode_rune 32) with [32] in H1. fold v in Hwf1. pose proof Hwf1 as (Hr1 & _). pose proof Hr1 as (Hsc1 & Hn1 & _).
  destruct (regexp2_pattern_spec engine v.*1 ms Hsc1 ltac:(by intros E%fmap_nil_inv) He Hm) as (cs & Hcs & Hcov & Hrg & Hng).
  rewrite <- Hn1 in Hcov. pose proof (proj1 (cover_segments n1 v cs Hr1) Hcov) as (segs & Hsegs & ->).
  assert (Hnon : Forall (λ s : _ * bool, s.2 = false → s.1 ≠ []) segs).
  { clear -Hng. revert Hng. generalize 0. induction segs as [|[t m] segs IH]; intros i Hng; [done|]. cbn [texts_of map place] in Hng.
    apply Forall_cons in Hng as [Ht Hng]. constructor; [|by eapply IH]. cbn in *. intros -> ->. cbn in Ht. specialize (Ht eq_refl). unfold zlen in Ht; cbn in Ht; lia. }
  destruct (split_isolated n1 v (regexp2_pattern engine) segs Hwf1) as (ps & E & Hps); [by rewrite Hn1|done| |].
  { intros s1 m s2 ->. destruct Ho1 as [-> _]. destruct m.
    - assert (Hin : (alen (concat s1.*1), alen (concat s1.*1)) ∈ map (match2_range v.*1) ms).
      { rewrite <- Hrg, ranges_place. apply elem_of_list_fmap. exists (alen (concat s1.*1), [], true). cbn [fst snd]. rewrite zlen_encode_nil, Z.add_0_r.
        split; [done|]. apply elem_of_list_filter. split; [done|]. unfold texts_of. rewrite map_app. cbn [map fst snd].
        pose proof (spots_occur_inv [] (texts_of s1) [] true (texts_of s2)) as Hsp. cbn [app] in Hsp. rewrite texts_of_concat in Hsp. exact Hsp. }
      apply elem_of_list_fmap in Hin as (m & Em & Hin). rewrite Forall_forall in Hlost. specialize (Hlost m Hin).
      unfold match2_range in Em, Hlost. injection Em as E1 E2. cbn [fst] in Hlost. rewrite <- E1 in *. apply Hlost. destruct m.2; [done|]. unfold zlen in E2; cbn in E2; lia.
    - apply Forall_app in Hnon as [_ Hnon]. apply Forall_cons in Hnon as [Hnon _]. by destruct (Hnon eq_refl). }
  destruct (non_empty_pieces _ _ _ Hps) as (ps' & Ee & Hps').
  assert (∃ l, Forall2 (λ n n', byte_level_normalize n = Ret n') ps' l
      ∧ Forall2 (λ t, piece_of n (byte_text t)) (base.filter (λ t, t ≠ []) segs.*1) l) as (l & Hl1 & Hl2).
  { clear -Hps' Ho1. induction Hps' as [|t q ts qs Hq H (l & IH1 & IH2)]; [exists []; split; constructor|].
    apply (piece_same_origin _ _ _ _ Ho1) in Hq. destruct (byte_piece _ _ _ Hq) as (q' & Hq' & Hp). exists (q' :: l). split; by constructor. }
  exists segs, l. unfold byte_level. change (pts_from_ns n) with (Pts (ns_orig n) (splits_from_ns [n])). erewrite (run_split_all _ _ _ [splits_from_ns ps']).
  2: { cbn [map]. constructor; [|constructor]. exists n1, (splits_from_ns ps). split; [|done]. unfold byte_level_split. cbn [fst snd]. rewrite H1. cbn [mbind outcome_bind].
    unfold split_by. rewrite E. done. }
  cbn [mbind outcome_bind concat]. rewrite app_nil_r. rewrite (normalize_all _ _ _ _ Hl1). cbn [mbind outcome_bind]. done.
Qed.
Lemma byte_level_spec engine rs b ms : scalars rs →
  let v := if b : bool then prefixed white_space 32 (fresh 0 rs) else fresh 0 rs in
  v ≠ [] → engine (encode v.*1) = (ms, None) → matches2_ok v.*1 0 ms →
  (Forall (λ m, m.2 = [] → (match2_range v.*1 m).1 <= zlen (encode rs)) ms) →
  ∃ segs l, byte_level engine b (pts_from_string (encode rs)) = Ret (Pts (encode rs) (splits_from_ns l), None)
    ∧ concat segs.*1 = v ∧ ranges_of true (place 0 (texts_of segs)) = map (match2_range v.*1) ms ∧ Forall (λ s, s.2 = false → s.1 ≠ []) segs
    ∧ Forall2 (λ t, piece_of (from_string (encode rs)) (byte_text t)) (base.filter (λ t, t ≠ []) segs.*1) l.
Proof. intros Hs. exact (byte_level_at engine _ _ b ms (from_string_wf rs Hs)). Qed.

(** ** Regexp matches *)
Lemma whitespace_segs engine rs ms : scalars rs → rs ≠ [] → engine (encode rs) = (ms, None) → matches2_ok rs 0 ms →
  ∃ segs, invert (regexp2_pattern engine) (encode rs) = Ret (Ok (place 0 segs)) ∧ concat segs.*1 = rs
    ∧ Forall (λ x, ∃ l r, occurs rs l r x) (remaining Removed 0 segs)
    ∧ map (λ x, (x.1, x.1 + zlen (encode x.2))) (remaining Removed 0 segs) = base.filter (λ m, m.1 < m.2) (map (match2_range rs) ms)
    ∧ (Forall (λ m, m.2 ≠ []) ms → Forall (λ s, s.1 ≠ []) segs).
Proof.
  intros Hs Hn He Hm. pose proof (plain_wf 0 rs Hs) as (Hr & _).
  destruct (regexp2_pattern_spec engine rs ms Hs Hn He Hm) as (cs & Hcs & Hcov & Hrg & Hng).
  destruct (proj1 (cover_segments (plain 0 rs) _ cs Hr) Hcov) as (asegs & Ha & ->).
  set (segs := texts_of asegs) in *. assert (Hc : concat segs.*1 = rs). { unfold segs. by rewrite texts_of_concat, Ha, fresh_chars. }
  set (flip := map (λ s : list Z * bool, (s.1, negb s.2)) : segments → segments).
  assert (Hf : invert (regexp2_pattern engine) (encode rs) = Ret (Ok (place 0 (flip segs)))).
  { unfold invert. rewrite Hcs. cbn [mbind outcome_bind]. do 2 f_equal. generalize 0. clear. unfold flip. induction segs as [|[t m] segs IH]; intros i; [done|].
    cbn. f_equal. apply IH. }
  exists (flip segs). split; [done|]. split.
  { rewrite <- Hc. unfold flip. clear. induction segs as [|[t m] segs IH]; [done|]. cbn. f_equal. apply IH. }
  split_and!.
  - apply Forall_forall. intros x (m & H & _)%remaining_in. change 0 with (zlen (encode [])) in H. apply spots_occur in H as (s1 & s2 & Hsp & Hx).
    exists (concat s1.*1), (concat s2.*1). split; [|done]. rewrite <- Hc.
    assert (E : concat segs.*1 = concat (flip segs).*1). { unfold flip. clear. induction segs as [|[t m] segs IH]; [done|]. cbn. f_equal. apply IH. }
    rewrite E, Hsp, fmap_app, concat_app. done.
  - rewrite <- Hrg, ranges_place. unfold remaining. clear. generalize 0. unfold flip. induction segs as [|[t m] segs IH]; intros i; [done|].
    cbn [map spots fst snd]. rewrite !filter_cons. cbn [fst snd].
    pose proof (zlen_nonneg (encode t)). destruct m; cbn [negb].
    + rewrite (decide_True (P := true = true)) by done. cbn [map]. rewrite filter_cons. cbn [fst snd]. destruct (decide (t = [])) as [->|Ht].
      * rewrite decide_False by (intros [? _]; done). rewrite zlen_encode_nil in *. rewrite decide_False by lia. apply IH.
      * destruct t as [|r t]; [done|]. pose proof (encode_pos r t). rewrite !decide_True; [|lia|split; [done|by right]]. cbn [fmap list_fmap map fst snd]. f_equal. apply IH.
    + rewrite (decide_False (P := false = true)) by done. rewrite decide_False by (intros [_ [D|D]]; done). apply IH.
  - intros Hne. unfold flip. apply Forall_map. cbn [fst]. apply Forall_forall. intros [t m] Hin Ht. cbn [fst] in Ht. subst t.
    apply elem_of_list_split in Hin as (s1 & s2 & Hsp). destruct m.
    + assert (Hin : (zlen (encode (concat s1.*1)), zlen (encode (concat s1.*1))) ∈ map (match2_range rs) ms).
      { rewrite <- Hrg, ranges_place. apply elem_of_list_fmap. exists (zlen (encode (concat s1.*1)), [], true). cbn [fst snd]. rewrite zlen_encode_nil, Z.add_0_r.
        split; [done|]. apply elem_of_list_filter. split; [done|]. fold segs. rewrite Hsp. exact (spots_occur_inv [] s1 [] true s2). }
      apply elem_of_list_fmap in Hin as (m & Em & Hin). rewrite Forall_forall in Hne. apply (Hne m Hin). unfold match2_range in Em. injection Em as E1 E2.
      destruct m.2; [done|]. unfold zlen in E1, E2; cbn in E2; lia.
    + fold segs in Hng. rewrite Hsp in Hng. rewrite place_app in Hng. apply Forall_app in Hng as [_ Hng]. cbn [place] in Hng. apply Forall_cons in Hng as [Hng _]. cbn in Hng. specialize (Hng eq_refl). unfold zlen in Hng; cbn in Hng; lia.
Qed.
Lemma whitespace_spec engine rs ms : scalars rs → rs ≠ [] → engine (encode rs) = (ms, None) → matches2_ok rs 0 ms →
  ∃ fs, whitespace_pretokenizer engine (pts_from_string (encode rs)) = Ret (Pts (encode rs) (map plain_split fs), None)
    ∧ Forall (λ x, ∃ l r, occurs rs l r x) fs
    ∧ map (λ x, (x.1, x.1 + zlen (encode x.2))) fs = base.filter (λ m, m.1 < m.2) (map (match2_range rs) ms).
Proof.
  intros Hs Hn He Hm. rewrite pts_from_plain by done. destruct (whitespace_segs engine rs ms Hs Hn He Hm) as (segs & H1 & H2 & H3 & H4 & _).
  unfold whitespace_pretokenizer. erewrite (run_split_plain _ Removed _ _ [segs]); [|by left|by constructor; [|constructor]].
  exists (remaining Removed 0 segs). split; [cbn; by rewrite app_nil_r|done].
Qed.
