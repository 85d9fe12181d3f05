(** Facts about whole pipelines. *)
From Coq Require Import ZifyBool ZifyNat Sorted.
From stdpp Require Import relations list_numbers.
From Verif Require Import GoBase Utf8Facts Strutils SplitPattern NormString Vocab Bpe WordPiece Encodings PreTokString Normalizers PreTokenizers SpecText SpecNorm SpecHist SpecBpe SpecWordPiece SpecPts SpecPretok SpecEnd
  SliceFacts StrutilsFacts PatternFacts NormFacts NormInv NormReplace NormSlice HistFacts RangeFacts PtsFacts PretokFacts PropsPts.
Import GoBase NormString SpecNorm.
#[local] Open Scope Z_scope.

(** * Tokenize *)
Inductive answered (model : a_model) : nat → list ns → list (list token) → Prop :=
| answered_nil k : answered model k [] []
| answered_cons k n l ts tss : model k (ns_norm n) = Ret (Ok ts) → answered model (S k) l tss → answered model k (n :: l) (ts :: tss).

Lemma calling_eq model k n : calling model k n = (r ← model k (ns_norm n); Ret (S k, n, r)).
Proof. done. Qed.
Lemma tokenize_calling model k l : (∀ j n, n ∈ l → ∃ r, model j (ns_norm n) = Ret r) →
  (∃ k' tss, tokenize_loop (calling model) k (splits_from_ns l) = Ret (k', zip_with (λ n ts, PSplit n (Some ts)) l tss, None)
     ∧ answered model k l tss)
  ∨ ∃ k' out e l1 n l2 tss, tokenize_loop (calling model) k (splits_from_ns l) = Ret (k', out, Some e) ∧ l = l1 ++ n :: l2
     ∧ answered model k l1 tss ∧ model (k + length l1)%nat (ns_norm n) = Ret (Err e).
Proof.
  revert k. induction l as [|n l IH]; intros k H.
  - left. exists k, []. split; [done|constructor].
  - destruct (H k n) as ([ts|e] & Hr); [by left|..]; unfold splits_from_ns in *; cbn [tokenize_loop map sp_tokens sp_ns];
      rewrite calling_eq, Hr; cbn [mbind outcome_bind].
    + destruct (IH (S k)) as [(k' & tss & -> & Ha)|(k' & out & e & l1 & n' & l2 & tss & -> & -> & Ha & He)]; [by intros j n' Hn'; apply H; right|..]; cbn [mbind outcome_bind].
      * left. exists k', (ts :: tss). split; [done|by constructor].
      * right. exists k', (PSplit n (Some ts) :: out), e, (n :: l1), n', l2, (ts :: tss). split; [done|]. split; [done|]. split; [by constructor|].
        cbn [length]. by replace (k + S (length l1))%nat with (S k + length l1)%nat by lia.
    + right. exists (S k), (PSplit n None :: splits_from_ns l), e, [], n, l, []. split; [done|]. split; [done|]. split; [constructor|]. cbn [length].
      by rewrite Nat.add_0_r.
Qed.

(** * IntoEncoding *)
(** Tokens that lie on characters. *)
Definition on_chars (t : atext) (tok : token) : Prop :=
  ∃ t1 t2 t3, t = t1 ++ t2 ++ t3 ∧ t2 ≠ [] ∧ t_offsets tok = Offsets (alen t1) (alen (t1 ++ t2)).
(** The entry of a token. *)
Definition entry_of (t : atext) (w ty : Z) (tok : token) (en : enc_token) : Prop :=
  et_id en = t_id tok ∧ et_token en = t_value tok ∧ et_word en = w ∧ et_type en = ty
  ∧ ∃ t1 t2 t3, t = t1 ++ t2 ++ t3 ∧ t2 ≠ [] ∧ t_offsets tok = Offsets (alen t1) (alen (t1 ++ t2))
      ∧ et_offsets en = Offsets (first_start t2) (last_end t2).
Inductive encoded (wi ty : Z) : Z → list atext → list (list token) → list enc_token → Prop :=
| encoded_nil i : encoded wi ty i [] [] []
| encoded_cons i t ts toks toks' es es' :
    Forall2 (entry_of t (if wi <? 0 then i else wi) ty) toks es → encoded wi ty (i + 1) ts toks' es' →
    encoded wi ty i (t :: ts) (toks :: toks') (es ++ es').

Lemma alen_shift d t : alen (shift_spans d t) = alen t.
Proof. unfold alen. by rewrite shift_spans_chars. Qed.
Lemma shift_spans_app d (a b : atext) : shift_spans d (a ++ b) = shift_spans d a ++ shift_spans d b.
Proof. apply map_app. Qed.
Lemma first_start_shift d t : t ≠ [] → first_start (shift_spans d t) = first_start t + d.
Proof. by destruct t as [|[? [? ?]] t]. Qed.
Lemma last_end_shift d t : t ≠ [] → last_end (shift_spans d t) = last_end t + d.
Proof.
  destruct t as [|p t _] using rev_ind; [done|]. intros _. rewrite shift_spans_app. unfold last_end, last_span.
  cbn [shift_spans map]. rewrite !fmap_app. cbn [fmap list_fmap]. by rewrite !last_snoc.
Qed.

Lemma encode_tokens_chars t n w ty toks : holds_at t n → Forall (on_chars t) toks →
  ∃ es, encode_tokens n w ty toks = Ret es ∧ Forall2 (entry_of t w ty) toks es.
Proof.
  intros Hh. induction 1 as [|tok toks (t1 & t2 & t3 & -> & Hne & Ho) _ (es & IH1 & IH2)]; cbn [encode_tokens]; [exists []; split; [done|constructor]|].
  rewrite Ho. cbn [o_start o_end]. unfold holds_at in Hh. rewrite !shift_spans_app in Hh.
  assert (Hc : coerce_to_orig n (NRange (alen t1) (alen (t1 ++ t2))) = Ret ((first_start t2 - ns_shift n, last_end t2 - ns_shift n), true)).
  { pose proof (coerce_to_orig_chars n _ _ _ Hh) as H. rewrite <- shift_spans_app, !alen_shift, first_start_shift, last_end_shift in H by done.
    rewrite H by (by destruct t2). repeat f_equal; lia. }
  rewrite Hc. cbn [mbind outcome_bind]. rewrite IH1. cbn [mbind outcome_bind]. eexists. split; [done|]. constructor; [|done].
  split_and!; try done. exists t1, t2, t3. split_and!; try done. cbn [et_offsets]. f_equal; lia.
Qed.

Lemma encode_splits_chars wi ty i ts l tss : Forall2 holds_at ts l → Forall2 (λ t toks, Forall (on_chars t) toks) ts tss →
  ∃ es, encode_splits wi ty i (zip_with (λ n toks, PSplit n (Some toks)) l tss) = Ret es ∧ encoded wi ty i ts tss es.
Proof.
  intros H. revert i tss. induction H as [|t n ts l Hn H IH]; intros i tss Ht.
  - apply Forall2_nil_inv_l in Ht as ->. exists []. split; [done|constructor].
  - apply Forall2_cons_inv_l in Ht as (toks & tss' & Ht1 & Ht & ->). cbn [zip_with encode_splits sp_ns sp_tokens default].
    destruct (encode_tokens_chars t n (if wi <? 0 then i else wi) ty toks Hn Ht1) as (es & E1 & H1).
    destruct (IH (i + 1) tss' Ht) as (es' & E2 & H2). change (id toks) with toks. rewrite E1. cbn [mbind outcome_bind]. rewrite E2. cbn [mbind outcome_bind].
    eexists. split; [done|]. by constructor.
Qed.

(** * The pipeline *)
Lemma encode_ns_pipeline pre model m wi ty o ts l :
  pre (pts_from_ns m) = Ret (Pts o (splits_from_ns l), None) → Forall2 holds_at ts l →
  (∀ j t, t ∈ ts → ∃ r, model j (encode t.*1) = Ret r ∧ ∀ toks, r = Ok toks → Forall (on_chars t) toks) →
  (∃ tss e es, encode_ns pre model m wi ty = Ret (Ok e) ∧ answered model 0 l tss ∧ entries e es ∧ encoded wi ty 0 ts tss es)
  ∨ (∃ e l1 n l2 tss, encode_ns pre model m wi ty = Ret (Err e) ∧ l = l1 ++ n :: l2 ∧ answered model 0 l1 tss ∧ model (length l1) (ns_norm n) = Ret (Err e)).
Proof.
  intros Hp Hh Hm. unfold encode_ns. rewrite Hp. cbn [mbind outcome_bind fst snd]. unfold pts_tokenize. cbn [p_splits p_original].
  assert (Hn : ∀ t n, holds_at t n → ns_norm n = encode t.*1). { intros t n (_ & H & _). by rewrite shift_spans_chars in H. }
  destruct (tokenize_calling model 0 l) as [(k' & tss & -> & Ha)|(k' & out & e & l1 & n & l2 & tss & -> & -> & Ha & He)].
  { intros j n Hin. apply elem_of_list_lookup in Hin as (i & Hi). destruct (Forall2_lookup_r _ _ _ _ _ Hh Hi) as (t & Ht & Hht).
    destruct (Hm j t) as (r & Hr & _); [by eapply elem_of_list_lookup_2|]. rewrite (Hn _ _ Hht). eauto. }
  - left. cbn [mbind outcome_bind fst snd].
    assert (Ht : Forall2 (λ t toks, Forall (on_chars t) toks) ts tss).
    { clear -Hh Hm Ha Hn. revert Hm. revert Ha. generalize 0%nat as k. revert tss. induction Hh as [|t n ts l H Hh IH]; intros tss k Ha Hm; inversion Ha; subst; constructor.
      - destruct (Hm k t) as (r & Hr & Hr'); [by left|]. apply Hr'. rewrite (Hn _ _ H) in *. congruence.
      - eapply IH; [done|]. intros j t' Ht'. apply Hm. by right. }
    destruct (encode_splits_chars wi ty 0 ts l tss Hh Ht) as (es & Es & Hes).
    unfold into_encoding. cbn [p_splits]. destruct (Z.eqb_spec (zlen (zip_with (λ n ts, PSplit n (Some ts)) l tss)) 0) as [Hz|Hz].
    + assert (length (zip_with (λ n ts, PSplit n (Some ts)) l tss) = 0%nat) as Hz' by (unfold zlen in Hz; lia).
      pose proof (Forall2_length _ _ _ Hh). pose proof (Forall2_length _ _ _ Ht). rewrite zip_with_length in Hz'.
      assert (tss = []) as -> by (apply length_zero_iff_nil; lia). inversion Ha; subst. apply Forall2_nil_inv_r in Hh as ->. inversion Hes; subst.
      exists [], empty_encoding, []. by split_and!.
    + replace (all_have_tokens _) with true.
      2: { symmetry. apply all_have_tokens_spec. apply Forall_forall. intros x Hx. apply elem_of_lookup_zip_with in Hx as (i & n & toks & -> & _). by eexists. }
      cbn [negb]. rewrite Es. cbn [mbind outcome_bind]. exists tss. eexists. exists es. split; [done|]. split; [done|]. split; [|done]. apply encoding_from_tokens_eq.
  - right. cbn [mbind outcome_bind fst snd]. exists e, l1, n, l2, tss. by split_and!.
Qed.

Lemma encode_pipeline pre model text wi ty o ts l :
  pre (pts_from_string text) = Ret (Pts o (splits_from_ns l), None) → Forall2 holds_at ts l →
  (∀ j t, t ∈ ts → ∃ r, model j (encode t.*1) = Ret r ∧ ∀ toks, r = Ok toks → Forall (on_chars t) toks) →
  (∃ tss e es, encode_text pre model text wi ty = Ret (Ok e) ∧ answered model 0 l tss ∧ entries e es ∧ encoded wi ty 0 ts tss es)
  ∨ (∃ e l1 n l2 tss, encode_text pre model text wi ty = Ret (Err e) ∧ l = l1 ++ n :: l2 ∧ answered model 0 l1 tss ∧ model (length l1) (ns_norm n) = Ret (Err e)).
Proof. exact (encode_ns_pipeline pre model (from_string text) wi ty o ts l). Qed.

(** Where an entry comes from. *)
Lemma encoded_from wi ty i ts tss es en : encoded wi ty i ts tss es → en ∈ es →
  ∃ j t toks tok, ts !! j = Some t ∧ tss !! j = Some toks ∧ tok ∈ toks ∧ entry_of t (if wi <? 0 then i + Z.of_nat j else wi) ty tok en.
Proof.
  induction 1 as [|i t ts toks toks' es es' He H IH]; [by intros ?%elem_of_nil|]. intros [Hin|Hin]%elem_of_app.
  - apply elem_of_list_lookup in Hin as (k & Hk). destruct (Forall2_lookup_r _ _ _ _ _ He Hk) as (tok & Htok & Hen).
    exists 0%nat, t, toks, tok. split; [done|]. split; [done|]. split; [by eapply elem_of_list_lookup_2|]. by rewrite Z.add_0_r.
  - destruct (IH Hin) as (j & t' & toks1 & tok & H1 & H2 & H3 & H4). exists (S j), t', toks1, tok. split_and!; try done.
    by replace (i + Z.of_nat (S j)) with (i + 1 + Z.of_nat j) by lia.
Qed.
Lemma answered_lookup model k l tss j n toks : answered model k l tss → l !! j = Some n → tss !! j = Some toks → model (k + j)%nat (ns_norm n) = Ret (Ok toks).
Proof.
  intros H. revert j. induction H as [|k n' l ts tss H1 H IH]; intros [|j]; try done.
  - intros [= ->] [= ->]. by rewrite Nat.add_0_r.
  - intros H2 H3. replace (k + S j)%nat with (S k + j)%nat by lia. by apply IH.
Qed.

(** * Untouched text *)
Lemma plain_holds k w : scalars w → holds_at (fresh k w) (plain k w).
Proof.
  intros H. unfold holds_at. rewrite fresh_shift. cbn [ns_shift plain]. replace (k + - k) with 0 by lia.
  split; [by rewrite fresh_chars|]. split; [by rewrite fresh_chars|done].
Qed.

Lemma on_chars_boundary t tok : scalars t.*1 → boundary (encode t.*1) (o_start (t_offsets tok)) → boundary (encode t.*1) (o_end (t_offsets tok)) →
  o_start (t_offsets tok) < o_end (t_offsets tok) → on_chars t tok.
Proof.
  intros Hs Ha Hb Hlt. destruct (aboundary_split2 t _ _ Hs Ha Hb) as (t1 & t2 & t3 & -> & H1 & H2); [lia|].
  exists t1, t2, t3. split; [done|]. rewrite <- H1, <- H2. split; [|by destruct (t_offsets tok)].
  intros ->. rewrite app_nil_r in H2. lia.
Qed.

Lemma entry_plain k w wd ty tok en : entry_of (fresh k w) wd ty tok en →
  en = EncToken (t_id tok) (t_value tok) (Offsets (k + o_start (t_offsets tok)) (k + o_end (t_offsets tok))) wd ty.
Proof.
  intros (H1 & H2 & H3 & H4 & t1 & t2 & t3 & Ht & Hne & Ho & He). destruct en as [i v o w' ty']. cbn in *. subst. f_equal. rewrite Ho. cbn [o_start o_end].
  rewrite app_assoc in Ht. apply fresh_inj in Ht as [Ht _]. symmetry in Ht. rewrite fmap_app in Ht. pose proof Ht as Ht'. 
  rewrite <- fmap_app in Ht'. apply fresh_inj in Ht' as [_ H]. assert (t2.*1 ≠ []) as Hne' by (by destruct t2).
  destruct (tiles_ends _ _ _ (tiles_fresh (k + alen t1) t2.*1)) as [F1 F2]; [by destruct (t2.*1)|]. rewrite <- H in F1, F2. rewrite F1, F2, alen_app. unfold alen. f_equal. lia.
Qed.

Lemma toks_tile_le a toks b : toks_tile a toks b → a <= b.
Proof. revert a. induction toks as [|t toks IH]; intros a; cbn; [lia|]. intros (_ & H1 & H2). apply IH in H2. lia. Qed.
Lemma toks_tile_cover a toks b i : toks_tile a toks b → (a <= i < b ↔ ∃ t, t ∈ toks ∧ o_start (t_offsets t) <= i < o_end (t_offsets t)).
Proof.
  revert a. induction toks as [|t toks IH]; intros a; cbn [toks_tile].
  - intros ->. split; [lia|]. by intros (t & ?%elem_of_nil & _).
  - intros (H1 & H2 & H3). specialize (IH _ H3). apply toks_tile_le in H3. split.
    + intros Hi. destruct (Z.lt_ge_cases i (o_end (t_offsets t))).
      * exists t. split; [by left|]. lia.
      * destruct (proj1 IH) as (t' & Ht' & ?); [lia|]. exists t'. split; [by right|done].
    + intros (t' & [->|Ht']%elem_of_cons & Hi); [lia|]. destruct (proj2 IH); [by exists t'|]. lia.
Qed.
Lemma toks_tile_in a toks b t : toks_tile a toks b → t ∈ toks → a <= o_start (t_offsets t) ∧ o_start (t_offsets t) < o_end (t_offsets t) ∧ o_end (t_offsets t) <= b.
Proof.
  revert a. induction toks as [|t' toks IH]; intros a; [by intros _ ?%elem_of_nil|]. cbn [toks_tile]. intros (H1 & H2 & H3) [->|Ht]%elem_of_cons.
  - apply toks_tile_le in H3. lia.
  - destruct (IH _ H3 Ht). lia.
Qed.

Definition atexts (fs : list (Z * list Z)) : list atext := map (λ x, fresh x.1 x.2) fs.

Lemma ordered_ranges_le lo lo' ms hi : lo <= lo' → ordered_ranges lo' ms hi → ordered_ranges lo ms hi.
Proof. destruct ms as [|[a b] ms]; cbn; [lia|]. intros ? (? & ? & ?). split_and!; [lia|done..]. Qed.
Lemma ranges_tile k w wd ty a toks b es ms hi : toks_tile a toks b → Forall2 (entry_of (fresh k w) wd ty) toks es →
  ordered_ranges (k + b) ms hi → ordered_ranges (k + a) (ranges es ++ ms) hi.
Proof.
  intros Ht He Hms. revert a Ht. induction He as [|t en toks es H He IH]; intros a; cbn [toks_tile].
  - by intros ->.
  - intros (H1 & H2 & H3). apply entry_plain in H as ->. cbn [ranges map app ordered_ranges et_offsets o_start o_end].
    split; [lia|]. split; [lia|]. by apply IH.
Qed.

Lemma encoded_ranges wi ty i lo fs tss es hi :
  encoded wi ty i (atexts fs) tss es → Forall2 (λ x toks, toks_tile 0 toks (zlen (encode x.2))) fs tss →
  in_order fs → Forall (λ x, lo <= x.1 ∧ x.1 + zlen (encode x.2) <= hi) fs → lo <= hi → ordered_ranges lo (ranges es) hi.
Proof.
  intros He Ht. revert i lo es He. induction Ht as [|[k w] toks fs tss H Ht IH]; intros i lo es He Ho Hb Hlo; inversion He; subst; [done|].
  apply in_order_cons in Ho as [Ho Hk]. apply Forall_cons in Hb as [[Hb1 Hb2] Hb]. cbn [fst snd] in *.
  unfold ranges. rewrite map_app. apply (ordered_ranges_le lo (k + 0)); [lia|]. eapply (ranges_tile k w); [exact H|done|].
  eapply IH; [done|done| |done]. apply Forall_forall. intros y Hy. rewrite Forall_forall in Hb. split; [by apply Hk|by apply Hb].
Qed.

Lemma encoded_covers wi ty i fs tss es b :
  encoded wi ty i (atexts fs) tss es → Forall2 (λ x toks, toks_tile 0 toks (zlen (encode x.2))) fs tss →
  ((∃ en, en ∈ es ∧ o_start (et_offsets en) <= b < o_end (et_offsets en)) ↔ ∃ x, x ∈ fs ∧ x.1 <= b < x.1 + zlen (encode x.2)).
Proof.
  intros He Ht. revert i es He. induction Ht as [|[k w] toks fs tss H Ht IH]; intros i es He; inversion He as [|i' t ts toks1 toks2 es1 es2 H1 H2]; subst.
  - split; intros (? & ?%elem_of_nil & _); done.
  - specialize (IH _ _ H2). pose proof (toks_tile_cover _ _ _ (b - k) H) as Hc.
    assert (Hm : (∃ en, en ∈ es1 ∧ o_start (et_offsets en) <= b < o_end (et_offsets en)) ↔ k <= b < k + zlen (encode w)).
    { cbn [fst snd] in *. split.
      - intros (en & Hin & Hen). apply elem_of_list_lookup in Hin as (j & Hj). destruct (Forall2_lookup_r _ _ _ _ _ H1 Hj) as (tok & Htok & Hent).
        apply entry_plain in Hent as ->. cbn [et_offsets o_start o_end] in Hen. destruct (proj2 Hc); [|lia]. exists tok. split; [by eapply elem_of_list_lookup_2|lia].
      - intros Hb. destruct (proj1 Hc) as (tok & Hin & Htok); [lia|]. apply elem_of_list_lookup in Hin as (j & Hj).
        destruct (Forall2_lookup_l _ _ _ _ _ H1 Hj) as (en & Hen & Hent). exists en. split; [by eapply elem_of_list_lookup_2|].
        apply entry_plain in Hent as ->. cbn [et_offsets o_start o_end]. lia. }
    split.
    + intros (en & [Hin|Hin]%elem_of_app & Hen).
      * exists (k, w). split; [by left|]. apply Hm. eauto.
      * destruct (proj1 IH) as (x & ? & ?); [eauto|]. exists x. split; [by right|done].
    + intros (x & [->|Hin]%elem_of_cons & Hx).
      * destruct (proj2 Hm Hx) as (en & ? & ?). exists en. split; [by apply elem_of_app; left|done].
      * destruct (proj2 IH) as (en & ? & ?); [eauto|]. exists en. split; [by apply elem_of_app; right|done].
Qed.

(** The pieces cover exactly the characters that are no delimiters. *)
Lemma char_in_piece (rs a b l r w : list Z) c i : rs = a ++ c :: b → rs = l ++ w ++ r →
  zlen (encode a) <= i < zlen (encode (a ++ [c])) → zlen (encode l) <= i < zlen (encode l) + zlen (encode w) → c ∈ w.
Proof.
  intros -> E H1 H2. rewrite encode_app, zlen_app in H1. apply app_eq_inv in E as [(m & -> & E)|(m & -> & E)].
  - change (m ++ c :: b) with (m ++ [c] ++ b) in E. apply app_eq_inv in E as [(m' & -> & E)|(m' & -> & E)].
    + destruct m' as [|c' m']; [rewrite app_nil_r in H2; rewrite encode_app, zlen_app in H1; lia|]. injection E as <- _. apply elem_of_app. right. by left.
    + rewrite !encode_app, !zlen_app in *. pose proof (zlen_nonneg (encode m')). lia.
  - destruct m as [|c' m].
    + cbn in E. destruct w as [|c' w]; [change (zlen (encode [])) with 0 in H2; lia|]. injection E as <- _. by left.
    + injection E as <- _. change (c :: m) with ([c] ++ m) in H2. rewrite !encode_app, !zlen_app in H2. pose proof (zlen_nonneg (encode m)). lia.
Qed.

Lemma run_covers stop rs a c b i : rs = a ++ c :: b → zlen (encode a) <= i < zlen (encode (a ++ [c])) →
  (negb (stop c) = true ↔ ∃ x, run_of stop rs x ∧ x.1 <= i < x.1 + zlen (encode x.2)).
Proof.
  intros Hrs Hi. split.
  - intros Hc. apply negb_true_iff in Hc. destruct (suffix_without stop a) as (a1 & a2 & -> & H1 & H2). destruct (prefix_without stop b) as (b1 & b2 & -> & H3 & H4).
    exists (zlen (encode a1), a2 ++ c :: b1). split.
    + exists a1, b2. split; [split; [cbn [snd]; rewrite Hrs; by rewrite <- !app_assoc|done]|]. split; [by destruct a2|]. split; [|done].
      apply Forall_app. split; [done|]. by constructor.
    + cbn [fst snd]. change (c :: b1) with ([c] ++ b1). rewrite !encode_app, !zlen_app in *. pose proof (zlen_nonneg (encode b1)). pose proof (zlen_nonneg (encode a2)). lia.
  - intros (x & (l & r & [Ho Hk] & _ & Hs & _) & Hi'). rewrite Hk in Hi'.
    pose proof (char_in_piece _ _ _ _ _ _ _ _ Hrs Ho Hi Hi') as Hc. rewrite Forall_forall in Hs. by rewrite (Hs c Hc).
Qed.
Lemma runs_cover stop rs (fs : list (Z * list Z)) a c b i : (∀ x, x ∈ fs ↔ run_of stop rs x) → rs = a ++ c :: b → zlen (encode a) <= i < zlen (encode (a ++ [c])) →
  (negb (stop c) = true ↔ ∃ x, x ∈ fs ∧ x.1 <= i < x.1 + zlen (encode x.2)).
Proof. intros Hf Hrs Hi. setoid_rewrite Hf. by apply run_covers with (a := a) (b := b). Qed.
(** The runs of one kind are runs without the others. *)
Definition other_kind (word space : Z → bool) (k : bool) (c : Z) : bool := negb (bool_decide (kind_of word space c = Some k)).
Lemma kind_runs word space rs x : kind_run word space rs x ↔ ∃ k, run_of (other_kind word space k) rs x.
Proof.
  assert (E : ∀ k c, other_kind word space k c = false ↔ kind_of word space c = Some k). { intros k c. unfold other_kind. rewrite negb_false_iff. apply bool_decide_eq_true. }
  assert (E' : ∀ k c, other_kind word space k c = true ↔ kind_of word space c ≠ Some k). { intros k c. unfold other_kind. rewrite negb_true_iff. apply bool_decide_eq_false. }
  unfold kind_run, run_of. split.
  - intros (l & r & k & H & Hn & Hk & Hl & Hr). exists k, l, r. split_and!; try done.
    + eapply Forall_impl; [exact Hk|]. intros c Hc. by apply E.
    + intros c Hc. apply E'. auto.
    + intros c Hc. apply E'. auto.
  - intros (k & l & r & H & Hn & Hk & Hl & Hr). exists l, r, k. split_and!; try done.
    + eapply Forall_impl; [exact Hk|]. intros c Hc. by apply E.
    + intros c Hc. apply E'. auto.
    + intros c Hc. apply E'. auto.
Qed.
Lemma shown_kind word space c : word c || negb (space c) = true ↔ ∃ k, negb (other_kind word space k c) = true.
Proof.
  unfold other_kind. setoid_rewrite negb_involutive. setoid_rewrite bool_decide_eq_true. unfold kind_of. destruct (word c), (space c); cbn; split; try done; [eauto..|naive_solver|eauto].
Qed.
Lemma kinds_cover word space rs (fs : list (Z * list Z)) a c b i : (∀ x, x ∈ fs ↔ kind_run word space rs x) → rs = a ++ c :: b → zlen (encode a) <= i < zlen (encode (a ++ [c])) →
  (word c || negb (space c) = true ↔ ∃ x, x ∈ fs ∧ x.1 <= i < x.1 + zlen (encode x.2)).
Proof.
  intros Hf Hrs Hi. rewrite shown_kind. setoid_rewrite Hf. setoid_rewrite kind_runs. split.
  - intros (k & Hk). apply (run_covers _ rs a c b i Hrs Hi) in Hk as (x & Hx & H). eauto.
  - intros (x & (k & Hx) & H). exists k. apply (run_covers _ rs a c b i Hrs Hi). eauto.
Qed.
Lemma bert_cover white punct rs (fs : list (Z * list Z)) a c b i : (∀ x, x ∈ fs ↔ bert_piece white punct rs x) → rs = a ++ c :: b → zlen (encode a) <= i < zlen (encode (a ++ [c])) →
  (negb (white c) = true ↔ ∃ x, x ∈ fs ∧ x.1 <= i < x.1 + zlen (encode x.2)).
Proof.
  intros Hf Hrs Hi. split.
  - intros Hc. apply negb_true_iff in Hc. destruct (punct c) eqn:Hp.
    + exists (zlen (encode a), [c]). split; [apply Hf; left; exists a, c, b; by split_and!|]. cbn [fst snd]. rewrite encode_app, zlen_app in Hi. lia.
    + destruct (prefix_without (λ c, white c || punct c) b) as (b1 & b2 & -> & H3 & H4). destruct (suffix_without (λ c, white c || punct c) a) as (a1 & a2 & -> & H1 & H2).
      exists (zlen (encode a1), a2 ++ c :: b1). split.
      * apply Hf. right. exists a1, b2. split; [split; [cbn [snd]; rewrite Hrs; by rewrite <- !app_assoc|done]|]. split; [by destruct a2|]. split; [|done].
        apply Forall_app. split; [done|]. constructor; [|done]. by rewrite Hc, Hp.
      * cbn [fst snd]. change (c :: b1) with ([c] ++ b1). rewrite !encode_app, !zlen_app in *. pose proof (zlen_nonneg (encode b1)). pose proof (zlen_nonneg (encode a2)). lia.
  - intros (x & Hx & Hi'). apply Hf in Hx as [(l & c' & r & [Ho Hk] & Hx & Hw & _)|(l & r & [Ho Hk] & _ & Hs & _)]; rewrite Hk in Hi';
      pose proof (char_in_piece _ _ _ _ _ _ _ _ Hrs Ho Hi Hi') as Hc.
    + rewrite Hx in Hc. apply elem_of_list_singleton in Hc as ->. by rewrite Hw.
    + rewrite Forall_forall in Hs. specialize (Hs c Hc). cbn in Hs. apply orb_false_iff in Hs as [-> _]. done.
Qed.

(** * Pipelines over untouched text *)
Lemma occurs_scalars rs l r x : scalars rs → occurs rs l r x → scalars x.2.
Proof. intros Hs [-> _]. apply scalars_app in Hs as [_ Hs]. by apply scalars_app in Hs as [? _]. Qed.
Lemma atexts_in fs t : t ∈ atexts fs → ∃ x, x ∈ fs ∧ t = fresh x.1 x.2.
Proof. unfold atexts. intros (x & -> & Hx)%elem_of_list_fmap. eauto. Qed.

Lemma plain_pipeline pre (model : a_model) rs fs wi ty :
  scalars rs → pre (pts_from_string (encode rs)) = Ret (Pts (encode rs) (map plain_split fs), None) → in_order fs →
  (∀ x, x ∈ fs → ∃ l r, occurs rs l r x) →
  (∀ j x, x ∈ fs → ∃ r, model j (encode x.2) = Ret r ∧ ∀ toks, r = Ok toks → toks_tile 0 toks (zlen (encode x.2))
     ∧ Forall (λ t, boundary (encode x.2) (o_start (t_offsets t)) ∧ boundary (encode x.2) (o_end (t_offsets t))) toks) →
  (∃ e es, encode_text pre model (encode rs) wi ty = Ret (Ok e) ∧ entries e es ∧ ordered_ranges 0 (ranges es) (zlen (encode rs))
     ∧ (∀ b, (∃ en, en ∈ es ∧ o_start (et_offsets en) <= b < o_end (et_offsets en)) ↔ ∃ x, x ∈ fs ∧ x.1 <= b < x.1 + zlen (encode x.2))
     ∧ (∀ j x, fs !! j = Some x → ∃ toks, model j (encode x.2) = Ret (Ok toks))
     ∧ ∀ en, en ∈ es → ∃ j k w toks tok, fs !! j = Some (k, w) ∧ model j (encode w) = Ret (Ok toks) ∧ tok ∈ toks
         ∧ en = EncToken (t_id tok) (t_value tok) (Offsets (k + o_start (t_offsets tok)) (k + o_end (t_offsets tok))) (if wi <? 0 then Z.of_nat j else wi) ty)
  ∨ (∃ e j x, encode_text pre model (encode rs) wi ty = Ret (Err e) ∧ fs !! j = Some x ∧ model j (encode x.2) = Ret (Err e)).
Proof.
  intros Hs Hp Ho Hoc Hm. rewrite plain_splits in Hp.
  assert (Hh : Forall2 holds_at (atexts fs) (map (λ x, plain x.1 x.2) fs)).
  { unfold atexts. clear -Hs Hoc. induction fs as [|x fs IH]; constructor.
    - destruct (Hoc x) as (l & r & Hx); [by left|]. apply plain_holds. by eapply occurs_scalars.
    - apply IH. intros y Hy. apply Hoc. by right. }
  destruct (encode_pipeline _ model _ wi ty _ _ _ Hp Hh) as [(tss & e & es & H1 & H2 & H3 & H4)|(e & l1 & n & l2 & tss & H1 & H2 & H3 & H4)].
  { intros j t (x & Hx & ->)%atexts_in. rewrite fresh_chars. destruct (Hm j x Hx) as (r & Hr & Hr'). exists r. split; [done|].
    intros toks Htoks. destruct (Hr' toks Htoks) as [Ht Hb]. destruct (Hoc x Hx) as (l & r' & Hxo). apply (occurs_scalars _ _ _ _ Hs) in Hxo.
    apply Forall_forall. intros t Hin. rewrite Forall_forall in Hb. destruct (Hb t Hin). apply on_chars_boundary; rewrite ?fresh_chars; try done. by apply (toks_tile_in _ _ _ _ Ht). }
  - assert (Hl : ∀ j x toks, fs !! j = Some x → tss !! j = Some toks → model j (encode x.2) = Ret (Ok toks)).
    { intros j x toks Hj Htoks. apply (answered_lookup model 0 _ _ j (plain x.1 x.2) toks H2); [|done]. rewrite list_lookup_fmap, Hj. done. }
    assert (Hlen : length tss = length fs). { clear -H2. rewrite <- (map_length (λ x, plain x.1 x.2) fs). induction H2; cbn; [done|]. by f_equal. }
    assert (Ht : Forall2 (λ x toks, toks_tile 0 toks (zlen (encode x.2))) fs tss).
    { apply Forall2_same_length_lookup_2; [done|]. intros j x toks Hj Htoks. specialize (Hl j x toks Hj Htoks).
      destruct (Hm j x) as (r & Hr & Hr'); [by eapply elem_of_list_lookup_2|]. rewrite Hl in Hr. injection Hr as <-. by apply Hr'. }
    left. exists e, es. split; [done|]. split; [done|]. split.
    { eapply encoded_ranges; [done..| |apply zlen_nonneg]. apply Forall_forall. intros x Hx. destruct (Hoc x Hx) as (l & r & -> & ->).
      rewrite !encode_app, !zlen_app. pose proof (zlen_nonneg (encode l)). pose proof (zlen_nonneg (encode r)). lia. }
    split; [intros b; by eapply encoded_covers|]. split.
    { intros j x Hj. destruct (lookup_lt_is_Some_2 tss j) as [toks Htoks]; [rewrite Hlen; by eapply lookup_lt_Some|]. exists toks. by apply Hl. }
    intros en Hen. destruct (encoded_from _ _ _ _ _ _ _ H4 Hen) as (j & t & toks & tok & F1 & F2 & F3 & F4).
    unfold atexts in F1. rewrite list_lookup_fmap in F1. destruct (fs !! j) as [[k w]|] eqn:Hj; [|done]. injection F1 as <-. cbn [fst snd] in F4.
    apply entry_plain in F4. exists j, k, w, toks, tok. split; [done|]. split; [by apply (Hl j (k, w))|]. done.
  - right. assert (map (λ x, plain x.1 x.2) fs !! length l1 = Some n) as Hn. { rewrite H2. by rewrite list_lookup_middle. }
    rewrite list_lookup_fmap in Hn. destruct (fs !! length l1) as [x|] eqn:Hx; [|done]. injection Hn as <-. exists e, (length l1), x. by split_and!.
Qed.
