(** The invariant of NormalizedString and its preservation by every edit. *)
From Coq Require Import ZifyBool Sorted.
From Verif Require Import GoBase Utf8Facts Strutils SplitPattern NormString SpecText SpecNorm SliceFacts StrutilsFacts
  PatternFacts NormFacts NormEdits.

(** ** Sorted spans *)
Lemma before_refl a : before a a.
Proof. by left. Qed.

Lemma before_trans a b c : b.1 <= b.2 → before a b → before b c → before a c.
Proof. intros Hb [->|H1] [->|H2]; [by left|by right|by right|]. right. lia. Qed.

Lemma SS_app {A} (R : A → A → Prop) l1 l2 :
  StronglySorted R (l1 ++ l2) ↔
  StronglySorted R l1 ∧ StronglySorted R l2 ∧ (∀ x y, x ∈ l1 → y ∈ l2 → R x y).
Proof.
  induction l1 as [|a l1 IH]; cbn.
  - split; [|tauto]. intros H. split; [constructor|]. split; [done|]. intros x y Hx. by apply elem_of_nil in Hx.
  - split.
    + intros H. inversion H as [|? ? H1 H2]; subst. apply IH in H1 as (H3 & H4 & H5).
      apply Forall_app in H2 as [H2 H2']. split; [by constructor|]. split; [done|].
      intros x y [->|Hx]%elem_of_cons Hy; [|by apply H5]. rewrite Forall_forall in H2'. by apply H2'.
    + intros (H1 & H2 & H3). inversion H1 as [|? ? H4 H5]; subst. constructor.
      * apply IH. split; [done|]. split; [done|]. intros x y Hx Hy. apply H3; [|done]. by apply elem_of_list_further.
      * apply Forall_app. split; [done|]. apply Forall_forall. intros y Hy. apply H3; [|done]. apply elem_of_list_here.
Qed.

Lemma SS_lookup {A} (R : A → A → Prop) l i j x y :
  StronglySorted R l → (i < j)%nat → l !! i = Some x → l !! j = Some y → R x y.
Proof.
  intros H. revert i j. induction H as [|a l H IH HF]; intros i j Hij Hi Hj; [done|].
  destruct j as [|j]; [lia|]. destruct i as [|i]; cbn in *.
  - injection Hi as ->. rewrite Forall_forall in HF. apply HF. by eapply elem_of_list_lookup_2.
  - eapply IH; [|done|done]. lia.
Qed.

(** The alignment at byte [j]; before the first byte it is (0, 0), as TransformRange has it. *)
Definition al_at (al : list (Z * Z)) (j : Z) (a : Z * Z) : Prop :=
  (j = -1 ∧ a = (0, 0)) ∨ idx al j = Ret a.

Definition al_sorted (al : list (Z * Z)) : Prop :=
  ∀ i j a b, al_at al i a → al_at al j b → i <= j → before a b.

Lemma spans_sorted v : StronglySorted before v.*2 → StronglySorted before (spans_of v).
Proof.
  induction v as [|[r a] v IH]; intros H; [constructor|]. rewrite fmap_cons in H. cbn [snd] in H.
  inversion H as [|? ? H1 H2]; subst. rewrite spans_of_cons. apply SS_app. split; [|split; [by apply IH|]].
  - generalize (length (encode_rune r)) as k. induction k as [|k IHk]; constructor; [done|].
    apply Forall_forall. intros x Hx. apply elem_of_list_In, repeat_spec in Hx. subst. apply before_refl.
  - intros x y Hx Hy. apply elem_of_list_In, repeat_spec in Hx. subst.
    rewrite Forall_forall in H2. apply H2. clear -Hy. induction v as [|[r b] v IH]; [by apply elem_of_nil in Hy|].
    rewrite fmap_cons. cbn [snd]. rewrite spans_of_cons in Hy. apply elem_of_app in Hy as [Hy|Hy].
    + apply elem_of_list_In, repeat_spec in Hy. subst. apply elem_of_list_here.
    + apply elem_of_list_further. by apply IH.
Qed.

Lemma idx_spans_in v j a : idx (spans_of v) j = Ret a → a ∈ v.*2.
Proof.
  intros (pre & r & post & k & -> & _)%idx_spans_inv. rewrite fmap_app, fmap_cons. apply elem_of_app. right.
  apply elem_of_list_here.
Qed.

Lemma spans_in_idx v a : a ∈ v.*2 → ∃ j, 0 <= j < alen v ∧ idx (spans_of v) j = Ret a.
Proof.
  intros Ha. apply elem_of_list_fmap in Ha as ([r a'] & -> & Hin). cbn [snd].
  apply elem_of_list_split in Hin as (pre & post & ->). exists (alen pre).
  pose proof (idx_spans_middle pre r a' post 0) as H. rewrite Z.add_0_r in H.
  pose proof (rune_len_bounds r). rewrite H by lia. rewrite alen_app, alen_cons.
  pose proof (alen_nonneg pre). pose proof (alen_nonneg post). split; [lia|done].
Qed.

Lemma valid_boundary_0 s : valid_utf8 s = true → boundary s 0.
Proof. intros (rs & Hs & ->)%valid_utf8_spec. by apply boundary_0. Qed.

Lemma span_ok_00 s : valid_utf8 s = true → span_ok s (0, 0).
Proof. intros H. pose proof (valid_boundary_0 s H). split; [cbn; lia|done]. Qed.

Lemma span_ok_nonneg s a : span_ok s a → 0 <= a.1 ∧ a.1 <= a.2 ∧ a.2 <= zlen s.
Proof. intros (H & H1%boundary_range & H2%boundary_range). lia. Qed.

Lemma aligned_al_sorted orig v : aligned_over orig v → al_sorted (spans_of v).
Proof.
  intros [Hok Hs] i j a b Ha Hb Hij. rewrite Forall_forall in Hok.
  destruct Ha as [[-> ->]|Ha].
  - destruct Hb as [[-> ->]|Hb]; [apply before_refl|]. right. cbn.
    apply idx_spans_in, Hok, span_ok_nonneg in Hb. lia.
  - destruct Hb as [[-> ->]|Hb]; [apply idx_bounds in Ha; lia|].
    destruct (decide (i = j)) as [->|Hne].
    + rewrite Ha in Hb. injection Hb as ->. apply before_refl.
    + apply spans_sorted in Hs. apply idx_lookup in Ha as [Hi Ha], Hb as [Hj Hb].
      eapply SS_lookup; [exact Hs| |exact Ha|exact Hb]. lia.
Qed.

Lemma aligned_al_ok orig v j a :
  valid_utf8 orig = true → aligned_over orig v → al_at (spans_of v) j a → span_ok orig a.
Proof.
  intros Hv [Hok _] [[-> ->]|Ha]; [by apply span_ok_00|].
  rewrite Forall_forall in Hok. by apply Hok, (idx_spans_in v j).
Qed.

(** ** TransformRange, whatever the changes *)
Lemma tr_loop_general al dest off rs A B :
  al_sorted al → 0 <= off → tr_loop al dest off rs = Ret (A, B) →
  ∃ w, A = spans_of w ∧ B = encode w.*1 ∧ scalars w.*1 ∧ StronglySorted before w.*2
     ∧ Forall (λ a, ∃ j, off - 1 <= j < off + zlen (encode rs) ∧ al_at al j a) w.*2.
Proof.
  intros Hal. revert off rs A B. induction dest as [|[r c] dest IH]; intros off rs A B Hoff H; cbn [tr_loop] in H.
  { injection H as <- <-. exists []. repeat split; constructor. }
  apply bind_Ret in H as (a & Ha & H). apply bind_Ret in H as ([size rs1] & Hx & H).
  apply bind_Ret in H as ([total rs2] & Hy & H). apply bind_Ret in H as ([A' B'] & Hz & H).
  injection H as <- <-. cbn [fst snd].
  assert (Hat : ∃ j, al_at al j a ∧ off - 1 <= j ∧ j <= off + size + total - 1
                   ∧ zlen (encode rs) = size + total + zlen (encode rs2) ∧ 0 <= size ∧ 0 <= total
                   ∧ j < off + zlen (encode rs)).
  { destruct (1 <=? c) eqn:Hc.
    - replace (c <=? 0) with false in Hx by lia. injection Hx as <- <-.
      replace (c <=? -1) with false in Hy by lia. injection Hy as <- <-.
      pose proof (zlen_nonneg (encode rs)).
      destruct (off <? 1) eqn:Ho.
      + injection Ha as <-. exists (-1). split; [by left|]. lia.
      + exists (off - 1). split; [by right|]. lia.
    - replace (c <=? 0) with true in Hx by lia. destruct rs as [|x rs]; [done|]. injection Hx as <- <-.
      exists off. split; [by right|]. rewrite zlen_encode_cons. pose proof (rune_len_bounds x).
      destruct (c <=? -1) eqn:Hc1.
      + apply bind_Ret in Hy as (removed & Hrm & Hy). apply bind_Ret in Hy as (rest & Hrest & Hy).
        injection Hy as <- <-. apply sub_Ret in Hrm as (p1 & p2 & Heq & Hp1 & Hp2).
        destruct p1; [|rewrite zlen_cons in Hp1; pose proof (zlen_nonneg p1); lia]. cbn [app] in Heq.
        rewrite Heq in Hrest. rewrite sub_suffix in Hrest by (lia || by rewrite Heq). injection Hrest as <-.
        rewrite Heq, encode_app, zlen_app. pose proof (zlen_nonneg (encode removed)).
        pose proof (zlen_nonneg (encode p2)). lia.
      + injection Hy as <- <-. pose proof (zlen_nonneg (encode rs)). lia. }
  destruct Hat as (j & Hj & Hj1 & Hj2 & Hlen & Hsz & Htot & Hj3).
  assert (Hoff' : 0 <= off + size + total) by lia.
  destruct (IH _ _ _ _ Hoff' Hz) as (w & -> & -> & Hws & Hsort & Hin).
  exists ((sanitize r, a) :: w). rewrite spans_of_cons, !fmap_cons, encode_cons. cbn [fst snd].
  rewrite encode_rune_sanitize. split; [done|]. split; [done|].
  split; [constructor; [apply sanitize_scalar|done]|]. split.
  - constructor; [done|]. eapply Forall_impl; [exact Hin|]. cbn. intros b (k & Hk & Hb).
    eapply Hal; [exact Hj|exact Hb|lia].
  - constructor; [exists j; split; [lia|done]|]. eapply Forall_impl; [exact Hin|]. cbn.
    intros b (k & Hk & Hb). exists k. split; [lia|done].
Qed.

Lemma aboundary_split (v : atext) i :
  scalars v.*1 → boundary (encode v.*1) i → ∃ v1 v2, v = v1 ++ v2 ∧ i = alen v1.
Proof.
  intros Hs Hb. destruct (boundary_split _ _ Hs Hb) as (r1 & r2 & Heq & ->).
  apply fmap_app_inv in Heq as (v1 & v2 & -> & -> & ->). by exists v1, v2.
Qed.

Lemma aboundary_app (v1 v2 : atext) : scalars (v1 ++ v2).*1 → boundary (encode (v1 ++ v2).*1) (alen v1).
Proof. rewrite fmap_app, scalars_app. intros [H1 H2]. by apply boundary_app. Qed.

Lemma alen_prefix (v1 v2 w1 w2 : atext) :
  v1 ++ v2 = w1 ++ w2 → alen v1 <= alen w1 → ∃ m, w1 = v1 ++ m ∧ v2 = m ++ w2.
Proof.
  intros Heq Hle. destruct (app_eq_inv _ _ _ _ Heq) as [(k & -> & ->)|(k & -> & ->)].
  - rewrite alen_app in Hle. pose proof (alen_nonneg k). assert (k = []) as -> by (apply alen_0; lia).
    exists []. by rewrite !app_nil_r.
  - by exists k.
Qed.

(** The three-way cut of an aligned text at two boundaries. *)
Lemma aboundary_split2 (v : atext) s e :
  scalars v.*1 → boundary (encode v.*1) s → boundary (encode v.*1) e → s <= e →
  ∃ v1 v2 v3, v = v1 ++ v2 ++ v3 ∧ s = alen v1 ∧ e = alen (v1 ++ v2).
Proof.
  intros Hs Hb1 Hb2 Hle. destruct (aboundary_split v s Hs Hb1) as (v1 & v2 & Heq1 & ->).
  destruct (aboundary_split v e Hs Hb2) as (w1 & w2 & Heq2 & ->).
  destruct (alen_prefix v1 v2 w1 w2) as (m & -> & ->); [congruence|done|].
  by exists v1, m, w2.
Qed.

Lemma aligned_parts orig (v1 w v3 : atext) al off hi :
  valid_utf8 orig = true →
  (∀ j a, al_at al j a → span_ok orig a) → al_sorted al →
  Forall (λ a, ∃ j, j <= off - 1 ∧ al_at al j a) v1.*2 →
  Forall (λ a, ∃ j, off - 1 <= j < hi ∧ al_at al j a) w.*2 →
  Forall (λ a, ∃ j, off - 1 <= j ∧ hi - 1 <= j ∧ al_at al j a) v3.*2 →
  StronglySorted before v1.*2 → StronglySorted before w.*2 → StronglySorted before v3.*2 →
  aligned_over orig (v1 ++ w ++ v3).
Proof.
  intros Hv Hok Hal H1 Hw H3 S1 Sw S3. rewrite !Forall_forall in *. split.
  - rewrite !fmap_app, !Forall_app, !Forall_forall. split; [|split].
    + intros a (j & _ & Ha)%H1. by eapply Hok.
    + intros a (j & _ & Ha)%Hw. by eapply Hok.
    + intros a (j & _ & _ & Ha)%H3. by eapply Hok.
  - rewrite !fmap_app, !SS_app. split; [done|]. split; [split; [done|split; [done|]]|].
    + intros x y (j & Hj & Hx)%Hw (k & Hk & Hk' & Hy)%H3. eapply Hal; [exact Hx|exact Hy|lia].
    + intros x y (j & Hj & Hx)%H1 Hxy. apply elem_of_app in Hxy as [(k & Hk & Hy)%Hw|(k & Hk & Hk' & Hy)%H3];
        (eapply Hal; [exact Hx|exact Hy|lia]).
Qed.

Lemma repr_len n v : repr n v → ns_len n = alen v.
Proof. intros (_ & H & _). unfold ns_len, alen. by rewrite H. Qed.

(** TransformRange keeps the invariant if its range is on character boundaries and either the
    initial offset is too or nothing follows the range. *)
Lemma transform_range_wf n r dest off n' s e :
  wf n → coerce_to_norm n r = ((s, e), true) →
  boundary (ns_norm n) s → boundary (ns_norm n) e →
  (e = zlen (ns_norm n) ∨ boundary (ns_norm n) (s + off)) →
  transform_range n r dest off = Ret n' → wf n' ∧ same_origin n n'.
Proof.
  intros (v & Hr & Hvo & Hal) Hc Hbs Hbe Hoff H. unfold transform_range in H. rewrite Hc in H. cbn [negb] in H.
  apply bind_Ret in H as (replaced & Hrep & H). apply bind_Ret in H as (removed0 & Hr0 & H).
  apply bind_Ret in H as (rest & Hrest & H). apply bind_Ret in H as ([A B] & Htr & H).
  apply bind_Ret in H as (alb & Halb & H). apply bind_Ret in H as (ala & Hala & H).
  apply bind_Ret in H as (nb & Hnb & H). apply bind_Ret in H as (na & Hna & H). injection H as <-.
  cbn [fst snd]. destruct Hr as (Hs & Hnorm & Hal').
  rewrite Hnorm in *. rewrite Hal' in *.
  pose proof (sub_bounds _ _ _ _ Hrep) as (Hs0 & Hse & He).
  destruct (aboundary_split2 v s e Hs Hbs Hbe Hse) as (v1 & v2 & v3 & -> & -> & ->).
  assert (Henc : encode (v1 ++ v2 ++ v3).*1 = encode v1.*1 ++ encode v2.*1 ++ encode v3.*1).
  { by rewrite !fmap_app, !encode_app. }
  rewrite Henc in Hrep, Hnb, Hna. rewrite !spans_of_app in Halb, Hala.
  rewrite sub_app3 in Hrep by (done || apply alen_app). injection Hrep as <-.
  rewrite sub_prefix in Hnb by done. injection Hnb as <-.
  rewrite sub_prefix in Halb by (by rewrite zlen_spans). injection Halb as <-.
  rewrite (app_assoc (encode v1.*1)) in Hna. rewrite sub_suffix in Hna.
  2: { rewrite zlen_app. apply alen_app. }
  2: by rewrite <- app_assoc.
  injection Hna as <-.
  rewrite (app_assoc (spans_of v1)) in Hala. rewrite sub_suffix in Hala.
  2: { rewrite zlen_app, !zlen_spans. apply alen_app. }
  2: by rewrite <- app_assoc.
  injection Hala as <-.
  assert (Hroff : zlen removed0 = off) by (apply sub_zlen in Hr0; lia). rewrite Hroff in Htr.
  pose proof (sub_bounds _ _ _ _ Hr0) as (_ & Hoff0 & Hoff1).
  pose proof (aligned_al_sorted _ _ Hal) as Hsorted.
  pose proof (alen_nonneg v1) as Hv1.
  assert (Hoff2 : 0 <= off + alen v1) by lia.
  destruct (tr_loop_general _ _ _ _ _ _ Hsorted Hoff2 Htr) as (w & -> & -> & Hws & Hwsort & Hwin).
  split; [|done].
  assert (Hs' : scalars (v1 ++ w ++ v3).*1).
  { rewrite !fmap_app, !scalars_app in *. tauto. }
  exists (v1 ++ w ++ v3). split; [|split; [done|]].
  { split; [done|]. cbn [ns_norm ns_al]. by rewrite !fmap_app, !encode_app, !spans_of_app. }
  cbn [ns_orig].
  pose proof Hal as [_ Hss]. rewrite !fmap_app, !SS_app in Hss. destruct Hss as (SS1 & (SS2 & SS3 & _) & _).
  eapply (aligned_parts (ns_orig n) v1 w v3 (spans_of (v1 ++ v2 ++ v3)) (off + alen v1)
            (if decide (v3 = []) then off + alen v1 + zlen (encode (runes rest)) else alen (v1 ++ v2)));
    [done| |done| | | |done|done|done].
  - intros j a Ha. by eapply aligned_al_ok.
  - apply Forall_forall. intros a (j & Hj & Ha)%spans_in_idx. exists j. split; [lia|]. right.
    rewrite spans_of_app, idx_app_l by (rewrite zlen_spans; lia). done.
  - eapply Forall_impl; [exact Hwin|]. cbn. intros a (j & Hj & Ha). exists j. split; [|done].
    destruct (decide (v3 = [])) as [|Hne]; [lia|].
    destruct Hoff as [Hoff|Hoff].
    { exfalso. rewrite Henc, !zlen_app in Hoff. rewrite alen_app in Hoff. unfold alen in Hoff.
      apply Hne, alen_0. unfold alen. lia. }
    assert (Hrest' : zlen (encode (runes rest)) = alen v2 - off).
    { destruct (aboundary_split _ _ Hs Hoff) as (u1 & u2 & Hu & Hu1).
      destruct (alen_prefix v1 (v2 ++ v3) u1 u2) as (m & -> & Hm); [done|lia|].
      rewrite alen_app in Hu1. assert (alen m = off) as <- by lia.
      destruct (alen_prefix m u2 v2 v3) as (m2 & -> & ->); [done|unfold alen in *; lia|].
      rewrite fmap_app, encode_app in Hrest. rewrite sub_suffix in Hrest by done. injection Hrest as <-.
      rewrite runes_encode_scalars by (rewrite !fmap_app, !scalars_app in Hs; tauto).
      rewrite alen_app. unfold alen. lia. }
    rewrite Hrest' in Hj. rewrite alen_app. lia.
  - apply Forall_forall. intros a (j & Hj & Ha)%spans_in_idx. exists (alen (v1 ++ v2) + j).
    rewrite alen_app. pose proof (alen_nonneg v2). unfold alen in Hoff1 |- *. split; [lia|].
    destruct (decide (v3 = [])) as [->|Hne].
    { rewrite alen_nil in Hj. lia. }
    split; [lia|]. right. rewrite app_assoc, spans_of_app, idx_app_r.
    + rewrite zlen_spans, alen_app. unfold alen. replace (_ + _ + j - _) with j by lia. done.
    + rewrite zlen_spans, alen_app. unfold alen. lia.
Qed.

Lemma wf_norm_valid n v : wf_as n v → scalars v.*1 ∧ ns_norm n = encode v.*1.
Proof. intros ((Hs & Hn & _) & _). done. Qed.

Lemma transform_wf n dest off n' : wf n → transform n dest off = Ret n' → wf n' ∧ same_origin n n'.
Proof.
  intros Hwf H. pose proof Hwf as (v & (Hs & Hn & _) & _).
  eapply (transform_range_wf n (NRange 0 (ns_len n)) dest off n' 0 (ns_len n)); try done.
  - rewrite Hn. by apply boundary_0.
  - unfold ns_len. rewrite Hn. by apply boundary_len.
  - by left.
Qed.

Lemma map_runes_wf n f n' : wf n → map_runes n f = Ret n' → wf n' ∧ same_origin n n'.
Proof. intros Hwf H. by eapply transform_wf. Qed.

Lemma filter_runes_wf n keep n' : wf n → filter_runes n keep = Ret n' → wf n' ∧ same_origin n n'.
Proof. intros Hwf H. by eapply transform_wf. Qed.

Lemma trim_wf n left right n' : wf n → trim_left_right n left right = Ret n' → wf n' ∧ same_origin n n'.
Proof.
  intros Hwf H. unfold trim_left_right in H. destruct (_ && _) in H; [by injection H as <-|].
  by eapply transform_wf.
Qed.

Lemma prepend_wf n p n' : wf n → prepend n p = Ret n' → wf n' ∧ same_origin n n'.
Proof.
  intros Hwf H. unfold prepend in H. destruct (zlen (ns_norm n) =? 0) eqn:E; [by injection H as <-|].
  apply bind_Ret in H as (fr & Hfr & H). pose proof Hwf as (v & Hr & _).
  rewrite (repr_runes _ _ Hr) in Hfr. destruct v as [|[x a] v]; [done|]. rewrite fmap_cons in Hfr.
  cbn in Hfr. injection Hfr as <-. destruct Hr as (Hs & Hn & _). rewrite fmap_cons in Hs, Hn. cbn [fst] in Hs, Hn.
  assert (Hb : boundary (ns_norm n) (rune_len x)).
  { rewrite Hn. pose proof (boundary_app [x] v.*1) as Hb. rewrite zlen_encode_cons, zlen_encode_nil, Z.add_0_r in Hb.
    inversion Hs; subst. apply Hb; [by repeat constructor|done]. }
  eapply (transform_range_wf n _ _ _ n' _ _ Hwf); [| | | |exact H]; [reflexivity| |done|right].
  - rewrite Hn. by apply boundary_0.
  - rewrite Hn. by apply boundary_0.
Qed.

(** Append keeps the invariant if the byte index it computes is a character boundary. *)
Lemma append_wf n p n' :
  wf n → boundary (ns_norm n) (zlen (runes (ns_norm n)) - 1) ∨ ns_norm n = [] →
  append n p = Ret n' → wf n' ∧ same_origin n n'.
Proof.
  intros Hwf Hb H. unfold append in H. destruct (zlen (ns_norm n) =? 0) eqn:E; [by injection H as <-|].
  apply bind_Ret in H as (fr & Hfr & H). destruct Hb as [Hb|Hb]; [|rewrite Hb in E; done].
  pose proof Hwf as (v & (Hs & Hn & _) & _).
  eapply (transform_range_wf n _ _ _ n' _ _ Hwf); [| | | |exact H]; [reflexivity|done| |by left].
  unfold ns_len. rewrite Hn. by apply boundary_len.
Qed.

(** ** Operations never touch the original *)
Lemma transform_range_origin n r dest off n' : transform_range n r dest off = Ret n' → same_origin n n'.
Proof.
  unfold transform_range. destruct (coerce_to_norm n r) as [[s e] ok]. destruct (negb ok); [by intros [= <-]|].
  intros H. repeat (apply bind_Ret in H as (? & _ & H)). by injection H as <-.
Qed.

Lemma replace_loop_origin n cs content off n' : replace_loop n cs content off = Ret n' → same_origin n n'.
Proof.
  revert n off. induction cs as [|c cs IH]; intros n off H; cbn [replace_loop] in H; [by injection H as <-|].
  destruct (negb (c_match c)); [by eapply IH|].
  apply bind_Ret in H as (m & _ & H). apply bind_Ret in H as (n1 & H1%transform_range_origin & H%IH).
  destruct H1, H. split; congruence.
Qed.
