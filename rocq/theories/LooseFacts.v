(** Proofs for C92: what every history of calls preserves. *)
From Coq Require Import ZifyBool Sorted.
From stdpp Require Import relations.
From Verif Require Import GoBase Utf8Facts Strutils SplitPattern NormString SpecText SpecNorm SliceFacts
  StrutilsFacts PatternFacts NormFacts NormEdits NormInv NormReplace NormSlice InvalidFacts Bpe PreTokString SpecHist SpecPts PtsFacts SpecLoose.
Import GoBase NormString.
#[local] Open Scope Z_scope.

Definition sound (n : ns) : Prop := valid_utf8 (ns_orig n) = true ∧ zlen (ns_al n) = zlen (ns_norm n) ∧ Forall (span_ok (ns_orig n)) (ns_al n) ∧ StronglySorted before (ns_al n).

(** ** Order *)
Lemma sorted_before al i j a b : StronglySorted before al → i <= j → idx al i = Ret a → idx al j = Ret b → before a b.
Proof.
  intros Hs Hij Ha Hb. apply idx_lookup in Ha as [Hi Ha], Hb as [Hj Hb]. destruct (decide (i = j)) as [->|Hne]; [rewrite Ha in Hb; injection Hb as ->; by left|].
  eapply SS_lookup; [exact Hs| |exact Ha|exact Hb]. lia.
Qed.
Lemma in_idx {A} (l : list A) x : x ∈ l → ∃ k, idx l k = Ret x.
Proof. intros [k Hk]%elem_of_list_lookup. exists (Z.of_nat k). apply idx_lookup. split; [lia|]. by rewrite Nat2Z.id. Qed.
Lemma sub_idx {A} (l : list A) i j x k a : sub l i j = Ret x → idx x k = Ret a → idx l (i + k) = Ret a ∧ i <= i + k < j.
Proof.
  intros Hx Hk. pose proof (idx_bounds _ _ _ Hk). pose proof (sub_zlen _ _ _ _ Hx). apply sub_Ret in Hx as (y & z & -> & -> & Hj). split; [|lia].
  rewrite idx_app_r by lia. rewrite idx_app_l by lia. by replace (zlen y + k - zlen y) with k by lia.
Qed.
Lemma sound_al_sorted n : sound n → al_sorted (ns_al n).
Proof.
  intros (_ & _ & Hok & Hs) i j a b Ha Hb Hij. destruct Ha as [[-> ->]|Ha].
  - destruct Hb as [[-> ->]|Hb]; [apply before_refl|]. right. cbn. rewrite Forall_forall in Hok. apply idx_lookup in Hb as [_ Hb]. apply elem_of_list_lookup_2, Hok, span_ok_nonneg in Hb. lia.
  - destruct Hb as [[-> ->]|Hb]; [apply idx_bounds in Ha; lia|]. by eapply sorted_before.
Qed.
Lemma sound_al_ok n j a : sound n → al_at (ns_al n) j a → span_ok (ns_orig n) a.
Proof.
  intros (Hv & _ & Hok & _) [[-> ->]|Ha]; [by apply span_ok_00|]. rewrite Forall_forall in Hok. apply Hok. apply idx_lookup in Ha as [_ Ha]. by eapply elem_of_list_lookup_2.
Qed.

(** ** TransformRange *)
Lemma splice_sound n s e w ab aa nb na : sound n → Forall (λ a, ∃ j, s - 1 <= j < e ∧ al_at (ns_al n) j a) w.*2 → StronglySorted before w.*2 → s <= e →
  sub (ns_al n) 0 s = Ret ab → sub (ns_al n) e (zlen (ns_al n)) = Ret aa → sub (ns_norm n) 0 s = Ret nb → sub (ns_norm n) e (zlen (ns_norm n)) = Ret na →
  sound (NS (ns_orig n) (nb ++ encode w.*1 ++ na) (ab ++ spans_of w ++ aa) (ns_shift n)).
Proof.
  intros Hn Hw Hs Hse Hab Haa Hnb Hna. pose proof (sound_al_sorted n Hn) as Hso. pose proof Hn as (Hv & Hl & Hok & Hss). rewrite Forall_forall in Hw, Hok.
  assert (Wat : ∀ a, a ∈ spans_of w → ∃ j, s - 1 <= j < e ∧ al_at (ns_al n) j a).
  { intros a Ha. apply in_idx in Ha as [k Hk]. apply idx_spans_in in Hk. by apply Hw. }
  assert (Bat : ∀ a, a ∈ ab → ∃ j, j < s ∧ al_at (ns_al n) j a).
  { intros a Ha. apply in_idx in Ha as [k Hk]. destruct (sub_idx _ _ _ _ _ _ Hab Hk) as [H1 H2]. exists (0 + k). split; [lia|by right]. }
  assert (Aat : ∀ a, a ∈ aa → ∃ j, e <= j ∧ al_at (ns_al n) j a).
  { intros a Ha. apply in_idx in Ha as [k Hk]. destruct (sub_idx _ _ _ _ _ _ Haa Hk) as [H1 H2]. exists (e + k). split; [lia|by right]. }
  split; [done|]. cbn [ns_al ns_norm ns_orig]. split.
  { rewrite !zlen_app, zlen_spans. unfold alen. apply sub_zlen in Hab, Haa, Hnb, Hna. lia. }
  split.
  - apply Forall_app. split; [|apply Forall_app; split]; apply Forall_forall; intros a Ha.
    + apply Bat in Ha as (j & _ & Hj). by eapply sound_al_ok.
    + apply Wat in Ha as (j & _ & Hj). by eapply sound_al_ok.
    + apply Aat in Ha as (j & _ & Hj). by eapply sound_al_ok.
  - apply SS_app. split; [|split; [apply SS_app; split; [|split]|]].
    + apply sub_Ret in Hab as (p & q & Heq & _). rewrite Heq in Hss. apply SS_app in Hss as (_ & Hss & _). by apply SS_app in Hss as (Hss & _).
    + by apply spans_sorted.
    + apply sub_Ret in Haa as (p & q & Heq & _). rewrite Heq in Hss. apply SS_app in Hss as (_ & Hss & _). by apply SS_app in Hss as (Hss & _).
    + intros x y Hx Hy. apply Wat in Hx as (i & Hi & Hx). apply Aat in Hy as (j & Hj & Hy). eapply Hso; [exact Hx|exact Hy|lia].
    + intros x y Hx Hy. apply Bat in Hx as (i & Hi & Hx). apply elem_of_app in Hy as [Hy|Hy].
      * apply Wat in Hy as (j & Hj & Hy). eapply Hso; [exact Hx|exact Hy|lia].
      * apply Aat in Hy as (j & Hj & Hy). eapply Hso; [exact Hx|exact Hy|lia].
Qed.

(** TransformRange where its loop can be read as reading [rs], no longer than what is left of the range, or nothing comes after the range. *)
Lemma transform_range_sound n r dest off n' s e ok : sound n → coerce_to_norm n r = ((s, e), ok) →
  (ok = true → e = zlen (ns_norm n) ∨ ∀ x, sub (ns_norm n) (s + off) e = Ret x →
     ∃ rs, zlen (encode rs) <= e - s - off ∧ tr_loop (ns_al n) dest (s + off) (runes x) = tr_loop (ns_al n) dest (s + off) rs) →
  transform_range n r dest off = Ret n' → sound n'.
Proof.
  intros Hn Hc Hfit H. unfold transform_range in H. rewrite Hc in H. destruct ok; [|by injection H as <-]. cbn [negb] in H. specialize (Hfit eq_refl).
  apply bind_Ret in H as (rep & Hrep & H). apply bind_Ret in H as (r0 & Hr0 & H). apply bind_Ret in H as (rest & Hrest & H). apply bind_Ret in H as ([A B] & Hx & H).
  apply bind_Ret in H as (ab & Hab & H). apply bind_Ret in H as (aa & Haa & H). apply bind_Ret in H as (nb & Hnb & H). apply bind_Ret in H as (na & Hna & H). injection H as <-. cbn [fst snd].
  pose proof (sub_bounds _ _ _ _ Hrep) as B1. pose proof (sub_bounds _ _ _ _ Hr0) as B2. pose proof (sub_zlen _ _ _ _ Hrep) as L1. pose proof (sub_zlen _ _ _ _ Hr0) as L2.
  pose proof (sound_al_sorted n Hn) as Hso. pose proof Hn as (_ & Hl & _ & _).
  replace (zlen r0 + s) with (s + off) in Hx by lia. assert (H0 : 0 <= s + off) by lia.
  assert (Hw : ∃ w, A = spans_of w ∧ B = encode w.*1 ∧ StronglySorted before w.*2 ∧ Forall (λ a, ∃ j, s - 1 <= j < e ∧ al_at (ns_al n) j a) w.*2).
  { destruct Hfit as [He|Hfit].
    - destruct (tr_loop_general _ _ _ _ _ _ Hso H0 Hx) as (w & -> & -> & _ & Hs & Hw). exists w. split; [done|]. split; [done|]. split; [done|].
      eapply Forall_impl; [exact Hw|]. cbn. intros a (j & Hj & Ha). exists j. split; [|done]. destruct Ha as [[-> _]|Ha]; [|apply idx_bounds in Ha; lia].
      lia.
    - assert (Hsub : sub (ns_norm n) (s + off) e = Ret rest).
      { apply sub_Ret in Hrep as (p & q & Heq & Hp & Hq). apply sub_Ret in Hrest as (p2 & q2 & Heq2 & Hp2 & Hq2). rewrite Heq, Heq2.
        rewrite Heq2, !zlen_app in L1. rewrite Heq2, !zlen_app in Hq2. assert (q2 = []) as -> by (destruct q2; [done|]; rewrite zlen_cons in Hq2; pose proof (zlen_nonneg q2); lia).
        rewrite app_nil_r. change (zlen (@nil Z)) with 0 in *. rewrite <- !app_assoc. rewrite (app_assoc p). apply sub_app3; rewrite ?zlen_app; lia. }
      destruct (Hfit _ Hsub) as (rs & Hrs & Heq). rewrite Heq in Hx.
      destruct (tr_loop_general _ _ _ _ _ _ Hso H0 Hx) as (w & -> & -> & _ & Hs & Hw). exists w. split; [done|]. split; [done|]. split; [done|].
      eapply Forall_impl; [exact Hw|]. cbn. intros a (j & Hj & Ha). exists j. split; [lia|done]. }
  destruct Hw as (w & -> & -> & Hs & Hw). eapply splice_sound; [exact Hn|exact Hw|exact Hs|lia|done..].
Qed.

Lemma transform_sound n dest off n' : sound n → transform n dest off = Ret n' → sound n'.
Proof. intros Hn H. unfold transform in H. eapply transform_range_sound with (1 := Hn) (4 := H); [reflexivity|]. intros _. left. done. Qed.

(** ** Prepend *)
Lemma tr_inserts_rs al dest off rs rs' : Forall (λ p : Z * Z, p.2 = 1) dest → tr_loop al dest off rs = tr_loop al dest off rs'.
Proof.
  intros H. revert off. induction H as [|[r c] dest Hc H IH]; intros off; [done|]. cbn in Hc. subst c. cbn [tr_loop]. change (1 <=? 1) with true. change (1 <=? 0) with false. change (1 <=? -1) with false. cbv iota.
  destruct (if off <? 1 then _ else _); [|done]. cbn [mbind outcome_bind]. by rewrite IH.
Qed.
Lemma positions_shape i d : 0 <= i → Forall (λ p : Z * Z, 1 <= p.2) d → Forall (λ p : Z * Z, 0 <= p.1) (positions i d).
Proof. intros Hi H. revert i Hi. induction H as [|[r w] d Hw H IH]; intros i Hi; cbn [positions]; constructor; [done|]. cbn in Hw. apply IH. lia. Qed.
Lemma prepend_changes_shape s : prepend_changes s = [] ∨ ∃ r l, prepend_changes s = (r, 0) :: l ∧ Forall (λ p : Z * Z, p.2 = 1) l.
Proof.
  unfold prepend_changes, range_str. pose proof (decode_widths_pos s) as H. destruct H as [|[r w] d Hw H]; [by left|]. right. cbn [positions map]. change (0 <? 0) with false. cbv iota.
  exists r, (map (λ '(i, r0), (r0, if 0 <? i then 1 else 0)) (positions (0 + w) d)). split; [done|]. cbn in Hw.
  assert (Hi : 1 <= 0 + w) by lia. revert Hi. generalize (0 + w). clear Hw. induction H as [|[q v] d Hv H IH]; intros i Hi; cbn [positions map]; constructor; [cbn; by replace (0 <? i) with true by lia|]. cbn in Hv. apply IH. lia.
Qed.
(** The first rune of a prefix that is as long as the first rune says. *)
Lemma head_fits s r x q qs : idx (runes s) 0 = Ret r → sub s 0 (rune_len r) = Ret x → runes x = q :: qs → rune_len q <= rune_len r.
Proof.
  intros Hr Hx Hq. pose proof (sub_zlen _ _ _ _ Hx) as Hl. apply sub_Ret in Hx as (p0 & p1 & Hs & Hp & _).
  assert (p0 = []) as -> by (destruct p0; [done|]; rewrite zlen_cons in Hp; pose proof (zlen_nonneg p0); lia). cbn [app] in Hs.
  unfold runes in Hq. destruct (decode x) as [|[q' w] d] eqn:Ed; [done|]. rewrite fmap_cons in Hq. injection Hq as -> _.
  destruct (decide ((q, w) = (rune_error, 1))) as [[= -> ->]|Hgood].
  - change (rune_len rune_error) with 3. unfold runes in Hr. destruct (decode s) as [|[r' v] ds] eqn:Es; [done|]. rewrite fmap_cons in Hr. cbn in Hr. injection Hr as ->.
    destruct (decide ((r, v) = (rune_error, 1))) as [[= -> ->]|Hg]; [done|].
    destruct (decode_good _ _ _ _ Es Hg) as (s' & Hs' & _). rewrite Hs in Hs'.
    assert (x = encode_rune r) as ->. { apply app_inj_1 in Hs' as [? _]; [done|]. unfold rune_len, zlen in Hl. lia. }
    pose proof (runes_encode [r]) as He. cbn [encode flat_map] in He. rewrite app_nil_r in He. unfold runes in He. rewrite Ed in He. rewrite fmap_cons in He. cbn [map] in He. injection He as He _.
    exfalso. rewrite <- (encode_rune_sanitize r), <- He in Ed. discriminate Ed.
  - destruct (decode_good _ _ _ _ Ed Hgood) as (x' & -> & _). rewrite zlen_app in Hl. unfold rune_len in Hl |- *. pose proof (zlen_nonneg x'). lia.
Qed.
Lemma prepend_sound n p n' : sound n → prepend n p = Ret n' → sound n'.
Proof.
  intros Hn H. unfold prepend in H. destruct (zlen (ns_norm n) =? 0); [by injection H as <-|]. apply bind_Ret in H as (r & Hr & H).
  eapply transform_range_sound with (1 := Hn) (4 := H); [reflexivity|]. intros _. right. intros x Hx. rewrite Z.add_0_l in *.
  destruct (prepend_changes_shape p) as [->|(c & l & -> & Hl)]; cbn [app].
  - exists []. split; [change (zlen (encode [])) with 0; pose proof (rune_len_bounds r); lia|]. apply tr_inserts_rs. by repeat constructor.
  - destruct (runes x) as [|q qs] eqn:Eq.
    + exists []. split; [change (zlen (encode [])) with 0; pose proof (rune_len_bounds r); lia|done].
    + exists [q]. split; [rewrite zlen_encode_cons; change (zlen (encode [])) with 0; pose proof (head_fits _ _ _ _ _ Hr Hx Eq); lia|].
      cbn [tr_loop]. change (1 <=? 0) with false. change (0 <=? 0) with true. change (0 <=? -1) with false. cbv iota. destruct (idx (ns_al n) 0); [|done]. cbn [mbind outcome_bind].
      rewrite (tr_inserts_rs _ _ _ qs []); [done|]. apply Forall_app. split; [done|]. by repeat constructor.
Qed.

(** ** Append *)
Lemma append_sound n p n' : sound n → append n p = Ret n' → sound n'.
Proof.
  intros Hn H. unfold append in H. destruct (zlen (ns_norm n) =? 0); [by injection H as <-|]. apply bind_Ret in H as (r & Hr & H).
  eapply transform_range_sound with (1 := Hn) (4 := H); [reflexivity|]. intros _. by left.
Qed.

(** ** Replace *)
Lemma replace_loop_sound cs content : ∀ n off n', sound n → replace_loop n cs content off = Ret n' → sound n'.
Proof.
  induction cs as [|c cs IH]; intros n off n' Hn H; cbn [replace_loop] in H; [by injection H as <-|].
  destruct (negb (c_match c)); [by eapply IH|]. apply bind_Ret in H as (m & Hm & H). apply bind_Ret in H as (n1 & H1 & H). eapply IH; [|exact H].
  eapply transform_range_sound with (1 := Hn) (4 := H1); [reflexivity|]. intros _. right. intros x Hx. exists []. apply sub_bounds in Hx. split; [change (zlen (encode [])) with 0; lia|].
  apply tr_inserts_rs. apply Forall_map. by apply Forall_true.
Qed.

(** ** Slices: a slice looks at the alignments and at the original only *)
Definition flat (n : ns) : ns := NS (ns_orig n) (repeat 97 (length (ns_norm n))) (ns_al n) (ns_shift n).
Definition flat_text (al : list (Z * Z)) : list (Z * (Z * Z)) := map (λ a, (97, a)) al.
Lemma flat_text_props al : (flat_text al).*2 = al ∧ spans_of (flat_text al) = al ∧ (flat_text al).*1 = repeat 97 (length al) ∧ encode (repeat 97 (length al)) = repeat 97 (length al).
Proof.
  induction al as [|a al (IH1 & IH2 & IH3 & IH4)]; [done|]. cbn [flat_text map]. fold (flat_text al). rewrite !fmap_cons, spans_of_cons, IH1, IH2, IH3. cbn [length repeat]. rewrite encode_cons, IH4. done.
Qed.
Lemma flat_wf n : sound n → wf_as (flat n) (flat_text (ns_al n)).
Proof.
  intros (Hv & Hl & Hok & Hs). destruct (flat_text_props (ns_al n)) as (H1 & H2 & H3 & H4). split; [split; [|split]|split; [done|]].
  - rewrite H3. apply Forall_forall. intros r Hr. apply elem_of_list_In, repeat_spec in Hr. by subst r.
  - rewrite H3, H4. cbn [flat ns_norm]. f_equal. unfold zlen in Hl. lia.
  - by rewrite H2.
  - split; by rewrite H1.
Qed.
Lemma sound_of_flat n : zlen (ns_al n) = zlen (ns_norm n) → wf (flat n) → sound n.
Proof.
  intros Hl (v & (_ & _ & Ha) & Hv & Hok & Hs). cbn [flat ns_al ns_orig] in *. split; [done|]. split; [done|]. rewrite Ha. split; [|by apply spans_sorted].
  apply Forall_forall. intros a Hin. apply in_idx in Hin as [k Hk]. apply idx_spans_in in Hk. rewrite Forall_forall in Hok. by apply Hok.
Qed.
Lemma flat_len n : zlen (ns_norm (flat n)) = zlen (ns_norm n).
Proof. unfold zlen. cbn [flat ns_norm]. by rewrite repeat_length. Qed.
Lemma boundary_in_range s i : is_rune_boundary s i = Ret true → 0 <= i <= zlen s.
Proof.
  unfold is_rune_boundary. pose proof (zlen_nonneg s). destruct ((i =? 0) || (i =? zlen s)) eqn:E; [intros _; lia|]. destruct ((i <? 0) || (zlen s <? i)) eqn:E2; [done|]. intros _. lia.
Qed.
Lemma flat_boundary n i : 0 <= i <= zlen (ns_norm n) → is_rune_boundary (ns_norm (flat n)) i = Ret true.
Proof.
  intros Hi. unfold is_rune_boundary. rewrite flat_len. destruct ((i =? 0) || (i =? zlen (ns_norm n))) eqn:E; [done|]. replace ((i <? 0) || (zlen (ns_norm n) <? i)) with false by lia.
  cbn [flat ns_norm]. rewrite idx_repeat; [done|]. unfold zlen in *. lia.
Qed.
Lemma flat_norm n r : coerce_to_norm (flat n) r = coerce_to_norm n r.
Proof. destruct r as [a b|a b]; [|done]. unfold coerce_to_norm, ns_len. by rewrite flat_len. Qed.
Lemma flat_orig n r : coerce_to_orig (flat n) r = coerce_to_orig n r.
Proof. destruct r as [a b|a b]; [done|]. unfold coerce_to_orig, ns_orig_len. by rewrite flat_len. Qed.
Lemma flat_slice n r n' : zlen (ns_al n) = zlen (ns_norm n) → slice n r = Ret (Some n') → zlen (ns_al n') = zlen (ns_norm n') ∧ slice (flat n) r = Ret (Some (flat n')).
Proof.
  intros Hl H. unfold slice in H |- *. apply bind_Ret in H as (b & Hb & H). destruct b; [|done]. cbn [negb] in H.
  assert (range_is_valid (flat n) r = Ret true) as ->.
  { unfold range_is_valid in Hb |- *. destruct r as [x y|x y]; [done|]. cbn [r_start r_end] in *. apply bind_Ret in Hb as ([|] & H1 & H2); [|done].
    rewrite (flat_boundary n x) by (by apply boundary_in_range). cbn [mbind outcome_bind]. apply flat_boundary. by apply boundary_in_range. }
  cbn [mbind outcome_bind negb]. rewrite flat_norm, flat_orig. unfold get_original_range, get_range in *. rewrite flat_norm, flat_orig.
  destruct (coerce_to_norm n r) as [[s e] ok]. destruct ok; [|done]. cbn [negb] in *. apply bind_Ret in H as ([[os oe] ok] & Ho & H). rewrite Ho in *. destruct ok; [|done]. cbn [mbind outcome_bind negb] in *.
  apply bind_Ret in H as (o & Hor & H). apply bind_Ret in Hor as (o' & Hor & [= <-]). cbn [ns_orig flat]. rewrite Hor. cbn [mbind outcome_bind].
  apply bind_Ret in H as (m & Hm & H). apply bind_Ret in Hm as (m' & Hm & [= <-]). apply bind_Ret in H as (als & Hals & [= <-]). cbn [default ns_al ns_norm ns_orig ns_shift].
  pose proof (sub_bounds _ _ _ _ Hm) as B. pose proof (sub_zlen _ _ _ _ Hm) as L. pose proof (sub_zlen _ _ _ _ Hals) as L2.
  change (ns_norm (flat n)) with (repeat 97 (length (ns_norm n))). change (ns_al (flat n)) with (ns_al n).
  assert (sub (repeat 97 (length (ns_norm n))) s e = Ret (repeat 97 (length m'))) as ->.
  { replace (length (ns_norm n)) with (Z.to_nat s + (length m' + Z.to_nat (zlen (ns_norm n) - e)))%nat by (unfold zlen in *; lia). rewrite !repeat_app.
    apply sub_app3; unfold zlen in *; rewrite ?repeat_length; lia. }
  cbn [mbind outcome_bind default]. rewrite Hals. cbn [mbind outcome_bind]. split; [|done]. unfold zlen in *. rewrite map_length. lia.
Qed.
Lemma slice_sound n r n' : sound n → slice n r = Ret (Some n') → sound n'.
Proof.
  intros Hn H. pose proof Hn as (_ & Hl & _). destruct (flat_slice n r n' Hl H) as [H1 H2]. apply sound_of_flat; [done|]. eapply slice_wf; [|exact H2]. eexists. by apply flat_wf.
Qed.
Lemma cut_sound n ms l n' : sound n → cut n ms = Ret (Ok l) → n' ∈ l → sound n'.
Proof.
  intros Hn. revert l. induction ms as [|[[s e] rm] ms IH]; intros l H Hin; cbn [cut] in H; [injection H as <-; by apply elem_of_nil in Hin|].
  destruct rm; [by eapply IH|]. apply bind_Ret in H as ([p|] & Hp & H); [|done]. apply bind_Ret in H as ([l'|] & Hl & H); [|done]. injection H as <-.
  apply elem_of_cons in Hin as [->|Hin]; [by eapply slice_sound|by eapply IH].
Qed.

(** ** Histories *)
Lemma loose_edit_sound n n' : sound n → loose_edit n n' → sound n'.
Proof.
  intros Hn H. destruct H as [f n' H|keep n' H|l r n' H|p n' H|p n' H|p content n' H|dest off n' H|r dest off n' s e ok Hc Hf H|r n' H|p b l n' H Hin].
  - by eapply transform_sound.
  - by eapply transform_sound.
  - unfold trim_left_right in H. destruct (_ && _); [by injection H as <-|]. by eapply transform_sound.
  - by eapply prepend_sound.
  - by eapply append_sound.
  - unfold replace in H. apply bind_Ret in H as ([cs|] & Hcs & H); [|done]. apply bind_Ret in H as (n1 & H & [= <-]). by eapply replace_loop_sound.
  - by eapply transform_sound.
  - eapply transform_range_sound with (1 := Hn) (2 := Hc) (4 := H). intros Hok. destruct (Hf Hok) as [He|(rs & Ht)]; [by left|]. right. intros x Hx.
    apply text_at_sub in Ht. rewrite Ht in Hx. injection Hx as <-. exists (runes (encode rs)). split; [|done]. rewrite runes_encode, encode_sanitize. apply sub_zlen in Ht. lia.
  - by eapply slice_sound.
  - unfold split in H. apply bind_Ret in H as ([cs|] & Hcs & H); [|done]. by eapply cut_sound.
Qed.
Lemma wf_sound n : wf n → sound n.
Proof.
  intros (v & (_ & Hn & Ha) & Hv & Hok & Hs). split; [done|]. rewrite Ha, Hn, zlen_spans. split; [done|]. split; [|by apply spans_sorted].
  apply Forall_forall. intros a Hin. apply in_idx in Hin as [k Hk]. apply idx_spans_in in Hk. rewrite Forall_forall in Hok. by apply Hok.
Qed.
Lemma loosely_sound n : loosely_reachable n → sound n.
Proof.
  intros (rs & Hs & H). assert (Hw : sound (from_string (encode rs))) by (apply wf_sound; eexists; by apply from_string_wf).
  revert Hw. induction H as [|x y z Hxy _ IH]; [done|]. intros Hx. apply IH. by eapply loose_edit_sound.
Qed.
Lemma sound_invariants n : sound n → byte_invariants n.
Proof.
  intros Hn. pose proof Hn as (Hv & Hl & Hok & Hs). split; [done|]. split; [done|]. split.
  - intros i a Hi. assert (Ho : span_ok (ns_orig n) a) by (eapply sound_al_ok; [done|right; exact Hi]). pose proof (span_ok_nonneg _ _ Ho). destruct Ho as (_ & H1 & H2). repeat split; (done || lia).
  - intros i j a b Hij Hi Hj. by eapply sorted_before.
Qed.
Lemma flat_alignments n : original_alignments (flat n) = original_alignments n.
Proof. done. Qed.

(** ** Pre-tokenized strings *)
Lemma rooted_same_or_slice root n n' : same_origin n n' ∨ (∃ r, slice n r = Ret (Some n')) → rooted root n → rooted root n'.
Proof.
  intros [H|[r H]]; unfold rooted.
  - destruct H as [-> ->]. done.
  - intros Hr. destruct (slice_origin _ _ _ H) as (a & b & Ht & ->). pose proof (text_at_trans _ _ _ _ _ _ _ Hr Ht) as H2.
    destruct Ht as (p & q & _ & -> & ->). by rewrite <- Z.add_assoc.
Qed.
Lemma cut_slices n ms l n' : cut n ms = Ret (Ok l) → n' ∈ l → ∃ r, slice n r = Ret (Some n').
Proof.
  revert l. induction ms as [|[[s e] rm] ms IH]; intros l H Hin; cbn [cut] in H; [injection H as <-; by apply elem_of_nil in Hin|].
  destruct rm; [by eapply IH|]. apply bind_Ret in H as ([p|] & Hp & H); [|done]. apply bind_Ret in H as ([l'|] & Hl & H); [|done]. injection H as <-.
  apply elem_of_cons in Hin as [->|Hin]; [by eexists|by eapply IH].
Qed.
Lemma loose_same_or_slice n n' : loose_edit n n' → same_origin n n' ∨ ∃ r, slice n r = Ret (Some n').
Proof.
  intros H. destruct H as [f n' H|f n' H|l r n' H|p n' H|p n' H|p c n' H|d o n' H|r d o n' s e ok _ _ H|r n' H|p b l n' H Hin];
    [left; by eapply transform_range_origin|left; by eapply transform_range_origin|left|left|left|left
    |left; by eapply transform_range_origin|left; by eapply transform_range_origin|right; eauto|right].
  - unfold trim_left_right in H. destruct (_ && _) in H; [by injection H as <-|]. by eapply transform_range_origin.
  - unfold prepend in H. destruct (_ =? _) in H; [by injection H as <-|]. apply bind_Ret in H as (x & _ & H). by eapply transform_range_origin.
  - unfold append in H. destruct (_ =? _) in H; [by injection H as <-|]. apply bind_Ret in H as (x & _ & H). by eapply transform_range_origin.
  - unfold replace in H. apply bind_Ret in H as ([cs'|er] & _ & H); [|done]. apply bind_Ret in H as (m & H & [= <-]). by eapply replace_loop_origin.
  - unfold split in H. apply bind_Ret in H as ([cs|] & Hcs & H); [|done]. by eapply cut_slices.
Qed.
Lemma loose_keep root n n' : rtc loose_edit n n' → sound n ∧ rooted root n → sound n' ∧ rooted root n'.
Proof.
  induction 1 as [|x y z Hxy _ IH]; [done|]. intros [H1 H2]. apply IH. split; [by eapply loose_edit_sound|]. eapply rooted_same_or_slice; [by apply loose_same_or_slice|done].
Qed.
Definition loosely_good (root : list Z) (p : pts) : Prop := p_original p = root ∧ Forall (λ x, sound (sp_ns x) ∧ rooted root (sp_ns x)) (p_splits p).
Lemma loose_step_good root p p' : loose_step p p' → loosely_good root p → loosely_good root p'.
Proof.
  intros H [Ho Hg]. destruct H as [St f st st' p' e Hf H|St f st st' p' e Hf H|St f st st' p' e Hf H].
  - unfold pts_split in H. apply bind_Ret in H as ([[s old] new] & H & E).
    assert (Hs : ∀ st i n st' n' r, f st i n = Ret (st', n', r) → sound n ∧ rooted root n →
      (sound n' ∧ rooted root n') ∧ ∀ l, r = Ok l → Forall (λ x, sound (sp_ns x) ∧ rooted root (sp_ns x)) l).
    { intros st0 i n st1 n1 r Hr Hn. destruct (Hf _ _ _ _ _ _ (sound_invariants _ (proj1 Hn)) Hr) as [H1 H2]. split; [exact (loose_keep root _ _ H1 Hn)|].
      intros l Hl. pose proof (H2 l Hl) as H3. eapply Forall_impl; [exact H3|]. intros x Hx. exact (loose_keep root _ _ Hx Hn). }
    destruct (split_loop_inv f (λ n, sound n ∧ rooted root n) _ _ _ _ _ _ Hs H Hg) as [H1 H2].
    destruct new as [l|er]; injection E as <- <- <-; (split; [done|]); [by apply H2|done].
  - unfold pts_normalize in H. apply bind_Ret in H as ([[s l] er] & H & E). injection E as <- <- <-. split; [done|].
    eapply (normalize_loop_inv f (λ n, sound n ∧ rooted root n)); [|done|done]. intros ? ? ? ? ? Hr Hn. eapply loose_keep; [|exact Hn]. eapply Hf; [exact (sound_invariants _ (proj1 Hn))|exact Hr].
  - unfold pts_tokenize in H. apply bind_Ret in H as ([[s l] er] & H & E). injection E as <- <- <-. split; [done|].
    eapply (tokenize_loop_inv f (λ n, sound n ∧ rooted root n)); [|done|done]. intros ? ? ? ? ? Hr Hn. eapply loose_keep; [|exact Hn]. eapply Hf; [exact (sound_invariants _ (proj1 Hn))|exact Hr].
Qed.
Lemma loosely_reachable_good p : loosely_reachable_pts p → ∃ rs, scalars rs ∧ loosely_good (encode rs) p.
Proof.
  intros (rs & Hs & H). exists rs. split; [done|].
  assert (loosely_good (encode rs) (pts_from_string (encode rs))) as Hg.
  { split; [done|]. constructor; [|done]. cbn [sp_ns]. split; [apply wf_sound; eexists; by apply from_string_wf|]. exists [], []. cbn. rewrite app_nil_r. done. }
  revert Hg. induction H as [|x y z Hxy _ IH]; [done|]. intros Hg. apply IH. by eapply loose_step_good.
Qed.

(** IntoEncoding looks at the alignments and the originals only. *)
Definition flat_split (x : psplit) : psplit := PSplit (flat (sp_ns x)) (sp_tokens x).
Lemma flat_encode_tokens n w ty ts : encode_tokens (flat n) w ty ts = encode_tokens n w ty ts.
Proof. induction ts as [|t ts IH]; cbn [encode_tokens]; [done|]. rewrite flat_orig. by rewrite IH. Qed.
Lemma flat_encode_splits wi ty i l : encode_splits wi ty i (map flat_split l) = encode_splits wi ty i l.
Proof. revert i. induction l as [|x l IH]; intros i; cbn [encode_splits map]; [done|]. cbn [flat_split sp_ns sp_tokens]. by rewrite flat_encode_tokens, IH. Qed.
Lemma flat_all_tokens i l : all_tokens i (map flat_split l) = map (λ x, (x.1.1, flat x.1.2, x.2)) (all_tokens i l).
Proof. revert i. induction l as [|x l IH]; intros i; cbn [all_tokens map]; [done|]. rewrite map_app, IH, map_map. done. Qed.
