(** Laws between edits and slices of a NormalizedString. *)
From Coq Require Import ZifyBool Sorted.
From Verif Require Import GoBase Utf8Facts SliceFacts Strutils SplitPattern NormString SpecText SpecNorm SpecNormalizers NormFacts NormEdits NormInv NormSlice
  NormSplit RangeFacts ByteFacts NormalizersFacts TwiceFacts CommuteFacts PropsNorm Normalizers JsonFacts SpecAlgebra WordPieceFacts ByteFacts.
Import GoBase.
#[local] Open Scope Z_scope.

Lemma wf_runes n v : wf_as n v → runes (ns_norm n) = v.*1.
Proof. intros (Hr & _). by apply repr_runes. Qed.

Lemma same_ret n a b v : repr a v → repr b v → same_origin n a → same_origin n b → @Ret ns a = Ret b.
Proof. intros H1 H2 [H3 H4] [H5 H6]. f_equal. apply (same_ns b a v); [done|done|]. split; congruence. Qed.
Lemma origin_trans a b c : same_origin a b → same_origin b c → same_origin a c.
Proof. intros [? ?] [? ?]. split; congruence. Qed.

Lemma map_map n f g : wf n → (∀ r, scalar r = true → scalar (f r) = true) →
  (n' ← map_runes n f; map_runes n' g) = map_runes n (λ r, g (f r)).
Proof.
  intros (v & Hr & _) Hf. pose proof Hr as (Hs & _). destruct (map_runes_text n v f Hr) as (n1 & -> & _ & H1 & O1). cbn [mbind outcome_bind].
  destruct (map_runes_text n1 _ g H1) as (n2 & -> & _ & H2 & O2). destruct (map_runes_text n v (λ r, g (f r)) Hr) as (n3 & -> & _ & H3 & O3).
  eapply (same_ret n); [exact H2| |exact (origin_trans _ _ _ O1 O2)|exact O3]. rewrite List.map_map. cbn [fst snd].
  erewrite map_ext_in; [exact H3|]. intros p Hp. cbn beta. rewrite (sanitize_id (f p.1)); [done|]. apply Hf. unfold scalars in Hs. rewrite Forall_forall in Hs. apply Hs.
  apply elem_of_list_In in Hp. by apply (elem_of_list_fmap_1 fst).
Qed.
Lemma map_id n : wf n → map_runes n (λ r, r) = Ret n.
Proof.
  intros (v & Hr & _). pose proof Hr as (Hs & _). destruct (map_runes_text n v (λ r, r) Hr) as (n1 & -> & _ & H1 & O1). f_equal. eapply same_ns; [exact Hr| |done].
  erewrite map_ext_in in H1; [by rewrite List.map_id in H1|]. intros [x a] Hp. cbn. rewrite sanitize_id; [done|]. unfold scalars in Hs. rewrite Forall_forall in Hs. apply Hs.
  apply elem_of_list_In in Hp. by apply (elem_of_list_fmap_1 fst) in Hp.
Qed.

(** What is removed in front of the first kept character is ASCII, also if none is kept. *)
Lemma ascii_front_lead (keep : Z → bool) rs : ascii_front keep rs → ascii_lead (λ r, keep r = false) rs.
Proof. intros H l c r -> Hl _. by apply (H l (c :: r)). Qed.
Lemma ascii_front_and (p q : Z → bool) rs : ascii_front (λ r, p r && q r) rs → ascii_front p rs ∧ ascii_front q (base.filter (λ r, p r = true) rs).
Proof.
  intros H. split.
  - intros l r -> Hl. apply (H l r); [done|]. eapply Forall_impl; [exact Hl|]. by cbn; intros x ->.
  - intros l r E Hl. assert (∃ l' r', rs = l' ++ r' ∧ l = base.filter (λ r, p r = true) l') as (l' & r' & -> & ->).
    { clear -E. revert l E. induction rs as [|x rs IH]; intros l E.
      - destruct l; [|done]. by exists [], [].
      - rewrite filter_cons in E. destruct (decide (p x = true)) as [Hx|Hx].
        + destruct l as [|y l]; [by exists [], (x :: rs)|]. cbn [app] in E. injection E as <- E. destruct (IH l E) as (l' & r' & -> & ->).
          exists (x :: l'), r'. split; [done|]. by rewrite filter_cons, decide_True.
        + destruct (IH l E) as (l' & r' & -> & ->). exists (x :: l'), r'. split; [done|]. by rewrite filter_cons, decide_False. }
    assert (Forall (λ x, x < 128) l') as Hl'.
    { apply (H l' r'); [done|]. clear -Hl. induction l' as [|x l' IH]; [done|]. rewrite filter_cons in Hl. destruct (decide (p x = true)) as [Hx|Hx].
      - apply Forall_cons in Hl as [H1 H2]. constructor; [by rewrite H1, andb_false_r|auto].
      - constructor; [by destruct (p x)|auto]. }
    rewrite Forall_forall in Hl' |- *. intros x [_ Hx]%elem_of_list_filter. auto.
Qed.

Lemma filter_filter n p q : wf n → ascii_front (λ r, p r && q r) (runes (ns_norm n)) →
  (n' ← filter_runes n p; filter_runes n' q) = filter_runes n (λ r, p r && q r).
Proof.
  intros (v & Hwf) Hf. rewrite (wf_runes n v Hwf) in Hf. pose proof Hwf as (Hr & _). pose proof (ascii_front_and p q _ Hf) as [Hp Hq].
  destruct (filter_aligned n v p Hr) as (n1 & -> & H1 & O1); [by apply ascii_front_lead|]. cbn [mbind outcome_bind].
  assert (Ec : ∀ k : Z → bool, (base.filter (λ x : Z * (Z * Z), k x.1 = true) v).*1 = base.filter (λ r, k r = true) v.*1).
  { clear. intros k. induction v as [|x v IH]; [done|]. rewrite fmap_cons, !filter_cons. destruct (decide _); [|done]. rewrite fmap_cons. by f_equal. }
  destruct (filter_aligned n1 _ q H1) as (n2 & -> & H2 & O2); [apply ascii_front_lead; by rewrite Ec|].
  destruct (filter_aligned n v (λ r, p r && q r) Hr) as (n3 & -> & H3 & O3); [by apply ascii_front_lead|].
  eapply (same_ret n); [exact H2| |exact (origin_trans _ _ _ O1 O2)|exact O3].
  assert (E : base.filter (λ x, q x.1 = true) (base.filter (λ x, p x.1 = true) v) = base.filter (λ x, p x.1 && q x.1 = true) v); [|by rewrite E].
  clear. induction v as [|x v IH]; [done|]. rewrite !filter_cons. destruct (p x.1); cbn [andb].
  - rewrite decide_True by done. rewrite filter_cons, IH. by destruct (decide _).
  - rewrite !decide_False by done. done.
Qed.

(** Map and Filter: what is kept is decided after the replacement, or before it. *)
Lemma map_filter n f keep : wf n → (∀ r, scalar r = true → scalar (f r) = true) →
  ascii_front (λ r, keep (f r)) (runes (ns_norm n)) → ascii_front keep (map f (runes (ns_norm n))) →
  (n' ← map_runes n f; filter_runes n' keep) = (n' ← filter_runes n (λ r, keep (f r)); map_runes n' f).
Proof.
  intros (v & Hwf) Hsc H1 H2. rewrite (wf_runes n v Hwf) in *. pose proof Hwf as (Hr & _). pose proof Hr as (Hs & _).
  assert (Hid : ∀ x, x ∈ v → sanitize (f x.1) = f x.1).
  { intros x Hx. apply sanitize_id, Hsc. unfold scalars in Hs. rewrite Forall_forall in Hs. apply Hs. by apply (elem_of_list_fmap_1 fst). }
  destruct (map_runes_text n v f Hr) as (n1 & -> & _ & R1 & O1). cbn [mbind outcome_bind].
  destruct (filter_aligned n1 _ keep R1) as (n2 & -> & R2 & O2).
  { apply ascii_front_lead. assert (E : (map (λ p : Z * (Z * Z), (sanitize (f p.1), p.2)) v).*1 = map f v.*1); [|by rewrite E].
    clear -Hid. induction v as [|x v IH]; [done|]. cbn [map]. rewrite !fmap_cons. cbn [fst map]. rewrite Hid by apply elem_of_list_here. f_equal. apply IH.
    intros y Hy. apply Hid. by apply elem_of_list_further. }
  destruct (filter_aligned n v (λ r, keep (f r)) Hr) as (n3 & -> & R3 & O3); [by apply ascii_front_lead|]. cbn [mbind outcome_bind].
  destruct (map_runes_text n3 _ f R3) as (n4 & -> & _ & R4 & O4).
  eapply (same_ret n); [exact R2| |exact (origin_trans _ _ _ O1 O2)|exact (origin_trans _ _ _ O3 O4)].
  assert (E : base.filter (λ p, keep p.1 = true) (map (λ p : Z * (Z * Z), (sanitize (f p.1), p.2)) v) = map (λ p, (sanitize (f p.1), p.2)) (base.filter (λ p, keep (f p.1) = true) v)); [|by rewrite E].
  clear -Hid. induction v as [|x v IH]; [done|]. cbn [map]. rewrite !filter_cons. cbn [fst].
  rewrite Hid by apply elem_of_list_here. rewrite IH; [|intros y Hy; apply Hid; by apply elem_of_list_further].
  destruct (decide _); [|done]. cbn [map]. by rewrite Hid by apply elem_of_list_here.
Qed.

Lemma prepend_prepend n p q : wf n → p ≠ [] → q ≠ [] → valid_utf8 p = true → valid_utf8 q = true →
  (n' ← prepend n p; prepend n' q) = prepend n (q ++ p).
Proof.
  intros (v & Hr & _) Hp Hq Up Uq. destruct v as [|[x a] v].
  { assert (ns_norm n = []) as E by apply Hr. rewrite !prepend_empty_text by done. cbn [mbind outcome_bind]. by apply prepend_empty_text. }
  destruct (prepend_spec n x a v p Hr Hp) as (n1 & -> & R1 & O1). cbn [mbind outcome_bind].
  destruct (runes p) as [|y rp] eqn:Ep; [by apply runes_nil_inv in Ep|]. cbn [map app] in R1.
  destruct (prepend_spec n1 y a _ q R1 Hq) as (n2 & -> & R2 & O2).
  destruct (prepend_spec n x a v (q ++ p) Hr) as (n3 & -> & R3 & O3); [by destruct q|].
  eapply (same_ret n); [exact R2| |exact (origin_trans _ _ _ O1 O2)|exact O3].
  rewrite <- (valid_encode_runes p Up), <- (valid_encode_runes q Uq), <- encode_app in R3.
  rewrite runes_encode_scalars in R3 by (apply Forall_app; split; by apply runes_scalars).
  rewrite map_app, Ep in R3. cbn [map] in R3. by rewrite <- app_assoc in R3.
Qed.

Lemma append_append n p q : wf n → Forall (λ c, c < 128) (runes (ns_norm n)) → Forall (λ c, 0 <= c < 128) p → valid_utf8 q = true →
  (n' ← append n p; append n' q) = append n (p ++ q).
Proof.
  intros (v & Hwf) Ha Hp Uq. rewrite (wf_runes n v Hwf) in Ha. pose proof Hwf as (Hr & _). destruct (decide (v = [])) as [->|Hv].
  { assert (ns_norm n = []) as E by apply Hr. rewrite !append_empty_text by done. cbn [mbind outcome_bind]. by apply append_empty_text. }
  destruct (exists_last Hv) as (w & [x a] & ->). rewrite fmap_app in Ha. apply Forall_app in Ha as [Ha1 Ha2]. apply Forall_cons in Ha2 as [Ha2 _]. rewrite Forall_fmap in Ha1. cbn in Ha2.
  destruct (append_spec n w x a p Hr Ha1) as (n1 & -> & R1 & O1). cbn [mbind outcome_bind].
  destruct (append_spec n w x a (p ++ q) Hr Ha1) as (n2 & -> & R2 & O2).
  assert (Epq : runes (p ++ q) = p ++ runes q) by by apply runes_ascii_app.
  assert (Ep : runes p = p) by (pose proof (runes_ascii_app p [] Hp) as H; by rewrite !app_nil_r in H).
  rewrite Epq, map_app in R2. rewrite Ep in R1.
  destruct (decide (p = [])) as [->|Hpn].
  - cbn [map app] in R1, R2. destruct (append_spec n1 w x a q R1 Ha1) as (n3 & -> & R3 & O3). eapply (same_ret n); [exact R3|exact R2|exact (origin_trans _ _ _ O1 O3)|done].
  - destruct (exists_last Hpn) as (p' & y & ->). rewrite map_app in R1, R2. cbn [map] in R1, R2.
    apply Forall_app in Hp as [Hp1 Hp2].
    assert (R1' : repr n1 ((w ++ (x, a) :: map (λ r, (r, a)) p') ++ [(y, a)])) by (by rewrite <- app_assoc).
    destruct (append_spec n1 _ y a q R1') as (n3 & -> & R3 & O3).
    { apply Forall_app. split; [done|]. constructor; [done|]. apply Forall_map. eapply Forall_impl; [exact Hp1|]. cbn. lia. }
    eapply (same_ret n); [exact R3| |exact (origin_trans _ _ _ O1 O3)|done]. rewrite <- !app_assoc in R2 |- *. exact R2.
Qed.

Lemma trim_both n : wf n → ascii_lead (λ r, white_space r = true) (runes (ns_norm n)) →
  (n' ← trim_left_right n true false; trim_left_right n' false true) = trim_left_right n true true
  ∧ (n' ← trim_left_right n false true; trim_left_right n' true false) = trim_left_right n true true.
Proof.
  intros (v & Hwf) Hl. rewrite (wf_runes n v Hwf) in Hl. pose proof Hwf as (Hr & _).
  destruct (C09_trimmed_exists true true v) as (lead & mid & trail & -> & Ht). pose proof Ht as (W1 & W2 & M1 & M2). cbn beta iota in M1, M2.
  destruct (decide (mid = [])) as [->|Hm].
  - cbn [app] in Hr, Hl. destruct (trim_spec n true true (lead ++ trail) [] [] ) as (n0 & -> & R0 & O0).
    { by rewrite !app_nil_r. } { split; [by apply Forall_app|]. by split; [constructor|]. } { by right. }
    assert (Hempty : ∀ m l r, repr m [] → trim_left_right m l r = Ret m).
    { intros m l r Rm. destruct (trim_spec m l r [] [] []) as (m' & -> & Rm' & Om); [done| |by right|f_equal; by apply (same_ns m m' [])].
      split; [constructor|]. split; [constructor|]. by destruct l, r. }
    destruct (trim_spec n true false (lead ++ trail) [] []) as (n1 & -> & R1 & O1).
    { by rewrite !app_nil_r. } { split; [by apply Forall_app|]. by split; [constructor|]. } { by right. }
    destruct (trim_spec n false true [] [] (lead ++ trail)) as (n2 & -> & R2 & O2).
    { done. } { split; [constructor|]. split; [by apply Forall_app|]. done. } { by right. }
    cbn [mbind outcome_bind]. rewrite !Hempty by done. split; by eapply (same_ret n).
  - destruct (exists_last Hm) as (mid' & y & Ey). destruct mid as [|x mid1] eqn:Ex; [done|]. rewrite <- Ex in *.
    assert (A : Forall (λ p, p.1 < 128) lead).
    { specialize (Hl lead.*1 x.1 (mid1 ++ trail).*1). rewrite Forall_fmap in Hl. rewrite Forall_fmap in Hl. apply Hl.
      - rewrite Ex, !fmap_app. done.
      - exact W1.
      - by apply (M1 x mid1). }
    destruct (trim_spec n true true lead mid trail Hr Ht) as (n0 & -> & R0 & O0); [by left|].
    destruct (trim_spec n true false lead (mid ++ trail) []) as (n1 & -> & R1 & O1).
    { by rewrite app_nil_r. } { split; [done|]. split; [constructor|]. split; [|done]. intros p m E. rewrite Ex in E. cbn [app] in E. injection E as -> _. by apply (M1 p mid1). } { by left. }
    destruct (trim_spec n false true [] (lead ++ mid) trail) as (n2 & -> & R2 & O2).
    { by rewrite <- app_assoc. } { split; [constructor|]. split; [done|]. split; [done|]. intros p m E. rewrite Ey, app_assoc in E. apply app_inj_tail in E as [_ ->]. by apply (M2 p mid'). }
    { left. constructor. }
    cbn [mbind outcome_bind].
    destruct (trim_spec n1 false true [] mid trail) as (n3 & -> & R3 & O3).
    { done. } { split; [constructor|]. done. } { left. constructor. }
    destruct (trim_spec n2 true false lead mid []) as (n4 & -> & R4 & O4).
    { by rewrite app_nil_r. } { split; [done|]. split; [constructor|]. done. } { by left. }
    split; [eapply (same_ret n); [exact R3|exact R0|exact (origin_trans _ _ _ O1 O3)|done]|eapply (same_ret n); [exact R4|exact R0|exact (origin_trans _ _ _ O2 O4)|done]].
Qed.

(** ** Slices *)
Lemma split3 (v : list (Z * (Z * Z))) l m r : v.*1 = l ++ m ++ r → ∃ v1 v2 v3, v = v1 ++ v2 ++ v3 ∧ v1.*1 = l ∧ v2.*1 = m ∧ v3.*1 = r.
Proof.
  intros E. apply fmap_app_inv in E as (v1 & w & -> & E & ->). symmetry in E. apply fmap_app_inv in E as (v2 & v3 & -> & -> & ->). by exists v1, v2, v3.
Qed.
Lemma piece_fun n v p q : v ≠ [] → piece_of n v p → piece_of n v q → p = q.
Proof.
  intros Hv (P1 & P2 & _) (Q1 & Q2 & _). destruct (P2 Hv) as [P3 P4], (Q2 Hv) as [Q3 Q4]. apply (same_ns q p _ Q1 P1). split; [|congruence]. by eapply text_at_fun.
Qed.

Lemma recast_f f v : scalars v.*1 → (∀ c, scalar c = true → scalar (f c) = true) → (recast f v).*1 = map f v.*1.
Proof.
  intros Hs Hf. rewrite recast_chars. apply map_ext_in. intros c Hc%elem_of_list_In. apply sanitize_id, Hf. unfold scalars in Hs. rewrite Forall_forall in Hs. by apply Hs.
Qed.

Lemma slice_map n l m r f : wf n → (∀ c, scalar c = true → scalar (f c) = true) → runes (ns_norm n) = l ++ m ++ r → m ≠ [] →
  (p ← slice n (NRange (zlen (encode l)) (zlen (encode (l ++ m)))); match p with Some p => p' ← map_runes p f; Ret (Some p') | None => Ret None end)
  = (n' ← map_runes n f; slice n' (NRange (zlen (encode (map f l))) (zlen (encode (map f (l ++ m)))))).
Proof.
  intros Hw Hf E Hm. pose proof Hw as (v & Hwf). rewrite (wf_runes n v Hwf) in E. apply split3 in E as (v1 & v2 & v3 & -> & <- & <- & <-).
  assert (v2 ≠ []) as Hv2 by by intros ->. pose proof Hwf as (Hr & _). pose proof Hr as (Hs & _). rewrite !fmap_app, !scalars_app in Hs. destruct Hs as (Hs1 & Hs2 & Hs3).
  destruct (slice_chars n v1 v2 v3 Hwf Hv2) as (p & Hp & Pp). rewrite <- fmap_app. unfold alen in Hp. rewrite Hp. cbn [mbind outcome_bind].
  destruct (map_runes_text n _ f Hr) as (n' & En & _ & R & O). change (repr n' (recast f (v1 ++ v2 ++ v3))) in R. rewrite !recast_app in R.
  destruct (map_runes_wf n f n' Hw En) as [Hw' _]. pose proof (wf_repr _ _ Hw' R) as Hwf'. rewrite En. cbn [mbind outcome_bind].
  destruct (slice_chars n' _ _ _ Hwf') as (p2 & Hp2 & Pp2); [by rewrite recast_nil|]. unfold alen in Hp2. rewrite <- recast_app in Hp2.
  rewrite !recast_f in Hp2; [|rewrite fmap_app; by apply scalars_app|done|done|done]. rewrite Hp2.
  by rewrite (recast_piece f n n' v2 p p2 Hv2 O Pp Pp2).
Qed.

Lemma piece_piece n u1 v1 v2 v3 u3 p q : wf_as n (u1 ++ (v1 ++ v2 ++ v3) ++ u3) → v2 ≠ [] → piece_of n (v1 ++ v2 ++ v3) p →
  piece_of p (shift_spans (- first_start (v1 ++ v2 ++ v3)) v2) q → piece_of n v2 q.
Proof.
  intros Hwf Hv2 (P1 & P2 & _) (Q1 & Q2 & _). set (d := first_start (v1 ++ v2 ++ v3)) in *. destruct P2 as [P2 P3]; [by destruct v1; [destruct v2|]|].
  destruct Q2 as [Q2 Q3]; [by destruct v2|].
  assert (Ef : first_start (shift_spans (- d) v2) = first_start v2 - d) by (destruct v2 as [|[? ?] ?]; [done|]; cbn; lia).
  assert (El : last_end (shift_spans (- d) v2) = last_end v2 - d).
  { destruct (exists_last Hv2) as (w & [x a] & ->). unfold last_end, last_span, shift_spans. rewrite map_app, !fmap_app. cbn [map fmap list_fmap fst snd]. rewrite !last_snoc. cbn. lia. }
  rewrite Ef, El in *. split; [|split; [|done]].
  - assert (E : shift_spans (- (first_start v2 - d)) (shift_spans (- d) v2) = shift_spans (- first_start v2) v2); [|by rewrite <- E].
    unfold shift_spans. rewrite List.map_map. apply map_ext. intros [x [y z]]. cbn. do 2 f_equal; lia.
  - intros _. split; [|lia]. destruct P2 as (a & b & E & Ea & _), Q2 as (a' & b' & E' & Ea' & El'). exists (a ++ a'), (b' ++ b). rewrite E, E', <- !app_assoc. split; [done|]. rewrite zlen_app. lia.
Qed.

Lemma slice_slice n u l m r w : wf n → runes (ns_norm n) = u ++ l ++ m ++ r ++ w → m ≠ [] →
  (p ← slice n (NRange (zlen (encode u)) (zlen (encode (u ++ l ++ m ++ r))));
   match p with Some p => slice p (NRange (zlen (encode l)) (zlen (encode (l ++ m)))) | None => Ret None end)
  = slice n (NRange (zlen (encode (u ++ l))) (zlen (encode (u ++ l ++ m)))).
Proof.
  intros Hw E Hm. pose proof Hw as (v & Hwf). rewrite (wf_runes n v Hwf) in E.
  replace (u ++ l ++ m ++ r ++ w) with (u ++ (l ++ m ++ r) ++ w) in E by by rewrite <- !app_assoc.
  apply split3 in E as (v1 & v0 & v3 & -> & <- & E & <-). apply split3 in E as (w1 & w2 & w3 & -> & <- & <- & <-).
  assert (w2 ≠ []) as Hw2 by by intros ->. rewrite <- !fmap_app.
  destruct (slice_chars n v1 (w1 ++ w2 ++ w3) v3 Hwf) as (p & Hp & Pp); [by destruct w1; [destruct w2|]|]. unfold alen in Hp. rewrite Hp. cbn [mbind outcome_bind].
  pose proof (piece_wf n v1 (w1 ++ w2 ++ w3) v3 p Hwf Pp) as Hwp. set (d := - first_start (w1 ++ w2 ++ w3)) in *.
  assert (Ed : shift_spans d (w1 ++ w2 ++ w3) = shift_spans d w1 ++ shift_spans d w2 ++ shift_spans d w3) by (unfold shift_spans; by rewrite !map_app).
  rewrite Ed in Hwp. destruct (slice_chars p _ _ _ Hwp) as (q & Hq & Pq); [by destruct w2|]. unfold alen in Hq.
  assert (E2 : shift_spans d w1 ++ shift_spans d w2 = shift_spans d (w1 ++ w2)) by (unfold shift_spans; by rewrite map_app). rewrite E2 in Hq. rewrite !shift_spans_chars in Hq. rewrite Hq.
  assert (Hwf2 : wf_as n ((v1 ++ w1) ++ w2 ++ (w3 ++ v3))) by (revert Hwf; by rewrite <- !(app_assoc w1), <- !(app_assoc w2), <- !(app_assoc v1)).
  destruct (slice_chars n _ w2 _ Hwf2 Hw2) as (q2 & Hq2 & Pq2). unfold alen in Hq2. rewrite <- app_assoc in Hq2. rewrite Hq2. do 2 f_equal.
  eapply piece_fun; [exact Hw2| |exact Pq2]. by eapply piece_piece.
Qed.
