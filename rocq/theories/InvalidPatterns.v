(** Proofs about patterns on strings that are not valid UTF-8. *)
From Coq Require Import ZifyBool.
From Verif Require Import GoBase Utf8Facts Strutils SplitPattern NormString SpecText SpecNorm SpecInvalid SliceFacts PatternFacts NormFacts InvalidFacts.
Import GoBase.
#[local] Open Scope Z_scope.

Lemma ranges_of_app k a b : ranges_of k (a ++ b) = ranges_of k a ++ ranges_of k b.
Proof. unfold ranges_of. by rewrite filter_app, map_app. Qed.
Lemma covers_end i cs : ∀ l l', covers i cs l → covers i cs l' → l = l'.
Proof. revert i. induction cs as [|c cs IH]; intros i l l'; cbn [covers]; [lia|]. intros (_ & _ & H) (_ & _ & H'). by eapply IH. Qed.

(** ** Predicates *)
Lemma func_loop_ranges f d : ∀ i lo seen,
  ranges_of true (func_loop f (positions i d) lo seen)
  = map (λ x : Z * (Z * Z), (x.2.1, x.2.1 + rune_len x.1)) (base.filter (λ x, f x.1 = true) (places i d)).
Proof.
  induction d as [|[r w] d IH]; intros i lo seen; cbn [positions func_loop places].
  { by destruct (_ <? _). }
  rewrite filter_cons. cbn [fst]. destruct (f r) eqn:E; cbn [negb].
  - rewrite decide_True by done. rewrite ranges_of_app.
    change (ranges_of true (Capture i (i + rune_len r) true :: ?l)) with ((i, i + rune_len r) :: ranges_of true l).
    rewrite IH. by destruct (_ <? _).
  - rewrite decide_False by done. apply IH.
Qed.

Lemma places_right f d : ∀ i,
  Forall (λ p : Z * Z, p = (rune_error, 1) ∨ p.2 = rune_len p.1) d →
  map (λ x : Z * (Z * Z), (x.2.1, x.2.1 + rune_len x.1)) (base.filter (λ x, f x.1 = true) (places i d))
    = (base.filter (λ x, f x.1 = true) (places i d)).*2
  ↔ f rune_error = false ∨ (rune_error, 1) ∉ d.
Proof.
  induction d as [|[r w] d IH]; intros i Hd; cbn [places]. { split; [|done]. intros _. right. by apply not_elem_of_nil. }
  apply Forall_cons in Hd as [Hp Hd]. specialize (IH (i + w) Hd). rewrite filter_cons. cbn [fst]. rewrite not_elem_of_cons.
  destruct (f r) eqn:E.
  - rewrite decide_True by done. cbn [map]. rewrite fmap_cons. cbn [fst snd]. split.
    + intros H. injection H as H1 H2. apply IH in H2 as [H2|H2]; [by left|]. right. split; [|done]. intros [= <- <-].
      change (rune_len rune_error) with 3 in H1. lia.
    + intros H. assert (w = rune_len r) as <-.
      { destruct Hp as [[= -> ->]|Hp]; [|exact Hp]. destruct H as [H|[H _]]; [congruence|done]. }
      f_equal. apply IH. tauto.
  - rewrite decide_False by congruence. rewrite IH. split; [|tauto]. intros [H|H]; [by left|].
    destruct (decide ((rune_error, 1) = (r, w))) as [[= <- <-]|Hn]; [by left|by right].
Qed.

Lemma bad_in s : (rune_error, 1) ∉ decode s ↔ valid_utf8 s = true.
Proof.
  unfold valid_utf8. rewrite forallb_forall. split.
  - intros H [r w] Hin. apply negb_true_iff, andb_false_iff. destruct (Z.eqb_spec r rune_error), (Z.eqb_spec w 1); subst; try tauto.
    exfalso. apply H. by apply elem_of_list_In.
  - intros H Hin. apply elem_of_list_In in Hin. specialize (H _ Hin). discriminate H.
Qed.

Lemma func_pattern_right f s cs : s ≠ [] → func_pattern f s = Ret (Ok cs) →
  right_captures f s cs ↔ valid_utf8 s = true ∨ (f rune_error = false ∧ ¬ bad_end s).
Proof.
  intros Hs H. unfold func_pattern in H. destruct (Z.eqb_spec (zlen s) 0) as [E|E].
  { destruct s; [done|]. rewrite zlen_cons in E. pose proof (zlen_nonneg s). lia. }
  injection H as <-. unfold right_captures, range_str. rewrite func_loop_ranges.
  assert (Forall (λ p : Z * Z, p = (rune_error, 1) ∨ p.2 = rune_len p.1) (decode s)) as Hd.
  { eapply Forall_impl; [apply decode_props|]. by intros ? [_ ?]. }
  rewrite places_right by done. rewrite bad_in.
  assert (f rune_error = false → covers 0 (func_loop f (positions 0 (decode s)) 0 0) (zlen s) ↔ ¬ bad_end s) as Hcov.
  { intros Hf. pose proof (func_loop_bad f (decode s) 0 0 0 Hf (decode_props s)) as Hc.
    assert (decode s ≠ []) as Hn by (intros Hn; by apply decode_nil in Hn).
    specialize (Hc ltac:(lia) ltac:(lia) ltac:(by left) ltac:(done)). rewrite decode_widths in Hc.
    unfold bad_end. destruct (last (decode s)) as [x|] eqn:Hl; [|by apply last_None in Hl].
    destruct (decide (x = (rune_error, 1))) as [->|Hx].
    - split; [|done]. intros H. pose proof (covers_end _ _ _ _ H Hc). lia.
    - split; [congruence|]. intros _. by rewrite Z.add_0_r, Z.add_0_l in Hc. }
  split.
  - intros [H [Hf|Hv]]; [|by left]. right. split; [done|]. by apply Hcov.
  - intros [Hv|[Hf Hb]].
    + split; [|by right]. assert (Hsc := runes_scalars s).
      assert (encode (runes s) = s) as He. { by apply valid_encode_runes. }
      destruct (func_pattern_cover f (runes s) Hsc) as (cs & Hc & Hb & _). rewrite He in Hc, Hb.
      unfold func_pattern in Hc. destruct (Z.eqb_spec (zlen s) 0); [done|]. injection Hc as <-. exact Hb.
    + split; [|by left]. by apply Hcov.
Qed.

(** ** regexp2 *)
Lemma match_loop_ranges len ms : ∀ prev, ranges_of true (match_loop len ms prev) = ms.
Proof.
  induction ms as [|[a b] ms IH]; intros prev; cbn [match_loop]. { by destruct (negb _). }
  rewrite ranges_of_app. change (ranges_of true (Capture a b true :: ?l)) with ((a, b) :: ranges_of true l). rewrite IH.
  by destruct (negb _).
Qed.
Lemma match2_loop_shape rs len ms : ∀ k prev, matches2_ok rs k ms →
  match2_loop rs len ms None prev = Ret (Ok (match_loop len (map (match2_range rs) ms) prev)).
Proof.
  induction ms as [|[i t] ms IH]; intros k prev H; [done|]. cbn [matches2_ok] in H. destruct H as (a & x & b & -> & -> & _ & -> & H).
  cbn [match2_loop map]. unfold match2_bytes. cbn [fst snd]. rewrite sub_prefix by done. cbn [mbind outcome_bind fst snd].
  rewrite (IH _ _ H). cbn [mbind outcome_bind]. unfold match2_range at 2. cbn [fst snd].
  assert (take (Z.to_nat (zlen a)) (a ++ x ++ b) = a) as -> by (unfold zlen; rewrite Nat2Z.id; apply take_app). done.
Qed.

(** The bytes that the runes take, and those of their text. *)
Lemma taken_zlen (d : list (Z * Z)) : Forall (λ p : Z * Z, p = (rune_error, 1) ∨ p.2 = rune_len p.1) d →
  foldr Z.add 0 d.*2 <= zlen (encode d.*1) ∧ 0 <= foldr Z.add 0 d.*2
  ∧ (zlen (encode d.*1) = foldr Z.add 0 d.*2 ↔ Forall (λ p, p ≠ (rune_error, 1)) d).
Proof.
  induction d as [|[r w] d IH]; intros Hd; [split; [done|]; split; [done|]; by split|].
  apply Forall_cons in Hd as [Hp Hd]. destruct (IH Hd) as (H1 & H2 & H3). rewrite !fmap_cons, zlen_encode_cons. cbn [fst snd foldr].
  rewrite Forall_cons. destruct Hp as [[= -> ->]|Hp].
  - change (rune_len rune_error) with 3. split; [lia|]. split; [lia|]. split; [lia|]. by intros [? _].
  - cbn [fst snd] in Hp. subst w. pose proof (rune_len_bounds r). split; [lia|]. split; [lia|]. split.
    + intros H0. split; [intros [= -> E]; discriminate E|]. apply H3. lia.
    + intros [_ H0]. apply H3 in H0. lia.
Qed.

Lemma regexp2_right engine s ms : s ≠ [] → engine s = (ms, None) → matches2_ok (runes s) 0 ms →
  ∃ cs, regexp2_pattern engine s = Ret (Ok cs)
  ∧ (covers 0 cs (zlen s) ∧ ranges_of true cs = map (match_place s) ms
     ↔ Forall (λ m : Z * list Z, Forall (λ p, p ≠ (rune_error, 1)) (take (Z.to_nat (m.1 + zlen (runes m.2))) (decode s))) ms).
Proof.
  intros Hs He Hm. unfold regexp2_pattern. destruct (Z.eqb_spec (zlen s) 0) as [E|E].
  { destruct s; [done|]. rewrite zlen_cons in E. pose proof (zlen_nonneg s). lia. }
  rewrite He. cbn [fst snd]. rewrite (match2_loop_shape _ _ _ 0 0 Hm). eexists. split; [done|]. rewrite match_loop_ranges.
  assert (Forall (λ p : Z * Z, p = (rune_error, 1) ∨ p.2 = rune_len p.1) (decode s)) as Hd.
  { eapply Forall_impl; [apply decode_props|]. by intros ? [_ ?]. }
  assert (∀ k, 0 <= k → zlen (encode (take (Z.to_nat k) (runes s))) = byte_at s k
    ↔ Forall (λ p, p ≠ (rune_error, 1)) (take (Z.to_nat k) (decode s))) as Hk.
  { intros k _. unfold runes, byte_at. rewrite <- fmap_take. apply taken_zlen. by apply Forall_take. }
  (* the end of a match in bytes of the text *)
  assert (∀ i t a x b, runes s = a ++ x ++ b → i = zlen a → t = encode x → 
    match2_range (runes s) (i, t) = (zlen (encode (take (Z.to_nat i) (runes s))), zlen (encode (take (Z.to_nat (i + zlen (runes t))) (runes s))))) as Hend.
  { intros i t a x b Hr -> ->. unfold match2_range. cbn [fst snd].
    pose proof (runes_scalars s) as Hsc. rewrite Hr in Hsc. apply Forall_app in Hsc as [Ha Hsc]. apply Forall_app in Hsc as [Hx _].
    rewrite (runes_encode_scalars x) by done. rewrite Hr.
    assert (take (Z.to_nat (zlen a)) (a ++ x ++ b) = a) as -> by (unfold zlen; rewrite Nat2Z.id; apply take_app).
    assert (take (Z.to_nat (zlen a + zlen x)) (a ++ x ++ b) = a ++ x) as ->.
    { rewrite app_assoc. replace (Z.to_nat _) with (length (a ++ x)); [apply take_app|]. rewrite app_length. unfold zlen. lia. }
    by rewrite encode_app, zlen_app. }
  split.
  - intros [_ Hr]. clear He. revert Hm Hr. generalize 0 as k. induction ms as [|[i t] ms IH]; intros k Hm Hr; [constructor|].
    cbn [map] in Hr. injection Hr as H1 H2 Hr. cbn [matches2_ok] in Hm. destruct Hm as (a & x & b & Hrs & Hi & _ & Ht & Hm).
    constructor; [|by eapply IH]. cbn [fst snd].
    pose proof (Hend _ _ _ _ _ Hrs Hi Ht) as He. unfold match2_range in He. cbn [fst snd] in He. injection He as He.
    cbn [fst snd] in H2. rewrite He in H2. apply Hk; [|exact H2]. subst i. pose proof (zlen_nonneg a). pose proof (zlen_nonneg (runes t)). lia.
  - intros Hall. 
    assert (map (match2_range (runes s)) ms = map (match_place s) ms ∧ ordered_ranges 0 (map (match_place s) ms) (zlen s)) as [H1 H2].
    { clear He. assert (0 <= 0 <= zlen (runes s)) as Hb by (pose proof (zlen_nonneg (runes s)); lia).
      change (map (match2_range (runes s)) ms = map (match_place s) ms
        ∧ ordered_ranges (byte_at s 0) (map (match_place s) ms) (zlen s)).
      revert Hm Hb Hall.
      enough (∀ k, matches2_ok (runes s) k ms → 0 <= k <= zlen (runes s) →
        Forall (λ m : Z * list Z, Forall (λ p, p ≠ (rune_error, 1)) (take (Z.to_nat (m.1 + zlen (runes m.2))) (decode s))) ms →
        map (match2_range (runes s)) ms = map (match_place s) ms
        ∧ ordered_ranges (byte_at s k) (map (match_place s) ms) (zlen s)) as Hen by exact (Hen 0).
      assert (∀ j k, 0 <= j <= k → byte_at s j <= byte_at s k) as Hmono.
      { intros j k Hjk. unfold byte_at. replace (Z.to_nat k) with (Z.to_nat j + Z.to_nat (k - j))%nat by lia.
        rewrite <- take_take_drop, fmap_app, foldr_app.
        pose proof (taken_zlen (take (Z.to_nat (k - j)) (drop (Z.to_nat j) (decode s)))) as (_ & Hn & _).
        { by apply Forall_take, Forall_drop. }
        revert Hn. generalize (foldr Z.add 0 (take (Z.to_nat (k - j)) (drop (Z.to_nat j) (decode s))).*2). intros z Hz.
        induction (take (Z.to_nat j) (decode s)).*2 as [|y l IHl]; cbn [foldr]; lia. }
      assert (byte_at s (zlen (runes s)) = zlen s) as Hfull.
      { unfold byte_at. rewrite <- (decode_widths s). f_equal. f_equal. apply take_ge. unfold runes, zlen. rewrite fmap_length. lia. }
      induction ms as [|[i t] ms IH]; intros k Hm Hb Hall; cbn [map ordered_ranges].
      { split; [done|]. rewrite <- Hfull. by apply Hmono. }
      cbn [matches2_ok] in Hm. destruct Hm as (a & x & b & Hrs & Hi & Hki & Ht & Hm).
      apply Forall_cons in Hall as [Hh Hall]. cbn [fst snd] in Hh.
      assert (zlen (runes t) = zlen x) as Hx.
      { subst t. pose proof (runes_scalars s) as Hsc. rewrite Hrs in Hsc. apply Forall_app in Hsc as [Ha Hsc]. apply Forall_app in Hsc as [Hx _].
        by rewrite runes_encode_scalars. }
      assert (zlen (runes s) = zlen a + zlen x + zlen b) as Hlen by (rewrite Hrs, !zlen_app; lia).
      pose proof (zlen_nonneg a). pose proof (zlen_nonneg x). pose proof (zlen_nonneg b).
      destruct (IH (i + zlen x)) as [IH1 IH2]; [done|lia|done|].
      rewrite (Hend _ _ _ _ _ Hrs Hi Ht), IH1. unfold match_place at 1 3. cbn [fst snd].
      assert (zlen (encode (take (Z.to_nat (i + zlen (runes t))) (runes s))) = byte_at s (i + zlen (runes t))) as E2 by (apply Hk; [lia|done]).
      assert (zlen (encode (take (Z.to_nat i) (runes s))) = byte_at s i) as E1.
      { apply Hk; [lia|]. replace (take (Z.to_nat i) (decode s)) with (take (Z.to_nat i) (take (Z.to_nat (i + zlen (runes t))) (decode s))).
        - by apply Forall_take.
        - rewrite take_take. f_equal. apply Nat.min_l. lia. }
      rewrite E1, E2. split; [done|]. cbn [map ordered_ranges fst snd]. split; [apply Hmono; cbn [fst snd]; lia|]. split; [apply Hmono; cbn [fst snd]; lia|]. cbn [fst snd]. by rewrite Hx. }
    split; [|done]. rewrite H1. by apply match_loop_spec.
Qed.
