(** Facts about the regular expressions of the repository. *)
From Coq Require Import ZifyBool Sorted.
From stdpp Require Import relations list_numbers.
From Verif Require Import GoBase Utf8Facts Strutils SplitPattern NormString Bpe Encodings PreTokString Normalizers PreTokenizers Regex SpecText SpecNorm SpecSplit SpecHist SpecPts SpecPretok
  SliceFacts StrutilsFacts PatternFacts NormFacts NormEdits NormInv NormReplace NormSlice NormSplit HistFacts SplitExact RangeFacts PtsFacts PretokFacts ByteFacts.
Import GoBase NormString SpecNorm.
#[local] Open Scope Z_scope.

(** ** The matcher *)
Lemma rests_plus_spec f s t : t ∈ rests_plus f s ↔ ∃ x, s = x ++ t ∧ x ≠ [] ∧ Forall (λ c, f c = true) x.
Proof.
  revert t. induction s as [|c s IH]; intros t; cbn [rests_plus].
  - split; [by intros ?%elem_of_nil|]. intros (x & E & Hx & _). by destruct x.
  - destruct (f c) eqn:Ef.
    + rewrite elem_of_app, IH, elem_of_list_singleton. split.
      * intros [(x & -> & Hx & Hf)| ->]; [by exists (c :: x); split_and!; [..|constructor]|]. exists [c]. split_and!; [done..|by constructor].
      * intros ([|c' x] & E & Hx & Hf); [done|]. injection E as <- ->. apply Forall_cons in Hf as [_ Hf]. destruct x as [|c' x]; [by right|].
        left. by exists (c' :: x).
    + split; [by intros ?%elem_of_nil|]. intros ([|c' x] & E & Hx & Hf); [done|]. injection E as <- ->. apply Forall_cons in Hf as [Hf _]. congruence.
Qed.
(** The first answer is the longest. *)
Lemma rests_plus_longest f s t ts : rests_plus f s = t :: ts → ∀ c, head t = Some c → f c = false.
Proof.
  revert t ts. induction s as [|c s IH]; intros t ts; cbn [rests_plus]; [done|]. destruct (f c) eqn:Ef; [|done].
  destruct (rests_plus f s) as [|t' ts'] eqn:E.
  - cbn. intros [= <- <-] c' Hc. destruct s as [|c'' s]; [done|]. injection Hc as ->. cbn in E. destruct (f c'); [|done].
    by destruct (rests_plus f s).
  - cbn. intros [= <- <-]. by eapply IH.
Qed.
Lemma rests_plus_nil f s : rests_plus f s = [] ↔ ∀ c, head s = Some c → f c = false.
Proof.
  destruct s as [|c s]; cbn; [done|]. destruct (f c) eqn:E.
  - split; [|intros H; specialize (H c eq_refl); congruence]. by destruct (rests_plus f s).
  - split; [|done]. by intros _ c' [= <-].
Qed.

Lemma rests_suffix r s t : t ∈ rests r s → ∃ x, s = x ++ t.
Proof.
  revert s t. induction r as [f|f|r IH|r1 IH1 r2 IH2|r1 IH1 r2 IH2|f]; intros s t; cbn [rests].
  - destruct s as [|c s]; [by intros ?%elem_of_nil|]. destruct (f c); [|by intros ?%elem_of_nil]. intros ->%elem_of_list_singleton. by exists [c].
  - intros (x & -> & _)%rests_plus_spec. by exists x.
  - rewrite elem_of_app, elem_of_list_singleton. intros [H| ->]; [by apply IH|by exists []].
  - rewrite elem_of_list_In, in_flat_map. intros (u & H1 & H2). apply elem_of_list_In in H1, H2. apply IH1 in H1 as (x & ->). apply IH2 in H2 as (y & ->).
    exists (x ++ y). by rewrite app_assoc.
  - rewrite elem_of_app. intros [H|H]; [by apply IH1|by apply IH2].
  - destruct s as [|c s]; [intros ->%elem_of_list_singleton; by exists []|]. destruct (f c); [by intros ?%elem_of_nil|].
    intros ->%elem_of_list_singleton. by exists [].
Qed.

(** ** All matches *)
Inductive scan (r : re) : Z → list Z → list (Z * list Z) → Prop :=
| scan_nil i : scan r i [] []
| scan_hit i x t ts ms : x ≠ [] → rests r (x ++ t) = t :: ts → scan r (i + zlen x) t ms → scan r i (x ++ t) ((i, x) :: ms)
| scan_miss i c s ms : rests r (c :: s) = [] → scan r (i + 1) s ms → scan r i (c :: s) ms.

Definition never_empty (r : re) : Prop := ∀ s, s ∉ rests r s.

Lemma find_all_skip r i x t : find_all r i (length x) (x ++ t) = find_all r (i + zlen x) O t.
Proof.
  revert i. induction x as [|c x IH]; intros i; [cbn; by rewrite Z.add_0_r|]. cbn [length app find_all]. rewrite IH, zlen_cons. f_equal. lia.
Qed.

Lemma find_all_scan r i s : never_empty r → scan r i s (find_all r i O s).
Proof.
  intros Hr. remember (length s) as k eqn:Hk. assert (Hle : (length s <= k)%nat) by lia. clear Hk. revert i s Hle. induction k as [|k IH]; intros i s Hle.
  { destruct s; [constructor|cbn in Hle; lia]. }
  destruct s as [|c s]; [constructor|]. cbn [find_all]. destruct (rests r (c :: s)) as [|t ts] eqn:E.
  - apply scan_miss; [done|]. apply IH. cbn in Hle. lia.
  - destruct (rests_suffix r (c :: s) t) as (x & Hx); [rewrite E; by apply elem_of_list_here|].
    destruct x as [|c' x]. { exfalso. cbn in Hx. apply (Hr (c :: s)). rewrite E, Hx. by apply elem_of_list_here. }
    rewrite Hx. assert (El : (length ((c' :: x) ++ t) - length t = length (c' :: x))%nat) by (rewrite app_length; lia).
    rewrite El, take_app. injection Hx as -> ->. cbn [length]. replace (S (length x) - 1)%nat with (length x) by lia. rewrite find_all_skip.
    apply (scan_hit r i (c' :: x) t ts); [done|done|]. rewrite zlen_cons. replace (i + 1 + zlen x) with (i + (1 + zlen x)) by lia. apply IH.
    cbn in Hle. rewrite app_length in Hle. lia.
Qed.

Lemma scan_ok r pre s ms : scan r (zlen pre) s ms → ∀ lo, lo <= zlen pre → matches2_ok (pre ++ s) lo (map (λ m, (m.1, encode m.2)) ms).
Proof.
  intros H. remember (zlen pre) as i eqn:Hi. revert pre Hi. induction H as [i|i x t ts ms Hx E H IH|i c s ms E H IH]; intros pre Hi lo Hlo; cbn [map matches2_ok fst snd].
  - done.
  - exists pre, x, t. split_and!; [done|done|lia|done|]. specialize (IH (pre ++ x)). rewrite zlen_app, Hi, <- app_assoc in IH. rewrite Hi. apply IH; lia.
  - specialize (IH (pre ++ [c])). rewrite zlen_app, <- app_assoc in IH. cbn [app] in IH. change (zlen [c]) with 1 in IH. apply IH; lia.
Qed.

Lemma engine_of_ok r rs : never_empty r → scalars rs →
  ∃ ms, engine_of r (encode rs) = (map (λ m, (m.1, encode m.2)) ms, None) ∧ scan r 0 rs ms ∧ matches2_ok rs 0 (map (λ m, (m.1, encode m.2)) ms).
Proof.
  intros Hr Hs. exists (find_all r 0 O rs). unfold engine_of. rewrite runes_encode_scalars by done. split; [done|].
  pose proof (find_all_scan r 0 rs Hr) as H. split; [done|]. by apply (scan_ok r [] rs _ H 0).
Qed.

(** Where the matches are, in bytes. *)
Definition placed_match (rs : list Z) (m : Z * list Z) : Z * list Z := (zlen (encode (take (Z.to_nat m.1) rs)), m.2).
Lemma scan_occurs r pre s ms : scan r (zlen pre) s ms → Forall (λ m, m.2 ≠ [] ∧ ∃ l t, pre ++ s = l ++ m.2 ++ t ∧ m.1 = zlen l) ms.
Proof.
  intros H. remember (zlen pre) as i eqn:Hi. revert pre Hi. induction H as [i|i x t ts ms Hx E H IH|i c s ms E H IH]; intros pre Hi.
  - constructor.
  - constructor; [split; [done|]; by exists pre, t|]. rewrite app_assoc. apply IH. rewrite zlen_app. lia.
  - replace (pre ++ c :: s) with ((pre ++ [c]) ++ s) by (by rewrite <- app_assoc). apply IH. rewrite zlen_app. change (zlen [c]) with 1. lia.
Qed.

Lemma same_fields rs fs gs : Forall (λ x, ∃ l r, occurs rs l r x) fs → Forall (λ x, ∃ l r, occurs rs l r x) gs →
  map (λ x, (x.1, x.1 + zlen (encode x.2))) fs = map (λ x, (x.1, x.1 + zlen (encode x.2))) gs → fs = gs.
Proof.
  intros H. revert gs. induction H as [|x fs (l & r & Hx1 & Hx2) H IH]; intros [|y gs] Hg E; try done. cbn [map] in E. injection E as E1 E2 E.
  apply Forall_cons in Hg as [(l' & r' & Hy1 & Hy2) Hg]. rewrite (IH gs Hg E). f_equal.
  rewrite Hx1 in Hy1. apply prefix_by_length in Hy1 as [-> Hy1]; [|lia]. apply prefix_by_length in Hy1 as [Hy1 _]; [|lia].
  destruct x, y; cbn in *; congruence.
Qed.

Lemma re_segs r rs : never_empty r → scalars rs →
  ∃ ms segs, scan r 0 rs ms ∧ invert (regexp2_pattern (engine_of r)) (encode rs) = Ret (Ok (place 0 segs)) ∧ concat segs.*1 = rs ∧ (Forall (λ s, s.1 ≠ []) segs ∨ rs = [])
    ∧ remaining Removed 0 segs = map (placed_match rs) ms.
Proof.
  intros Hr Hs. destruct (decide (rs = [])) as [->|Hn].
  { exists [], [([], true)]. split; [constructor|]. vm_compute. auto. }
  destruct (engine_of_ok r rs Hr Hs) as (ms & E & Hsc & Hok). destruct (whitespace_segs (engine_of r) rs _ Hs Hn E Hok) as (segs & E0 & E1 & E2 & E3 & E4).
  exists ms, segs. split; [done|]. split; [done|]. split; [done|].
  pose proof (scan_occurs r [] rs ms Hsc) as Ho. cbn [app] in Ho.
  assert (Hpl : Forall (λ m, m.2 ≠ [] ∧ ∃ l t, occurs rs l t (placed_match rs m)) ms).
  { eapply Forall_impl; [exact Ho|]. intros [i x] (Hx & l & t & Hm & Hi). split; [done|]. exists l, t. cbn in *. split; [done|]. cbn. rewrite Hi, Hm.
    unfold zlen at 2. by rewrite Nat2Z.id, take_app. }
  split.
  { left. apply E4. apply Forall_map. eapply Forall_impl; [exact Hpl|]. intros [i x] [Hx _] Em. cbn [snd] in *. destruct x as [|c x]; [done|]. pose proof (encode_pos c x). rewrite Em in *. unfold zlen in *; cbn in *; lia. }
  apply (same_fields rs); [done| |].
  - apply Forall_map. eapply Forall_impl; [exact Hpl|]. naive_solver.
  - rewrite E3. clear -Hpl. rewrite !map_map. induction Hpl as [|[i x] ms [Hx _] H IH]; [done|]. cbn [map]. rewrite filter_cons. cbn [fst snd] in *.
    rewrite decide_True.
    + rewrite IH. f_equal.
    + unfold match2_range. cbn [fst snd]. destruct x as [|c x]; [done|]. pose proof (encode_pos c x). lia.
Qed.

(** ** The word regexp *)
Lemma word_never_empty word space : never_empty (word_re word space).
Proof.
  intros s. cbn [word_re rests]. rewrite elem_of_app, !rests_plus_spec.
  intros [(x & E & Hx & _)|(x & E & Hx & _)]; (apply (f_equal length) in E; rewrite app_length in E; destruct x; [done|cbn in E; lia]).
Qed.

Lemma word_rests word space s :
  match rests (word_re word space) s with
  | [] => ∀ c, head s = Some c → kind_of word space c = None
  | t :: _ => ∃ x k, s = x ++ t ∧ x ≠ [] ∧ Forall (λ c, kind_of word space c = Some k) x ∧ ∀ c, head t = Some c → kind_of word space c ≠ Some k
  end.
Proof.
  cbn [word_re rests]. destruct (rests_plus word s) as [|t ts] eqn:E1.
  - cbn [app]. pose proof (proj1 (rests_plus_nil _ _) E1) as H1. destruct (rests_plus (λ c, negb (word c) && negb (space c)) s) as [|t ts] eqn:E2.
    + pose proof (proj1 (rests_plus_nil _ _) E2) as H2. intros c Hc. unfold kind_of. rewrite (H1 c Hc). specialize (H2 c Hc). cbn in H2.
      rewrite (H1 c Hc) in H2. by destruct (space c).
    + pose proof (rests_plus_longest _ _ _ _ E2) as H2. destruct (proj1 (rests_plus_spec (λ c, negb (word c) && negb (space c)) s t)) as (x & Hs & Hx & Hf); [rewrite E2; by apply elem_of_list_here|].
      exists x, false. split_and!; [done|done| |].
      * eapply Forall_impl; [exact Hf|]. cbn. intros c Hc. unfold kind_of. destruct (word c), (space c); done.
      * intros c Hc. specialize (H2 c Hc). cbn in H2. unfold kind_of. destruct (word c), (space c); done.
  - cbn [app]. pose proof (rests_plus_longest _ _ _ _ E1) as H2. destruct (proj1 (rests_plus_spec word s t)) as (x & Hs & Hx & Hf); [rewrite E1; by apply elem_of_list_here|].
    exists x, true. split_and!; [done|done| |].
    + eapply Forall_impl; [exact Hf|]. cbn. intros c Hc. unfold kind_of. by rewrite Hc.
    + intros c Hc. specialize (H2 c Hc). unfold kind_of. rewrite H2. by destruct (space c).
Qed.

(** The matches from a point on are the runs from that point on. *)
Lemma word_scan word space pre s ms : scan (word_re word space) (zlen pre) s ms →
  (∀ c d k, last pre = Some c → head s = Some d → kind_of word space c = Some k → kind_of word space d ≠ Some k) →
  ∀ x, x ∈ map (placed_match (pre ++ s)) ms ↔ kind_run word space (pre ++ s) x ∧ zlen (encode pre) <= x.1.
Proof.
  intros H. remember (zlen pre) as i eqn:Hi. revert pre Hi.
  induction H as [i|i x t ts ms Hx E H IH|i c s ms E H IH]; intros pre Hi Hb y.
  - cbn [map]. split; [by intros ?%elem_of_nil|]. rewrite app_nil_r. intros [(l & r & k & [H1 H2] & Hy & _) Hle]. exfalso.
    rewrite H1, encode_app, encode_app, !zlen_app, <- H2 in Hle. destruct y as [j [|c y]]; [done|]. pose proof (encode_pos c y).
    cbn [fst snd] in *. pose proof (zlen_nonneg (encode r)). lia.
  - pose proof (word_rests word space (x ++ t)) as Hw. rewrite E in Hw. destruct Hw as (x' & k & Ex & _ & Hk & Ht). apply app_inv_tail in Ex as <-.
    assert (Hpm : placed_match (pre ++ x ++ t) (i, x) = (zlen (encode pre), x)).
    { unfold placed_match. cbn [fst snd]. rewrite Hi. unfold zlen at 2. by rewrite Nat2Z.id, take_app. }
    assert (Hpos : 0 < zlen (encode x)) by (destruct x; [done|apply encode_pos]).
    cbn [map]. rewrite Hpm, elem_of_cons. specialize (IH (pre ++ x)). rewrite zlen_app, <- app_assoc in IH. rewrite IH; [|lia|].
    2: { intros c d k' Hc Hd Hkc. assert (Hcx : c ∈ x).
         { destruct x as [|z x _] using rev_ind; [done|]. rewrite app_assoc, last_snoc in Hc. injection Hc as ->. apply elem_of_app. right. by apply elem_of_list_singleton. }
         rewrite Forall_forall in Hk. rewrite (Hk c Hcx) in Hkc. injection Hkc as <-. by apply Ht. }
    rewrite encode_app, zlen_app. split.
    + intros [->|[Hr Hle]]; [|split; [done|lia]]. cbn [fst snd]. split; [|lia]. exists pre, t, k. cbn [fst snd]. split_and!; [done|done|done| |done].
      intros c Hc Hkc. destruct x as [|d x]; [done|]. apply Forall_cons in Hk as [Hd _]. by apply (Hb c d k Hc eq_refl Hkc).
    + intros [(l & r & k' & [H1 H2] & Hy & Hk' & Hl & Hr) Hle]. rewrite H2 in Hle.
      apply List.app_eq_app in H1 as (m & [[-> Hm]|[-> Hm]]).
      * assert (m = []) as ->. { rewrite encode_app, zlen_app in Hle. destruct m as [|c m]; [done|]. pose proof (encode_pos c m). lia. }
        rewrite app_nil_r in *. cbn [app] in Hm. left. destruct y as [j y]. cbn [fst snd] in *. rewrite H2. f_equal.
        assert (k' = k) as ->.
        { destruct y as [|c y]; [done|]. destruct x as [|d x]; [done|]. injection Hm as -> _. apply Forall_cons in Hk as [Hk _], Hk' as [Hk' _]. congruence. }
        apply List.app_eq_app in Hm as (m & [[-> Hm]|[-> Hm]]).
        -- destruct m as [|c m]; [by rewrite app_nil_r|]. exfalso. apply (Ht c); [by rewrite Hm|]. apply Forall_app in Hk' as [_ Hk']. by apply Forall_cons in Hk' as [? _].
        -- destruct m as [|c m]; [by rewrite app_nil_r|]. exfalso. apply (Hr c); [by rewrite Hm|]. apply Forall_app in Hk as [_ Hk]. by apply Forall_cons in Hk as [? _].
      * destruct m as [|c m].
        { (* the same as above *)
          rewrite app_nil_r in *. cbn [app] in Hm. left. destruct y as [j y]. cbn [fst snd] in *. rewrite H2. f_equal.
          assert (k' = k) as ->.
          { destruct y as [|c y]; [done|]. destruct x as [|d x]; [done|]. injection Hm as -> _. apply Forall_cons in Hk as [Hk _], Hk' as [Hk' _]. congruence. }
          apply List.app_eq_app in Hm as (m & [[-> Hm]|[-> Hm]]).
          - destruct m as [|c m]; [by rewrite app_nil_r|]. exfalso. apply (Hr c); [by rewrite Hm|]. apply Forall_app in Hk as [_ Hk]. by apply Forall_cons in Hk as [? _].
          - destruct m as [|c m]; [by rewrite app_nil_r|]. exfalso. apply (Ht c); [by rewrite Hm|]. apply Forall_app in Hk' as [_ Hk']. by apply Forall_cons in Hk' as [? _]. }
        right. apply List.app_eq_app in Hm as (m' & [[-> Hm]|[Hcm Hm]]).
        -- (* the run starts inside x *)
           destruct m' as [|d m'].
           { split; [|rewrite H2, !encode_app, !zlen_app; change (zlen (encode [])) with 0; lia]. cbn [app] in Hm. exists (pre ++ c :: m), r, k'. split_and!; try done. split; [|done].
             by rewrite Hm, <- !app_assoc. }
           exfalso. destruct y as [j [|d' y]]; [done|]. cbn [fst snd] in *. cbn [app] in Hm. injection Hm as <- _.
           apply Forall_app in Hk as [Hk1 Hk2]. apply Forall_cons in Hk2 as [Hkd _]. apply Forall_cons in Hk' as [Hk' _].
           assert (k' = k) as -> by congruence. destruct (last (c :: m)) as [z|] eqn:Ez; [|by apply last_None in Ez].
           apply (Hl z); [by rewrite last_app, Ez|]. rewrite Forall_forall in Hk1. apply Hk1. rewrite last_lookup in Ez. by eapply elem_of_list_lookup_2.
        -- split; [|rewrite H2, Hcm, !encode_app, !zlen_app; pose proof (zlen_nonneg (encode m')); lia].
           exists (pre ++ c :: m), r, k'. split_and!; try done. split; [|done]. rewrite Hcm, Hm. by rewrite <- !app_assoc.
  - pose proof (word_rests word space (c :: s)) as Hw. rewrite E in Hw. specialize (Hw c eq_refl).
    specialize (IH (pre ++ [c])). rewrite zlen_app, <- app_assoc in IH. cbn [app] in IH. change (zlen [c]) with 1 in IH. rewrite IH; [|lia|].
    2: { intros c' d k Hc Hd Hkc. rewrite last_snoc in Hc. injection Hc as <-. congruence. }
    split; [intros [Hr Hle]; split; [done|rewrite encode_app, zlen_app in Hle; pose proof (zlen_nonneg (encode [c])); lia]|].
    intros [Hrun Hle]. split; [done|]. destruct Hrun as (l & r & k & [H1 H2] & Hy & Hk & _). rewrite H2 in Hle |- *.
    apply List.app_eq_app in H1 as (m & [[-> Hm]|[-> Hm]]).
    + exfalso. assert (m = []) as ->. { rewrite encode_app, zlen_app in Hle. destruct m as [|d m]; [done|]. pose proof (encode_pos d m). lia. }
      cbn [app] in Hm. destruct y as [j [|d y]]; [done|]. cbn in Hm. injection Hm as -> _. apply Forall_cons in Hk as [Hk _]. congruence.
    + destruct m as [|d m].
      { exfalso. cbn [app] in Hm. destruct y as [j [|d y]]; [done|]. cbn in Hm. injection Hm as -> _. apply Forall_cons in Hk as [Hk _]. congruence. }
      injection Hm as <- _. rewrite !encode_app, !zlen_app, !zlen_encode_cons, zlen_encode_nil. pose proof (zlen_nonneg (encode m)). lia.
Qed.

(** ** The splitting regexp *)
Section splitting.
  Context (fold : Z → Z) (letter number space : Z → bool).
  Notation other := (λ c, negb (space c) && negb (letter c) && negb (number c)).

  Lemma rests_lit c s t : t ∈ rests (lit fold c) s → ∃ x, s = x :: t ∧ fold x = fold c.
  Proof.
    cbn. destruct s as [|x s]; [by intros ?%elem_of_nil|]. destruct (fold x =? fold c) eqn:E; [|by intros ?%elem_of_nil].
    intros ->%elem_of_list_singleton. exists x. split; [done|lia].
  Qed.
  Lemma rests_seq r1 r2 s t : t ∈ rests (RSeq r1 r2) s ↔ ∃ u, u ∈ rests r1 s ∧ t ∈ rests r2 u.
  Proof.
    cbn [rests]. rewrite elem_of_list_In, in_flat_map. split; intros (u & H1 & H2); exists u; [rewrite !elem_of_list_In|rewrite <- !elem_of_list_In]; done.
  Qed.
  Lemma rests_quoted l s t : t ∈ rests (fold_right (λ c r, RSeq r (lit fold c)) (lit fold 39) l) s →
    ∃ x, s = x ++ t ∧ map fold x = map fold (39 :: rev l).
  Proof.
    revert t. induction l as [|c l IH]; intros t; cbn [fold_right].
    - intros (x & -> & E)%rests_lit. exists [x]. split; [done|]. cbn. by rewrite E.
    - intros (u & Hu & Ht)%rests_seq. apply IH in Hu as (x & -> & E). apply rests_lit in Ht as (y & -> & Ey). exists (x ++ [y]).
      rewrite <- app_assoc. split; [done|]. rewrite map_app, E. cbn [map rev]. rewrite map_app. cbn. by rewrite Ey.
  Qed.
  Lemma rests_spaced f s t : t ∈ rests (spaced f) s ↔ ∃ pre x, s = pre ++ x ++ t ∧ (pre = [] ∨ pre = [32]) ∧ x ≠ [] ∧ Forall (λ c, f c = true) x.
  Proof.
    unfold spaced. rewrite rests_seq. split.
    - intros (u & Hu & (x & -> & Hx & Hf)%rests_plus_spec). cbn [rests] in Hu. apply elem_of_app in Hu as [Hu|Hu].
      + destruct s as [|c s]; [by apply elem_of_nil in Hu|]. destruct (c =? 32) eqn:E; [|by apply elem_of_nil in Hu].
        apply elem_of_list_singleton in Hu. subst s. exists [32], x. split_and!; [cbn; f_equal; lia|by right|done|done].
      + apply elem_of_list_singleton in Hu. exists [], x. split_and!; [done|by left|done|done].
    - intros (pre & x & -> & Hp & Hx & Hf). exists (x ++ t). split; [|by apply rests_plus_spec; exists x]. cbn [rests]. apply elem_of_app.
      destruct Hp as [->| ->]; [right|left]; by apply elem_of_list_singleton.
  Qed.

  Lemma splitting_shape s t : t ∈ rests (splitting_re fold letter number space) s → ∃ x, s = x ++ t ∧ gpt2_shape fold letter number space x.
  Proof.
    assert (Hq : ∀ l, l ∈ contractions → t ∈ rests (fold_right (λ c r, RSeq r (lit fold c)) (lit fold 39) (rev l)) s → ∃ x, s = x ++ t ∧ gpt2_shape fold letter number space x).
    { intros l Hl (x & Hs & E)%rests_quoted. rewrite rev_involutive in E. exists x. split; [done|]. left. by exists l. }
    assert (Hs : ∀ f, f = letter ∨ f = number ∨ f = other → t ∈ rests (spaced f) s → ∃ x, s = x ++ t ∧ gpt2_shape fold letter number space x).
    { intros f Hf (pre & x & Hs & Hp & Hx & Hx')%rests_spaced. exists (pre ++ x). split; [by rewrite <- app_assoc|]. right. left. by exists pre, x, f. }
    assert (Hin : ∀ r1 r2, t ∈ rests (RAlt r1 r2) s ↔ t ∈ rests r1 s ∨ t ∈ rests r2 s) by (intros; apply elem_of_app).
    unfold splitting_re. cbv zeta. rewrite !Hin.
    intros [H|[H|[H|[H|[H|[H|[H|[H|[H|[H|[H|H]]]]]]]]]]].
    1-7: eapply Hq; [|exact H]; unfold contractions; set_solver.
    1-3: eapply Hs; [|exact H]; by auto.
    - apply rests_seq in H as (u & (x & -> & Hx & Hf)%rests_plus_spec & Ht). cbn in Ht. exists x.
      assert (u = t) as ->. { destruct u as [|c u]; [by apply elem_of_list_singleton in Ht|]. destruct (negb (space c)); [by apply elem_of_nil in Ht|by apply elem_of_list_singleton in Ht]. }
      split; [done|]. right. by right.
    - apply rests_plus_spec in H as (x & -> & Hx & Hf). exists x. split; [done|]. right. by right.
  Qed.
  Lemma shape_nonempty x : gpt2_shape fold letter number space x → x ≠ [].
  Proof.
    intros [(w & _ & E)|[(pre & y & k & -> & _ & Hy & _)|[H _]]] Hx; [by rewrite Hx in E| |done]. apply app_nil in Hx as [_ Hx]. done.
  Qed.
  Lemma splitting_never_empty : never_empty (splitting_re fold letter number space).
  Proof.
    intros s (x & E & Hx%shape_nonempty)%splitting_shape. apply (f_equal length) in E. rewrite app_length in E. destruct x; [done|cbn in E; lia].
  Qed.
  Lemma splitting_total c s : rests (splitting_re fold letter number space) (c :: s) ≠ [].
  Proof.
    assert (∃ t, t ∈ rests (splitting_re fold letter number space) (c :: s)) as (t & Ht); [|intros E; rewrite E in Ht; by apply elem_of_nil in Ht].
    assert (Hin : ∀ r1 r2 t, t ∈ rests (RAlt r1 r2) (c :: s) ↔ t ∈ rests r1 (c :: s) ∨ t ∈ rests r2 (c :: s)) by (intros; apply elem_of_app).
    exists s. unfold splitting_re. cbv zeta. rewrite !Hin.
    assert (Hsp : ∀ f, f c = true → s ∈ rests (spaced f) (c :: s)).
    { intros f Hf. apply rests_spaced. exists [], [c]. split_and!; [done|by left|done|by constructor]. }
    destruct (letter c) eqn:El; [do 7 right; left; by apply Hsp|].
    destruct (number c) eqn:En; [do 8 right; left; by apply Hsp|].
    destruct (space c) eqn:Es.
    - do 11 right. apply rests_plus_spec. exists [c]. split_and!; [done|done|by constructor].
    - do 9 right. left. apply Hsp. by rewrite Es, El, En.
  Qed.

  (** The matches follow each other without gaps. *)
  Lemma splitting_scan i s ms : scan (splitting_re fold letter number space) i s ms →
    concat ms.*2 = s ∧ Forall (gpt2_shape fold letter number space) ms.*2.
  Proof.
    induction 1 as [i|i x t ts ms Hx E H [IH1 IH2]|i c s ms E H _].
    - split; [done|constructor].
    - rewrite fmap_cons. cbn [concat snd]. rewrite IH1. split; [done|]. constructor; [|done].
      destruct (splitting_shape (x ++ t) t) as (x' & E' & Hs); [rewrite E; by apply elem_of_list_here|]. by apply app_inv_tail in E' as ->.
    - by apply splitting_total in E.
  Qed.
End splitting.

(** Order of the matches. *)
Lemma scan_start r i s ms : scan r i s ms → Forall (λ m, i <= m.1) ms.
Proof.
  induction 1 as [i|i x t ts ms Hx E H IH|i c s ms E H IH]; [constructor| |].
  - constructor; [cbn; lia|]. eapply Forall_impl; [exact IH|]. intros m. cbn. pose proof (zlen_nonneg x). lia.
  - eapply Forall_impl; [exact IH|]. intros m. cbn. lia.
Qed.
Lemma encode_take_mono (rs : list Z) i j : (i <= j)%nat → zlen (encode (take i rs)) <= zlen (encode (take j rs)).
Proof.
  intros H. rewrite <- (take_drop i (take j rs)). rewrite take_take, Nat.min_l by done. rewrite encode_app, zlen_app.
  pose proof (zlen_nonneg (encode (drop i (take j rs)))). lia.
Qed.
Lemma scan_in_order r pre s ms : scan r (zlen pre) s ms → in_order (map (placed_match (pre ++ s)) ms).
Proof.
  intros H. remember (zlen pre) as i eqn:Hi. revert pre Hi.
  induction H as [i|i x t ts ms Hx E H IH|i c s ms E H IH]; intros pre Hi.
  - constructor.
  - cbn [map]. apply in_order_cons. rewrite app_assoc. split; [apply IH; rewrite zlen_app; lia|].
    intros y (m & -> & Hm)%elem_of_list_fmap. apply scan_start in H. rewrite Forall_forall in H. apply H in Hm. unfold placed_match. cbn [fst snd].
    rewrite <- zlen_app, <- encode_app. etrans; [|apply (encode_take_mono _ (length (pre ++ x))); rewrite app_length; unfold zlen in *; lia].
    rewrite take_app. replace (Z.to_nat i) with (length pre) by (unfold zlen in Hi; lia). rewrite <- app_assoc, take_app. done.
  - replace (pre ++ c :: s) with ((pre ++ [c]) ++ s) by (by rewrite <- app_assoc). apply IH. rewrite zlen_app. change (zlen [c]) with 1. lia.
Qed.

(** The pieces of the word regexp. *)
Lemma word_segs word space rs : scalars rs →
  ∃ segs, invert (regexp2_pattern (engine_of (word_re word space))) (encode rs) = Ret (Ok (place 0 segs)) ∧ concat segs.*1 = rs ∧ (Forall (λ s, s.1 ≠ []) segs ∨ rs = [])
    ∧ in_order (remaining Removed 0 segs) ∧ ∀ x, x ∈ remaining Removed 0 segs ↔ kind_run word space rs x.
Proof.
  intros Hs. destruct (re_segs (word_re word space) rs (word_never_empty _ _) Hs) as (ms & segs & Hsc & H1 & H2 & H0 & H3).
  exists segs. split; [done|]. split; [done|]. split; [done|]. rewrite H3. split; [by apply (scan_in_order (word_re word space) [] rs)|].
  intros x. pose proof (word_scan word space [] rs ms Hsc ltac:(done) x) as H. cbn [app] in H. rewrite H. split; [by intros [? _]|].
  intros Hk. split; [done|]. destruct Hk as (l & r & k & [_ Hx] & _). rewrite Hx. change (zlen (encode [])) with 0. apply zlen_nonneg.
Qed.
Lemma word_pieces word space rs : scalars rs →
  ∃ fs, whitespace_pretokenizer (engine_of (word_re word space)) (pts_from_string (encode rs)) = Ret (Pts (encode rs) (map plain_split fs), None)
    ∧ in_order fs ∧ ∀ x, x ∈ fs ↔ kind_run word space rs x.
Proof.
  intros Hs. destruct (word_segs word space rs Hs) as (segs & H1 & H2 & _ & H3 & H4). exists (remaining Removed 0 segs). split; [|done].
  rewrite pts_from_plain by done. unfold whitespace_pretokenizer. erewrite (run_split_plain _ Removed _ _ [segs]); [|by left|by constructor; [|constructor]].
  cbn [zip_with concat fst]. by rewrite app_nil_r.
Qed.

(** A segmentation with the ranges of another one that has matches only. *)
Lemma ranges_start kind i segs : Forall (λ x, i <= x.1) (ranges_of kind (place i segs)).
Proof.
  unfold ranges_of. revert i. induction segs as [|[t m] segs IH]; intros i; [constructor|]. cbn [place]. rewrite filter_cons.
  assert (H : Forall (λ x, i <= x.1) (map (λ c, (c_start c, c_end c)) (base.filter (λ c, c_match c = kind) (place (i + zlen (encode t)) segs)))).
  { eapply Forall_impl; [apply IH|]. intros x. cbn. pose proof (zlen_nonneg (encode t)). lia. }
  destruct (decide _); [|done]. cbn [map]. constructor; [cbn; lia|done].
Qed.
Lemma matches_only i segs ts : concat segs.*1 = concat ts → Forall (λ s : list Z * bool, s.2 = false → s.1 ≠ []) segs →
  ranges_of true (place i segs) = ranges_of true (place i (map (λ t, (t, true)) ts)) → segs = map (λ t, (t, true)) ts.
Proof.
  revert i ts. induction segs as [|[t m] segs IH]; intros i ts Hc Hn H.
  - destruct ts; [done|]. done.
  - apply Forall_cons in Hn as [Ht Hn]. cbn [snd fst] in Ht. destruct ts as [|t' ts].
    + exfalso. cbn in Hc. apply app_nil in Hc as [-> _]. destruct m; [done|]. by destruct (Ht eq_refl).
    + destruct m.
      * unfold ranges_of in H. cbn [place map] in H. rewrite !filter_cons in H. rewrite !decide_True in H by done. cbn [map c_start c_end] in H.
        injection H as Hl H. cbn [fmap list_fmap concat fst map] in Hc |- *. apply prefix_by_length in Hc as [-> Hc]; [|lia]. f_equal. by eapply IH.
      * exfalso. pose proof (ranges_start true (i + zlen (encode t)) segs) as Hr. unfold ranges_of in H, Hr. cbn [place map] in H.
        rewrite !filter_cons in H. rewrite decide_False in H by done. rewrite decide_True in H by done. rewrite H in Hr. cbn [map c_start c_end] in Hr.
        apply Forall_cons in Hr as [Hr _]. cbn [fst] in Hr. destruct t as [|c t]; [by destruct (Ht eq_refl)|]. pose proof (encode_pos c t). lia.
Qed.
Lemma splitting_ranges fold letter number space pre s ms : scan (splitting_re fold letter number space) (zlen pre) s ms →
  map (match2_range (pre ++ s)) (map (λ m, (m.1, encode m.2)) ms) = ranges_of true (place (zlen (encode pre)) (map (λ t, (t, true)) ms.*2)).
Proof.
  intros H. remember (zlen pre) as i eqn:Hi. revert pre Hi. unfold ranges_of.
  induction H as [i|i x t ts ms Hx E H IH|i c s ms E H _]; intros pre Hi; [done| |by apply splitting_total in E].
  rewrite (fmap_cons snd). cbn [map place]. rewrite filter_cons, decide_True by done. cbn [map c_start c_end snd]. f_equal.
  - unfold match2_range. cbn [fst snd]. replace (Z.to_nat i) with (length pre) by (unfold zlen in Hi; lia). by rewrite take_app.
  - rewrite <- zlen_app, <- encode_app, app_assoc. apply IH. rewrite zlen_app. lia.
Qed.
