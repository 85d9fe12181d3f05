(** Where the default regular expression of the byte-level pre-tokenizer cuts. *)
From Coq Require Import ZifyBool.
From stdpp Require Import sets.
From Verif Require Import GoBase Utf8Facts Strutils SplitPattern NormString Encodings PreTokString PreTokenizers Regex SpecText SpecNorm SpecPts SpecPretok SpecGpt2
  SliceFacts StrutilsFacts PatternFacts NormFacts NormReplace NormSlice HistFacts RangeFacts PtsFacts PretokFacts ByteFacts RegexFacts.
Import GoBase NormString SpecNorm.
#[local] Open Scope Z_scope.

Section gpt2.
  Context (fold : Z → Z) (letter number space : Z → bool).
  Notation other := (λ c, negb (space c) && negb (letter c) && negb (number c)).
  Notation quoted l := (fold_right (λ c r, RSeq r (lit fold c)) (lit fold 39) l).
  Notation contracts := (contracts fold).
  Notation kind_at := (kind_at letter number space).
  Notation all_of := (all_of letter number space).
  Notation stops := (stops letter number space).
  Notation first_piece := (first_piece fold letter number space).
  Hypothesis Hk : disjoint_kinds letter number space.

  Lemma quoted_rests l s : (∃ x t, contracts s (rev l) x t ∧ rests (quoted l) s = [t]) ∨ ((∀ x t, ¬ contracts s (rev l) x t) ∧ rests (quoted l) s = []).
  Proof.
    unfold SpecGpt2.contracts. induction l as [|c l IH]; cbn [fold_right rev].
    - unfold lit. cbn [rests]. destruct s as [|y s]; [right; split; [|done]; intros [|z x] t [E1 E2]; done|].
      destruct (Z.eqb_spec (fold y) (fold 39)) as [E|E].
      + left. exists [y], s. split; [|done]. split; [done|]. cbn. by rewrite E.
      + right. split; [|done]. intros [|z x] t [E1 E2]; [done|]. injection E1 as -> ->. cbn in E2. injection E2 as E2 _. done.
    - change (rests (RSeq (quoted l) (lit fold c)) s) with (flat_map (rests (lit fold c)) (rests (quoted l) s)).
      destruct IH as [(x & t & [-> E] & Hr)|[Hn Hr]]; setoid_rewrite Hr; cbn [flat_map].
      + rewrite app_nil_r. unfold lit. cbn [rests]. destruct t as [|y t].
        * right. split; [|done]. intros x' t' [E1 E2]. rewrite app_nil_r in E1. apply (f_equal length) in E1, E, E2.
          rewrite !map_length, ?app_length in *. cbn in *. rewrite ?app_length in *. cbn in *. lia.
        * destruct (Z.eqb_spec (fold y) (fold c)) as [Ey|Ey].
          -- left. exists (x ++ [y]), t. rewrite <- app_assoc. split; [|done]. split; [done|]. rewrite map_app, E. cbn [map]. rewrite map_app. cbn. by rewrite Ey.
          -- right. split; [|done]. intros x' t' [E1 E2].
             destruct x' as [|z x' _] using rev_ind; [done|]. rewrite map_app in E2. cbn [map] in E2. rewrite map_app in E2.
             change (fold 39 :: map fold (rev l) ++ map fold [c]) with ((fold 39 :: map fold (rev l)) ++ [fold c]) in E2.
             apply app_inj_tail in E2 as [E2 E3].
             rewrite <- app_assoc in E1. cbn [app] in E1.
             assert (length x = length x') as Hl by (apply (f_equal length) in E, E2; rewrite !map_length in *; cbn in *; rewrite ?map_length in *; lia).
             apply app_inj_1 in E1 as [<- E1]; [|done]. injection E1 as -> _. done.
      + right. split; [|done]. intros x' t' [E1 E2].
        destruct x' as [|z x' _] using rev_ind; [done|]. rewrite map_app in E2. cbn [map] in E2. rewrite map_app in E2.
        change (fold 39 :: map fold (rev l) ++ map fold [c]) with ((fold 39 :: map fold (rev l)) ++ [fold c]) in E2.
        apply app_inj_tail in E2 as [E2 _]. rewrite <- app_assoc in E1. apply (Hn x' ([z] ++ t')). by split.
  Qed.

  Lemma plus_run f w t : Forall (λ c, f c = true) w → (∀ c, head t = Some c → f c = false) →
    match w with [] => rests_plus f (w ++ t) = [] | _ => ∃ u, rests_plus f (w ++ t) = t :: u ∧
      match reverse w with x :: _ :: _ => ∃ u', u = (x :: t) :: u' | _ => u = [] end end.
  Proof.
    intros Hw Ht. destruct w as [|x w _] using rev_ind; [by apply rests_plus_nil|].
    assert (∃ u, rests_plus f ((w ++ [x]) ++ t) = t :: u ∧ match reverse (w ++ [x]) with y :: _ :: _ => ∃ u', u = (y :: t) :: u' | _ => u = [] end) as H.
    { rewrite reverse_app. cbn [app]. rewrite <- app_assoc. cbn [app]. change (reverse [x]) with [x]. cbn [app].
      apply Forall_app in Hw as [Hw Hx]. apply Forall_cons in Hx as [Hx _].
      assert (reverse w = [] ↔ w = []) as Hrw by (split; [intros E; by apply (f_equal reverse) in E; rewrite reverse_involutive in E|by intros ->]).
      assert (∃ u, rests_plus f (w ++ x :: t) = t :: u ∧ (w = [] → u = []) ∧ (w ≠ [] → ∃ u', u = (x :: t) :: u')) as (u & H1 & H2 & H3).
      { induction w as [|c w IH].
        - exists []. cbn [app rests_plus]. rewrite Hx, (proj2 (rests_plus_nil f t) Ht). done.
        - apply Forall_cons in Hw as [Hc Hw]. destruct (IH Hw) as (u & E & H2 & H3); [split; [intros E; by apply (f_equal reverse) in E; rewrite reverse_involutive in E|by intros ->]|].
          exists (u ++ [w ++ x :: t]). cbn [app rests_plus]. rewrite Hc, E. split; [done|]. split; [done|]. intros _.
          destruct w as [|d w]; [rewrite H2 by done; by exists []|]. destruct H3 as (u' & ->); [done|]. by exists (u' ++ [(d :: w) ++ x :: t]). }
      exists u. split; [done|]. destruct (reverse w) as [|y z] eqn:E; [apply H2; by apply Hrw|apply H3; intros Hw0; by apply Hrw in Hw0]. }
    destruct (w ++ [x]) as [|y z] eqn:E; [by destruct w|exact H].
  Qed.

  (** The run at the start of a text. *)
  Lemma leading_run (f : Z → bool) (s : list Z) : ∃ w t, s = w ++ t ∧ Forall (λ c, f c = true) w ∧ ∀ c, head t = Some c → f c = false.
  Proof.
    induction s as [|c s (w & t & -> & Hw & Ht)]; [by exists [], []|]. destruct (f c) eqn:E.
    - exists (c :: w), t. split; [done|]. split; [by constructor|done].
    - exists [], (c :: w ++ t). split; [done|]. split; [constructor|]. by intros c' [= <-].
  Qed.
  Lemma plus_head (f : Z → bool) (w t : list Z) : w ≠ [] → Forall (λ c, f c = true) w → (∀ c, head t = Some c → f c = false) → ∃ u, rests_plus f (w ++ t) = t :: u.
  Proof. intros H0 H1 H2. pose proof (plus_run f w t H1 H2) as H. destruct w as [|y w]; [done|]. destruct H as (u & H & _). by exists u. Qed.

  (** A run of a kind, possibly after ' '. *)
  Lemma spaced_rests (f : Z → bool) (s : list Z) : f 32 = false →
    (∃ sp y t u, s = sp ++ y ++ t ∧ (sp = [] ∨ sp = [32]) ∧ y ≠ [] ∧ Forall (λ c, f c = true) y ∧ (∀ c, head t = Some c → f c = false) ∧ rests (spaced f) s = t :: u)
    ∨ (rests (spaced f) s = [] ∧ (∀ c, head s = Some c → f c = false) ∧ (∀ c, head s = Some 32 → head (tail s) = Some c → f c = false)).
  Proof.
    intros H32. assert (rests (spaced f) s = match s with c :: s' => (if c =? 32 then rests_plus f s' else []) ++ rests_plus f s | [] => [] end) as E.
    { unfold spaced. cbn [rests]. destruct s as [|c s]; [done|]. rewrite flat_map_app. cbn [flat_map]. rewrite app_nil_r. destruct (c =? 32); [|done]. cbn [flat_map]. by rewrite app_nil_r. }
    rewrite E. clear E. destruct s as [|c s]; [right; done|]. destruct (Z.eqb_spec c 32) as [->|Hc].
    - assert (rests_plus f (32 :: s) = []) as -> by (apply rests_plus_nil; intros c [= <-]; done). rewrite app_nil_r.
      destruct (leading_run f s) as ([|x w] & t & -> & Hw & Ht).
      + right. cbn [app]. split; [by apply rests_plus_nil|]. split; [by intros c [= <-]|]. by intros c _ Hc%Ht.
      + left. destruct (plus_head f (x :: w) t) as (u & Hu); [done..|]. exists [32], (x :: w), t, u. repeat split; auto.
    - cbn [app]. destruct (leading_run f (c :: s)) as ([|x w] & t & E & Hw & Ht).
      + right. cbn [app] in E. rewrite E. split; [by apply rests_plus_nil|]. split; [done|]. rewrite <- E. intros d [= Hd]. done.
      + left. destruct (plus_head f (x :: w) t) as (u & Hu); [done..|]. exists [], (x :: w), t, u. rewrite E. repeat split; auto.
  Qed.

  Lemma kinds c : (letter c = true ↔ kind_at c = KLetter) ∧ (number c = true ↔ kind_at c = KNumber) ∧ (space c = true ↔ kind_at c = KSpace)
    ∧ (other c = true ↔ kind_at c = KOther).
  Proof.
    destruct Hk as [_ H]. destruct (H c) as [H1 H2]. unfold SpecGpt2.kind_at. destruct (letter c).
    - destruct H1 as [-> ->]; [done|]. done.
    - destruct (number c); [rewrite (H2 eq_refl); done|]. by destruct (space c).
  Qed.
  Definition kind_class (k : kind) : Z → bool := match k with KLetter => letter | KNumber => number | KSpace => space | KOther => other end.
  Lemma kind_class_spec k c : kind_class k c = true ↔ kind_at c = k.
  Proof. destruct (kinds c) as (H1 & H2 & H3 & H4). by destruct k. Qed.
  Lemma kind_class_all k x : Forall (λ c, kind_class k c = true) x ↔ all_of k x.
  Proof. unfold SpecGpt2.all_of. split; intros H; (eapply Forall_impl; [exact H|]); intros c; apply kind_class_spec. Qed.
  Lemma kind_class_stops k t : (∀ c, head t = Some c → kind_class k c = false) ↔ stops k t.
  Proof.
    unfold SpecGpt2.stops. split; intros H c Hc.
    - intros E%kind_class_spec. by rewrite (H c Hc) in E.
    - destruct (kind_class k c) eqn:E; [|done]. apply kind_class_spec in E. by destruct (H c Hc).
  Qed.

  Definition no_contraction (s : list Z) : Prop := ∀ w x t', w ∈ endings → ¬ contracts s w x t'.

  (** The alternatives after the contractions. *)
  Definition tail_re : re := RAlt (spaced letter) (RAlt (spaced number) (RAlt (spaced other)
    (RAlt (RSeq (RPlus space) (RNotAhead (λ c, negb (space c)))) (RPlus space)))).
  Lemma tail_first s t u : no_contraction s → s ≠ [] → rests tail_re s = t :: u → ∃ x, s = x ++ t ∧ first_piece s x t.
  Proof.
    intros Hn Hs. unfold tail_re. cbn [rests].
    assert (H32 : ∀ k, k ≠ KSpace → kind_class k 32 = false).
    { intros k Hks. destruct (kind_class k 32) eqn:E; [|done]. apply kind_class_spec in E. destruct Hk as [Hsp _]. apply (kind_class_spec KSpace) in Hsp. congruence. }
    assert (Hrun : ∀ k s' rest, k ≠ KSpace → s' = s → rests (spaced (kind_class k)) s ++ rest = t :: u →
      (∃ x, s = x ++ t ∧ first_piece s x t) ∨ (rest = t :: u ∧ stops k s ∧ (∀ c, head s = Some 32 → head (tail s) = Some c → kind_at c ≠ k))).
    { intros k s' rest Hks -> E. destruct (spaced_rests (kind_class k) s (H32 k Hks)) as [(sp & y & t' & u' & -> & Hsp & Hy & Hf & Ht & Er)|(Er & H1 & H2)].
      - left. rewrite Er in E. injection E as -> _. exists (sp ++ y). rewrite <- app_assoc. split; [done|].
        eapply (first_run _ _ _ _ _ k); [exact Hn|done|done|done|done|by apply kind_class_all|by apply kind_class_stops].
      - right. rewrite Er in E. split; [done|]. split; [by apply kind_class_stops|]. intros c Hc1 Hc2 Hc%kind_class_spec. rewrite (H2 c Hc1 Hc2) in Hc. done. }
    intros E. apply (Hrun KLetter s) in E as [?|(E & L1 & L2)]; [done| |done|done].
    apply (Hrun KNumber s) in E as [?|(E & N1 & N2)]; [done| |done|done].
    apply (Hrun KOther s) in E as [?|(E & O1 & O2)]; [done| |done|done].
    destruct (leading_run space s) as (w & r & -> & Hw & Hr).
    assert (Hw' : all_of KSpace w) by (by apply (kind_class_all KSpace)).
    assert (Hr' : stops KSpace r) by (by apply (kind_class_stops KSpace)).
    assert (Hw0 : w ≠ []).
    { intros ->. cbn [app] in *. destruct r as [|c r]; [done|]. specialize (L1 c eq_refl). specialize (N1 c eq_refl). specialize (O1 c eq_refl). specialize (Hr' c eq_refl). by destruct (kind_at c). }
    pose proof (plus_run space w r Hw Hr) as Hp. destruct w as [|w1 w2]; [done|]. set (w := w1 :: w2) in *. destruct Hp as (v & Hv & Hlast).
    rewrite Hv in E. cbn [flat_map] in E. destruct r as [|c r].
    - cbn [app] in E. injection E as <- _. exists w. rewrite app_nil_r. split; [done|]. apply first_end; [by rewrite app_nil_r in Hn|done|done].
    - assert (space c = false) as Hc by (by apply Hr). rewrite Hc in E. cbn [negb app] in E.
      destruct (reverse w) as [|x [|y z]] eqn:Erw.
      + apply (f_equal reverse) in Erw. rewrite reverse_involutive in Erw. done.
      + assert (w = [x]) as Ew by (apply (f_equal reverse) in Erw; by rewrite reverse_involutive in Erw). rewrite Hlast in E. cbn [flat_map app] in E. injection E as <- _.
        exists w. split; [done|]. rewrite Ew in *. apply first_one; [done|done| |by apply Forall_cons in Hw' as [? _]|done|done].
        intros ->. specialize (L2 c eq_refl eq_refl). specialize (N2 c eq_refl eq_refl). specialize (O2 c eq_refl eq_refl). specialize (Hr' c eq_refl). by destruct (kind_at c).
      + destruct Hlast as (u' & ->). assert (w = reverse (y :: z) ++ [x]) as Ew.
        { apply (f_equal reverse) in Erw. rewrite reverse_involutive in Erw. rewrite Erw. by rewrite (reverse_cons (y :: z) x). }
        assert (space x = true) as Hx.
        { rewrite Ew in Hw. apply Forall_app in Hw as [_ Hw]. by apply Forall_cons in Hw as [? _]. }
        cbn [flat_map] in E. rewrite Hx in E. cbn [negb app] in E. injection E as <- _.
        exists (reverse (y :: z)). rewrite Ew. split; [by rewrite <- app_assoc|]. apply first_spaces; [by rewrite <- Ew|by rewrite <- app_assoc| |by rewrite <- Ew|done|done].
        intros E0. apply (f_equal reverse) in E0. by rewrite reverse_involutive in E0.
  Qed.

  Lemma splitting_first s t u : s ≠ [] → rests (splitting_re fold letter number space) s = t :: u → ∃ x, s = x ++ t ∧ first_piece s x t.
  Proof.
    intros Hs. unfold splitting_re. cbv zeta.
    assert (Hq : ∀ before w after r, endings = before ++ w :: after → (∀ w' x' t', w' ∈ before → ¬ contracts s w' x' t') →
      rests (RAlt (quoted (rev w)) r) s = t :: u →
      (∃ x, s = x ++ t ∧ first_piece s x t) ∨ (rests r s = t :: u ∧ ∀ w' x' t', w' ∈ before ++ [w] → ¬ contracts s w' x' t')).
    { intros before w after r He Hb. cbn [rests]. destruct (quoted_rests (rev w) s) as [(x & t' & Hc & Er)|(Hc & Er)]; rewrite rev_involutive in Hc; rewrite Er.
      - cbn [app]. intros [= -> _]. left. exists x. split; [apply Hc|]. by eapply first_contraction.
      - cbn [app]. intros E. right. split; [done|]. intros w' x' t' [Hw'| ->%elem_of_list_singleton]%elem_of_app; [by apply Hb|apply Hc]. }
    intros E.
    apply (Hq [] [115] [[116]; [114; 101]; [118; 101]; [109]; [108; 108]; [100]]) in E as [?|[E H]]; [done| |done|by intros ? ? ? ?%elem_of_nil].
    apply (Hq [[115]] [116] [[114; 101]; [118; 101]; [109]; [108; 108]; [100]] _ eq_refl H) in E as [?|[E H']]; [done|]. clear H.
    apply (Hq [[115]; [116]] [114; 101] [[118; 101]; [109]; [108; 108]; [100]] _ eq_refl H') in E as [?|[E H]]; [done|]. clear H'.
    apply (Hq [[115]; [116]; [114; 101]] [118; 101] [[109]; [108; 108]; [100]] _ eq_refl H) in E as [?|[E H']]; [done|]. clear H.
    apply (Hq [[115]; [116]; [114; 101]; [118; 101]] [109] [[108; 108]; [100]] _ eq_refl H') in E as [?|[E H]]; [done|]. clear H'.
    apply (Hq [[115]; [116]; [114; 101]; [118; 101]; [109]] [108; 108] [[100]] _ eq_refl H) in E as [?|[E H']]; [done|]. clear H.
    apply (Hq [[115]; [116]; [114; 101]; [118; 101]; [109]; [108; 108]] [100] [] _ eq_refl H') in E as [?|[E H]]; [done|]. clear H'.
    by apply (tail_first s t u).
  Qed.

  Lemma scan_pieces i s ms : scan (splitting_re fold letter number space) i s ms → pieces fold letter number space s ms.*2.
  Proof.
    induction 1 as [i|i x t ts ms Hx E H IH|i c s ms E H _].
    - constructor.
    - rewrite fmap_cons. cbn [snd]. econstructor; [|exact IH]. destruct (splitting_first (x ++ t) t ts) as (x' & E' & Hf); [by destruct x|done|].
      apply app_inv_tail in E' as <-. done.
    - by apply splitting_total in E.
  Qed.

  (** At most one first piece. *)
  Lemma contracts_fun s w x t x' t' : contracts s w x t → contracts s w x' t' → x = x' ∧ t = t'.
  Proof.
    intros [-> E] [E1 E2]. assert (length x = length x') by (apply (f_equal length) in E, E2; rewrite !map_length in *; lia).
    by apply app_inj_1 in E1.
  Qed.
  Lemma run_unique k y t y' t' : all_of k y → all_of k y' → stops k t → stops k t' → y ++ t = y' ++ t' → y = y' ∧ t = t'.
  Proof.
    revert y'. induction y as [|c y IH]; intros [|c' y'] Hy Hy' Ht Ht' E; [done| | |].
    - exfalso. cbn [app] in E. subst t. apply Forall_cons in Hy' as [Hc _]. by apply (Ht c').
    - exfalso. cbn [app] in E. subst t'. apply Forall_cons in Hy as [Hc _]. by apply (Ht' c).
    - injection E as <- E. apply Forall_cons in Hy as [_ Hy]. apply Forall_cons in Hy' as [_ Hy']. destruct (IH y') as [-> ->]; [done..|]. done.
  Qed.
  Lemma kind_space : kind_at 32 = KSpace.
  Proof. apply (kind_class_spec KSpace). apply Hk. Qed.

  (** The kind of piece is decided by the text. *)
  Inductive shape_of : list Z → list Z → list Z → nat → Prop :=
  | shape_run s k sp y t : s = sp ++ y ++ t → sp = [] ∨ sp = [32] → k ≠ KSpace → y ≠ [] → all_of k y → stops k t → shape_of s (sp ++ y) t 0
  | shape_end s : s ≠ [] → all_of KSpace s → shape_of s s [] 1
  | shape_spaces s x w t : s = x ++ w :: t → x ≠ [] → all_of KSpace (x ++ [w]) → t ≠ [] → stops KSpace t → shape_of s x (w :: t) 2
  | shape_one s w t : s = w :: t → w ≠ 32 → kind_at w = KSpace → t ≠ [] → stops KSpace t → shape_of s [w] t 3.
  Lemma first_shape s x t : no_contraction s → first_piece s x t → ∃ n, shape_of s x t n.
  Proof.
    intros Hn. destruct 1 as [s before w after x t He Hc _|s k sp y t _ H1 H2 H3 H4 H5 H6|s _ H1 H2|s x w t _ H1 H2 H3 H4 H5|s w t _ H1 H2 H3 H4 H5].
    - exfalso. apply (Hn w x t); [|done]. rewrite He. set_solver.
    - exists 0%nat. by eapply shape_run.
    - exists 1%nat. by apply shape_end.
    - exists 2%nat. by apply shape_spaces.
    - exists 3%nat. by apply shape_one.
  Qed.
  (** The run of white space at the start, and the kind after it. *)
  Lemma shape_run_fun s x t x' t' n' : shape_of s x t 0 → shape_of s x' t' n' → x = x' ∧ t = t'.
  Proof.
    inversion 1 as [s0 k sp y t0 E Hsp Hks Hy Hall Hst| | |]; subst.
    assert (Hy0 : ∃ c y', y = c :: y' ∧ kind_at c = k) by (destruct y as [|c y']; [done|]; apply Forall_cons in Hall as [? _]; by exists c, y'). destruct Hy0 as (c & y1 & -> & <-).
    inversion 1 as [s0 k' sp' y' t0 E' Hsp' Hks' Hy' Hall' Hst'|s0 E' Hall'|s0 x0 w t0 E' Hx Hall' Ht0 Hst'|s0 w t0 E' Hw Hwk Ht0 Hst']; subst.
    - assert (Hy0 : ∃ c' y2, y' = c' :: y2 ∧ kind_at c' = k') by (destruct y' as [|c' y2]; [done|]; apply Forall_cons in Hall' as [? _]; by exists c', y2). destruct Hy0 as (c' & y2 & -> & <-).
      assert (sp = sp' ∧ c = c') as [-> ->].
      { pose proof kind_space as K. destruct Hsp as [-> | ->], Hsp' as [-> | ->]; cbn [app] in E'; [by injection E' as -> _| | |by injection E' as -> _].
        - exfalso. injection E' as -> _. congruence.
        - exfalso. injection E' as <- _. congruence. }
      apply app_inv_head in E'. destruct (run_unique (kind_at c') (c' :: y1) t (c' :: y2) t') as [-> ->]; done.
    - exfalso. apply Forall_app in Hall' as [_ Hall']. apply Forall_app in Hall' as [Hall' _]. apply Forall_cons in Hall' as [? _]. congruence.
    - exfalso. destruct Hsp as [-> | ->]; cbn [app] in E'.
      + destruct x' as [|d x']; [done|]. injection E' as <- _. apply Forall_cons in Hall' as [? _]. congruence.
      + destruct x' as [|d [|d' x']]; [done| |]; cbn [app] in E'.
        * injection E' as <- <- _. apply Forall_cons in Hall' as [_ Hall']. apply Forall_cons in Hall' as [? _]. congruence.
        * injection E' as <- <- _. apply Forall_cons in Hall' as [_ Hall']. apply Forall_cons in Hall' as [? _]. congruence.
    - exfalso. destruct Hsp as [-> | ->]; cbn [app] in E'; injection E' as <- _; [congruence|done].
  Qed.
  Lemma shape_fun s x t n x' t' n' : shape_of s x t n → shape_of s x' t' n' → x = x' ∧ t = t'.
  Proof.
    intros H H'. destruct (decide (n = 0%nat)) as [->|Hn]; [by eapply shape_run_fun|].
    destruct (decide (n' = 0%nat)) as [->|Hn']; [destruct (shape_run_fun s x' t' x t n H' H); done|].
    (* the run of white space *)
    assert (Hw : ∀ x t n, n ≠ 0%nat → shape_of s x t n → ∃ w r, s = w ++ r ∧ w ≠ [] ∧ all_of KSpace w ∧ stops KSpace r
      ∧ ((r = [] ∧ x = w ∧ t = []) ∨ (r ≠ [] ∧ ∃ y c, w = y ++ [c] ∧ y ≠ [] ∧ x = y ∧ t = c :: r) ∨ (r ≠ [] ∧ ∃ c, w = [c] ∧ x = [c] ∧ t = r))).
    { clear. intros x t n Hn. inversion 1 as [s0 k' sp' y' t0 E' Hsp' Hks' Hy' Hall' Hst'|s0 E' Hall'|s0 x0 w t0 E' Hx Hall' Ht0 Hst'|s0 w t0 E' Hw Hwk Ht0 Hst']; subst; [done| | |].
      - exists x, []. rewrite app_nil_r. split_and!; [done..|]. by left.
      - exists (x ++ [w]), t0. rewrite <- app_assoc. split_and!; [done|by destruct x|done|done|]. right. left. split; [done|]. by exists x, w.
      - exists [w], t. split_and!; [done|done|by constructor|done|]. right. right. split; [done|]. by exists w. }
    destruct (Hw _ _ _ Hn H) as (w & r & E & H0 & Hall & Hst & Hc). destruct (Hw _ _ _ Hn' H') as (w' & r' & E' & H0' & Hall' & Hst' & Hc').
    rewrite E in E'. destruct (run_unique KSpace w r w' r') as [-> ->]; [done..|].
    destruct Hc as [(-> & -> & ->)|[(Hr & y & c & -> & Hy & -> & ->)|(Hr & c & -> & -> & ->)]], Hc' as [(Hr' & -> & ->)|[(Hr' & y' & c' & Ey & Hy' & -> & ->)|(Hr' & c' & Ey & -> & ->)]]; try done.
    - by apply app_inj_tail in Ey as [-> ->].
    - apply (app_inj_tail y [] c c') in Ey as [-> _]. done.
    - symmetry in Ey. apply (app_inj_tail y' [] c' c) in Ey as [-> _]. done.
  Qed.
  Lemma first_fun s x t x' t' : first_piece s x t → first_piece s x' t' → x = x' ∧ t = t'.
  Proof.
    intros H H'.
    assert (Hcase : ∀ x t, first_piece s x t → no_contraction s ∨ ∃ before w after, endings = before ++ w :: after ∧ contracts s w x t ∧ ∀ w' x' t', w' ∈ before → ¬ contracts s w' x' t').
    { clear. intros x t. inversion 1; subst; [right; by do 3 eexists|by left..]. }
    destruct (Hcase _ _ H) as [Hn|(b & w & a & E & Hc & Hb)].
    - destruct (first_shape _ _ _ Hn H) as (n & Hs), (first_shape _ _ _ Hn H') as (n' & Hs'). by eapply shape_fun.
    - destruct (Hcase _ _ H') as [Hn|(b' & w' & a' & E' & Hc' & Hb')].
      { exfalso. apply (Hn w x t); [|done]. rewrite E. set_solver. }
      rewrite E in E'. assert (w = w') as ->; [|by eapply contracts_fun].
      clear - E' Hc Hc' Hb Hb'. revert b' E' Hb'. induction b as [|c b IH]; intros [|c' b'] E' Hb'; cbn [app] in E'.
      + by injection E' as -> _.
      + exfalso. injection E' as -> _. apply (Hb' c' x t); [set_solver|done].
      + exfalso. injection E' as -> _. apply (Hb w' x' t'); [set_solver|done].
      + injection E' as <- E'. apply (IH ltac:(intros; apply Hb; set_solver) b' E'). intros. apply Hb'. set_solver.
  Qed.
  Lemma first_some x t : ¬ first_piece [] x t.
  Proof.
    inversion 1 as [s0 b w a x0 t0 _ [E1 E2] _|s0 k sp y t0 _ E _ _ Hy|s0 _ E|s0 x0 w t0 _ E|s0 w t0 _ E]; subst; [|symmetry in E|done| |done].
    - symmetry in E1. by apply app_nil in E1 as [-> _].
    - apply app_nil in E as [_ E]. by apply app_nil in E as [-> _].
    - by destruct x.
  Qed.
  Lemma pieces_fun s ps ps' : pieces fold letter number space s ps → pieces fold letter number space s ps' → ps = ps'.
  Proof.
    intros H. revert ps'. induction H as [|s x t ps H1 H2 IH]; inversion 1 as [|s0 x' t' ps0 H3 H4]; subst; [done| | |].
    - exfalso. clear - H3 Hk. revert H3. apply first_some.
    - exfalso. clear - H1 Hk. revert H1. apply first_some.
    - destruct (first_fun _ _ _ _ _ H1 H3) as [-> ->]. f_equal. by apply IH.
  Qed.
End gpt2.

(** The pieces of the byte-level pre-tokenizer are the matches. *)
Lemma byte_level_matches_at fold letter number space n v0 (prefix : bool) : wf_as n v0 →
  let v := if prefix then prefixed white_space 32 v0 else v0 in
  ∃ ms ts l, byte_level (engine_of (splitting_re fold letter number space)) prefix (pts_from_ns n)
          = Ret (Pts (ns_orig n) (splits_from_ns l), None)
    ∧ concat ts = v
    ∧ scan (splitting_re fold letter number space) 0 v.*1 ms
    ∧ map (λ t : atext, t.*1) ts = ms.*2
    ∧ Forall2 (λ t, piece_of n (byte_text t)) ts l.
Proof.
  intros Hwf v. pose proof Hwf as ((Hs & Hn & Ha) & Hv0 & Hal). destruct (decide (v = [])) as [Hv|Hv].
  { assert (v0 = []) as ->. { unfold v in Hv. destruct v0 as [|[x a] v0]; [done|]. destruct prefix; [|done]. cbn in Hv. by destruct (white_space x). }
    exists [], [], []. split_and!; [|by rewrite Hv|rewrite Hv; constructor|done|constructor].
    assert (Hn0 : ns_norm n = []) by (by rewrite Hn).
    destruct (split_nothing n (regexp2_pattern (engine_of (splitting_re fold letter number space))) [Capture 0 0 false] Isolated Hwf) as (ps & E & Ee); rewrite ?Hn0; [done| |].
    { split; [by repeat constructor|]. repeat constructor; by exists [], []. }
    unfold byte_level. change (pts_from_ns n) with (Pts (ns_orig n) (splits_from_ns [n])). erewrite (run_split_all _ _ _ [[]]); [reflexivity|].
    constructor; [|constructor]. exists n, (splits_from_ns ps). split; [|done]. unfold byte_level_split, split_by.
    assert (Ep : prepend n [32] = Ret n) by (unfold prepend; by rewrite Hn0).
    assert (Eq : (if prefix && negb (starts_with_whitespace (ns_norm n)) then prepend n [32] else Ret n) = Ret n) by (by destruct (prefix && _)).
    rewrite Eq. cbn [mbind outcome_bind]. rewrite E. done. }
  set (r := splitting_re fold letter number space). assert (Hsv : scalars v.*1).
  { unfold v. destruct v0 as [|[x a] v0]; [by destruct prefix|]. destruct prefix; [|done]. cbn [prefixed].
    destruct (white_space x); rewrite ?(fmap_cons fst); cbn [fst]; [done|]. by constructor. }
  destruct (engine_of_ok r v.*1 (splitting_never_empty _ _ _ _) Hsv) as (ms & E & Hsc & Hok).
  destruct (byte_level_at (engine_of r) n v0 prefix _ Hwf Hv E Hok) as (segs & l & H1 & H2 & H3 & H4 & H5).
  { apply Forall_map. pose proof (scan_occurs r [] v.*1 ms Hsc) as Ho. eapply Forall_impl; [exact Ho|]. cbn. intros m [Hm _] Em. exfalso.
    destruct m as [i [|c t]]; [done|]. cbn in Em. pose proof (encode_pos c t) as Hp. cbn [encode flat_map] in Hp. rewrite Em in Hp. done. }
  fold v in H2, H3. destruct (splitting_scan _ _ _ _ 0 v.*1 ms Hsc) as [Hc Hshape].
  assert (Et : texts_of segs = map (λ t, (t, true)) ms.*2).
  { apply (matches_only 0).
    - by rewrite texts_of_concat, H2, Hc.
    - unfold texts_of. apply Forall_map. eapply Forall_impl; [exact H4|]. intros [t m] Ht. cbn in *. intros Hm Et. apply (Ht Hm). by apply fmap_nil_inv in Et.
    - rewrite H3. pose proof (splitting_ranges fold letter number space [] v.*1 ms Hsc) as R. cbn [app] in R. rewrite R. done. }
  assert (Ht : map (λ t : atext, t.*1) segs.*1 = ms.*2).
  { clear -Et. revert Et. generalize ms.*2. induction segs as [|[t m] segs IH]; intros us Et; destruct us as [|u us]; [done..|].
    cbn in Et. injection Et as Et _ Et'. rewrite (fmap_cons fst). cbn [fst map]. by rewrite Et, (IH us). }
  exists ms, segs.*1, l. split_and!; [done|done|done|done|]. rewrite filter_all in H5; [done|].
  rewrite <- Ht in Hshape. rewrite Forall_map in Hshape. eapply Forall_impl; [exact Hshape|]. cbn. intros t Ht' -> . by apply shape_nonempty in Ht'.
Qed.
Lemma byte_level_matches fold letter number space rs (prefix : bool) : scalars rs →
  let v := if prefix then prefixed white_space 32 (fresh 0 rs) else fresh 0 rs in
  ∃ ms ts l, byte_level (engine_of (splitting_re fold letter number space)) prefix (pts_from_string (encode rs))
          = Ret (Pts (encode rs) (splits_from_ns l), None)
    ∧ concat ts = v
    ∧ scan (splitting_re fold letter number space) 0 v.*1 ms
    ∧ map (λ t : atext, t.*1) ts = ms.*2
    ∧ Forall2 (λ t, piece_of (from_string (encode rs)) (byte_text t)) ts l.
Proof. intros Hs. exact (byte_level_matches_at fold letter number space _ _ prefix (from_string_wf rs Hs)). Qed.
