(** Byte pair encoding as passes over a segmentation; merge maps that extend each other. *)
From Coq Require Import ZifyBool ZifyNat QArith.
From stdpp Require Import relations.
From Verif Require Import GoBase Strutils Vocab MergeMap Heap Bpe SpecText SpecVocab SpecBpe SpecDrop SpecTrain Utf8Facts SliceFacts VocabFacts BpeWord BpeLoop BpeFacts BpeTok DropFacts DropDet SpecRead ReadFacts.
Import GoBase.
#[local] Open Scope Z_scope.

(** * Passes *)
(** Two elements off the front. *)
Lemma pairs_ind {A} (P : list A → Prop) :
  P [] → (∀ x, P [x]) → (∀ x y r, P r → P (y :: r) → P (x :: y :: r)) → ∀ l, P l.
Proof.
  intros H0 H1 H2 l. assert (H : P l ∧ ∀ x, P (x :: l)); [|tauto].
  induction l as [|y l [IH1 IH2]]; [done|]. split; [apply IH2|]. intros x. apply H2; [done|apply IH2].
Qed.
Lemma pass_cons a b c x y r :
  pass a b c (x :: y :: r) = if decide (x.1 = a ∧ y.1 = b) then (c, x.2 + y.2) :: pass a b c r else x :: pass a b c (y :: r).
Proof. done. Qed.
Lemma join_cons a b x y r :
  join_pass a b (x :: y :: r) = if decide (x = a ∧ y = b) then (a ++ b) :: join_pass a b r else x :: join_pass a b (y :: r).
Proof. done. Qed.

Section pass.
  Context (mm : merge_map) (a b : Z) (m : merge_value)
    (Hm : mm !! (a, b) = Some m) (Hr : ranks_differ mm)
    (Hold : ∀ p m', mm !! p = Some m' → mv_rank m' <= mv_rank m → p.1 ≠ mv_id m ∧ p.2 ≠ mv_id m).

  (** Everything of lower rank has been merged, and of this rank everything before the index [n]. *)
  Definition merged_to (n : nat) (ss : list (Z * Z)) : Prop :=
    ∀ k m', pair_at mm ss k m' → mv_rank m < mv_rank m' ∨ (mv_rank m = mv_rank m' ∧ (n <= k)%nat).

  Lemma pass_steps ss l : merged_to (length l) (l ++ ss) →
    rtc (bpe_step mm) (l ++ ss) (l ++ pass a b (mv_id m) ss)
    ∧ ∀ k m', pair_at mm (l ++ pass a b (mv_id m) ss) k m' → mv_rank m < mv_rank m'.
  Proof.
    revert ss l. refine (pairs_ind _ _ _ _).
    - intros l H. split; [done|]. intros k m' Hk. destruct (H _ _ Hk) as [?|[_ Hl]]; [done|].
      apply pair_at_lookup in Hk as (x & y & _ & Hy%lookup_lt_Some & _). cbn in Hy. rewrite app_nil_r in Hy. lia.
    - intros x l H. split; [done|]. intros k m' Hk. destruct (H _ _ Hk) as [?|[_ Hl]]; [done|].
      apply pair_at_lookup in Hk as (? & y & _ & Hy%lookup_lt_Some & _). cbn in Hy. rewrite app_length in Hy. cbn in Hy. lia.
    - intros [x lx] [y ly] r IH1 IH2 l H. rewrite pass_cons. cbn [fst snd]. destruct (decide (x = a ∧ y = b)) as [[-> ->]|Hn].
      + destruct (IH1 (l ++ [(mv_id m, lx + ly)])) as [S1 S2].
        { intros k m' (z & w & Hz & Hw & Hzw)%pair_at_lookup. rewrite app_length. cbn [length]. rewrite <- app_assoc in Hz, Hw. cbn [app] in Hz, Hw.
          destruct (decide (mv_rank m' <= mv_rank m)) as [Hle|]; [|left; lia].
          destruct (Hold _ _ Hzw Hle) as [Hz1 Hw1]. cbn in Hz1, Hw1.
          destruct (decide (k < length l)%nat) as [Hk|Hk].
          - exfalso. destruct (decide (S k = length l)) as [E|E].
            { rewrite E, new_p in Hw. injection Hw as <-. done. }
            rewrite (new_lt l r (a, lx) (b, ly)) in Hz, Hw by lia.
            destruct (H k m') as [?|[_ ?]]; [|lia..]. apply pair_at_lookup. eauto.
          - destruct (decide (k = length l)) as [->|Hk']; [rewrite new_p in Hz; injection Hz as <-; done|].
            rewrite (new_gt l r (a, lx) (b, ly)) in Hz, Hw by lia.
            destruct (H (S k) m') as [?|[E _]]; [apply pair_at_lookup; eauto|lia|]. right. split; [done|lia]. }
        rewrite <- !app_assoc in S1. rewrite <- app_assoc in S2. cbn [app] in S1, S2. split; [|done].
        eapply rtc_l; [|exact S1]. apply bpe_step_intro; [done|exact H].
      + destruct (IH2 (l ++ [(x, lx)])) as [S1 S2].
        { intros k m' Hk. rewrite <- app_assoc in Hk. destruct (H _ _ Hk) as [?|[E Hl]]; [by left|]. right. split; [done|]. rewrite app_length. cbn [length].
          destruct (decide (k = length l)) as [->|]; [exfalso|lia]. apply pair_at_lookup in Hk as (z & w & Hz & Hw & Hzw).
          cbn [app] in Hz, Hw. rewrite old_p in Hz. rewrite old_n in Hw. injection Hz as <-. injection Hw as <-. cbn in Hzw.
          pose proof (Hr _ _ _ _ Hm Hzw E) as E2. injection E2 as E2 E3. by destruct Hn. }
        rewrite <- !app_assoc in S1. rewrite <- app_assoc in S2. done.
  Qed.
End pass.

Lemma passes_steps mm rules done ss : by_rank mm (done ++ rules) → trained mm →
  (∀ k m, pair_at mm ss k m → ∀ x, x ∈ done → mv_rank x.2 < mv_rank m) →
  rtc (bpe_step mm) ss (passes (map (λ x, (x.1, mv_id x.2)) rules) ss) ∧ saturated mm (passes (map (λ x, (x.1, mv_id x.2)) rules) ss).
Proof.
  intros [Hin Hlt] Ht. assert (Hr : ranks_differ mm).
  { intros p p' m m' H1%Hin H2%Hin E. apply elem_of_list_lookup in H1 as [i Hi], H2 as [j Hj].
    destruct (lt_eq_lt_dec i j) as [[H| ->]|H]; [pose proof (Hlt _ _ _ _ H Hi Hj) as G; cbn in G; lia|congruence|pose proof (Hlt _ _ _ _ H Hj Hi) as G; cbn in G; lia]. }
  revert done ss Hin Hlt. induction rules as [|[[a b] m] rules IH]; intros dn ss Hin Hlt Hd.
  - split; [done|]. intros k m Hk. rewrite app_nil_r in Hin. destruct (Hk) as (l & a & la & b & lb & r & _ & _ & Hm). apply Hin in Hm.
    specialize (Hd _ _ Hk _ Hm). cbn in Hd. lia.
  - assert (Hm : mm !! (a, b) = Some m) by (apply Hin; set_solver).
    destruct (pass_steps mm a b m Hm Hr) with (ss := ss) (l := @nil (Z * Z)) as [S1 S2].
    + intros p m' Hp Hle. exact (Ht _ _ _ _ Hp Hm Hle).
    + intros k m' Hk. cbn in Hk. cbn [length]. pose proof (Hd _ _ Hk) as Hd'. destruct Hk as (l & c & lc & d & ld & r & _ & _ & Hm'%Hin).
      apply elem_of_list_lookup in Hm' as [i Hi]. assert (Hnew : (dn ++ (a, b, m) :: rules) !! length dn = Some (a, b, m)).
      { by rewrite lookup_app_r, Nat.sub_diag by lia. }
      destruct (lt_eq_lt_dec i (length dn)) as [[H| ->]|H].
      * rewrite lookup_app_l in Hi by lia. apply elem_of_list_lookup_2 in Hi. specialize (Hd' _ Hi). cbn in Hd'. lia.
      * rewrite Hnew in Hi. injection Hi as <- <- <-. right. split; [done|lia].
      * left. exact (Hlt _ _ _ _ H Hnew Hi).
    + cbn [app] in S1, S2. destruct (IH (dn ++ [(a, b, m)]) (pass a b (mv_id m) ss)) as [S3 S4].
      * intros p m'. by rewrite <- app_assoc.
      * rewrite <- app_assoc. exact Hlt.
      * intros k m' Hk x [Hx| ->%elem_of_list_singleton]%elem_of_app; [|exact (S2 _ _ Hk)].
        specialize (S2 _ _ Hk). apply elem_of_list_lookup in Hx as [i Hi].
        assert (mv_rank x.2 < mv_rank m); [|lia]. apply (Hlt i (length dn) x (a, b, m)); [by apply lookup_lt_Some in Hi|by apply lookup_app_l_Some|].
        by rewrite lookup_app_r, Nat.sub_diag by lia.
      * cbn [map]. unfold passes. cbn [foldl fst snd]. split; [|exact S4]. etrans; [exact S1|exact S3].
Qed.

Lemma textbook_passes mm rules ss : by_rank mm rules → trained mm →
  rtc (bpe_step mm) ss (passes (map (λ x, (x.1, mv_id x.2)) rules) ss) ∧ saturated mm (passes (map (λ x, (x.1, mv_id x.2)) rules) ss).
Proof. intros H Ht. apply (passes_steps mm rules []); [done|done|]. intros k m _ x Hx. by apply elem_of_nil in Hx. Qed.

(** * Extended merge maps *)
Lemma extended_steps mm mm' ss t : extended mm mm' → rtc (bpe_step mm) ss t → rtc (bpe_step mm') ss t.
Proof.
  intros [H1 H2]. induction 1 as [s|s t u [l a la b lb r m Hm Hmin] _ IH]; [done|]. eapply rtc_l; [|exact IH].
  apply bpe_step_intro; [by apply H1|]. intros k m' (x & y & Hx & Hy & Hxy)%pair_at_lookup.
  destruct (mm !! (x.1, y.1)) as [m1|] eqn:E.
  - pose proof (H1 _ _ E) as E'. rewrite Hxy in E'. injection E' as <-. apply Hmin, pair_at_lookup. eauto.
  - left. by eapply H2.
Qed.
Lemma bpe_step_merge mm ss t : bpe_step mm ss t → merge_step mm ss t.
Proof. intros [l a la b lb r m Hm _]. by apply merge_step_intro. Qed.
Lemma extended_result mm mm' ss t t' : extended mm mm' →
  rtc (bpe_step mm) ss t → saturated mm t → rtc (bpe_step mm') ss t' → saturated mm' t' → rtc (bpe_step mm') t t'.
Proof.
  intros He Ht Hs Ht' Hs'. apply (extended_steps _ _ _ _ He) in Ht.
  clear Hs He. induction Ht as [s|s u t Hst _ IH]; [done|]. apply IH.
  inversion Ht' as [|? u' ? Hst' Ht'']; subst; [exfalso; by eapply bpe_step_unsat|]. by rewrite (bpe_step_det _ _ _ _ Hst Hst').
Qed.

(** * Symbols and the terms they stand for *)
Definition names (v : vocab) (ss : list (Z * Z)) (ts : list (list Z)) : Prop := Forall2 (λ s t, get_id v t = Some s.1) ss ts.
Lemma names_pass v ta tb a b c ss ts : consistent v → get_id v ta = Some a → get_id v tb = Some b → get_id v (ta ++ tb) = Some c →
  names v ss ts → names v (pass a b c ss) (join_pass ta tb ts).
Proof.
  intros Hc Ha Hb Hab. revert ss ts. refine (pairs_ind _ _ _ _).
  - intros ts H. apply Forall2_nil_inv_l in H as ->. constructor.
  - intros x ts H. apply Forall2_cons_inv_l in H as (t & ts' & Ht & H & ->). apply Forall2_nil_inv_l in H as ->. by repeat constructor.
  - intros x y r IH1 IH2 ts H. apply Forall2_cons_inv_l in H as (t & ts' & Ht & H & ->). pose proof (IH2 _ H) as IH3.
    apply Forall2_cons_inv_l in H as (u & ts & Hu & H & ->). rewrite pass_cons, join_cons.
    destruct (decide (x.1 = a ∧ y.1 = b)) as [[E1 E2]|Hn].
    + assert (t = ta ∧ u = tb) as [-> ->]. { rewrite <- E1 in Ha. rewrite <- E2 in Hb. split; eapply get_id_inj; done. }
      rewrite decide_True by done. constructor; [done|]. by apply IH1.
    + rewrite decide_False; [by constructor|]. intros [-> ->]. rewrite Ha in Ht. rewrite Hb in Hu. apply Hn. split; congruence.
Qed.

(** What a file says: pairs of terms, with the same index as ranks. *)
Lemma file_pairs file v mm ls pairs : merge_map_from_file file v 0 = Ret (Ok mm) → file_lines file ls → listed ls pairs →
  ∃ ms, Forall2 (λ p x, get_id v p.1 = Some x.1.1 ∧ get_id v p.2 = Some x.1.2 ∧ get_id v (p.1 ++ p.2) = Some x.2) pairs ms
    ∧ ∀ p x, mm !! p = Some x ↔ last_merge ms p x.
Proof.
  intros H Hl Hp. apply from_file_ok in H as [_ H]. rewrite (all_lines_of _ _ Hl) in H. apply (merges_loop_ok v 0 ls 1 ∅ [] mm) in H as (ms & Hms & Hmm).
  2:{ intros p x. unfold merge_map. rewrite lookup_empty. split; [done|]. intros (_ & Hx & _). by rewrite lookup_nil in Hx. }
  exists ms. split; [|done]. clear Hmm. unfold listed in Hp. revert pairs Hp. induction Hms as [|l x l' ms Hx _ IH]; intros pairs Hp.
  - apply Forall2_nil_inv_l in Hp as ->. constructor.
  - apply Forall2_cons_inv_l in Hp as ([t0 t1] & pairs' & Ht & Hp & ->). constructor; [|by apply IH]. cbn [fst snd] in *.
    destruct Hx as (u0 & cut & u1 & Hu & Hcut & H0 & H1 & H2). destruct cut as [|c cut]; [|rewrite zlen_cons in Hcut; pose proof (zlen_nonneg cut); lia].
    cbn [app] in *. assert (t0 = u0 ∧ t1 = u1) as [-> ->]; [|done]. destruct Ht as (-> & Ht & _), Hu as (Hu & Hu0 & _).
    clear -Ht Hu Hu0. revert u0 Hu Hu0. induction t0 as [|c t0 IH]; intros [|d u0] Hu Hu0; cbn in Hu.
    + by injection Hu.
    + injection Hu as <- _. set_solver.
    + injection Hu as -> _. set_solver.
    + injection Hu as <- Hu. destruct (IH ltac:(set_solver) u0 Hu ltac:(set_solver)) as [-> ->]. done.
Qed.
Lemma last_merge_exists ms p c : (p, c) ∈ ms → ∃ x, last_merge ms p x.
Proof.
  induction ms as [|[q d] ms IH] using rev_ind; [by intros ?%elem_of_nil|]. intros H.
  destruct (decide (q = p)) as [->|Hq].
  - exists (MergeValue (Z.of_nat (length ms)) d). split; [cbn; lia|]. cbn. rewrite Nat2Z.id. split; [by rewrite lookup_app_r, Nat.sub_diag by lia|].
    intros j q' c' Hj Hl%lookup_lt_Some. rewrite app_length in Hl. cbn in Hl. lia.
  - destruct IH as (x & H1 & H2 & H3). { apply elem_of_app in H as [H|H%elem_of_list_singleton]; [done|]. congruence. }
    exists x. split; [done|]. split; [by apply lookup_app_l_Some|]. intros j q' c' Hj [Hl|[_ Hl]]%lookup_app_Some; [by eapply H3|].
    apply list_lookup_singleton_Some in Hl as [_ [= <- <-]]. done.
Qed.

Lemma pairs_inj v (pairs : list (list Z * list Z)) ms i j p q x y :
  Forall2 (λ p x, get_id v p.1 = Some x.1.1 ∧ get_id v p.2 = Some x.1.2 ∧ get_id v (p.1 ++ p.2) = Some x.2) pairs ms → consistent v →
  pairs !! i = Some p → pairs !! j = Some q → ms !! i = Some x → ms !! j = Some y → x.1 = y.1 → p = q.
Proof.
  intros H Hc Hi Hj Hx Hy E. destruct (Forall2_lookup_lr _ _ _ _ _ _ H Hi Hx) as (H1 & H2 & _). destruct (Forall2_lookup_lr _ _ _ _ _ _ H Hj Hy) as (H3 & H4 & _).
  rewrite E in H1, H2. destruct p, q. cbn in *. f_equal; by eapply get_id_inj.
Qed.

Lemma file_rules file v mm ls pairs : consistent v → merge_map_from_file file v 0 = Ret (Ok mm) → file_lines file ls → listed ls pairs → NoDup pairs →
  ∃ rules, by_rank mm rules ∧ (training_order pairs → trained mm)
    ∧ Forall2 (λ p x, get_id v p.1 = Some x.1.1 ∧ get_id v p.2 = Some x.1.2 ∧ get_id v (p.1 ++ p.2) = Some x.2) pairs (map (λ x, (x.1, mv_id x.2)) rules).
Proof.
  intros Hc H Hl Hp Hnd. destruct (file_pairs _ _ _ _ _ H Hl Hp) as (ms & Hms & Hmm).
  exists (imap (λ k x, (x.1, MergeValue (Z.of_nat k) x.2)) ms).
  assert (Hin : ∀ p m, mm !! p = Some m ↔ 0 <= mv_rank m ∧ ms !! Z.to_nat (mv_rank m) = Some (p, mv_id m)).
  { intros p m. rewrite Hmm. unfold last_merge. split; [tauto|]. intros [H1 H2]. split; [done|]. split; [done|]. intros j q c Hj Hq ->.
    destruct (Forall2_lookup_r _ _ _ _ _ Hms H2) as (p1 & G1 & _). destruct (Forall2_lookup_r _ _ _ _ _ Hms Hq) as (p2 & G2 & _).
    pose proof (pairs_inj _ _ _ _ _ _ _ _ _ Hms Hc G1 G2 H2 Hq eq_refl) as ->. pose proof (NoDup_lookup _ _ _ _ Hnd G1 G2). lia. }
  split; [|split].
  - split.
    + intros p m. rewrite Hin, elem_of_list_lookup. split.
      * intros [H1 H2]. exists (Z.to_nat (mv_rank m)). rewrite list_lookup_imap, H2. cbn. rewrite Z2Nat.id by done. by destruct m.
      * intros (k & Hk). rewrite list_lookup_imap in Hk. destruct (ms !! k) as [x|] eqn:E; [|done]. cbn in Hk. injection Hk as <- <-. cbn. rewrite Nat2Z.id, E. destruct x. split; [lia|done].
    + intros i j x y Hij Hi Hj. rewrite list_lookup_imap in Hi, Hj. destruct (ms !! i); [|done]. destruct (ms !! j); [|done].
      cbn in Hi, Hj. injection Hi as <-. injection Hj as <-. cbn. lia.
  - intros Ht p m p' m' [H1 H2]%Hin [H3 H4]%Hin Hle.
    destruct (Forall2_lookup_r _ _ _ _ _ Hms H2) as (t & G1 & G2 & G3 & _). destruct (Forall2_lookup_r _ _ _ _ _ Hms H4) as (u & G4 & _ & _ & G5).
    destruct (Ht (Z.to_nat (mv_rank m)) (Z.to_nat (mv_rank m')) _ _ ltac:(lia) G1 G4) as [N1 N2]. cbn in *. split; intros E.
    + apply N1. rewrite E in G2. by eapply get_id_inj.
    + apply N2. rewrite E in G3. by eapply get_id_inj.
  - assert (map (λ x : Z * Z * merge_value, (x.1, mv_id x.2)) (imap (λ k x, (x.1, MergeValue (Z.of_nat k) x.2)) ms) = ms) as ->; [|done].
    apply list_eq. intros k. rewrite (list_lookup_fmap _ (imap _ ms)), list_lookup_imap. destruct (ms !! k) as [[? ?]|]; done.
Qed.

Lemma names_passes v pairs rules ss ts : consistent v →
  Forall2 (λ p x, get_id v p.1 = Some x.1.1 ∧ get_id v p.2 = Some x.1.2 ∧ get_id v (p.1 ++ p.2) = Some x.2) pairs rules →
  names v ss ts → names v (passes rules ss) (join_all pairs ts).
Proof.
  intros Hc H. revert ss ts. induction H as [|p x pairs rules (H1 & H2 & H3) _ IH]; intros ss ts Hn; [done|].
  unfold passes, join_all. cbn [foldl]. apply IH. by apply names_pass.
Qed.
Lemma names_values v ss ts o toks : consistent v → names v ss ts → toks_of v o ss toks → map t_value toks = ts.
Proof.
  intros Hc H. revert o toks. induction H as [|s t ss ts Hs _ IH]; intros o toks Ht; inversion Ht as [|? i n x ? ts' Hx Ht']; subst; [done|].
  cbn. f_equal; [|by eapply IH]. cbn in Hs. apply Hc in Hs. congruence.
Qed.
Lemma names_answer m ss ts res : consistent (b_vocab m) → names (b_vocab m) ss ts → answer m ss res → ∃ toks, res = Ok toks ∧ toks_of (b_vocab m) 0 ss toks.
Proof.
  intros Hc Hn Ha. destruct res as [toks|e]; [by exists toks|]. destruct Ha as (a & s & b & -> & _ & Hs & _).
  apply Forall2_app_inv_l in Hn as (? & ? & _ & Hn & _). apply Forall2_cons_inv_l in Hn as (t & ? & Ht & _). cbn in Ht. apply Hc in Ht. congruence.
Qed.

(** * Joined tokens *)
Lemma toks_of_cat v o s1 s2 ts1 ts2 : toks_of v o s1 ts1 → toks_of v (o + sym_bytes s1) s2 ts2 → toks_of v o (s1 ++ s2) (ts1 ++ ts2).
Proof.
  intros H H2. induction H as [o|o i n x ss ts Hx _ IH]; cbn [sym_bytes foldr] in *; [by rewrite Z.add_0_r in H2|].
  cbn [app]. constructor; [done|]. apply IH. cbn in H2. by rewrite Z.add_assoc in H2.
Qed.
Lemma joined_self t : joined_from t [t].
Proof. exists t, t. cbn. by rewrite app_nil_r. Qed.
Lemma joined_join t1 t2 g1 g2 i x : joined_from t1 g1 → joined_from t2 g2 → x = t_value t1 ++ t_value t2 →
  joined_from (Token i x (Offsets (o_start (t_offsets t1)) (o_end (t_offsets t2)))) (g1 ++ g2).
Proof.
  intros (a & b & H1 & H2 & H3 & H4 & H5) (c & d & G1 & G2 & G3 & G4 & G5) ->. exists a, d. cbn.
  split; [by destruct g1|]. split. { rewrite last_app, G2. done. }
  rewrite map_app, concat_app. by rewrite <- H3, <- G3.
Qed.
Lemma steps_coarser v mm o ss t toks : consistent v → merges_concat v mm → rtc (merge_step mm) ss t → toks_of v o ss toks →
  ∃ toks', toks_of v o t toks' ∧ coarser toks toks'.
Proof.
  intros Hc Hm H Ht. revert t H. apply rtc_ind_r; [|intros t u _ [l a la b lb r m Hab] IH].
  - exists toks. split; [done|]. exists (map (λ t, [t]) toks). clear. induction toks as [|t toks [IH1 IH2]]; [split; [done|constructor]|]. cbn. split; [by rewrite IH1|].
    constructor; [apply joined_self|done].
  - destruct IH as (toks1 & H1 & gs & H2 & H3).
    assert (∃ tl tr, toks1 = tl ++ tr ∧ toks_of v o l tl ∧ toks_of v (o + sym_bytes l) ((a, la) :: (b, lb) :: r) tr) as (tl & tr & -> & Hl & Hr).
    { clear -H1. revert o toks1 H1. induction l as [|[i n] l IH]; intros o toks1 H1; cbn [app] in H1.
      - exists [], toks1. cbn. rewrite Z.add_0_r. split; [done|]. split; [constructor|done].
      - inversion H1 as [|? ? ? x ? ts Hx Hts]; subst. destruct (IH _ _ Hts) as (tl & tr & -> & G1 & G2). eexists (_ :: tl), tr. split; [done|].
        split; [by constructor|]. cbn. by rewrite Z.add_assoc. }
    inversion Hr as [|? ? ? x ? ts Hx Hr1]; subst. inversion Hr1 as [|? ? ? y ? ts' Hy Hr2]; subst.
    apply Forall2_app_inv_l in H3 as (gl & gr & Gl & Gr & ->). apply Forall2_cons_inv_l in Gr as (g1 & gr1 & C1 & Gr & ->).
    apply Forall2_cons_inv_l in Gr as (g2 & gr2 & C2 & Gr & ->).
    destruct (Hm _ _ _ Hab) as (t0 & t1 & I0%Hc & I1%Hc & I2%Hc). assert (t0 = x) as -> by congruence. assert (t1 = y) as -> by congruence.
    exists (tl ++ Token (mv_id m) (x ++ y) (Offsets (o + sym_bytes l) (o + sym_bytes l + (la + lb))) :: ts'). split.
    + apply toks_of_cat; [done|]. constructor; [done|]. by rewrite Z.add_assoc.
    + exists (gl ++ (g1 ++ g2) :: gr2). rewrite !concat_app. cbn [concat]. split; [by rewrite <- app_assoc|]. apply Forall2_app; [done|]. constructor; [|done]. rewrite (Z.add_assoc _ la lb).
      eapply (joined_join _ _ _ _ (mv_id m) (x ++ y) C1 C2). done.
Qed.

(** Lines added at the end. *)
Lemma file_extended v file file' mm mm' ls more pairs pairs' : consistent v →
  merge_map_from_file file v 0 = Ret (Ok mm) → merge_map_from_file file' v 0 = Ret (Ok mm') →
  file_lines file ls → file_lines file' (ls ++ more) → listed ls pairs → listed more pairs' → (∀ p, p ∈ pairs → p ∉ pairs') → extended mm mm'.
Proof.
  intros Hc H H' Hl Hl' Hp Hp' Hd. destruct (file_pairs _ _ _ _ _ H Hl Hp) as (ms & Hms & Hmm).
  assert (Hpp : listed (ls ++ more) (pairs ++ pairs')). { unfold listed, merge_lines in *. rewrite filter_app. by apply Forall2_app. }
  destruct (file_pairs _ _ _ _ _ H' Hl' Hpp) as (msx & Hmsx & Hmm').
  pose proof Hmsx as Hall. apply Forall2_app_inv_l in Hmsx as (ms1 & ms' & Hms1 & Hms' & ->).
  assert (ms1 = ms) as ->.
  { clear -Hms Hms1. revert ms1 Hms1. induction Hms as [|p x pairs ms (H1 & H2 & H3) _ IH]; intros ms1 Hms1; [by apply Forall2_nil_inv_l in Hms1|].
    apply Forall2_cons_inv_l in Hms1 as (y & ms1' & (G1 & G2 & G3) & Hms1 & ->). f_equal; [|by apply IH].
    destruct x as [[? ?] ?], y as [[? ?] ?]. cbn in *. congruence. }
  assert (Hlen := Forall2_length _ _ _ Hms).
  assert (Hnew : ∀ j q c i p x, ms' !! j = Some (q, c) → ms !! i = Some (p, x) → q ≠ p).
  { intros j q c i p x Hj Hi ->. destruct (Forall2_lookup_r _ _ _ _ _ Hms Hi) as (t & G1 & _). destruct (Forall2_lookup_r _ _ _ _ _ Hms' Hj) as (u & G2 & _).
    assert (t = u) as ->.
    { eapply (pairs_inj _ _ _ i (length pairs + j) t u _ _ Hall Hc).
      - by apply lookup_app_l_Some.
      - rewrite lookup_app_r by lia. by replace (length pairs + j - length pairs)%nat with j by lia.
      - by apply lookup_app_l_Some.
      - rewrite lookup_app_r by lia. by replace (length pairs + j - length ms)%nat with j by lia.
      - done. }
    apply (Hd u); by eapply elem_of_list_lookup_2. }
  split.
  - intros p m (H1 & H2 & H3)%Hmm. apply Hmm'. split; [done|]. split; [by apply lookup_app_l_Some|].
    intros j q c Hj [Hq|[_ Hq]]%lookup_app_Some; [by eapply H3|]. by eapply Hnew.
  - intros p m p' m' (H1 & H2 & H3)%Hmm (G1 & G2 & G3)%Hmm' Hn.
    apply lookup_lt_Some in H2 as Hlt. apply lookup_app_Some in G2 as [G2|[Hge _]]; [|lia]. exfalso.
    destruct (last_merge_exists ms p' (mv_id m')) as (x & Hx%Hmm); [by eapply elem_of_list_lookup_2|]. congruence.
Qed.
