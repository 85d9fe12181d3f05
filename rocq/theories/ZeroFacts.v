(** Proofs for C109: BpeWord.v and BpeLoop.v once more, for symbols of any length. *)
From Coq Require Import ZifyBool ZifyNat.
From stdpp Require Import relations.
From Verif Require Import GoBase Vocab MergeMap Heap Bpe HeapFacts SpecBpe SpecZero SliceFacts BpeWord BpeLoop BpeFacts.
#[local] Open Scope Z_scope.

(** The linked symbols with their places; what is not linked is empty. *)
Record zrep (w : word) (v : list (nat * (Z * Z))) : Prop := {
  zrep_at : ∀ k p a la, v !! k = Some (p, (a, la)) → True ∧ w !! p = Some (WSym a la (prevz v k) (pz v (S k)));
  zrep_sorted : ∀ j k x y, (j < k)%nat → v !! j = Some x → v !! k = Some y → (x.1 < y.1)%nat;
  zrep_all : ∀ i s, w !! i = Some s → ws_len s ≠ 0 → i ∈ v.*1;
}.

Section merge.
  Context (l r : list (nat * (Z * Z))) (p n : nat) (a la b lb c : Z).
  Let v := l ++ (p, (a, la)) :: (n, (b, lb)) :: r.
  Let v' := l ++ (p, (c, la + lb)) :: r.
  Lemma zv_p : v !! length l = Some (p, (a, la)).
  Proof. unfold v. rewrite lookup_app_r, Nat.sub_diag by lia. done. Qed.
  Lemma zv_n : v !! S (length l) = Some (n, (b, lb)).
  Proof. unfold v. rewrite lookup_app_r by lia. by replace (S (length l) - length l)%nat with 1%nat by lia. Qed.
  Lemma zv'_lt j : (j < length l)%nat → v' !! j = v !! j.
  Proof. intros. unfold v, v'. by rewrite !lookup_app_l. Qed.
  Lemma zv'_p : v' !! length l = Some (p, (c, la + lb)).
  Proof. unfold v'. rewrite lookup_app_r, Nat.sub_diag by lia. done. Qed.
  Lemma zv'_gt j : (length l < j)%nat → v' !! j = v !! S j.
  Proof.
    intros. unfold v, v'. rewrite !lookup_app_r by lia. replace (S j - length l)%nat with (S (j - length l)) by lia.
    destruct (j - length l)%nat as [|m] eqn:E; [lia|done].
  Qed.
  Lemma zpz_v' j : pz v' j = if decide (j <= length l)%nat then pz v j else pz v (S j).
  Proof.
    unfold pz. destruct (decide (j <= length l)%nat) as [H|H].
    - destruct (decide (j = length l)) as [->|]; [by rewrite zv'_p, zv_p|]. by rewrite zv'_lt by lia.
    - by rewrite zv'_gt by lia.
  Qed.

  Lemma zrep_merge w : zrep w v →
    ∃ w', do_merge w (Z.of_nat p) (Z.of_nat n) (WSym b lb (Z.of_nat p) (pz v (S (S (length l))))) c = Ret w'
      ∧ length w' = length w ∧ zrep w' v'.
  Proof.
    intros R. destruct (zrep_at _ _ R _ _ _ _ zv_p) as [Hla Hp]. destruct (zrep_at _ _ R _ _ _ _ zv_n) as [Hlb Hn].
    cbn [prevz] in Hn. rewrite (pz_nonneg _ _ _ zv_p) in Hn. rewrite (pz_nonneg _ _ _ zv_n) in Hp. cbn [fst] in Hn, Hp.
    pose proof (zrep_sorted _ _ R _ _ _ _ (Nat.lt_succ_diag_r _) zv_p zv_n) as Hpn. cbn in Hpn.
    destruct (do_merge_lookup w p n a la (prevz v (length l)) b lb (Z.of_nat p) (pz v (S (S (length l)))) c Hp Hn) as (w' & E & Hlen & Hw').
    { lia. }
    { unfold pz. destruct (v !! S (S (length l))) as [[i x]|] eqn:Hi; [|by left]. right. exists i. split; [done|].
      destruct x as [xa xl]. destruct (zrep_at _ _ R _ _ _ _ Hi) as [_ Hwi]. split; [by eapply lookup_lt_Some|].
      pose proof (zrep_sorted _ _ R (length l) (S (S (length l))) _ _ ltac:(lia) zv_p Hi) as H1.
      pose proof (zrep_sorted _ _ R (S (length l)) (S (S (length l))) _ _ ltac:(lia) zv_n Hi) as H2. cbn in H1, H2. lia. }
    exists w'. split; [done|]. split; [done|]. split.
    - intros k q d ld Hk. destruct (lt_eq_lt_dec k (length l)) as [[Hlt|Heq]|Hgt]; [|subst|].
      + rewrite zv'_lt in Hk by done. destruct (zrep_at _ _ R _ _ _ _ Hk) as [Hld Hq]. split; [done|].
        pose proof (zrep_sorted _ _ R _ _ _ _ Hlt Hk zv_p) as H1. cbn in H1. rewrite Hw'.
        rewrite (decide_False (P := q = p)), (decide_False (P := q = n)) by lia.
        rewrite (decide_False (P := Z.of_nat q = _)).
        2:{ unfold pz. destruct (v !! S (S (length l))) as [y|] eqn:Hy; [|lia].
            pose proof (zrep_sorted _ _ R k (S (S (length l))) _ _ ltac:(lia) Hk Hy) as H2. cbn in H2. lia. }
        rewrite Hq. f_equal. f_equal.
        * destruct k as [|k]; [done|]. cbn [prevz]. rewrite zpz_v'. by rewrite decide_True by lia.
        * rewrite zpz_v'. by rewrite decide_True by lia.
      + rewrite zv'_p in Hk. injection Hk as <- <- <-. split; [done|]. rewrite Hw', decide_True by done. f_equal. f_equal.
        * destruct (length l) as [|k] eqn:El; [done|]. cbn [prevz]. rewrite zpz_v'. by rewrite decide_True by lia.
        * rewrite zpz_v'. by rewrite decide_False by lia.
      + rewrite zv'_gt in Hk by done. destruct (zrep_at _ _ R _ _ _ _ Hk) as [Hld Hq]. split; [done|].
        pose proof (zrep_sorted _ _ R (length l) (S k) _ _ ltac:(lia) zv_p Hk) as H1. cbn in H1.
        pose proof (zrep_sorted _ _ R (S (length l)) (S k) _ _ ltac:(lia) zv_n Hk) as H2. cbn in H2. rewrite Hw'.
        rewrite (decide_False (P := q = p)), (decide_False (P := q = n)) by lia.
        destruct k as [|k]; [lia|]. cbn [prevz] in Hq |- *. rewrite !zpz_v'. rewrite (decide_False (P := (S (S k) <= _)%nat)) by lia.
        destruct (decide (k = length l)) as [->|Hk'].
        * rewrite decide_True by (rewrite (pz_nonneg _ _ _ Hk); done). rewrite Hq. cbn. rewrite decide_True by lia.
          by rewrite (pz_nonneg _ _ _ zv_p).
        * rewrite (decide_False (P := (k <= _)%nat)) by lia. rewrite decide_False; [done|].
          unfold pz. destruct (v !! S (S (length l))) as [y|] eqn:Hy; [|lia].
          pose proof (zrep_sorted _ _ R (S (S (length l))) (S (S k)) _ _ ltac:(lia) Hy Hk) as H3. cbn in H3. lia.
    - intros j k x y Hjk Hx Hy.
      assert (Hold : ∀ i z, v' !! i = Some z → ∃ z', v !! (if decide (i <= length l)%nat then i else S i) = Some z' ∧ z'.1 = z.1).
      { intros i z Hz. destruct (lt_eq_lt_dec i (length l)) as [[Hlt|Heq]|Hgt]; [|subst|].
        - rewrite zv'_lt in Hz by done. rewrite decide_True by lia. eauto.
        - rewrite zv'_p in Hz. injection Hz as <-. rewrite decide_True by lia. rewrite zv_p. eauto.
        - rewrite zv'_gt in Hz by done. rewrite decide_False by lia. eauto. }
      destruct (Hold _ _ Hx) as (x' & Hx' & <-). destruct (Hold _ _ Hy) as (y' & Hy' & <-).
      eapply (zrep_sorted _ _ R); [|exact Hx'|exact Hy']. repeat case_decide; lia.
    - intros i s Hi Hs. rewrite Hw' in Hi. unfold v'. rewrite fmap_app, fmap_cons. cbn [fst].
      rewrite elem_of_app, elem_of_cons. destruct (decide (i = p)) as [->|Hip]; [by right; left|].
      destruct (decide (i = n)) as [->|Hin]; [by injection Hi as <-|].
      assert (Hold : i ∈ v.*1).
      { destruct (decide (Z.of_nat i = _)) as [E'|E'].
        - destruct (w !! i) as [s0|] eqn:Hs0; [|done]. cbn in Hi. injection Hi as <-. by apply (zrep_all _ _ R i s0).
        - by apply (zrep_all _ _ R i s). }
      unfold v in Hold. rewrite fmap_app, !fmap_cons in Hold. cbn [fst] in Hold.
      rewrite elem_of_app, !elem_of_cons in Hold. tauto.
  Qed.
End merge.

Lemma zpush_neighbours_spec mm w l x r q :
  zrep w (l ++ x :: r) → is_heap q →
  ∃ q', push_neighbours mm w (Z.of_nat x.1) q = Ret q' ∧ is_heap q' ∧ q' ≡ₚ new_entries mm l x r ++ q.
Proof.
  intros R Hq. destruct x as [p [c lc]]. cbn [fst].
  assert (Hx : (l ++ (p, (c, lc)) :: r) !! length l = Some (p, (c, lc))) by (rewrite lookup_app_r, Nat.sub_diag by lia; done).
  destruct (zrep_at _ _ R _ _ _ _ Hx) as [Hlc Hp]. unfold push_neighbours. rewrite (idx_nat _ _ _ Hp).
  cbn [mbind outcome_bind ws_prev ws_next ws_id].
  match goal with |- ∃ q', mbind _ ?e = _ ∧ _ => assert (∃ q1, e = Ret q1 ∧ is_heap q1 ∧
    q1 ≡ₚ match last l with Some y => pair_entry mm y (p, (c, lc)) | None => [] end ++ q) as (q1 & E1 & Hq1 & P1) end.
  { destruct (last l) as [[y [d ld]]|] eqn:El.
    - apply last_Some in El as [l0 ->]. rewrite app_length in *. cbn [length] in *. rewrite Nat.add_1_r in *. cbn [prevz] in *.
      assert (Hy : ((l0 ++ [(y, (d, ld))]) ++ (p, (c, lc)) :: r) !! length l0 = Some (y, (d, ld))).
      { rewrite <- app_assoc. rewrite lookup_app_r, Nat.sub_diag by lia. done. }
      rewrite (pz_nonneg _ _ _ Hy). cbn [fst]. destruct (Z.eqb_spec (Z.of_nat y) (-1)); [lia|]. cbn [negb].
      destruct (zrep_at _ _ R _ _ _ _ Hy) as [_ Hwy]. rewrite (idx_nat _ _ _ Hwy). cbn [mbind outcome_bind ws_id].
      apply (push_pair mm q (y, (d, ld)) (p, (c, lc)) Hq).
    - apply last_None in El as ->. cbn [length prevz]. cbn [negb Z.eqb]. by exists q. }
  rewrite E1. clear E1. cbn [mbind outcome_bind]. unfold new_entries.
  destruct r as [|[y [d ld]] r].
  - assert (pz (l ++ [(p, (c, lc))]) (S (length l)) = -1) as ->.
    { unfold pz. rewrite lookup_ge_None_2; [done|]. rewrite app_length. cbn. lia. }
    cbn [negb Z.eqb andb]. exists q1. split; [done|]. split; [done|]. rewrite P1. cbn [head]. by rewrite app_nil_r.
  - assert (Hy : (l ++ (p, (c, lc)) :: (y, (d, ld)) :: r) !! S (length l) = Some (y, (d, ld))).
    { rewrite lookup_app_r by lia. by replace (S (length l) - length l)%nat with 1%nat by lia. }
    rewrite (pz_nonneg _ _ _ Hy). cbn [fst]. destruct (Z.eqb_spec (Z.of_nat y) (-1)); [lia|]. cbn [negb andb].
    destruct (zrep_at _ _ R _ _ _ _ Hy) as [_ Hwy].
    destruct (Z.ltb_spec (Z.of_nat y) (zlen w)) as [_|Hge]; [|apply lookup_lt_Some in Hwy; unfold zlen in Hge; lia].
    rewrite (idx_nat _ _ _ Hwy). cbn [mbind outcome_bind ws_id head].
    destruct (push_pair mm q1 (p, (c, lc)) (y, (d, ld)) Hq1) as (q2 & E2 & Hq2 & P2). exists q2. split; [exact E2|]. split; [done|].
    rewrite P2, P1, (app_assoc (pair_entry mm (p, (c, lc)) (y, (d, ld)))). apply Permutation_app_tail, Permutation_app_comm.
Qed.

(** One iteration. *)
Inductive ziter_to (mm : merge_map) (v : list (nat * (Z * Z))) (q skip : list word_merge) (d : bool) :
    list (nat * (Z * Z)) → list word_merge → list word_merge → Prop :=
| zit_drop top rest q' :
    d = true → q ≡ₚ top :: rest → Forall (wm_le top) rest → q' ≡ₚ rest → ziter_to mm v q skip d v q' (skip ++ [top])
| zit_stale top rest q' :
    d = false → q ≡ₚ top :: rest → Forall (wm_le top) rest → q' ≡ₚ skip ++ rest →
    (∀ l x y r m, v = l ++ x :: y :: r → wm_pos top = Z.of_nat x.1 → mm !! (x.2.1, y.2.1) = Some m → x.2.2 ≠ 0 → mv_id m ≠ wm_id top) →
    ziter_to mm v q skip d v q' []
| zit_merge top rest q' l p a la n b lb r m :
    d = false → q ≡ₚ top :: rest → Forall (wm_le top) rest →
    v = l ++ (p, (a, la)) :: (n, (b, lb)) :: r → wm_pos top = Z.of_nat p → mm !! (a, b) = Some m → la ≠ 0 → mv_id m = wm_id top →
    q' ≡ₚ new_entries mm l (p, (mv_id m, la + lb)) r ++ skip ++ rest →
    ziter_to mm v q skip d (l ++ (p, (mv_id m, la + lb)) :: r) q' [].

Lemma zrep_live w v i s : zrep w v → w !! i = Some s → ws_len s ≠ 0 →
  ∃ k, v !! k = Some (i, (ws_id s, ws_len s)) ∧ s = WSym (ws_id s) (ws_len s) (prevz v k) (pz v (S k)).
Proof.
  intros R Hi Hs. pose proof (zrep_all _ _ R _ _ Hi Hs) as Hin. apply elem_of_list_fmap in Hin as ([i' [a la]] & -> & Hk).
  apply elem_of_list_lookup in Hk as [k Hk]. exists k. destruct (zrep_at _ _ R _ _ _ _ Hk) as [_ H]. cbn in Hi.
  rewrite Hi in H. injection H as ->. done.
Qed.

Lemma zmerge_iter_spec mm d st v :
  zrep (m_w st) v → is_heap (m_q st) → m_q st ≠ [] → Forall (in_word (m_w st)) (m_q st) →
  ∃ st' v', merge_iter mm d st = Ret st' ∧ zrep (m_w st') v' ∧ is_heap (m_q st') ∧ zlen (m_w st') = zlen (m_w st)
    ∧ m_draws st' = S (m_draws st) ∧ ziter_to mm v (m_q st) (m_skip st) d v' (m_q st') (m_skip st').
Proof.
  intros R Hq Hne Hin. unfold merge_iter. destruct (heap_pop_spec _ Hq Hne) as (top & q & -> & Hq' & P & Hmin).
  cbn [mbind outcome_bind]. destruct d.
  { eexists _, v. split; [done|]. cbn. split; [done|]. split; [done|]. split; [done|]. split; [lia|].
    by eapply zit_drop. }
  destruct (heap_push_all_spec (m_skip st) q Hq') as (q1 & -> & Hq1 & P1). cbn [mbind outcome_bind].
  assert (in_word (m_w st) top) as [Hp0 Hp1]. { rewrite Forall_forall in Hin. apply Hin. rewrite P. by left. }
  destruct (lookup_lt_is_Some_2 (m_w st) (Z.to_nat (wm_pos top))) as [cur Hcur]; [unfold zlen in Hp1; lia|].
  assert (idx (m_w st) (wm_pos top) = Ret cur) as ->. { rewrite <- (Z2Nat.id (wm_pos top)) by done. by apply idx_nat. }
  cbn [mbind outcome_bind].
  (* a stale entry *)
  assert (Hstale : (∀ l x y r m, v = l ++ x :: y :: r → wm_pos top = Z.of_nat x.1 → mm !! (x.2.1, y.2.1) = Some m → x.2.2 ≠ 0 → mv_id m ≠ wm_id top) →
    ∃ st' v', Ret (MState (m_w st) q1 [] (m_draws st + 1)) = Ret st' ∧ zrep (m_w st') v' ∧ is_heap (m_q st') ∧ zlen (m_w st') = zlen (m_w st)
    ∧ m_draws st' = S (m_draws st) ∧ ziter_to mm v (m_q st) (m_skip st) false v' (m_q st') (m_skip st')).
  { intros H. eexists _, v. split; [done|]. cbn. split; [done|]. split; [done|]. split; [done|]. split; [lia|]. by eapply zit_stale. }
  (* the live symbols before an entry *)
  assert (Hcx : ∀ l x y r, v = l ++ x :: y :: r → wm_pos top = Z.of_nat x.1 →
    cur = WSym x.2.1 x.2.2 (prevz v (length l)) (Z.of_nat y.1) ∧ True ∧ m_w st !! y.1 = Some (WSym y.2.1 y.2.2 (Z.of_nat x.1) (pz v (S (S (length l)))))).
  { intros l [px [ax lx]] [py [ay ly]] r -> Hpos. cbn in *. rewrite Hpos, Nat2Z.id in Hcur.
    assert (Hx : (l ++ (px, (ax, lx)) :: (py, (ay, ly)) :: r) !! length l = Some (px, (ax, lx))) by (rewrite lookup_app_r, Nat.sub_diag by lia; done).
    assert (Hy : (l ++ (px, (ax, lx)) :: (py, (ay, ly)) :: r) !! S (length l) = Some (py, (ay, ly))).
    { rewrite lookup_app_r by lia. by replace (S (length l) - length l)%nat with 1%nat by lia. }
    destruct (zrep_at _ _ R _ _ _ _ Hx) as [Hlx Hpx]. destruct (zrep_at _ _ R _ _ _ _ Hy) as [_ Hpy].
    rewrite Hcur in Hpx. injection Hpx as ->. rewrite (pz_nonneg _ _ _ Hy). cbn [prevz] in Hpy. rewrite (pz_nonneg _ _ _ Hx) in Hpy. done. }
  destruct (Z.eqb_spec (ws_len cur) 0) as [Hl0|Hl0]; cbn [orb].
  { apply Hstale. intros l x y r m Hv Hpos Hm H0. destruct (Hcx l x y r Hv Hpos) as (-> & H & _). cbn in Hl0. lia. }
  destruct (Z.eqb_spec (ws_next cur) (-1)) as [Hn|Hn]; cbn [negb orb].
  { apply Hstale. intros l x y r m Hv Hpos Hm _. destruct (Hcx l x y r Hv Hpos) as (-> & H & _). cbn in Hn. lia. }
  destruct (zrep_live _ _ _ _ R Hcur Hl0) as (k & Hk & Ecur).
  assert (∃ y, v !! S k = Some y) as [y Hy].
  { rewrite Ecur in Hn. cbn in Hn. unfold pz in Hn. destruct (v !! S k); [eauto|done]. }
  assert (v = take k v ++ (Z.to_nat (wm_pos top), (ws_id cur, ws_len cur)) :: y :: drop (S (S k)) v) as Hv.
  { rewrite <- (take_drop k v) at 1. f_equal. rewrite (drop_S _ _ _ Hk). f_equal. by rewrite (drop_S _ _ _ Hy). }
  assert (wm_pos top = Z.of_nat (Z.to_nat (wm_pos top))) as Hpos by lia.
  set (l := take k v) in *. set (r := drop (S (S k)) v) in *. clearbody l r.
  destruct (Hcx _ _ _ _ Hv Hpos) as (Ecur' & Hpos' & Hwy). cbn [fst snd] in *.
  replace (ws_next cur) with (Z.of_nat y.1) by (by rewrite Ecur').
  rewrite (idx_nat _ _ _ Hwy). cbn [mbind outcome_bind ws_id]. unfold mm_get.
  destruct (mm !! (ws_id cur, y.2.1)) as [m|] eqn:Hm.
  2:{ apply Hstale. intros l' x' y' r' m' Hv' Hpos'' Hm' _. exfalso. destruct (Hcx _ _ _ _ Hv' Hpos'') as (E1 & _ & E2).
      assert (y'.1 = y.1) as Ey. { rewrite Ecur' in E1. injection E1. lia. }
      rewrite Ey in E2. rewrite Hwy in E2. injection E2. intros. rewrite E1 in Hm. cbn in Hm. congruence. }
  destruct (Z.eqb_spec (mv_id m) (wm_id top)) as [Hid|Hid]; cbn [negb].
  2:{ apply Hstale. intros l' x' y' r' m' Hv' Hpos'' Hm' _. destruct (Hcx _ _ _ _ Hv' Hpos'') as (E1 & _ & E2).
      assert (y'.1 = y.1) as Ey. { rewrite Ecur' in E1. injection E1. lia. }
      rewrite Ey in E2. rewrite Hwy in E2. injection E2. intros. rewrite E1 in Hm. cbn in Hm. congruence. }
  destruct y as [n [b lb]]. cbn [fst snd] in *.
  rewrite Hv in R. destruct (zrep_merge l r (Z.to_nat (wm_pos top)) n (ws_id cur) (ws_len cur) b lb (wm_id top) (m_w st) R) as (w' & E & Hlen & R').
  rewrite <- Hv in E. rewrite <- Hpos in E. replace (Z.of_nat (Z.to_nat (wm_pos top))) with (wm_pos top) by lia. rewrite E. cbn [mbind outcome_bind].
  destruct (zpush_neighbours_spec mm w' l _ r q1 R' Hq1) as (q2 & E2 & Hq2 & P2). cbn [fst] in E2. rewrite <- Hpos in E2. rewrite E2.
  cbn [mbind outcome_bind]. eexists _, (l ++ (Z.to_nat (wm_pos top), (wm_id top, ws_len cur + lb)) :: r). split; [done|]. cbn [m_w m_q m_skip m_draws].
  split; [done|]. split; [done|]. split; [unfold zlen; lia|]. split; [lia|]. rewrite <- Hid.
  eapply zit_merge; try done. rewrite P2, P1. by rewrite Hid.
Qed.

Lemma ziter_weight mm v q skip d v' q' skip' : ziter_to mm v q skip d v' q' skip' →
  (weight v' q' skip' = weight v q skip ∧ S (length q') = length q) ∨ (weight v' q' skip' < weight v q skip)%nat.
Proof.
  intros [top rest q1 -> P _ P'|top rest q1 -> P _ P' _|top rest q1 l p a la n b lb r m -> P _ -> _ _ _ _ P'];
    unfold weight; rewrite P', P; cbn [length].
  - left. rewrite app_length. cbn. lia.
  - right. rewrite app_length. lia.
  - right. rewrite !app_length. pose proof (new_entries_length mm l (p, (mv_id m, la + lb)) r). cbn [length]. lia.
Qed.

Lemma zrep_in_word w v x e : zrep w v → x ∈ v → wm_pos e = Z.of_nat x.1 → in_word w e.
Proof.
  intros R Hx He. apply elem_of_list_lookup in Hx as [k Hk]. destruct x as [p [a la]].
  destruct (zrep_at _ _ R _ _ _ _ Hk) as [_ Hp]. apply lookup_lt_Some in Hp. unfold in_word, zlen. cbn in He. lia.
Qed.

Section loop.
  Context (mm : merge_map) (drop : nat → bool).
  Context (I : list (nat * (Z * Z)) → list word_merge → list word_merge → nat → Prop).
  Context (Istep : ∀ v q skip n v' q' skip', I v q skip n → ziter_to mm v q skip (drop n) v' q' skip' → I v' q' skip' (S n)).

  Lemma zmerge_loop_spec N fuel st v :
    zrep (m_w st) v → is_heap (m_q st) → Forall (in_word (m_w st)) (m_q st ++ m_skip st) →
    I v (m_q st) (m_skip st) (m_draws st) →
    (weight v (m_q st) (m_skip st) <= N)%nat →
    (weight v (m_q st) (m_skip st) * (N + 1) + length (m_q st) <= fuel)%nat →
    ∃ st' v', merge_loop fuel mm drop st = Some (Ret st') ∧ zrep (m_w st') v' ∧ m_q st' = [] ∧ I v' [] (m_skip st') (m_draws st').
  Proof.
    revert st v. induction fuel as [|fuel IH]; intros st v R Hq Hin HI HN Hf.
    - assert (m_q st = []) as E. { destruct (m_q st); [done|]. cbn in Hf. lia. }
      exists st, v. cbn [merge_loop]. rewrite E in *. done.
    - cbn [merge_loop]. destruct (m_q st) as [|e q0] eqn:E; [by exists st, v|].
      assert (Hne : m_q st ≠ []) by (by rewrite E). rewrite <- E in *. clear E e q0.
      destruct (zmerge_iter_spec mm (drop (m_draws st)) st v R Hq Hne) as (st' & v' & -> & R' & Hq' & Hlen & Hdr & Hit).
      { by apply Forall_app in Hin as [? _]. }
      pose proof (ziter_weight _ _ _ _ _ _ _ _ Hit) as Hw.
      assert (Hmono : (weight v' (m_q st') (m_skip st') <= N)%nat) by lia.
      apply (IH st' v'); [done|done| |rewrite Hdr; by eapply Istep|done|].
      + rewrite Forall_forall in Hin |- *. intros e He. unfold in_word. rewrite Hlen. fold (in_word (m_w st) e).
        destruct Hit as [top rest q1 Hd P _ P'|top rest q1 Hd P _ P' _|top rest q1 l p a la n b lb r m Hd P _ Hv _ _ _ _ P'].
        * apply Hin. rewrite P. rewrite P' in He. set_solver.
        * apply Hin. rewrite P. rewrite P' in He. set_solver.
        * rewrite app_nil_r, P' in He. apply elem_of_app in He as [He|He].
          -- apply new_entries_pos in He as (y & Hy & Ey). pose proof (zrep_in_word _ _ _ _ R' Hy Ey) as H. unfold in_word in *. by rewrite <- Hlen.
          -- apply Hin. rewrite P. set_solver.
      + assert (Hq'' : (length (m_q st') <= N)%nat) by (unfold weight in Hmono; lia).
        destruct Hw as [[-> Hl]|Hlt]; [lia|].
        assert (weight v' (m_q st') (m_skip st') * (N + 1) + (N + 1) <= weight v (m_q st) (m_skip st) * (N + 1))%nat by nia. lia.
  Qed.
End loop.

Lemma zrep_start ss : zrep (word_of ss) (placed_from 0 ss).
Proof.
  split.
  - intros k p a la Hk. rewrite placed_lookup in Hk. destruct (ss !! k) as [s|] eqn:Hs; [|done]. cbn in Hk. injection Hk as <- ->.
    split; [done|]. rewrite word_of_lookup, Hs. cbn. f_equal. f_equal.
    + destruct k as [|k]; [done|]. cbn [prevz]. pose proof (lookup_lt_Some _ _ _ Hs). unfold pz. rewrite placed_lookup.
      destruct (lookup_lt_is_Some_2 ss k) as [y Hy]; [lia|]. rewrite Hy. cbn. lia.
    + unfold pz. rewrite placed_lookup. destruct (ss !! S k) as [y|] eqn:Hy.
      * apply lookup_lt_Some in Hy. rewrite decide_False by lia. cbn. lia.
      * apply lookup_ge_None in Hy. apply lookup_lt_Some in Hs. by rewrite decide_True by lia.
  - intros j k x y Hjk Hx Hy. rewrite placed_lookup in Hx, Hy. destruct (ss !! j), (ss !! k); try done. cbn in *. simplify_eq. cbn. lia.
  - intros i s Hi _. rewrite word_of_lookup in Hi. destruct (ss !! i) as [y|] eqn:Hy; [|done].
    apply elem_of_list_fmap. exists (i, y). split; [done|]. apply elem_of_list_lookup. exists i. by rewrite placed_lookup, Hy.
Qed.

Lemma remove_empty_any w (v : list (nat * (Z * Z))) :
  (∀ k p x, v !! k = Some (p, x) → ∃ s, w !! p = Some s ∧ (ws_id s, ws_len s) = x ∧ ws_len s ≠ 0) →
  sorted_v v → (∀ i s, w !! i = Some s → ws_len s ≠ 0 → i ∈ v.*1) → word_syms (remove_empty w) = v.*2.
Proof.
  unfold sorted_v. intros H1 H2 H3.
  revert v H1 H2 H3. induction w as [|s w IH] using rev_ind; intros v H1 H2 H3.
  { destruct v as [|[p x] v]; [done|]. destruct (H1 0%nat p x eq_refl) as (s & Hs & _). by rewrite lookup_nil in Hs. }
  rewrite remove_empty_app. unfold word_syms in *. rewrite map_app.
  assert (Hws : (w ++ [s]) !! length w = Some s) by (by rewrite lookup_app_r, Nat.sub_diag by lia).
  destruct (Z.eqb_spec (ws_len s) 0) as [Hs|Hs].
  - assert (remove_empty [s] = []) as ->.
    { unfold remove_empty. rewrite filter_cons, decide_False; [done|]. rewrite Hs. cbn. auto. }
    cbn. rewrite app_nil_r. apply IH; [|done|].
    + intros k p x Hk. destruct (H1 k p x Hk) as (s' & Hs' & Hx & Hne). exists s'. split; [|done].
      destruct (decide (p < length w)%nat); [by rewrite lookup_app_l in Hs'|]. exfalso.
      pose proof (lookup_lt_Some _ _ _ Hs') as Hp. rewrite app_length in Hp. cbn in Hp. assert (p = length w) as -> by lia. congruence.
    + intros i s' Hi. apply H3. by apply lookup_app_l_Some.
  - assert (remove_empty [s] = [s]) as ->.
    { unfold remove_empty. rewrite filter_cons, decide_True; [done|]. apply Z.eqb_neq in Hs. rewrite Hs. done. }
    assert (length w ∈ v.*1) as Hin by (by eapply H3).
    apply elem_of_list_fmap in Hin as ([p x] & Hp & Hk). cbn in Hp. subst p. apply elem_of_list_lookup in Hk as [k Hk].
    assert (Hlast : ∀ j y, v !! j = Some y → (j <= k)%nat ∧ (j < k → y.1 < length w)%nat).
    { intros j [p y] Hj. destruct (H1 _ _ _ Hj) as (s' & Hs' & _). apply lookup_lt_Some in Hs'. rewrite app_length in Hs'. cbn in Hs'.
      split.
      - destruct (decide (j <= k)%nat); [done|]. pose proof (H2 k j _ _ ltac:(lia) Hk Hj) as H. cbn in H. lia.
      - intros Hjk. pose proof (H2 j k _ _ Hjk Hj Hk) as H. exact H. }
    assert (v = take k v ++ [(length w, x)]) as Hv.
    { rewrite <- (take_S_r _ _ _ Hk). rewrite take_ge; [done|]. destruct (decide (length v <= S k)%nat); [done|].
      destruct (lookup_lt_is_Some_2 v (S k)) as [y Hy]; [lia|]. apply Hlast in Hy. lia. }
    rewrite Hv, fmap_app. cbn. f_equal.
    + apply IH.
      * intros j p y Hj. apply lookup_take_Some in Hj as [Hj Hjk]. destruct (H1 _ _ _ Hj) as (s' & Hs' & Hrest). exists s'. split; [|done].
        rewrite lookup_app_l in Hs'; [done|]. by apply (Hlast j (p, y) Hj).
      * intros i j y z Hij Hy Hz. apply lookup_take_Some in Hy as [Hy _]. apply lookup_take_Some in Hz as [Hz _]. by eapply H2.
      * intros i s' Hi Hs'. assert (i ∈ v.*1) as Hin. { eapply H3; [|done]. by apply lookup_app_l_Some. }
        rewrite Hv, fmap_app in Hin. apply elem_of_app in Hin as [?|Hin]; [done|]. cbn in Hin.
        apply elem_of_list_singleton in Hin. apply lookup_lt_Some in Hi. lia.
    + destruct (H1 _ _ _ Hk) as (s' & Hs' & <- & _). rewrite Hws in Hs'. by injection Hs' as ->.
Qed.

Lemma sorted_filter (v : list (nat * (Z * Z))) : sorted_v v → sorted_v (base.filter (λ x, x.2.2 ≠ 0) v).
Proof.
  induction v as [|x v IH]; intros H; [done|]. assert (Hv : sorted_v v) by (intros j k y z Hjk Hy Hz; exact (H (S j) (S k) y z ltac:(lia) Hy Hz)).
  rewrite filter_cons. destruct (decide _); [|by apply IH]. intros [|j] [|k] y z Hjk Hy Hz; [lia| |lia|].
  - cbn in Hy. injection Hy as <-. cbn in Hz. apply elem_of_list_lookup_2, elem_of_list_filter in Hz as [_ Hz].
    apply elem_of_list_lookup in Hz as [i Hz]. exact (H 0%nat (S i) x z ltac:(lia) eq_refl Hz).
  - cbn in Hy, Hz. eapply IH; [done| |exact Hy|exact Hz]. lia.
Qed.
Lemma filter_snd (v : list (nat * (Z * Z))) : (base.filter (λ x, x.2.2 ≠ 0) v).*2 = not_empty v.*2.
Proof. unfold not_empty. induction v as [|x v IH]; [done|]. rewrite fmap_cons, !filter_cons. repeat case_decide; try done. by rewrite fmap_cons, IH. Qed.
Lemma remove_empty_zrep w v : zrep w v → word_syms (remove_empty w) = not_empty v.*2.
Proof.
  intros R. rewrite <- filter_snd. apply remove_empty_any.
  - intros k p [a la] Hk. apply elem_of_list_lookup_2, elem_of_list_filter in Hk as [Hne Hk]. apply elem_of_list_lookup in Hk as [i Hk].
    destruct (zrep_at _ _ R _ _ _ _ Hk) as [_ E]. eexists. split; [exact E|]. done.
  - apply sorted_filter. exact (zrep_sorted _ _ R).
  - intros i s Hi Hs. pose proof (zrep_all _ _ R _ _ Hi Hs) as H. apply elem_of_list_fmap in H as ([p [a la]] & -> & Hx).
    apply elem_of_list_fmap. exists (p, (a, la)). split; [done|]. apply elem_of_list_filter. split; [|done].
    apply elem_of_list_lookup in Hx as [k Hk]. destruct (zrep_at _ _ R _ _ _ _ Hk) as [_ E]. cbn in Hi. rewrite Hi in E. injection E as ->. done.
Qed.

(** * All of MergeAll *)
Section all.
  Context (mm : merge_map) (drop : nat → bool) (ss : list (Z * Z)).
  Context (I : list (nat * (Z * Z)) → list word_merge → list word_merge → nat → Prop).
  Context (Istep : ∀ v q skip n v' q' skip', I v q skip n → ziter_to mm v q skip (drop n) v' q' skip' → I v' q' skip' (S n)).
  Context (Istart : ∀ q, q ≡ₚ all_entries mm (placed_from 0 ss) → I (placed_from 0 ss) q [] 0).

  Lemma zmerge_all_spec :
    ∃ w' v' skip n, merge_all_with (word_of ss) mm drop = Some (Ret w') ∧ word_syms w' = not_empty v'.*2 ∧ I v' [] skip n.
  Proof.
    unfold merge_all_with. destruct (initial_queue_spec mm 0 (word_of ss) [] heap_nil) as (q & E & Hq & P).
    rewrite app_nil_r, word_syms_of in P. change (Z.of_nat 0) with 0 in E. rewrite E. pose proof (zrep_start ss) as R.
    set (n := length ss). assert (length (placed_from 0 ss) = n) as Hn. { unfold placed_from. by rewrite imap_length. }
    assert (length q <= n)%nat as Hql. { rewrite P, <- Hn. apply all_entries_length. }
    destruct (zmerge_loop_spec mm drop I Istep (4 * n) (merge_fuel (word_of ss)) (MState (word_of ss) q [] 0) (placed_from 0 ss))
      as (st' & v' & -> & R' & _ & HI).
    - done.
    - done.
    - cbn. rewrite app_nil_r, Forall_forall. intros e He. rewrite P in He.
      assert (Hall : ∀ v e, e ∈ all_entries mm v → ∃ x, x ∈ v ∧ wm_pos e = Z.of_nat x.1).
      { clear. induction v as [|x [|y v] IH]; intros e; [by intros ?%elem_of_nil..|]. cbn [all_entries]. rewrite elem_of_app.
        intros [H%pair_entry_pos|H]; [exists x; split; [by left|done]|]. apply IH in H as (z & Hz & ?). exists z. split; [by right|done]. }
      apply Hall in He as (x & Hx & Ex). by eapply zrep_in_word.
    - cbn. by apply Istart.
    - cbn. unfold weight. cbn. lia.
    - cbn. unfold weight, merge_fuel. rewrite word_of_length. fold n. cbn [length]. rewrite Hn. nia.
    - exists (remove_empty (m_w st')), v', (m_skip st'), (m_draws st'). split; [done|]. split; [by apply remove_empty_zrep|done].
  Qed.
End all.

(** * What it computes *)
Lemma full_pair_lookup mm ss k m :
  full_pair mm ss k m ↔ ∃ x y, ss !! k = Some x ∧ ss !! S k = Some y ∧ mm !! (x.1, y.1) = Some m ∧ x.2 ≠ 0.
Proof.
  split.
  - intros (l & a & la & b & lb & r & -> & <- & Hm & Hla). exists (a, la), (b, lb). split; [|split; [|done]].
    + by rewrite lookup_app_r, Nat.sub_diag by lia.
    + rewrite lookup_app_r by lia. by replace (S (length l) - length l)%nat with 1%nat by lia.
  - intros ([a la] & [b lb] & Hx & Hy & Hm & Hla). exists (take k ss), a, la, b, lb, (drop (S (S k)) ss).
    split; [|split; [|done]].
    + rewrite <- (take_drop k ss) at 1. f_equal. rewrite (drop_S _ _ _ Hx). f_equal. by rewrite (drop_S _ _ _ Hy).
    + apply take_length_le. apply lookup_lt_Some in Hx. lia.
Qed.
Lemma full_step_total mm s s' : full_step mm s s' → sym_bytes s' = sym_bytes s.
Proof. intros [l a la b lb r m _ _]. rewrite !sym_bytes_app. cbn. lia. Qed.
Lemma full_steps_total mm s s' : rtc (full_step mm) s s' → sym_bytes s' = sym_bytes s.
Proof. induction 1 as [|s t s' H _ IH]; [done|]. rewrite IH. by eapply full_step_total. Qed.
Lemma not_empty_total ss : sym_bytes (not_empty ss) = sym_bytes ss.
Proof.
  unfold not_empty. induction ss as [|s ss IH]; [done|]. rewrite filter_cons. destruct (decide _) as [H|H].
  - change (s.2 + sym_bytes (base.filter (λ s, s.2 ≠ 0) ss) = s.2 + sym_bytes ss). lia.
  - rewrite IH. change (sym_bytes ss = s.2 + sym_bytes ss). lia.
Qed.

Lemma any_steps mm drop ss :
  ∃ w ts, merge_all_with (word_of ss) mm drop = Some (Ret w) ∧ rtc (full_step mm) ss ts ∧ word_syms w = not_empty ts.
Proof.
  destruct (zmerge_all_spec mm drop ss (λ v _ _ _, rtc (full_step mm) ss v.*2)) as (w' & v' & skip & n & E & Ew & H).
  - intros v q skip n v' q' skip' H [top rest q1 Hd P _ P'|top rest q1 Hd P _ P' _|top rest q1 l p a la n' b lb r m Hd P _ -> _ Hm Hla _ P']; [done..|].
    eapply rtc_r; [exact H|]. rewrite !fmap_app, !fmap_cons. cbn [snd]. by apply full_step_intro.
  - intros q _. by rewrite placed_snd.
  - by exists w', v'.*2.
Qed.

(** Without dropout. *)
Definition zcomplete (mm : merge_map) (v : list (nat * (Z * Z))) (q : list word_merge) : Prop :=
  ∀ k x y m, v !! k = Some x → v !! S k = Some y → mm !! (x.2.1, y.2.1) = Some m → x.2.2 ≠ 0 → WordMerge (mv_rank m) (mv_id m) (Z.of_nat x.1) ∈ q.
Lemma ziter_complete mm v q v' q' skip' :
  sorted_v v → zcomplete mm v q → ziter_to mm v q [] false v' q' skip' → sorted_v v' ∧ zcomplete mm v' q' ∧ skip' = [].
Proof.
  intros Hs Hc [top rest q1 [=]|top rest q1 _ P _ P' Hst|top rest q1 l p a la n b lb r m _ P _ -> Hpos Hm Hla Hid P'].
  - split; [done|]. split; [|done]. intros k x y m Hx Hy Hm H0. rewrite P'. cbn [app]. pose proof (Hc k x y m Hx Hy Hm H0) as Hq. rewrite P in Hq.
    apply elem_of_cons in Hq as [E|Hq]; [|done]. exfalso. subst top.
    refine (Hst (take k v) x y (drop (S (S k)) v) m _ _ Hm H0 _); [|done|done].
    rewrite <- (take_drop k v) at 1. f_equal. rewrite (drop_S _ _ _ Hx). f_equal. by rewrite (drop_S _ _ _ Hy).
  - split; [by eapply sorted_merge|]. split; [|done]. intros k x y m' Hx Hy Hm' H0. rewrite P'. rewrite elem_of_app. cbn [app].
    pose proof (v_p l r p n a la b lb) as Vp. set (c := mv_id m) in *.
    assert (Hold : ∀ k' x' y', (l ++ (p, (a, la)) :: (n, (b, lb)) :: r) !! k' = Some x' → (l ++ (p, (a, la)) :: (n, (b, lb)) :: r) !! S k' = Some y' →
      k' ≠ length l → mm !! (x'.2.1, y'.2.1) = Some m' → x'.2.2 ≠ 0 → WordMerge (mv_rank m') (mv_id m') (Z.of_nat x'.1) ∈ rest).
    { intros k' x' y' Hx' Hy' Hk' Hm'' H0'. pose proof (Hc k' x' y' m' Hx' Hy' Hm'' H0') as Hq. rewrite P in Hq. apply elem_of_cons in Hq as [E|Hq]; [|done].
      exfalso. apply Hk'. eapply (sorted_inj _ _ _ x' _ Hs Hx' Vp). rewrite <- E in Hpos. cbn in Hpos. cbn. lia. }
    destruct (lt_eq_lt_dec k (length l)) as [[H|H]|H].
    + rewrite (v'_lt l r p n a la b lb c) in Hx by done. destruct (decide (S k = length l)) as [Ek|Ek].
      * left. unfold new_entries. rewrite elem_of_app. left. rewrite Ek, v'_p in Hy. injection Hy as <-.
        assert (last l = Some x) as ->. { rewrite last_lookup. replace (pred (length l)) with k by lia. rewrite lookup_app_l in Hx by lia. done. }
        unfold pair_entry. rewrite Hm'. by left.
      * right. rewrite (v'_lt l r p n a la b lb c) in Hy by lia. eapply (Hold k); try done. lia.
    + subst k. left. unfold new_entries. rewrite elem_of_app. right. rewrite v'_p in Hx. injection Hx as <-. cbn [fst snd] in *.
      rewrite lookup_app_r in Hy by lia. replace (S (length l) - length l)%nat with 1%nat in Hy by lia. destruct r as [|z r]; [done|]. cbn in Hy. injection Hy as ->.
      cbn [head]. unfold pair_entry. cbn [fst snd]. rewrite Hm'. by left.
    + right. rewrite (v'_gt l r p n a la b lb c) in Hx, Hy by lia. eapply (Hold (S k)); try done. lia.
Qed.
Lemma zcomplete_start mm v q : q ≡ₚ all_entries mm v → zcomplete mm v q.
Proof. intros P k x y m Hx Hy Hm _. rewrite P. apply all_entries_elem. by exists k, x, y, m. Qed.
Lemma zcomplete_end mm v : zcomplete mm v [] → ∀ k m, ¬ full_pair mm v.*2 k m.
Proof.
  intros Hc k m (x & y & Hx & Hy & Hm & H0)%full_pair_lookup. rewrite list_lookup_fmap in Hx, Hy.
  destruct (v !! k) as [x'|] eqn:Hx'; [|done]. destruct (v !! S k) as [y'|] eqn:Hy'; [|done]. cbn in Hx, Hy. simplify_eq.
  pose proof (Hc k x' y' m Hx' Hy' Hm H0) as H. by apply elem_of_nil in H.
Qed.
Lemma any_saturates mm drop ss : (∀ k, drop k = false) →
  ∃ w ts, merge_all_with (word_of ss) mm drop = Some (Ret w) ∧ rtc (full_step mm) ss ts ∧ word_syms w = not_empty ts ∧ ∀ k m, ¬ full_pair mm ts k m.
Proof.
  intros Hd. destruct (zmerge_all_spec mm drop ss (λ v q skip _, rtc (full_step mm) ss v.*2 ∧ sorted_v v ∧ zcomplete mm v q ∧ skip = [])) as (w' & v' & skip & n & E & Ew & H).
  - intros v q skip n v' q' skip' (Hr & Hs & Hc & ->) Hit. rewrite Hd in Hit. split; [|exact (ziter_complete _ _ _ _ _ _ Hs Hc Hit)].
    destruct Hit as [top rest q1 [=]|top rest q1 _ P _ P' Hst|top rest q1 l p a la n' b lb r m _ P _ -> Hpos Hm Hla Hid P']; [done|].
    eapply rtc_r; [exact Hr|]. rewrite !fmap_app, !fmap_cons. cbn [snd]. by apply full_step_intro.
  - intros q P. split; [by rewrite placed_snd|]. split; [apply sorted_placed|]. split; [by apply zcomplete_start|done].
  - exists w', v'.*2. destruct H as (Hr & _ & Hc & _). split; [done|]. split; [done|]. split; [done|]. by apply zcomplete_end.
Qed.

Lemma ziter_textbook mm size v q v' q' skip' :
  additive mm size → sorted_v v → zcomplete mm v q → sized size v → Forall (valid_entry mm size v) q →
  ziter_to mm v q [] false v' q' skip' → sized size v' ∧ Forall (valid_entry mm size v') q' ∧ rtc (first_step mm) v.*2 v'.*2.
Proof.
  intros Ha Hs Hc Hz Hv Hit. pose proof (ziter_complete _ _ _ _ _ _ Hs Hc Hit) as (Hs' & _ & _).
  destruct Hit as [top rest q1 [=]|top rest q1 _ P _ P' Hst|top rest q1 l p a la n b lb r m _ P Hmin -> Hpos Hm Hla Hid P'].
  - split; [done|]. split; [|done]. rewrite P'. rewrite P in Hv. by apply Forall_cons in Hv as [_ ?].
  - pose proof (v_p l r p n a la b lb) as Vp. pose proof (v_n l r p n a la b lb) as Vn.
    pose proof (Hz _ _ Vp) as Za. pose proof (Hz _ _ Vn) as Zb. cbn in Za, Zb.
    pose proof (Ha a b m Hm Za Zb) as Zc. set (c := mv_id m) in *.
    assert (Hz' : sized size (l ++ (p, (c, la + lb)) :: r)).
    { intros k x Hk. destruct (lt_eq_lt_dec k (length l)) as [[H|H]|H].
      - rewrite (v'_lt l r p n a la b lb c) in Hk by done. by eapply Hz.
      - subst k. rewrite v'_p in Hk. injection Hk as <-. cbn. lia.
      - rewrite (v'_gt l r p n a la b lb c) in Hk by done. by eapply Hz. }
    split; [done|]. split.
    + rewrite P'. cbn [app]. apply Forall_app. split.
      * rewrite Forall_forall. intros e He. apply valid_new; [done|done|]. rewrite all_entries_app, !elem_of_app. auto.
      * assert (Hvr : Forall (valid_entry mm size (l ++ (p, (a, la)) :: (n, (b, lb)) :: r)) rest).
        { rewrite P in Hv. by apply Forall_cons in Hv as [_ ?]. }
        eapply Forall_impl; [exact Hvr|]. intros e (a1 & b1 & m1 & Hm1 & Hr1 & Hid1 & Za1 & Zb1 & Hk1).
        exists a1, b1, m1. split; [done|]. split; [done|]. split; [done|]. split; [done|]. split; [done|].
        intros k x y Hx Hpe Hy. destruct (lt_eq_lt_dec k (length l)) as [[H|H]|H].
        -- rewrite (v'_lt l r p n a la b lb c) in Hx by done. destruct (decide (S k = length l)) as [Ek|Ek].
           ++ rewrite Ek, v'_p in Hy. injection Hy as <-. cbn. rewrite <- Ek in Vp. destruct (Hk1 k x _ Hx Hpe Vp) as [[-> Hy]|Hy]; [|by right].
              cbn in Hy. left. split; [done|]. right. destruct Hy as [->|Hy]; lia.
           ++ rewrite (v'_lt l r p n a la b lb c) in Hy by lia. by eapply Hk1.
        -- subst k. rewrite v'_p in Hx. injection Hx as <-. cbn in Hpe |- *. right.
           destruct (Hk1 _ _ _ Vp Hpe Vn) as [[Ea Hb]|Hsz]; cbn in *; [|lia]. subst a1. destruct Hb as [->|Hb]; lia.
        -- rewrite (v'_gt l r p n a la b lb c) in Hx, Hy by lia. by eapply Hk1.
    + apply rtc_once. rewrite !fmap_app, !fmap_cons. cbn [snd].
      assert (Hvt : valid_entry mm size (l ++ (p, (a, la)) :: (n, (b, lb)) :: r) top).
      { rewrite Forall_forall in Hv. apply Hv. rewrite P. by left. }
      assert (Hrank : wm_rank top = mv_rank m).
      { destruct Hvt as (a1 & b1 & m1 & Hm1 & Hr1 & Hid1 & Za1 & Zb1 & Hk1). pose proof (Ha a1 b1 m1 Hm1 Za1 Zb1) as Zc1.
        rewrite <- Hid1, <- Hid in Zc1. fold c in Zc1.
        destruct (Hk1 _ _ _ Vp Hpos Vn) as [[Ea Hb]|Hsz]; cbn in *; [|lia]. subst a1. destruct Hb as [->|Hb]; [|lia]. congruence. }
      apply first_step_intro; [done|done|]. intros k m' (x & y & Hx & Hy & Hm' & H0')%full_pair_lookup.
      assert (Hfm : l.*2 ++ (a, la) :: (b, lb) :: r.*2 = (l ++ (p, (a, la)) :: (n, (b, lb)) :: r).*2) by (by rewrite fmap_app, !fmap_cons).
      rewrite Hfm in Hx, Hy. rewrite list_lookup_fmap in Hx, Hy.
      destruct ((l ++ (p, (a, la)) :: (n, (b, lb)) :: r) !! k) as [x'|] eqn:Hx'; [|done].
      destruct ((l ++ (p, (a, la)) :: (n, (b, lb)) :: r) !! S k) as [y'|] eqn:Hy'; [|done]. cbn in Hx, Hy. simplify_eq.
      assert (Hin : WordMerge (mv_rank m') (mv_id m') (Z.of_nat x'.1) ∈ q).
      { by apply (Hc k x' y' m'). }
      assert (Hle : wm_le top (WordMerge (mv_rank m') (mv_id m') (Z.of_nat x'.1))).
      { rewrite P in Hin. apply elem_of_cons in Hin as [->|Hin]; [apply wm_le_refl|]. rewrite Forall_forall in Hmin. by apply Hmin. }
      unfold wm_le, wm_less in Hle. cbn in Hle. rewrite Hrank, Hpos in Hle. rewrite fmap_length.
      destruct (Z.eqb_spec (mv_rank m') (mv_rank m)) as [Er|Er]; cbn in Hle; [|lia]. right. split; [done|].
      destruct (decide (length l <= k)%nat); [done|]. pose proof (Hs k (length l) _ _ ltac:(lia) Hx' Vp) as H. cbn in H. lia.
Qed.

Lemma any_textbook mm size drop ss :
  additive mm size → (∀ k, drop k = false) → Forall (λ s, 0 < size s.1) ss →
  ∃ w ts, merge_all_with (word_of ss) mm drop = Some (Ret w) ∧ rtc (first_step mm) ss ts ∧ (∀ k m, ¬ full_pair mm ts k m) ∧ word_syms w = not_empty ts.
Proof.
  intros Ha Hd Hpos. destruct (zmerge_all_spec mm drop ss (λ v q skip _, (sorted_v v ∧ zcomplete mm v q ∧ skip = [])
     ∧ sized size v ∧ Forall (valid_entry mm size v) q ∧ rtc (first_step mm) ss v.*2)) as (w' & v' & skip & n & E & Ew & (Hs & Hc & _) & _ & _ & Hr).
  - intros v q skip n v' q' skip' ((Hs & Hc & ->) & Hz & Hv & Hr) Hit. rewrite Hd in Hit. split; [exact (ziter_complete _ _ _ _ _ _ Hs Hc Hit)|].
    destruct (ziter_textbook mm size v q v' q' skip' Ha Hs Hc Hz Hv Hit) as (H1 & H2 & H3). split; [done|]. split; [done|]. by etrans.
  - intros q P. assert (Hz : sized size (placed_from 0 ss)).
    { intros k x Hk. rewrite placed_lookup in Hk. destruct (ss !! k) as [s|] eqn:Hs; [|done]. cbn in Hk. injection Hk as <-. cbn.
      by eapply Forall_lookup in Hpos; [|exact Hs]. }
    split; [split; [apply sorted_placed|split; [by apply zcomplete_start|done]]|]. split; [done|]. split.
    + rewrite Forall_forall. intros e He. rewrite P in He. apply valid_new; [apply sorted_placed|done|done].
    + by rewrite placed_snd.
  - exists w', v'.*2. split; [done|]. split; [done|]. split; [by apply zcomplete_end|done].
Qed.
