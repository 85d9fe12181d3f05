(** Proofs about MergeAll: one iteration and the loop, on the list of live symbols. *)
From Coq Require Import ZifyBool ZifyNat.
From stdpp Require Import relations.
From Verif Require Import GoBase Vocab MergeMap Heap Bpe HeapFacts SpecBpe SliceFacts BpeWord.

(** The queue entry for the pair of two live symbols, if any. *)
Definition pair_entry (mm : merge_map) (x y : nat * (Z * Z)) : list word_merge :=
  match mm !! (x.2.1, y.2.1) with Some m => [WordMerge (mv_rank m) (mv_id m) (Z.of_nat x.1)] | None => [] end.
(** All of a list of live symbols. *)
Fixpoint all_entries (mm : merge_map) (v : list (nat * (Z * Z))) : list word_merge :=
  match v with
  | x :: ((y :: _) as v') => pair_entry mm x y ++ all_entries mm v'
  | _ => []
  end.
(** Those with the last of [l] and [x], and with [x] and the first of [r]. *)
Definition new_entries (mm : merge_map) (l : list (nat * (Z * Z))) (x : nat * (Z * Z)) (r : list (nat * (Z * Z))) : list word_merge :=
  match last l with Some y => pair_entry mm y x | None => [] end
  ++ match head r with Some y => pair_entry mm x y | None => [] end.

Lemma all_entries_app mm l x r :
  all_entries mm (l ++ x :: r) ≡ₚ all_entries mm l ++ new_entries mm l x r ++ all_entries mm r.
Proof.
  induction l as [|y l IH]; cbn [app].
  - unfold new_entries. cbn. by destruct r.
  - destruct l as [|z l].
    + cbn [app] in *. cbn [all_entries]. unfold new_entries. cbn [last head]. cbn [app]. rewrite <- app_assoc. apply Permutation_app_head.
      destruct r; [done|]. done.
    + cbn [app] in *. change (all_entries mm (y :: z :: l ++ x :: r)) with (pair_entry mm y z ++ all_entries mm (z :: l ++ x :: r)).
      change (all_entries mm (y :: z :: l)) with (pair_entry mm y z ++ all_entries mm (z :: l)).
      rewrite IH, <- app_assoc. apply Permutation_app_head. apply Permutation_app_head. unfold new_entries.
      by rewrite !last_cons_cons.
Qed.

(** Pushing what a pair gives. *)
Lemma push_pair mm q x y : is_heap q →
  ∃ q', (match mm_get mm x.2.1 y.2.1 with
         | Some m => heap_push q (WordMerge (mv_rank m) (mv_id m) (Z.of_nat x.1))
         | None => Ret q
         end) = Ret q' ∧ is_heap q' ∧ q' ≡ₚ pair_entry mm x y ++ q.
Proof.
  intros Hq. unfold mm_get, pair_entry. destruct (mm !! _) as [m|]; [|by exists q].
  destruct (heap_push_spec q (WordMerge (mv_rank m) (mv_id m) (Z.of_nat x.1)) Hq) as (q' & E & H & P). by exists q'.
Qed.

Lemma push_neighbours_spec mm w l x r q :
  rep w (l ++ x :: r) → is_heap q →
  ∃ q', push_neighbours mm w (Z.of_nat x.1) q = Ret q' ∧ is_heap q' ∧ q' ≡ₚ new_entries mm l x r ++ q.
Proof.
  intros R Hq. destruct x as [p [c lc]]. cbn [fst].
  assert (Hx : (l ++ (p, (c, lc)) :: r) !! length l = Some (p, (c, lc))) by (rewrite lookup_app_r, Nat.sub_diag by lia; done).
  destruct (rep_at _ _ R _ _ _ _ Hx) as [Hlc Hp]. unfold push_neighbours. rewrite (idx_nat _ _ _ Hp).
  cbn [mbind outcome_bind ws_prev ws_next ws_id].
  match goal with |- ∃ q', mbind _ ?e = _ ∧ _ => assert (∃ q1, e = Ret q1 ∧ is_heap q1 ∧
    q1 ≡ₚ match last l with Some y => pair_entry mm y (p, (c, lc)) | None => [] end ++ q) as (q1 & E1 & Hq1 & P1) end.
  { destruct (last l) as [[y [d ld]]|] eqn:El.
    - apply last_Some in El as [l0 ->]. rewrite app_length in *. cbn [length] in *. rewrite Nat.add_1_r in *. cbn [prevz] in *.
      assert (Hy : ((l0 ++ [(y, (d, ld))]) ++ (p, (c, lc)) :: r) !! length l0 = Some (y, (d, ld))).
      { rewrite <- app_assoc. rewrite lookup_app_r, Nat.sub_diag by lia. done. }
      rewrite (pz_nonneg _ _ _ Hy). cbn [fst]. destruct (Z.eqb_spec (Z.of_nat y) (-1)); [lia|]. cbn [negb].
      destruct (rep_at _ _ R _ _ _ _ Hy) as [_ Hwy]. rewrite (idx_nat _ _ _ Hwy). cbn [mbind outcome_bind ws_id].
      apply (push_pair mm q (y, (d, ld)) (p, (c, lc)) Hq).
    - apply last_None in El as ->. cbn [length prevz]. cbn [negb Z.eqb]. by exists q. }
  rewrite E1. clear E1. cbn [mbind outcome_bind]. unfold new_entries.
  destruct r as [|[y [d ld]] r].
  - assert (pz (l ++ [(p, (c, lc))]) (S (length l)) = -1) as ->.
    { unfold pz. rewrite lookup_ge_None_2; [done|]. rewrite app_length. cbn. lia. }
    cbn [negb Z.eqb andb]. exists q1. split; [done|]. split; [done|]. rewrite P1. cbn [head]. by rewrite app_nil_r.
  - assert (Hy : (l ++ (p, (c, lc)) :: (y, (d, ld)) :: r) !! S (length l) = Some (y, (d, ld))).
    { rewrite lookup_app_r by lia. by replace (S (length l) - length l)%nat with 1%nat by lia. }
    rewrite (pz_nonneg _ _ _ Hy). cbn [fst]. destruct (Z.eqb_spec (Z.of_nat y) (-1)); [lia|]. cbn [negb andb].
    destruct (rep_at _ _ R _ _ _ _ Hy) as [_ Hwy].
    destruct (Z.ltb_spec (Z.of_nat y) (zlen w)) as [_|Hge]; [|apply lookup_lt_Some in Hwy; unfold zlen in Hge; lia].
    rewrite (idx_nat _ _ _ Hwy). cbn [mbind outcome_bind ws_id head].
    destruct (push_pair mm q1 (p, (c, lc)) (y, (d, ld)) Hq1) as (q2 & E2 & Hq2 & P2). exists q2. split; [exact E2|]. split; [done|].
    rewrite P2, P1, (app_assoc (pair_entry mm (p, (c, lc)) (y, (d, ld)))). apply Permutation_app_tail, Permutation_app_comm.
Qed.

(** One iteration, seen on the live symbols. *)
Inductive iter_to (mm : merge_map) (v : list (nat * (Z * Z))) (q skip : list word_merge) (d : bool) :
    list (nat * (Z * Z)) → list word_merge → list word_merge → Prop :=
| it_drop top rest q' :
    d = true → q ≡ₚ top :: rest → Forall (wm_le top) rest → q' ≡ₚ rest → iter_to mm v q skip d v q' (skip ++ [top])
| it_stale top rest q' :
    d = false → q ≡ₚ top :: rest → Forall (wm_le top) rest → q' ≡ₚ skip ++ rest →
    (∀ l x y r m, v = l ++ x :: y :: r → wm_pos top = Z.of_nat x.1 → mm !! (x.2.1, y.2.1) = Some m → mv_id m ≠ wm_id top) →
    iter_to mm v q skip d v q' []
| it_merge top rest q' l p a la n b lb r m :
    d = false → q ≡ₚ top :: rest → Forall (wm_le top) rest →
    v = l ++ (p, (a, la)) :: (n, (b, lb)) :: r → wm_pos top = Z.of_nat p → mm !! (a, b) = Some m → mv_id m = wm_id top →
    q' ≡ₚ new_entries mm l (p, (mv_id m, la + lb)) r ++ skip ++ rest →
    iter_to mm v q skip d (l ++ (p, (mv_id m, la + lb)) :: r) q' [].

Definition in_word (w : word) (e : word_merge) : Prop := 0 <= wm_pos e < zlen w.

Lemma rep_live w v i s : rep w v → w !! i = Some s → ws_len s ≠ 0 →
  ∃ k, v !! k = Some (i, (ws_id s, ws_len s)) ∧ s = WSym (ws_id s) (ws_len s) (prevz v k) (pz v (S k)).
Proof.
  intros R Hi Hs. pose proof (rep_all _ _ R _ _ Hi Hs) as Hin. apply elem_of_list_fmap in Hin as ([i' [a la]] & -> & Hk).
  apply elem_of_list_lookup in Hk as [k Hk]. exists k. destruct (rep_at _ _ R _ _ _ _ Hk) as [_ H]. cbn in Hi.
  rewrite Hi in H. injection H as ->. done.
Qed.

Lemma merge_iter_spec mm d st v :
  rep (m_w st) v → is_heap (m_q st) → m_q st ≠ [] → Forall (in_word (m_w st)) (m_q st) →
  ∃ st' v', merge_iter mm d st = Ret st' ∧ rep (m_w st') v' ∧ is_heap (m_q st') ∧ zlen (m_w st') = zlen (m_w st)
    ∧ m_draws st' = S (m_draws st) ∧ iter_to mm v (m_q st) (m_skip st) d v' (m_q st') (m_skip st').
Proof.
  intros R Hq Hne Hin. unfold merge_iter. destruct (heap_pop_spec _ Hq Hne) as (top & q & -> & Hq' & P & Hmin).
  cbn [mbind outcome_bind]. destruct d.
  { eexists _, v. split; [done|]. cbn. split; [done|]. split; [done|]. split; [done|]. split; [lia|].
    by eapply it_drop. }
  destruct (heap_push_all_spec (m_skip st) q Hq') as (q1 & -> & Hq1 & P1). cbn [mbind outcome_bind].
  assert (in_word (m_w st) top) as [Hp0 Hp1]. { rewrite Forall_forall in Hin. apply Hin. rewrite P. by left. }
  destruct (lookup_lt_is_Some_2 (m_w st) (Z.to_nat (wm_pos top))) as [cur Hcur]; [unfold zlen in Hp1; lia|].
  assert (idx (m_w st) (wm_pos top) = Ret cur) as ->. { rewrite <- (Z2Nat.id (wm_pos top)) by done. by apply idx_nat. }
  cbn [mbind outcome_bind].
  (* a stale entry *)
  assert (Hstale : (∀ l x y r m, v = l ++ x :: y :: r → wm_pos top = Z.of_nat x.1 → mm !! (x.2.1, y.2.1) = Some m → mv_id m ≠ wm_id top) →
    ∃ st' v', Ret (MState (m_w st) q1 [] (m_draws st + 1)) = Ret st' ∧ rep (m_w st') v' ∧ is_heap (m_q st') ∧ zlen (m_w st') = zlen (m_w st)
    ∧ m_draws st' = S (m_draws st) ∧ iter_to mm v (m_q st) (m_skip st) false v' (m_q st') (m_skip st')).
  { intros H. eexists _, v. split; [done|]. cbn. split; [done|]. split; [done|]. split; [done|]. split; [lia|]. by eapply it_stale. }
  (* the live symbols before an entry *)
  assert (Hcx : ∀ l x y r, v = l ++ x :: y :: r → wm_pos top = Z.of_nat x.1 →
    cur = WSym x.2.1 x.2.2 (prevz v (length l)) (Z.of_nat y.1) ∧ 0 < x.2.2 ∧ m_w st !! y.1 = Some (WSym y.2.1 y.2.2 (Z.of_nat x.1) (pz v (S (S (length l)))))).
  { intros l [px [ax lx]] [py [ay ly]] r -> Hpos. cbn in *. rewrite Hpos, Nat2Z.id in Hcur.
    assert (Hx : (l ++ (px, (ax, lx)) :: (py, (ay, ly)) :: r) !! length l = Some (px, (ax, lx))) by (rewrite lookup_app_r, Nat.sub_diag by lia; done).
    assert (Hy : (l ++ (px, (ax, lx)) :: (py, (ay, ly)) :: r) !! S (length l) = Some (py, (ay, ly))).
    { rewrite lookup_app_r by lia. by replace (S (length l) - length l)%nat with 1%nat by lia. }
    destruct (rep_at _ _ R _ _ _ _ Hx) as [Hlx Hpx]. destruct (rep_at _ _ R _ _ _ _ Hy) as [_ Hpy].
    rewrite Hcur in Hpx. injection Hpx as ->. rewrite (pz_nonneg _ _ _ Hy). cbn [prevz] in Hpy. rewrite (pz_nonneg _ _ _ Hx) in Hpy. done. }
  destruct (Z.eqb_spec (ws_len cur) 0) as [Hl0|Hl0]; cbn [orb].
  { apply Hstale. intros l x y r m Hv Hpos Hm. destruct (Hcx l x y r Hv Hpos) as (-> & H & _). cbn in Hl0. lia. }
  destruct (Z.eqb_spec (ws_next cur) (-1)) as [Hn|Hn]; cbn [negb orb].
  { apply Hstale. intros l x y r m Hv Hpos Hm. destruct (Hcx l x y r Hv Hpos) as (-> & H & _). cbn in Hn. lia. }
  destruct (rep_live _ _ _ _ R Hcur Hl0) as (k & Hk & Ecur).
  assert (∃ y, v !! S k = Some y) as [y Hy].
  { rewrite Ecur in Hn. cbn in Hn. unfold pz in Hn. destruct (v !! S k); [eauto|done]. }
  assert (v = take k v ++ (Z.to_nat (wm_pos top), (ws_id cur, ws_len cur)) :: y :: drop (S (S k)) v) as Hv.
  { rewrite <- (take_drop k v) at 1. f_equal. rewrite (drop_S _ _ _ Hk). f_equal. by rewrite (drop_S _ _ _ Hy). }
  assert (wm_pos top = Z.of_nat (Z.to_nat (wm_pos top))) as Hpos by lia.
  set (l := take k v) in *. set (r := drop (S (S k)) v) in *. clearbody l r.
  destruct (Hcx _ _ _ _ Hv Hpos) as (Ecur' & Hpos' & Hwy). cbn [fst snd] in *.
  replace (ws_next cur) with (Z.of_nat y.1) by (by rewrite Ecur').
  rewrite (idx_nat _ _ _ Hwy). cbn [mbind outcome_bind ws_id]. unfold mm_get.
  destruct (mm !! (ws_id cur, y.2.1)) as [m|] eqn:Hm.
  2:{ apply Hstale. intros l' x' y' r' m' Hv' Hpos'' Hm'. exfalso. destruct (Hcx _ _ _ _ Hv' Hpos'') as (E1 & _ & E2).
      assert (y'.1 = y.1) as Ey. { rewrite Ecur' in E1. injection E1. lia. }
      rewrite Ey in E2. rewrite Hwy in E2. injection E2. intros. rewrite E1 in Hm. cbn in Hm. congruence. }
  destruct (Z.eqb_spec (mv_id m) (wm_id top)) as [Hid|Hid]; cbn [negb].
  2:{ apply Hstale. intros l' x' y' r' m' Hv' Hpos'' Hm'. destruct (Hcx _ _ _ _ Hv' Hpos'') as (E1 & _ & E2).
      assert (y'.1 = y.1) as Ey. { rewrite Ecur' in E1. injection E1. lia. }
      rewrite Ey in E2. rewrite Hwy in E2. injection E2. intros. rewrite E1 in Hm. cbn in Hm. congruence. }
  destruct y as [n [b lb]]. cbn [fst snd] in *.
  rewrite Hv in R. destruct (rep_merge l r (Z.to_nat (wm_pos top)) n (ws_id cur) (ws_len cur) b lb (wm_id top) (m_w st) R) as (w' & E & Hlen & R').
  rewrite <- Hv in E. rewrite <- Hpos in E. replace (Z.of_nat (Z.to_nat (wm_pos top))) with (wm_pos top) by lia. rewrite E. cbn [mbind outcome_bind].
  destruct (push_neighbours_spec mm w' l _ r q1 R' Hq1) as (q2 & E2 & Hq2 & P2). cbn [fst] in E2. rewrite <- Hpos in E2. rewrite E2.
  cbn [mbind outcome_bind]. eexists _, (l ++ (Z.to_nat (wm_pos top), (wm_id top, ws_len cur + lb)) :: r). split; [done|]. cbn [m_w m_q m_skip m_draws].
  split; [done|]. split; [done|]. split; [unfold zlen; lia|]. split; [lia|]. rewrite <- Hid.
  eapply it_merge; try done. rewrite P2, P1. by rewrite Hid.
Qed.

(** * The loop *)

Definition weight (v : list (nat * (Z * Z))) (q skip : list word_merge) : nat :=
  (length q + length skip + 3 * length v)%nat.

Lemma pair_entry_length mm x y : (length (pair_entry mm x y) <= 1)%nat.
Proof. unfold pair_entry. destruct (mm !! _); cbn; lia. Qed.
Lemma new_entries_length mm l x r : (length (new_entries mm l x r) <= 2)%nat.
Proof.
  unfold new_entries. rewrite app_length. destruct (last l) as [y|], (head r) as [z|]; cbn [length];
    try pose proof (pair_entry_length mm y x); try pose proof (pair_entry_length mm x z); lia.
Qed.
Lemma all_entries_length mm v : (length (all_entries mm v) <= length v)%nat.
Proof.
  induction v as [|x [|y v] IH]; [cbn; lia..|]. cbn [all_entries]. rewrite app_length.
  pose proof (pair_entry_length mm x y). cbn [length] in *. change (match v with [] => [] | _ => _ end) with (all_entries mm (y :: v)) in *.
  lia.
Qed.

Lemma iter_weight mm v q skip d v' q' skip' : iter_to mm v q skip d v' q' skip' →
  (weight v' q' skip' = weight v q skip ∧ S (length q') = length q) ∨ (weight v' q' skip' < weight v q skip)%nat.
Proof.
  intros [top rest q1 -> P _ P'|top rest q1 -> P _ P' _|top rest q1 l p a la n b lb r m -> P _ -> _ _ _ P'];
    unfold weight; rewrite P', P; cbn [length].
  - left. rewrite app_length. cbn. lia.
  - right. rewrite app_length. lia.
  - right. rewrite !app_length. pose proof (new_entries_length mm l (p, (mv_id m, la + lb)) r). cbn [length]. lia.
Qed.

Lemma pair_entry_pos mm x y e : e ∈ pair_entry mm x y → wm_pos e = Z.of_nat x.1.
Proof. unfold pair_entry. destruct (mm !! _); [|by intros ?%elem_of_nil]. intros ->%elem_of_list_singleton. done. Qed.
Lemma new_entries_pos mm l x r e : e ∈ new_entries mm l x r → ∃ y, y ∈ l ++ x :: r ∧ wm_pos e = Z.of_nat y.1.
Proof.
  unfold new_entries. rewrite elem_of_app. intros [H|H].
  - destruct (last l) as [y|] eqn:E; [|by apply elem_of_nil in H]. apply pair_entry_pos in H. exists y. split; [|done].
    apply last_Some in E as [l' ->]. set_solver.
  - destruct (head r) as [y|] eqn:E; [|by apply elem_of_nil in H]. apply pair_entry_pos in H. exists x. split; [|done]. set_solver.
Qed.
Lemma rep_in_word w v x e : rep w v → x ∈ v → wm_pos e = Z.of_nat x.1 → in_word w e.
Proof.
  intros R Hx He. apply elem_of_list_lookup in Hx as [k Hk]. destruct x as [p [a la]].
  destruct (rep_at _ _ R _ _ _ _ Hk) as [_ Hp]. apply lookup_lt_Some in Hp. unfold in_word, zlen. cbn in He. lia.
Qed.

Section loop.
  Context (mm : merge_map) (drop : nat → bool).
  Context (I : list (nat * (Z * Z)) → list word_merge → list word_merge → nat → Prop).
  Context (Istep : ∀ v q skip n v' q' skip', I v q skip n → iter_to mm v q skip (drop n) v' q' skip' → I v' q' skip' (S n)).

  Lemma merge_loop_spec N fuel st v :
    rep (m_w st) v → is_heap (m_q st) → Forall (in_word (m_w st)) (m_q st ++ m_skip st) →
    I v (m_q st) (m_skip st) (m_draws st) →
    (weight v (m_q st) (m_skip st) <= N)%nat →
    (weight v (m_q st) (m_skip st) * (N + 1) + length (m_q st) <= fuel)%nat →
    ∃ st' v', merge_loop fuel mm drop st = Some (Ret st') ∧ rep (m_w st') v' ∧ m_q st' = [] ∧ I v' [] (m_skip st') (m_draws st').
  Proof.
    revert st v. induction fuel as [|fuel IH]; intros st v R Hq Hin HI HN Hf.
    - assert (m_q st = []) as E. { destruct (m_q st); [done|]. cbn in Hf. lia. }
      exists st, v. cbn [merge_loop]. rewrite E in *. done.
    - cbn [merge_loop]. destruct (m_q st) as [|e q0] eqn:E; [by exists st, v|].
      assert (Hne : m_q st ≠ []) by (by rewrite E). rewrite <- E in *. clear E e q0.
      destruct (merge_iter_spec mm (drop (m_draws st)) st v R Hq Hne) as (st' & v' & -> & R' & Hq' & Hlen & Hdr & Hit).
      { by apply Forall_app in Hin as [? _]. }
      pose proof (iter_weight _ _ _ _ _ _ _ _ Hit) as Hw.
      assert (Hmono : (weight v' (m_q st') (m_skip st') <= N)%nat) by lia.
      apply (IH st' v'); [done|done| |rewrite Hdr; by eapply Istep|done|].
      + rewrite Forall_forall in Hin |- *. intros e He. unfold in_word. rewrite Hlen. fold (in_word (m_w st) e).
        destruct Hit as [top rest q1 Hd P _ P'|top rest q1 Hd P _ P' _|top rest q1 l p a la n b lb r m Hd P _ Hv _ _ _ P'].
        * apply Hin. rewrite P. rewrite P' in He. set_solver.
        * apply Hin. rewrite P. rewrite P' in He. set_solver.
        * rewrite app_nil_r, P' in He. apply elem_of_app in He as [He|He].
          -- apply new_entries_pos in He as (y & Hy & Ey). pose proof (rep_in_word _ _ _ _ R' Hy Ey) as H. unfold in_word in *. by rewrite <- Hlen.
          -- apply Hin. rewrite P. set_solver.
      + assert (Hq'' : (length (m_q st') <= N)%nat) by (unfold weight in Hmono; lia).
        destruct Hw as [[-> Hl]|Hlt]; [lia|].
        assert (weight v' (m_q st') (m_skip st') * (N + 1) + (N + 1) <= weight v (m_q st) (m_skip st) * (N + 1))%nat by nia. lia.
  Qed.
End loop.

(** * The start *)

Definition placed_from (i : nat) (ss : list (Z * Z)) : list (nat * (Z * Z)) := imap (λ k s, ((i + k)%nat, s)) ss.
Lemma placed_cons i s ss : placed_from i (s :: ss) = (i, s) :: placed_from (S i) ss.
Proof.
  unfold placed_from. cbn [imap]. rewrite Nat.add_0_r. f_equal. apply imap_ext. intros k x _. cbn. f_equal. lia.
Qed.

Lemma initial_queue_spec mm i syms q : is_heap q →
  ∃ q', initial_queue mm (Z.of_nat i) syms q = Ret q' ∧ is_heap q' ∧ q' ≡ₚ all_entries mm (placed_from i (word_syms syms)) ++ q.
Proof.
  revert i q. induction syms as [|a syms IH]; intros i q Hq; [by exists q|].
  destruct syms as [|b syms]; [by exists q|]. cbn [initial_queue].
  destruct (push_pair mm q (i, (ws_id a, ws_len a)) (S i, (ws_id b, ws_len b)) Hq) as (q1 & E1 & Hq1 & P1).
  cbn [fst snd] in E1. rewrite E1. cbn [mbind outcome_bind]. replace (Z.of_nat i + 1) with (Z.of_nat (S i)) by lia.
  destruct (IH (S i) q1 Hq1) as (q' & E & Hq' & P). exists q'. split; [done|]. split; [done|]. rewrite P, P1.
  unfold word_syms. cbn [map]. rewrite !placed_cons. cbn [all_entries].
  rewrite app_assoc. apply Permutation_app_tail, Permutation_app_comm.
Qed.

Lemma word_of_snoc ss s : word_of (ss ++ [s]) = word_add (word_of ss) s.1 s.2.
Proof. unfold word_of. by rewrite foldl_app. Qed.
Lemma word_of_length ss : length (word_of ss) = length ss.
Proof.
  induction ss as [|s ss IH] using rev_ind; [done|]. rewrite word_of_snoc. unfold word_add. rewrite !app_length. cbn.
  destruct (negb _); [rewrite alter_length|]; lia.
Qed.
Lemma word_of_lookup ss k : word_of ss !! k =
  (λ s, WSym s.1 s.2 (Z.of_nat k - 1) (if decide (S k = length ss) then -1 else Z.of_nat k + 1)) <$> ss !! k.
Proof.
  revert k. induction ss as [|s ss IH] using rev_ind; intros k; [done|]. rewrite word_of_snoc. unfold word_add.
  rewrite app_length. cbn [length]. unfold zlen. rewrite word_of_length.
  set (w' := if negb _ then _ else _). assert (length w' = length ss) as Hlen.
  { unfold w'. destruct (negb _); [rewrite alter_length|]; apply word_of_length. }
  destruct (lt_eq_lt_dec k (length ss)) as [[H|H]|H].
  - rewrite !lookup_app_l by lia. unfold w'. destruct (Z.eqb_spec (Z.of_nat (length ss) - 1) (-1)); [lia|]. cbn [negb].
    replace (Z.to_nat (Z.of_nat (length ss) - 1)) with (length ss - 1)%nat by lia.
    rewrite (decide_False (P := S k = _)) by lia. destruct (decide (S k = length ss)) as [Hk|Hk].
    + replace (length ss - 1)%nat with k by lia. rewrite list_lookup_alter, IH. destruct (ss !! k); [|done]. cbn. f_equal. f_equal. lia.
    + rewrite list_lookup_alter_ne by lia. rewrite IH. by rewrite decide_False by lia.
  - subst k. rewrite !lookup_app_r by lia. rewrite Hlen, Nat.sub_diag. cbn. by rewrite decide_True by lia.
  - rewrite !lookup_ge_None_2; [done|rewrite app_length; cbn; lia..].
Qed.
Lemma word_syms_of ss : word_syms (word_of ss) = ss.
Proof.
  apply list_eq. intros k. unfold word_syms. rewrite list_lookup_fmap, word_of_lookup. destruct (ss !! k) as [[a la]|]; done.
Qed.

Lemma placed_lookup i ss k : placed_from i ss !! k = (λ s, ((i + k)%nat, s)) <$> ss !! k.
Proof. unfold placed_from. by rewrite list_lookup_imap. Qed.

Lemma rep_start ss : Forall (λ s, 0 < s.2) ss → rep (word_of ss) (placed_from 0 ss).
Proof.
  intros Hpos. split.
  - intros k p a la Hk. rewrite placed_lookup in Hk. destruct (ss !! k) as [s|] eqn:Hs; [|done]. cbn in Hk. injection Hk as <- ->.
    split; [by eapply Forall_lookup in Hpos; [|exact Hs]|]. rewrite word_of_lookup, Hs. cbn. f_equal. f_equal.
    + destruct k as [|k]; [done|]. cbn [prevz]. pose proof (lookup_lt_Some _ _ _ Hs). unfold pz. rewrite placed_lookup.
      destruct (lookup_lt_is_Some_2 ss k) as [y Hy]; [lia|]. rewrite Hy. cbn. lia.
    + unfold pz. rewrite placed_lookup. destruct (ss !! S k) as [y|] eqn:Hy.
      * apply lookup_lt_Some in Hy. rewrite decide_False by lia. cbn. lia.
      * apply lookup_ge_None in Hy. apply lookup_lt_Some in Hs. by rewrite decide_True by lia.
  - intros j k x y Hjk Hx Hy. rewrite placed_lookup in Hx, Hy. destruct (ss !! j), (ss !! k); try done. cbn in *. simplify_eq. cbn. lia.
  - intros i s Hi _. rewrite word_of_lookup in Hi. destruct (ss !! i) as [y|] eqn:Hy; [|done].
    apply elem_of_list_fmap. exists (i, y). split; [done|]. apply elem_of_list_lookup. exists i. by rewrite placed_lookup, Hy.
Qed.

(** * The end *)

Lemma remove_empty_app a b : remove_empty (a ++ b) = remove_empty a ++ remove_empty b.
Proof. unfold remove_empty. apply filter_app. Qed.

Lemma remove_empty_rep w v : rep w v → word_syms (remove_empty w) = v.*2.
Proof.
  (* peel off the last symbol, keeping only what matters *)
  intros R.
  assert (H1 : ∀ k p x, v !! k = Some (p, x) → ∃ s, w !! p = Some s ∧ (ws_id s, ws_len s) = x ∧ ws_len s ≠ 0).
  { intros k p [a la] Hk. destruct (rep_at _ _ R _ _ _ _ Hk) as [H ->]. eexists. split; [done|]. cbn. split; [done|lia]. }
  pose proof (rep_sorted _ _ R) as H2. pose proof (rep_all _ _ R) as H3. clear R.
  revert v H1 H2 H3. induction w as [|s w IH] using rev_ind; intros v H1 H2 H3.
  { destruct v as [|[p x] v]; [done|]. destruct (H1 0%nat p x eq_refl) as (s & Hs & _). by rewrite lookup_nil in Hs. }
  rewrite remove_empty_app. unfold word_syms in *. rewrite map_app.
  assert (Hws : (w ++ [s]) !! length w = Some s) by (by rewrite lookup_app_r, Nat.sub_diag by lia).
  destruct (Z.eqb_spec (ws_len s) 0) as [Hs|Hs].
  - assert (remove_empty [s] = []) as ->.
    { unfold remove_empty. rewrite filter_cons, decide_False; [done|]. rewrite Hs. cbn. auto. }
    cbn. rewrite app_nil_r. apply IH; [|done|].
    + intros k p x Hk. destruct (H1 k p x Hk) as (s' & Hs' & Hx & Hne). exists s'. split; [|done].
      destruct (decide (p < length w)%nat); [by rewrite lookup_app_l in Hs'|]. exfalso.
      pose proof (lookup_lt_Some _ _ _ Hs') as Hp. rewrite app_length in Hp. cbn in Hp. assert (p = length w) as -> by lia. congruence.
    + intros i s' Hi. apply H3. by apply lookup_app_l_Some.
  - assert (remove_empty [s] = [s]) as ->.
    { unfold remove_empty. rewrite filter_cons, decide_True; [done|]. apply Z.eqb_neq in Hs. rewrite Hs. done. }
    assert (length w ∈ v.*1) as Hin by (by eapply H3).
    apply elem_of_list_fmap in Hin as ([p x] & Hp & Hk). cbn in Hp. subst p. apply elem_of_list_lookup in Hk as [k Hk].
    assert (Hlast : ∀ j y, v !! j = Some y → (j <= k)%nat ∧ (j < k → y.1 < length w)%nat).
    { intros j [p y] Hj. destruct (H1 _ _ _ Hj) as (s' & Hs' & _). apply lookup_lt_Some in Hs'. rewrite app_length in Hs'. cbn in Hs'.
      split.
      - destruct (decide (j <= k)%nat); [done|]. pose proof (H2 k j _ _ ltac:(lia) Hk Hj) as H. cbn in H. lia.
      - intros Hjk. pose proof (H2 j k _ _ Hjk Hj Hk) as H. exact H. }
    assert (v = take k v ++ [(length w, x)]) as Hv.
    { rewrite <- (take_S_r _ _ _ Hk). rewrite take_ge; [done|]. destruct (decide (length v <= S k)%nat); [done|].
      destruct (lookup_lt_is_Some_2 v (S k)) as [y Hy]; [lia|]. apply Hlast in Hy. lia. }
    rewrite Hv, fmap_app. cbn. f_equal.
    + apply IH.
      * intros j p y Hj. apply lookup_take_Some in Hj as [Hj Hjk]. destruct (H1 _ _ _ Hj) as (s' & Hs' & Hrest). exists s'. split; [|done].
        rewrite lookup_app_l in Hs'; [done|]. by apply (Hlast j (p, y) Hj).
      * intros i j y z Hij Hy Hz. apply lookup_take_Some in Hy as [Hy _]. apply lookup_take_Some in Hz as [Hz _]. by eapply H2.
      * intros i s' Hi Hs'. assert (i ∈ v.*1) as Hin. { eapply H3; [|done]. by apply lookup_app_l_Some. }
        rewrite Hv, fmap_app in Hin. apply elem_of_app in Hin as [?|Hin]; [done|]. cbn in Hin.
        apply elem_of_list_singleton in Hin. apply lookup_lt_Some in Hi. lia.
    + destruct (H1 _ _ _ Hk) as (s' & Hs' & <- & _). rewrite Hws in Hs'. by injection Hs' as ->.
Qed.

(** * All of MergeAll *)
Section all.
  Context (mm : merge_map) (drop : nat → bool) (ss : list (Z * Z)).
  Context (I : list (nat * (Z * Z)) → list word_merge → list word_merge → nat → Prop).
  Context (Istep : ∀ v q skip n v' q' skip', I v q skip n → iter_to mm v q skip (drop n) v' q' skip' → I v' q' skip' (S n)).
  Context (Istart : ∀ q, q ≡ₚ all_entries mm (placed_from 0 ss) → I (placed_from 0 ss) q [] 0).

  Lemma merge_all_spec : Forall (λ s, 0 < s.2) ss →
    ∃ w' v' skip n, merge_all_with (word_of ss) mm drop = Some (Ret w') ∧ word_syms w' = v'.*2 ∧ I v' [] skip n.
  Proof.
    intros Hpos. unfold merge_all_with. destruct (initial_queue_spec mm 0 (word_of ss) [] heap_nil) as (q & E & Hq & P).
    rewrite app_nil_r, word_syms_of in P. change (Z.of_nat 0) with 0 in E. rewrite E. pose proof (rep_start ss Hpos) as R.
    set (n := length ss). assert (length (placed_from 0 ss) = n) as Hn. { unfold placed_from. by rewrite imap_length. }
    assert (length q <= n)%nat as Hql. { rewrite P, <- Hn. apply all_entries_length. }
    destruct (merge_loop_spec mm drop I Istep (4 * n) (merge_fuel (word_of ss)) (MState (word_of ss) q [] 0) (placed_from 0 ss))
      as (st' & v' & -> & R' & _ & HI).
    - done.
    - done.
    - cbn. rewrite app_nil_r, Forall_forall. intros e He. rewrite P in He.
      assert (Hall : ∀ v e, e ∈ all_entries mm v → ∃ x, x ∈ v ∧ wm_pos e = Z.of_nat x.1).
      { clear. induction v as [|x [|y v] IH]; intros e; [by intros ?%elem_of_nil..|]. cbn [all_entries]. rewrite elem_of_app.
        intros [H%pair_entry_pos|H]; [exists x; split; [by left|done]|]. apply IH in H as (z & Hz & ?). exists z. split; [by right|done]. }
      apply Hall in He as (x & Hx & Ex). by eapply rep_in_word.
    - cbn. by apply Istart.
    - cbn. unfold weight. cbn. lia.
    - cbn. unfold weight, merge_fuel. rewrite word_of_length. fold n. cbn [length]. rewrite Hn. nia.
    - exists (remove_empty (m_w st')), v', (m_skip st'), (m_draws st'). split; [done|]. split; [by apply remove_empty_rep|done].
  Qed.
End all.
