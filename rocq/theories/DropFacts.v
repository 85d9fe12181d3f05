(** MergeAll with dropout. *)
From Coq Require Import ZifyBool ZifyNat QArith.
From stdpp Require Import relations.
From Verif Require Import GoBase Strutils Vocab MergeMap Heap Bpe HeapFacts SpecText SpecVocab SpecBpe SpecDrop SliceFacts Utf8Facts VocabFacts BpeWord BpeLoop BpeFacts BpeTok.
#[local] Open Scope Z_scope.

Lemma drop_run_snoc mm ds d s s1 s2 : drop_run mm ds s s1 → drop_step mm d s1 s2 → drop_run mm (ds ++ [d]) s s2.
Proof. induction 1 as [s|d' ds s t s1 H1 H2 IH]; intros H; cbn; [by repeat econstructor|]. econstructor; [done|auto]. Qed.

(** The request for the pair at index [k]. *)
Definition entry_at (mm : merge_map) (v : list (nat * (Z * Z))) (k : nat) (e : word_merge) : Prop :=
  ∃ x y m, v !! k = Some x ∧ v !! S k = Some y ∧ mm !! (x.2.1, y.2.1) = Some m ∧ e = WordMerge (mv_rank m) (mv_id m) (Z.of_nat x.1).

Lemma entries_at mm v e : e ∈ all_entries mm v ↔ ∃ k, entry_at mm v k e.
Proof. rewrite all_entries_elem. unfold entry_at. naive_solver. Qed.
Lemma entry_at_fun mm v k e e' : entry_at mm v k e → entry_at mm v k e' → e = e'.
Proof. intros (x & y & m & ? & ? & ? & ->) (x' & y' & m' & ? & ? & ? & ->). by simplify_eq. Qed.
Lemma entry_at_inj mm v k k' e : sorted_v v → entry_at mm v k e → entry_at mm v k' e → k = k'.
Proof.
  intros Hs (x & y & m & Hx & _ & _ & ->) (x' & y' & m' & Hx' & _ & _ & E). injection E as _ _ E.
  eapply sorted_inj; [exact Hs|exact Hx|exact Hx'|lia].
Qed.
Lemma merge_at_entry mm (v : list (nat * (Z * Z))) k m : merge_at mm v.*2 k = Some m ↔ ∃ x y, v !! k = Some x ∧ v !! S k = Some y ∧ mm !! (x.2.1, y.2.1) = Some m.
Proof.
  unfold merge_at. rewrite !list_lookup_fmap. destruct (v !! k) as [x|], (v !! S k) as [y|]; cbn; naive_solver.
Qed.

Lemma all_entries_cons mm x v : all_entries mm (x :: v) = match head v with Some y => pair_entry mm x y | None => [] end ++ all_entries mm v.
Proof. by destruct v. Qed.

Lemma sorted_cons x (v : list (nat * (Z * Z))) : sorted_v (x :: v) → sorted_v v ∧ ∀ y, y ∈ v → (x.1 < y.1)%nat.
Proof.
  intros H. split.
  - intros j k a b Hjk Ha Hb. apply (H (S j) (S k) a b); [lia|done|done].
  - intros y [k Hk]%elem_of_list_lookup. apply (H 0%nat (S k) x y); [lia|done|done].
Qed.
Lemma entries_pos mm v e : e ∈ all_entries mm v → ∃ x, x ∈ v ∧ wm_pos e = Z.of_nat x.1.
Proof. intros (k & x & y & m & Hx & _ & _ & ->)%entries_at. exists x. split; [by eapply elem_of_list_lookup_2|done]. Qed.
Lemma all_entries_nodup mm v : sorted_v v → NoDup (all_entries mm v).
Proof.
  induction v as [|x v IH]; [constructor|]. intros [Hs Hx]%sorted_cons. rewrite all_entries_cons. apply NoDup_app. split; [|split; [|by apply IH]].
  - destruct (head v) as [y|]; [|constructor]. unfold pair_entry. destruct (mm !! _); [apply NoDup_singleton|constructor].
  - intros e He H. apply entries_pos in H as (z & Hz & Ez). destruct (head v) as [y|]; [|by apply elem_of_nil in He]. apply pair_entry_pos in He.
    pose proof (Hx z Hz). lia.
Qed.

(** A request that can no longer be met: its place is gone, or its symbols have grown. *)
Definition dead (size : Z → Z) (v : list (nat * (Z * Z))) (e : word_merge) : Prop :=
  ∀ k x y, v !! k = Some x → wm_pos e = Z.of_nat x.1 → v !! S k = Some y → size (wm_id e) < size x.2.1 + size y.2.1.

(** The request as the specification has it. *)
Definition req (ss0 : list (Z * Z)) (e : word_merge) : Z * Z := (wm_rank e, sym_bytes (take (Z.to_nat (wm_pos e)) ss0)).
(** Symbols start where the symbols started from which they were made. *)
Definition sited (ss0 : list (Z * Z)) (v : list (nat * (Z * Z))) : Prop :=
  ∀ k x, v !! k = Some x → sym_bytes (take k v.*2) = sym_bytes (take x.1 ss0).

Lemma pair_request ss0 mm v k x y : sited ss0 v → v !! k = Some x → v !! S k = Some y → map (req ss0) (pair_entry mm x y) = request_at mm v.*2 k.
Proof.
  intros Ht Hx Hy. unfold request_at, merge_at, pair_entry. rewrite !list_lookup_fmap, Hx, Hy. cbn. destruct (mm !! _) as [m|]; [|done]. cbn.
  unfold req. cbn. by rewrite Nat2Z.id, (Ht k x Hx).
Qed.
Lemma entry_request ss0 mm v k e : sited ss0 v → entry_at mm v k e → request_at mm v.*2 k = [req ss0 e].
Proof.
  intros Ht (x & y & m & Hx & Hy & Hm & ->). rewrite <- (pair_request ss0 mm v k x y Ht Hx Hy). unfold pair_entry. by rewrite Hm.
Qed.
Lemma sited_placed ss : sited ss (placed_from 0 ss).
Proof. intros k x Hx. rewrite placed_lookup in Hx. destruct (ss !! k); [|done]. cbn in Hx. injection Hx as <-. by rewrite placed_snd. Qed.

Lemma bytes_mono ss i j : Forall (λ s, 0 < s.2) ss → (i <= j)%nat → sym_bytes (take i ss) <= sym_bytes (take j ss).
Proof.
  intros Hp. revert i j. induction Hp as [|s ss H Hp IH]; intros i j Hij; [by rewrite !firstn_nil|]. destruct i as [|i].
  - cbn. clear -Hp H. assert (∀ n l, Forall (λ s : Z * Z, 0 < s.2) l → 0 <= sym_bytes (take n l)) as Hn.
    { induction n as [|n IHn]; intros [|x l] Hl; cbn; try lia. apply Forall_cons in Hl as [Hx Hl]. specialize (IHn l Hl). unfold sym_bytes in IHn. lia. }
    apply (Hn j (s :: ss)). by constructor.
  - destruct j as [|j]; [lia|]. cbn. specialize (IH i j ltac:(lia)). unfold sym_bytes in IH. lia.
Qed.
Lemma le_no_later ss0 e e' : Forall (λ s, 0 < s.2) ss0 → wm_le e e' → no_later (req ss0 e) (req ss0 e').
Proof.
  intros Hp H. unfold wm_le, wm_less in H. unfold no_later, req. cbn [fst snd]. destruct (Z.eqb_spec (wm_rank e') (wm_rank e)) as [E|E]; cbn in H; [|lia].
  right. split; [done|]. apply bytes_mono; [done|lia].
Qed.

Section merge.
  Context (mm : merge_map) (size : Z → Z) (Ha : additive mm size).
  Context (l r : list (nat * (Z * Z))) (p n : nat) (a la b lb : Z) (m : merge_value).
  Let v := l ++ (p, (a, la)) :: (n, (b, lb)) :: r.
  Let v' := l ++ (p, (mv_id m, la + lb)) :: r.
  Context (Hs : sorted_v v) (Hz : sized size v) (Hm : mm !! (a, b) = Some m).

  Lemma merge_size : size (mv_id m) = size a + size b ∧ 0 < size a ∧ 0 < size b.
  Proof using Ha Hm Hz.
    pose proof (Hz _ _ (v_p l r p n a la b lb)) as H1. pose proof (Hz _ _ (v_n l r p n a la b lb)) as H2. cbn in *. auto.
  Qed.
  Lemma merge_sized : sized size v'.
  Proof using Ha Hm Hz.
    pose proof merge_size as (H1 & H2 & H3). intros k x Hk. unfold v' in Hk. destruct (lt_eq_lt_dec k (length l)) as [[H|H]|H].
    - rewrite (v'_lt l r p n a la b lb (mv_id m)) in Hk by done. by eapply Hz.
    - subst k. rewrite v'_p in Hk. injection Hk as <-. cbn. lia.
    - rewrite (v'_gt l r p n a la b lb (mv_id m)) in Hk by done. by eapply Hz.
  Qed.
  Lemma merge_dead e : dead size v e → dead size v' e.
  Proof using Ha Hm Hz.
    pose proof merge_size as (H1 & H2 & H3). intros He k x y Hx Hpos Hy. unfold v' in *.
    pose proof (v_p l r p n a la b lb) as Vp. pose proof (v_n l r p n a la b lb) as Vn.
    destruct (lt_eq_lt_dec k (length l)) as [[H|H]|H].
    - rewrite (v'_lt l r p n a la b lb (mv_id m)) in Hx by done. destruct (decide (S k = length l)) as [Ek|Ek].
      + rewrite Ek, v'_p in Hy. injection Hy as <-. cbn. rewrite <- Ek in Vp. pose proof (He _ _ _ Hx Hpos Vp) as H'. cbn in H'. lia.
      + rewrite (v'_lt l r p n a la b lb (mv_id m)) in Hy by lia. by eapply He.
    - subst k. rewrite v'_p in Hx. injection Hx as <-. cbn in *. pose proof (He _ _ _ Vp Hpos Vn) as H'. cbn in H'.
      pose proof (merge_sized _ _ Hy). lia.
    - rewrite (v'_gt l r p n a la b lb (mv_id m)) in Hx, Hy by lia. by eapply He.
  Qed.
  (** The requests for the two pairs beside the merged one. *)
  Definition lost : list word_merge :=
    match last l with Some y => pair_entry mm y (p, (a, la)) | None => [] end
    ++ match head r with Some y => pair_entry mm (n, (b, lb)) y | None => [] end.
  Lemma lost_dead : Forall (dead size v') lost.
  Proof using Ha Hm Hz Hs.
    pose proof merge_size as (H1 & H2 & H3). apply Forall_forall. intros e He. unfold lost in He. apply elem_of_app in He as [He|He].
    - destruct (last l) as [y|] eqn:El; [|by apply elem_of_nil in He]. apply last_Some in El as [l0 El].
      intros k x z Hx Hpos Hz'. pose proof (pair_entry_pos _ _ _ _ He) as Hp.
      assert (Hk : S k = length l).
      { assert (k = length l0); [|rewrite El, app_length; cbn; lia]. eapply (sorted_inj v'); [by eapply sorted_merge|exact Hx| |].
        - unfold v'. rewrite El, <- app_assoc, lookup_app_r, Nat.sub_diag by lia. done.
        - cbn. lia. }
      unfold v' in Hz', Hx. rewrite Hk, v'_p in Hz'. injection Hz' as <-. cbn.
      assert (x = y) as ->.
      { rewrite lookup_app_l in Hx by lia. rewrite El in Hx, Hk. rewrite app_length in Hk. cbn in Hk. replace k with (length l0) in Hx by lia.
        rewrite lookup_app_r, Nat.sub_diag in Hx by lia. by injection Hx. }
      assert (0 < size y.2.1). { eapply (Hz (length l0)). unfold v. rewrite El, <- app_assoc, lookup_app_r, Nat.sub_diag by lia. done. }
      unfold pair_entry in He. cbn [fst snd] in He. destruct (mm !! (y.2.1, a)) as [m0|] eqn:E; [|by apply elem_of_nil in He]. apply elem_of_list_singleton in He as ->. cbn in *.
      rewrite (Ha _ _ _ E) by done. lia.
    - destruct (head r) as [y|] eqn:Er; [|by apply elem_of_nil in He]. apply pair_entry_pos in He. cbn in He.
      intros k x z Hx Hpos Hz'. exfalso.
      assert (Hold : ∃ k', v !! k' = Some x ∨ (k = length l ∧ x.1 = p)).
      { unfold v' in Hx. destruct (lt_eq_lt_dec k (length l)) as [[H|H]|H].
        - rewrite (v'_lt l r p n a la b lb (mv_id m)) in Hx by done. eauto.
        - subst k. rewrite v'_p in Hx. injection Hx as <-. exists 0%nat. by right.
        - rewrite (v'_gt l r p n a la b lb (mv_id m)) in Hx by done. eauto. }
      pose proof (v_p l r p n a la b lb) as Vp. pose proof (v_n l r p n a la b lb) as Vn.
      pose proof (Hs _ _ _ _ (Nat.lt_succ_diag_r (length l)) Vp Vn) as Hpn. cbn in Hpn.
      unfold v' in Hx. destruct (lt_eq_lt_dec k (length l)) as [[H|H]|H].
      + rewrite (v'_lt l r p n a la b lb (mv_id m)) in Hx by done. pose proof (Hs _ _ _ _ H Hx Vp) as H'. cbn in H'. lia.
      + subst k. rewrite v'_p in Hx. injection Hx as <-. cbn in Hpos. lia.
      + rewrite (v'_gt l r p n a la b lb (mv_id m)) in Hx by done. pose proof (Hs (S (length l)) (S k) _ _ ltac:(lia) Vn Hx) as H'. cbn in H'. lia.
  Qed.
  Lemma lost_beside ss0 : sited ss0 v → map (req ss0) lost = beside mm v.*2 (length l).
  Proof using.
    clear Ha Hs Hz Hm v' m size. intros Ht. unfold lost, beside. rewrite map_app. f_equal.
    - destruct (last l) as [y|] eqn:El.
      + apply last_Some in El as [l0 El]. pose proof (v_p l r p n a la b lb) as Vp.
        assert (Vy : v !! length l0 = Some y) by (unfold v; rewrite El, <- app_assoc, lookup_app_r, Nat.sub_diag by lia; done).
        assert (length l = S (length l0)) as Hl by (rewrite El, app_length; cbn; lia). rewrite Hl in *.
        apply (pair_request ss0 mm v (length l0) y _ Ht Vy Vp).
      + apply last_None in El. by rewrite El.
    - pose proof (v_n l r p n a la b lb) as Vn. destruct (head r) as [y|] eqn:Er.
      + assert (Vy : v !! S (S (length l)) = Some y).
        { unfold v. rewrite lookup_app_r by lia. replace (S (S (length l)) - length l)%nat with 2%nat by lia. destruct r; [done|]. by injection Er as ->. }
        apply (pair_request ss0 mm v (S (length l)) _ y Ht Vn Vy).
      + unfold request_at. assert (merge_at mm v.*2 (S (length l)) = None) as ->; [|done]. unfold merge_at. rewrite !list_lookup_fmap.
        destruct r; [|done]. rewrite (lookup_ge_None_2 v (S (S (length l)))); [|unfold v; rewrite app_length; cbn; lia]. by destruct (_ <$> _).
  Qed.
  Lemma merge_sited ss0 : sited ss0 v → sited ss0 v'.
  Proof using.
    clear Ha Hs Hz Hm size. intros Ht k x Hx. unfold v' in *.
    assert (Hpre : ∀ i, (i <= length l)%nat → take i (l ++ (p, (mv_id m, la + lb)) :: r).*2 = take i v.*2).
    { intros i Hi. unfold v. rewrite !fmap_app, !(firstn_app i (l.*2)). rewrite !fmap_length. by replace (i - length l)%nat with 0%nat by lia. }
    destruct (lt_eq_lt_dec k (length l)) as [[H|H]|H].
    - rewrite (v'_lt l r p n a la b lb (mv_id m)) in Hx by done. rewrite Hpre by lia. by apply Ht.
    - rewrite Hpre by lia. subst k. rewrite v'_p in Hx. injection Hx as <-. cbn. exact (Ht _ _ (v_p l r p n a la b lb)).
    - rewrite (v'_gt l r p n a la b lb (mv_id m)) in Hx by done. rewrite <- (Ht _ _ Hx). unfold v. rewrite !fmap_app, !(firstn_app _ (l.*2)), !fmap_cons. rewrite !fmap_length.
      rewrite (take_ge l.*2) by (rewrite fmap_length; lia). rewrite (take_ge l.*2) by (rewrite fmap_length; lia).
      replace (S k - length l)%nat with (S (S (k - length l - 1)))%nat by lia. replace (k - length l)%nat with (S (k - length l - 1))%nat by lia.
      cbn [take snd]. replace (S (k - length l - 1) - 1)%nat with (k - length l - 1)%nat by lia. rewrite !sym_bytes_app. cbn. lia.
  Qed.
  Lemma merge_entries : ∃ old, all_entries mm v ≡ₚ WordMerge (mv_rank m) (mv_id m) (Z.of_nat p) :: old ++ lost
    ∧ all_entries mm v' ≡ₚ new_entries mm l (p, (mv_id m, la + lb)) r ++ old.
  Proof using Hm.
    clear Ha Hs Hz size. exists (all_entries mm l ++ all_entries mm r). split.
    - unfold v. rewrite all_entries_app, all_entries_cons. unfold new_entries. cbn [head]. unfold lost.
      assert (pair_entry mm (p, (a, la)) (n, (b, lb)) = [WordMerge (mv_rank m) (mv_id m) (Z.of_nat p)]) as -> by (unfold pair_entry; cbn; by rewrite Hm).
      set (A := match last l with Some _ => _ | None => _ end). set (B := match head r with Some _ => _ | None => _ end). solve_Permutation.
    - unfold v'. rewrite all_entries_app. solve_Permutation.
  Qed.
End merge.

(** What is known after some draws. *)
Definition drop_inv (mm : merge_map) (size : Z → Z) (drop : nat → bool) (ss : list (Z * Z))
    (v : list (nat * (Z * Z))) (q skip : list word_merge) (n : nat) : Prop :=
  sorted_v v ∧ sized size v ∧ sited ss v ∧ ∃ live left out old oldl,
    q ≡ₚ live ++ old ∧ skip ≡ₚ left ++ oldl ∧ all_entries mm v ≡ₚ live ++ left ∧ Forall2 (entry_at mm v) out left
    ∧ Forall (dead size v) (old ++ oldl)
    ∧ drop_run mm (map drop (seq 0 n)) (DState ss [] [] []) (DState v.*2 out (map (req ss) old) (map (req ss) oldl)).

Lemma dead_not_live mm size v e k x y m : additive mm size → sized size v → dead size v e →
  v !! k = Some x → v !! S k = Some y → wm_pos e = Z.of_nat x.1 → mm !! (x.2.1, y.2.1) = Some m → mv_id m ≠ wm_id e.
Proof.
  intros Ha Hz Hd Hx Hy Hp Hm E. pose proof (Hd _ _ _ Hx Hp Hy) as H. rewrite <- E, (Ha _ _ _ Hm) in H; [lia|by eapply Hz..].
Qed.

Lemma entry_not_out mm v (live left : list word_merge) out top k : sorted_v v →
  all_entries mm v ≡ₚ live ++ left → Forall2 (entry_at mm v) out left → top ∈ live → entry_at mm v k top → k ∉ out.
Proof.
  intros Hs Hall Hout Hin Hk. pose proof (all_entries_nodup mm v Hs) as Hnd. rewrite Hall in Hnd. apply NoDup_app in Hnd as (_ & Hnd & _).
  intros Hko. apply elem_of_list_lookup in Hko as [i Hi]. destruct (Forall2_lookup_l _ _ _ _ _ Hout Hi) as (e & He & Hke).
  rewrite (entry_at_fun _ _ _ _ _ Hk Hke) in Hin. eapply Hnd; [exact Hin|]. by eapply elem_of_list_lookup_2.
Qed.
Lemma top_first ss0 mm v (live left : list word_merge) out old top rest : Forall (λ s, 0 < s.2) ss0 → sorted_v v → sited ss0 v →
  all_entries mm v ≡ₚ live ++ left → Forall2 (entry_at mm v) out left → live ++ old ≡ₚ top :: rest → Forall (wm_le top) rest →
  first_of mm v.*2 out (req ss0 top).
Proof.
  intros Hpos Hs Ht Hall Hout Hq Hmin k Hk. apply Forall_forall. intros q Hin.
  assert (Hm : ∃ m, merge_at mm v.*2 k = Some m). { unfold request_at in Hin. destruct (merge_at _ _ _); [eauto|by apply elem_of_nil in Hin]. }
  destruct Hm as (m & (x & y & Hx & Hy & Hm)%merge_at_entry).
  set (e := WordMerge (mv_rank m) (mv_id m) (Z.of_nat x.1)). assert (He : entry_at mm v k e) by (by exists x, y, m).
  rewrite (entry_request ss0 mm v k e Ht He) in Hin. apply elem_of_list_singleton in Hin as ->.
  assert (Hel : e ∈ live).
  { assert (Hin' : e ∈ all_entries mm v) by (apply entries_at; eauto). rewrite Hall in Hin'. apply elem_of_app in Hin' as [?|Hin']; [done|]. exfalso. apply Hk.
    apply elem_of_list_lookup in Hin' as [i Hi]. destruct (Forall2_lookup_r _ _ _ _ _ Hout Hi) as (k2 & Hk2 & He2).
    rewrite (entry_at_inj _ _ _ _ _ Hs He He2). by eapply elem_of_list_lookup_2. }
  apply le_no_later; [done|].
  assert (He' : e ∈ top :: rest) by (rewrite <- Hq; apply elem_of_app; by left). apply elem_of_cons in He' as [->|He']; [apply wm_le_refl|].
  rewrite Forall_forall in Hmin. by apply Hmin.
Qed.
Lemma rest_later ss0 top rest (l : list word_merge) : Forall (λ s, 0 < s.2) ss0 → Forall (wm_le top) rest → (∀ e, e ∈ l → e ∈ rest) →
  Forall (no_later (req ss0 top)) (map (req ss0) l).
Proof.
  intros Hp Hmin Hl. apply Forall_forall. intros q Hq. apply elem_of_list_fmap in Hq as (e & -> & He). apply le_no_later; [done|].
  rewrite Forall_forall in Hmin. auto.
Qed.

Lemma perm_elem {A} (x : A) l rest l' : l ++ l' ≡ₚ x :: rest → x ∈ l → ∃ l0, l ≡ₚ x :: l0 ∧ rest ≡ₚ l0 ++ l'.
Proof.
  intros P Hin. apply elem_of_Permutation in Hin as [l0 E]. exists l0. split; [done|]. rewrite E in P. by apply Permutation_cons_inv in P.
Qed.

Lemma drop_inv_step mm size drop ss v q skip n v' q' skip' : additive mm size → Forall (λ s, 0 < s.2) ss →
  drop_inv mm size drop ss v q skip n → iter_to mm v q skip (drop n) v' q' skip' → drop_inv mm size drop ss v' q' skip' (S n).
Proof.
  intros Ha Hp (Hs & Hz & Ht & live & left & out & old & oldl & Pq & Ps & Pall & Hout & Hdead & Hrun) Hit.
  assert (Hseq : map drop (seq 0 (S n)) = map drop (seq 0 n) ++ [drop n]) by (rewrite seq_S, map_app; done).
  unfold drop_inv. rewrite Hseq.
  destruct Hit as [top rest q1 Hd P Hmin P'|top rest q1 Hd P Hmin P' Hst|top rest q1 l p a la n' b lb r m Hd P Hmin -> Hpos Hm Hid P']; rewrite Hd.
  - split; [done|]. split; [done|]. split; [done|]. rewrite Pq in P. pose proof (top_first ss mm v _ _ _ _ _ _ Hp Hs Ht Pall Hout P Hmin) as Hfirst.
    assert (Htop : top ∈ live ++ old) by (rewrite P; by left). apply elem_of_app in Htop as [Htop|Htop].
    + destruct (perm_elem _ _ _ _ P Htop) as (live0 & El & Er).
      assert (Hin : top ∈ all_entries mm v) by (rewrite Pall; apply elem_of_app; by left). apply entries_at in Hin as [k Hk].
      exists live0, (top :: left), (k :: out), old, oldl. split; [by rewrite P', Er|]. split; [rewrite Ps; solve_Permutation|].
      split; [rewrite Pall, El; solve_Permutation|]. split; [by constructor|]. split; [done|].
      eapply drop_run_snoc; [exact Hrun|]. eapply ds_leave; [by eapply entry_not_out|by apply entry_request|done|].
      eapply rest_later; [done|exact Hmin|]. intros e He. rewrite Er. apply elem_of_app. by right.
    + apply elem_of_list_split in Htop as (o1 & o2 & ->).
      assert (Er : rest ≡ₚ live ++ o1 ++ o2). { symmetry. apply (Permutation_cons_inv (a := top)). rewrite <- P. solve_Permutation. }
      exists live, left, out, (o1 ++ o2), (top :: oldl). split; [by rewrite P', Er|]. split; [rewrite Ps; solve_Permutation|].
      split; [done|]. split; [done|]. split; [eapply Permutation_Forall; [|exact Hdead]; solve_Permutation|].
      eapply drop_run_snoc; [exact Hrun|]. rewrite !map_app. cbn [map]. apply ds_old_leave; [done|]. rewrite <- map_app.
      eapply rest_later; [done|exact Hmin|]. intros e He. rewrite Er. apply elem_of_app. by right.
  - split; [done|]. split; [done|]. split; [done|]. rewrite Pq in P. pose proof (top_first ss mm v _ _ _ _ _ _ Hp Hs Ht Pall Hout P Hmin) as Hfirst.
    assert (Htop : top ∈ live ++ old) by (rewrite P; by left). apply elem_of_app in Htop as [Htop|Htop].
    + exfalso. assert (Hin : top ∈ all_entries mm v) by (rewrite Pall; apply elem_of_app; by left).
      apply entries_at in Hin as (k & x & y & m & Hx & Hy & Hm & ->).
      refine (Hst (take k v) x y (List.skipn (S (S k)) v) m _ _ Hm _); [|done|done].
      rewrite <- (take_drop k v) at 1. f_equal. rewrite (drop_S _ _ _ Hx). f_equal. by rewrite (drop_S _ _ _ Hy).
    + apply elem_of_list_split in Htop as (o1 & o2 & ->).
      assert (Er : rest ≡ₚ live ++ o1 ++ o2). { symmetry. apply (Permutation_cons_inv (a := top)). rewrite <- P. solve_Permutation. }
      exists (live ++ left), [], [], (o1 ++ o2 ++ oldl), []. split; [rewrite P', Ps, Er; solve_Permutation|]. split; [done|].
      split; [by rewrite app_nil_r|]. split; [constructor|]. split.
      { rewrite app_nil_r. rewrite !Forall_app, Forall_cons in Hdead. rewrite !Forall_app. tauto. }
      eapply drop_run_snoc; [exact Hrun|]. rewrite !map_app. cbn [map]. apply ds_old; [done|]. rewrite <- map_app.
      eapply rest_later; [done|exact Hmin|]. intros e He. rewrite Er. apply elem_of_app. by right.
  - pose proof (v_p l r p n' a la b lb) as Vp. pose proof (v_n l r p n' a la b lb) as Vn.
    set (v := l ++ (p, (a, la)) :: (n', (b, lb)) :: r) in *.
    rewrite Pq in P. assert (Htop : top ∈ live).
    { assert (Htop : top ∈ live ++ old) by (rewrite P; by left). apply elem_of_app in Htop as [?|Htop]; [done|]. exfalso.
      rewrite Forall_app in Hdead. destruct Hdead as [Hdead _]. rewrite Forall_forall in Hdead.
      by eapply (dead_not_live mm size v top (length l) _ _ m Ha Hz (Hdead _ Htop) Vp Vn). }
    destruct (perm_elem _ _ _ _ P Htop) as (live0 & El & Er).
    assert (Hk : entry_at mm v (length l) top).
    { assert (Hin : top ∈ all_entries mm v) by (rewrite Pall; apply elem_of_app; by left). apply entries_at in Hin as [k Hk].
      pose proof Hk as (x & y & m1 & Hx & Hy & Hm1 & E). assert (k = length l) as <-; [|done].
      eapply (sorted_inj v); [exact Hs|exact Hx|exact Vp|]. rewrite E in Hpos. cbn in *. lia. }
    assert (Etop : top = WordMerge (mv_rank m) (mv_id m) (Z.of_nat p)) by (eapply entry_at_fun; [exact Hk|by eexists _, _, m]).
    pose proof (top_first ss mm v _ _ _ _ _ _ Hp Hs Ht Pall Hout P Hmin) as Hfirst.
    destruct (merge_entries mm l r p n' a la b lb m Hm) as (olds & E1 & E2). fold v in E1.
    split; [by eapply sorted_merge|]. split; [by eapply merge_sized|]. split; [by eapply merge_sited|].
    assert (Pold : live0 ++ left ≡ₚ olds ++ lost mm l r p n' a la b lb).
    { rewrite Pall, El in E1. rewrite <- Etop in E1. cbn in E1. by apply Permutation_cons_inv in E1. }
    exists (all_entries mm (l ++ (p, (mv_id m, la + lb)) :: r)), [], [], (old ++ oldl ++ lost mm l r p n' a la b lb), [].
    split. { rewrite P', Ps, Er, E2.
      transitivity (new_entries mm l (p, (mv_id m, la + lb)) r ++ (live0 ++ left) ++ old ++ oldl); [solve_Permutation|]. rewrite Pold. solve_Permutation. }
    split; [done|]. split; [by rewrite app_nil_r|]. split; [constructor|]. split.
    + rewrite app_nil_r, app_assoc. apply Forall_app. split; [|by eapply lost_dead].
      eapply Forall_impl; [exact Hdead|]. intros e. by eapply merge_dead.
    + eapply drop_run_snoc; [exact Hrun|]. rewrite !(map_app (req ss)), (lost_beside mm l r p n' a la b lb ss Ht). fold v. cbn [map].
      assert (Hreq : req ss top = (mv_rank m, sym_bytes l.*2)).
      { pose proof (entry_request ss mm v _ _ Ht Hk) as E. unfold request_at in E. assert (Hkm : merge_at mm v.*2 (length l) = Some m) by (apply merge_at_entry; eauto).
        rewrite Hkm in E. assert (req ss top = (mv_rank m, sym_bytes (take (length l) v.*2))) as -> by congruence. do 2 f_equal. unfold v. rewrite fmap_app, firstn_app, fmap_length, Nat.sub_diag, take_ge by (rewrite fmap_length; lia).
        cbn. by rewrite app_nil_r. }
      rewrite Hreq in Hfirst. pose proof (entry_not_out _ _ _ _ _ _ _ Hs Pall Hout Htop Hk) as Hno.
      assert (Hold : Forall (no_later (mv_rank m, sym_bytes l.*2)) (map (req ss) old)).
      { rewrite <- Hreq. eapply rest_later; [done|exact Hmin|]. intros e He. rewrite Er. apply elem_of_app. by right. }
      assert (Ev : v.*2 = l.*2 ++ (a, la) :: (b, lb) :: r.*2) by (unfold v; by rewrite fmap_app, !fmap_cons).
      rewrite Ev in *. rewrite fmap_app, fmap_cons. cbn [snd]. rewrite <- (fmap_length snd l) in Hno |- *. by apply ds_merge.
Qed.

Lemma merge_all_drop mm size drop ss : additive mm size → Forall (λ s, 0 < s.2 ∧ 0 < size s.1) ss →
  ∃ w' n s, merge_all_with (word_of ss) mm drop = Some (Ret w') ∧ drop_run mm (map drop (seq 0 n)) (DState ss [] [] []) s
    ∧ all_left_out mm s ∧ d_syms s = word_syms w'.
Proof.
  intros Ha Hpos. assert (Hp : Forall (λ s, 0 < s.2) ss) by (eapply Forall_impl; [exact Hpos|]; cbn; tauto).
  destruct (merge_all_spec mm drop ss (drop_inv mm size drop ss)) as (w' & v' & skip & n & E & Ew & Hinv).
  - intros. by eapply drop_inv_step.
  - intros q P. split; [apply sorted_placed|]. split.
    { intros k x Hk. rewrite placed_lookup in Hk. destruct (ss !! k) as [s|] eqn:Hs; [|done]. cbn in Hk. injection Hk as <-. cbn.
      eapply Forall_lookup in Hpos; [|exact Hs]. by destruct Hpos. }
    split; [apply sited_placed|]. exists q, [], [], [], []. rewrite !app_nil_r, placed_snd. split_and!; try done; constructor.
  - done.
  - destruct Hinv as (Hs & Hz & Ht & live & left & out & old & oldl & Pq & Ps & Pall & Hout & Hdead & Hrun).
    apply Permutation_nil in Pq. apply app_nil in Pq as [-> ->]. cbn in Pall.
    exists w', n, (DState v'.*2 out [] (map (req ss) oldl)). split; [done|]. split; [done|]. split; [|done]. split; [done|]. cbn.
    intros k m (x & y & Hx & Hy & Hm)%merge_at_entry.
    assert (Hin : WordMerge (mv_rank m) (mv_id m) (Z.of_nat x.1) ∈ all_entries mm v') by (apply entries_at; exists k, x, y, m; done).
    rewrite Pall in Hin. apply elem_of_list_lookup in Hin as [i Hi]. destruct (Forall2_lookup_r _ _ _ _ _ Hout Hi) as (k2 & Hk2 & He2).
    assert (k = k2) as -> by (eapply entry_at_inj; [exact Hs| |exact He2]; exists x, y, m; done). by eapply elem_of_list_lookup_2.
Qed.

(** * What the runs do *)
Lemma merge_at_pair mm ss k m : merge_at mm ss k = Some m ↔ pair_at mm ss k m.
Proof. rewrite pair_at_lookup. unfold merge_at. destruct (ss !! k), (ss !! S k); naive_solver. Qed.

Lemma drop_out_run mm ds s s' : drop_run mm ds s s' → NoDup (d_out s) →
  NoDup (d_out s') ∧ ((Forall (eq true) ds ∧ (length (d_out s') <= length (d_out s) + length ds)%nat)
    ∨ ∃ ds1 ds2, ds = ds1 ++ false :: ds2 ∧ Forall (eq true) ds2 ∧ (length (d_out s') <= length ds2)%nat).
Proof.
  induction 1 as [s|d ds s s1 s2 H1 H2 IH]; intros Hnd; [split; [done|]; left; split; [constructor|cbn; lia]|].
  destruct H1 as [ss out f g k q Hk|l a la b lb r out f g m ss q Hb|ss out f1 q f2 g|ss out f1 q f2 g]; cbn [d_out] in *.
  all: destruct IH as [IHn IH]; [by try constructor|split; [exact IHn|]].
  1, 3: destruct IH as [[Hall Hle]|(ds1 & ds2 & -> & HH)]; [left; split; [by constructor|cbn in *; lia]|right; by exists (true :: ds1), ds2].
  all: right; destruct IH as [[Hall Hle]|(ds1 & ds2 & -> & HH)]; [exists [], ds; split; [done|]; split; [done|cbn in Hle; lia]|by exists (false :: ds1), ds2].
Qed.

Lemma left_out_count mm s : NoDup (d_out s) → all_left_out mm s → (open_pairs mm (d_syms s) <= length (d_out s))%nat.
Proof.
  intros Hnd [_ H]. unfold open_pairs. apply submseteq_length, NoDup_submseteq.
  - apply NoDup_filter, NoDup_seq.
  - intros k [[m Hm] _]%elem_of_list_filter. eauto.
Qed.

(** Without drops it is the textbook. *)
Lemma bytes_lt ss i j : Forall (λ s, 0 < s.2) ss → (i < j <= length ss)%nat → sym_bytes (take i ss) < sym_bytes (take j ss).
Proof.
  intros Hp. revert i j. induction Hp as [|s ss H Hp IH]; intros i j Hij; [cbn in Hij; lia|]. destruct j as [|j]; [lia|]. destruct i as [|i].
  - assert (H' : 0 <= sym_bytes (take j ss)) by (apply (bytes_mono ss 0 j Hp); lia). change (0 < s.2 + sym_bytes (take j ss)). cbn in H. lia.
  - cbn in Hij |- *. specialize (IH i j ltac:(lia)). unfold sym_bytes in IH. lia.
Qed.
Lemma drop_run_textbook mm ds s s' : drop_run mm ds s s' → Forall (eq false) ds → Forall (λ s, 0 < s.2) (d_syms s) → d_out s = [] →
  rtc (bpe_step mm) (d_syms s) (d_syms s') ∧ d_out s' = [].
Proof.
  induction 1 as [s|d ds s s1 s2 H1 H2 IH]; intros Hf Hp Ho; [done|]. apply Forall_cons in Hf as [<- Hf].
  inversion H1 as [|l a la b lb r out f g m ss q Hm Hk Hfirst Hold| |]; subst; cbn [d_out d_syms] in *; [|by apply IH].
  assert (Hp' : Forall (λ s : Z * Z, 0 < s.2) (l ++ (mv_id m, la + lb) :: r)).
  { unfold ss in Hp. rewrite Forall_app, !Forall_cons in Hp. rewrite Forall_app, Forall_cons. cbn in *. destruct Hp as (? & ? & ? & ?). split_and!; [done|lia|done]. }
  destruct IH as [IH1 IH2]; [done..|]. split; [|done]. eapply rtc_l; [|exact IH1]. apply bpe_step_intro; [done|].
  intros k m' Hk'. apply merge_at_pair in Hk'.
  specialize (Hfirst k ltac:(rewrite Ho; by intros ?%elem_of_nil)). unfold request_at in Hfirst. unfold ss in *. rewrite Hk' in Hfirst. apply Forall_cons in Hfirst as [Hfirst _].
  unfold no_later, q in Hfirst. cbn [fst snd] in Hfirst. destruct Hfirst as [?|[E1 E2]]; [by left|]. right. split; [done|].
  destruct (decide (length l <= k)%nat); [done|]. exfalso.
  pose proof (bytes_lt (l ++ (a, la) :: (b, lb) :: r) k (length l) Hp ltac:(rewrite app_length; lia)) as H.
  rewrite take_app in H. lia.
Qed.

(** Every symbol is a non-empty term. *)
Lemma group_sized m s ss : consistent (b_vocab m) → group_syms (b_fuse m) (unk_id m) (char_classes m (runes s)) ss →
  Forall (λ s, 0 < s.2) ss → Forall (λ s, 0 < s.2 ∧ 0 < term_size (b_vocab m) s.1) ss.
Proof.
  intros Hc G Hp.
  assert (Hcl : Forall (λ c, ∀ i, c.1 = Some i → 0 < term_size (b_vocab m) i) (char_classes m (runes s))).
    { apply Forall_lookup. intros k [o n] Hk. unfold char_classes in Hk. rewrite lookup_zip_with in Hk. unfold char_terms in Hk.
      rewrite list_lookup_imap in Hk. destruct (runes s !! k) as [r|]; [|done]. cbn in Hk. injection Hk as <- _.
      intros i Hi. cbn in Hi. apply Hc in Hi. unfold term_size. rewrite Hi. rewrite !zlen_app.
      pose proof (rune_len_bounds r). unfold rune_len in *.
      match goal with |- 0 < zlen ?a + (_ + zlen ?b) => pose proof (zlen_nonneg a); pose proof (zlen_nonneg b); lia end. }
    assert (Hus : ∀ u, unk_id m = Some u → 0 < term_size (b_vocab m) u).
    { intros u. unfold unk_id. destruct (decide (b_unk m = [])) as [|Hne]; [done|]. intros E%Hc. unfold term_size. rewrite E.
      destruct (b_unk m); [done|]. rewrite zlen_cons. pose proof (zlen_nonneg l). lia. }
    induction G as [|i n cs ss G IH|n cs ss _ G IH|u n cs ss Eu _ G IH|u ns cs ss Eu _ Hne _ G IH].
    - constructor.
    - apply Forall_cons in Hcl as [Hi Hcl]. apply Forall_cons in Hp as [Hn Hp]. constructor; [split; [done|by apply Hi]|by apply IH].
    - apply Forall_cons in Hcl as [_ Hcl]. by apply IH.
    - apply Forall_cons in Hcl as [_ Hcl]. apply Forall_cons in Hp as [Hn Hp]. constructor; [split; [done|by apply Hus]|by apply IH].
    - apply Forall_app in Hcl as [_ Hcl]. apply Forall_cons in Hp as [Hn Hp]. constructor; [split; [done|by apply Hus]|by apply IH].
Qed.
