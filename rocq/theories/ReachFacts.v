(** Every answer that merges can make is given for some draws. *)
From Coq Require Import ZifyBool ZifyNat QArith.
From stdpp Require Import relations.
From Verif Require Import GoBase Strutils Vocab MergeMap Heap Bpe SpecText SpecVocab SpecBpe SpecDrop SpecTrain Utf8Facts SliceFacts VocabFacts BpeWord BpeLoop BpeFacts BpeTok
  DropFacts DropDet TrainFacts.
Import GoBase.
#[local] Open Scope Z_scope.

Lemma no_later_total (a b : Z * Z) : no_later a b ∨ no_later b a.
Proof. unfold no_later. lia. Qed.
Lemma no_later_refl (a : Z * Z) : no_later a a.
Proof. unfold no_later. lia. Qed.
Lemma no_later_trans (a b c : Z * Z) : no_later a b → no_later b c → no_later a c.
Proof. unfold no_later. lia. Qed.
Global Instance no_later_dec (a b : Z * Z) : Decision (no_later a b).
Proof. unfold no_later. apply _. Qed.

(** A first request. *)
Lemma first_exists (l : list (Z * Z)) : l ≠ [] → ∃ q, q ∈ l ∧ Forall (no_later q) l.
Proof.
  induction l as [|a l IH]; [done|]. intros _. destruct (decide (l = [])) as [->|Hl].
  - exists a. split; [by left|]. apply Forall_singleton, no_later_refl.
  - destruct (IH Hl) as (q & Hq & Hall). destruct (no_later_total a q) as [H|H].
    + exists a. split; [by left|]. constructor; [apply no_later_refl|]. eapply Forall_impl; [exact Hall|]. intros x. by apply no_later_trans.
    + exists q. split; [by right|]. by constructor.
Qed.

(** The pairs that are not left out, and all requests that are waiting. *)
Definition open_at (mm : merge_map) (ss : list (Z * Z)) (out : list nat) : list nat :=
  base.filter (λ k, k ∉ out) (seq 0 (length ss)).
Definition waiting (mm : merge_map) (ss : list (Z * Z)) (out : list nat) (f : list (Z * Z)) : list (Z * Z) :=
  flat_map (request_at mm ss) (open_at mm ss out) ++ f.
Lemma request_lt mm ss k q : request_at mm ss k = [q] → (k < length ss)%nat.
Proof. unfold request_at, merge_at. destruct (ss !! k) eqn:E; [|done]. by apply lookup_lt_Some in E. Qed.
Lemma request_cases mm ss k : request_at mm ss k = [] ∨ ∃ q, request_at mm ss k = [q].
Proof. unfold request_at. destruct (merge_at mm ss k); eauto. Qed.
Lemma waiting_spec mm ss out f q : q ∈ waiting mm ss out f ↔ (∃ k, k ∉ out ∧ request_at mm ss k = [q]) ∨ q ∈ f.
Proof.
  unfold waiting. rewrite elem_of_app, elem_of_list_In, in_flat_map. split; (intros [H|H]; [left|by right]).
  - destruct H as (k & Hk & Hq). apply elem_of_list_In in Hk, Hq. apply elem_of_list_filter in Hk as [Hk _]. exists k. split; [done|].
    destruct (request_cases mm ss k) as [E|[q' E]]; rewrite E in Hq |- *; [by apply elem_of_nil in Hq|]. by apply elem_of_list_singleton in Hq as ->.
  - destruct H as (k & Hk & Hq). exists k. split.
    + apply elem_of_list_In, elem_of_list_filter. split; [done|]. apply elem_of_seq. apply request_lt in Hq. lia.
    + rewrite Hq. by left.
Qed.
Lemma first_of_waiting mm ss out f q : Forall (no_later q) (waiting mm ss out f) ↔ first_of mm ss out q ∧ Forall (no_later q) f.
Proof.
  rewrite !Forall_forall. unfold first_of. split.
  - intros H. split; [|intros x Hx; apply H, waiting_spec; by right]. intros k Hk. destruct (request_cases mm ss k) as [E|[q' E]]; rewrite E; [done|].
    apply Forall_singleton, H, waiting_spec. left. eauto.
  - intros [H1 H2] x [(k & Hk & E)|Hx]%waiting_spec; [|by apply H2]. specialize (H1 k Hk). rewrite E in H1. by apply Forall_cons in H1 as [? _].
Qed.

(** Leaving out everything before the request of a pair that is open. *)
Definition open_count (mm : merge_map) (ss : list (Z * Z)) (out : list nat) (f : list (Z * Z)) : nat := (length (open_at mm ss out) + length f)%nat.
Lemma open_less mm ss out k : k ∉ out → (k < length ss)%nat → (length (open_at mm ss (k :: out)) < length (open_at mm ss out))%nat.
Proof.
  intros Hk Hl. unfold open_at. assert (H : k ∈ seq 0 (length ss)) by (apply elem_of_seq; lia). revert H. generalize (seq 0 (length ss)). clear Hl.
  assert (Hle : ∀ l, (length (base.filter (λ j, j ∉ k :: out) l) <= length (base.filter (λ j, j ∉ out) l))%nat).
  { induction l as [|j l IH]; [done|]. rewrite !filter_cons. repeat case_decide; cbn; try lia. set_solver. }
  induction l as [|j l IH]; [by intros ?%elem_of_nil|]. intros H. rewrite !filter_cons. specialize (Hle l).
  destruct (decide (j = k)) as [->|Hjk].
  - rewrite decide_False by set_solver. rewrite decide_True by done. cbn. lia.
  - assert (k ∈ l) as Hin by set_solver. specialize (IH Hin). repeat case_decide; cbn; try lia. set_solver.
Qed.

Lemma leave_before mm ss k q n out f g : (open_count mm ss out f < n)%nat → k ∉ out → request_at mm ss k = [q] →
  ∃ ds out' f' g', drop_run mm ds (DState ss out f g) (DState ss out' f' g') ∧ k ∉ out' ∧ first_of mm ss out' q ∧ Forall (no_later q) f'.
Proof.
  intros Hn Hk Hq. revert out f g Hn Hk. induction n as [|n IH]; [lia|]. intros out f g Hn Hk.
  destruct (decide (Forall (no_later q) (waiting mm ss out f))) as [Hw|Hw].
  { apply first_of_waiting in Hw as [H1 H2]. exists [], out, f, g. split_and!; [constructor|done..]. }
  destruct (first_exists (waiting mm ss out f)) as (q' & Hin & Hall). { intros E. rewrite E in Hw. by apply Hw. }
  apply first_of_waiting in Hall as Hboth. destruct Hboth as [H1 H2].
  apply waiting_spec in Hin as [(j & Hj & Ej)|Hin].
  - assert (j ≠ k). { intros ->. rewrite Hq in Ej. injection Ej as <-. done. }
    destruct (IH (j :: out) f g) as (ds & out' & f' & g' & Hr & H3 & H4 & H5).
    + unfold open_count in *. pose proof (open_less mm ss out j Hj (request_lt _ _ _ _ Ej)). lia.
    + set_solver.
    + exists (true :: ds), out', f', g'. split_and!; try done. eapply dr_draw; [|exact Hr]. by eapply ds_leave.
  - apply elem_of_list_split in Hin as (f1 & f2 & ->).
    destruct (IH out (f1 ++ f2) (q' :: g)) as (ds & out' & f' & g' & Hr & H3 & H4 & H5).
    + unfold open_count in *. rewrite app_length in *. cbn in Hn. lia.
    + done.
    + exists (true :: ds), out', f', g'. split_and!; try done. eapply dr_draw; [|exact Hr]. apply ds_old_leave; [done|].
      apply Forall_app in H2 as [? H2]. apply Forall_cons in H2 as [_ H2]. by apply Forall_app.
Qed.

(** Leaving out everything. *)
Lemma leave_all mm ss n out f g : (open_count mm ss out f < n)%nat →
  ∃ ds s, drop_run mm ds (DState ss out f g) s ∧ d_syms s = ss ∧ all_left_out mm s.
Proof.
  revert out f g. induction n as [|n IH]; [lia|]. intros out f g Hn.
  destruct (decide (waiting mm ss out f = [])) as [E|E].
  { exists [], (DState ss out f g). split_and!; [constructor|done|]. split; cbn.
    - destruct f as [|q f]; [done|]. exfalso. assert (q ∈ waiting mm ss out (q :: f)) as H by (apply waiting_spec; right; by left). rewrite E in H. by apply elem_of_nil in H.
    - intros k m Hm. destruct (decide (k ∈ out)) as [|Hk]; [done|]. exfalso. assert ((mv_rank m, sym_bytes (take k ss)) ∈ waiting mm ss out f) as H.
      { apply waiting_spec. left. exists k. split; [done|]. unfold request_at. by rewrite Hm. }
      rewrite E in H. by apply elem_of_nil in H. }
  destruct (first_exists _ E) as (q' & Hin & Hall). apply first_of_waiting in Hall as [H1 H2].
  apply waiting_spec in Hin as [(j & Hj & Ej)|Hin].
  - destruct (IH (j :: out) f g) as (ds & s & Hr & H3 & H4).
    + unfold open_count in *. pose proof (open_less mm ss out j Hj (request_lt _ _ _ _ Ej)). lia.
    + exists (true :: ds), s. split_and!; try done. eapply dr_draw; [|exact Hr]. by eapply ds_leave.
  - apply elem_of_list_split in Hin as (f1 & f2 & ->).
    destruct (IH out (f1 ++ f2) (q' :: g)) as (ds & s & Hr & H3 & H4).
    + unfold open_count in *. rewrite app_length in *. cbn in Hn. lia.
    + exists (true :: ds), s. split_and!; try done. eapply dr_draw; [|exact Hr]. apply ds_old_leave; [done|].
      apply Forall_app in H2 as [? H2]. apply Forall_cons in H2 as [_ H2]. by apply Forall_app.
Qed.

Lemma drop_run_app mm ds1 ds2 s1 s2 s3 : drop_run mm ds1 s1 s2 → drop_run mm ds2 s2 s3 → drop_run mm (ds1 ++ ds2) s1 s3.
Proof. induction 1 as [|d ds s s' s'' Hd _ IH]; intros H2; [done|]. cbn. eapply dr_draw; [exact Hd|]. by apply IH. Qed.

Lemma reach_run mm ss t f : rtc (merge_step mm) ss t → ∃ ds s, drop_run mm ds (DState ss [] f []) s ∧ d_syms s = t ∧ all_left_out mm s.
Proof.
  intros H. revert f. induction H as [ss|ss u t [l a la b lb r m Hm] _ IH]; intros f; [apply (leave_all mm ss (S (open_count mm ss [] f))); lia|].
  set (s0 := l ++ (a, la) :: (b, lb) :: r).
  destruct (leave_before mm s0 (length l) (mv_rank m, sym_bytes l) (S (open_count mm s0 [] f)) [] f []) as (ds & out' & f' & g' & Hr & H3 & H4 & H5).
  - lia.
  - by intros ?%elem_of_nil.
  - unfold request_at, merge_at, s0. rewrite old_p, old_n. cbn. rewrite Hm. by rewrite take_app.
  - destruct (IH (f' ++ g' ++ beside mm s0 (length l))) as (ds2 & s & Hr2 & Hs & Hl).
    exists (ds ++ false :: ds2), s. split; [|done]. eapply drop_run_app; [exact Hr|]. eapply dr_draw; [|exact Hr2]. by apply ds_merge.
Qed.

(** Draws that decide as wanted. *)
Lemma draws_exist dropout ds : (0 < dropout)%Q → (dropout < 1)%Q →
  ∃ draws, (∀ k, 0 <= draws k < 1)%Q ∧ decisions dropout draws (length ds) ds.
Proof.
  intros H0 H1. exists (λ k, if default false (ds !! k) then 0%Q else dropout). split.
  - intros k. destruct (default false (ds !! k)); split; try done. by apply Qlt_le_weak.
  - unfold decisions. apply Forall2_same_length_lookup. split; [by rewrite seq_length|]. intros i x d Hx Hd. apply lookup_seq in Hx as [-> _]. cbn.
    rewrite Hd. cbn. destruct d; [by split|]. split; [done|]. intros [_ H]. by apply Qlt_irrefl in H.
Qed.

(** * Symbols and terms *)
Lemma names_step_fwd file v mm ls pairs ss t ts : consistent v → merge_map_from_file file v 0 = Ret (Ok mm) → file_lines file ls → listed ls pairs →
  merge_step mm ss t → names v ss ts → ∃ ts', join_step pairs ts ts' ∧ names v t ts'.
Proof.
  intros Hc Hf Hl Hp [l a la b lb r m Hm] Hn. destruct (file_pairs _ _ _ _ _ Hf Hl Hp) as (ms & Hms & Hmm). apply Hmm in Hm as (_ & Hm & _).
  destruct (Forall2_lookup_r _ _ _ _ _ Hms Hm) as ([ta tb] & Hp' & H1 & H2 & H3). cbn in H1, H2, H3.
  apply Forall2_app_inv_l in Hn as (tl & tr & Hnl & Hn & ->). apply Forall2_cons_inv_l in Hn as (xa & tr1 & Ha & Hn & ->). apply Forall2_cons_inv_l in Hn as (xb & tr2 & Hb & Hn & ->).
  cbn in Ha, Hb. pose proof (get_id_inj _ _ _ _ Hc Ha H1) as ->. pose proof (get_id_inj _ _ _ _ Hc Hb H2) as ->.
  exists (tl ++ (ta ++ tb) :: tr2). split; [apply join_step_intro; by eapply elem_of_list_lookup_2|]. apply Forall2_app; [done|]. by constructor.
Qed.
Lemma names_step_bwd file v mm ls pairs ss ts ts' : consistent v → merge_map_from_file file v 0 = Ret (Ok mm) → file_lines file ls → listed ls pairs →
  join_step pairs ts ts' → names v ss ts → ∃ t, merge_step mm ss t ∧ names v t ts'.
Proof.
  intros Hc Hf Hl Hp [l ta tb r Hin] Hn. destruct (file_pairs _ _ _ _ _ Hf Hl Hp) as (ms & Hms & Hmm).
  apply elem_of_list_lookup in Hin as [i Hi]. destruct (Forall2_lookup_l _ _ _ _ _ Hms Hi) as ([[a b] c] & Hx & H1 & H2 & H3). cbn [fst snd] in H1, H2, H3.
  destruct (last_merge_exists ms (a, b) c) as (m & Hm); [by eapply elem_of_list_lookup_2|].
  assert (mv_id m = c) as Hid.
  { destruct Hm as (_ & Hm & _). destruct (Forall2_lookup_r _ _ _ _ _ Hms Hm) as ([xa xb] & _ & G1 & G2 & G3). cbn [fst snd] in *.
    rewrite (get_id_inj _ _ _ _ Hc G1 H1), (get_id_inj _ _ _ _ Hc G2 H2) in G3. congruence. }
  apply Hmm in Hm.
  apply Forall2_app_inv_r in Hn as (sl & sr & Hnl & Hn & ->). apply Forall2_cons_inv_r in Hn as ([a' la] & sr1 & Ha & Hn & ->). apply Forall2_cons_inv_r in Hn as ([b' lb] & sr2 & Hb & Hn & ->).
  cbn [fst snd] in Ha, Hb. assert (a' = a) as -> by congruence. assert (b' = b) as -> by congruence.
  exists (sl ++ (mv_id m, la + lb) :: sr2). split; [by apply merge_step_intro|]. apply Forall2_app; [done|]. constructor; [cbn [fst snd]; congruence|done].
Qed.
Lemma names_steps file v mm ls pairs ss ts : consistent v → merge_map_from_file file v 0 = Ret (Ok mm) → file_lines file ls → listed ls pairs → names v ss ts →
  (∀ t, rtc (merge_step mm) ss t → ∃ ts', rtc (join_step pairs) ts ts' ∧ names v t ts')
  ∧ (∀ ts', rtc (join_step pairs) ts ts' → ∃ t, rtc (merge_step mm) ss t ∧ names v t ts').
Proof.
  intros Hc Hf Hl Hp Hn. split.
  - intros t H. revert ts Hn. induction H as [s|s u t Hs _ IH]; intros ts Hn; [by exists ts|].
    destruct (names_step_fwd _ _ _ _ _ _ _ _ Hc Hf Hl Hp Hs Hn) as (ts1 & H1 & H2). destruct (IH _ H2) as (ts' & H3 & H4). exists ts'. split; [by eapply rtc_l|done].
  - intros ts' H. revert ss Hn. induction H as [s|s u t Hs _ IH]; intros ss Hn; [by exists ss|].
    destruct (names_step_bwd _ _ _ _ _ _ _ _ Hc Hf Hl Hp Hs Hn) as (ss1 & H1 & H2). destruct (IH _ H2) as (t' & H3 & H4). exists t'. split; [by eapply rtc_l|done].
Qed.
