(** Proofs for C118. *)
From Coq Require Import ZifyBool QArith Sorted.
From stdpp Require Import relations.
From Verif Require Import GoBase Strutils Vocab MergeMap Heap Bpe HeapFacts SpecBpe SliceFacts BpeWord BpeLoop BpeTok StepFacts
  Concurrent SpecConcurrent.
Import GoBase.
#[local] Open Scope Z_scope.

Lemma merge_word_first m s draws : merge_word m s draws =
  match first_word m s with
  | Err e => Some (Ret (Err e))
  | Ok w0 => match merge_all w0 (b_merges m) (b_dropout m) draws with
             | None => None | Some Panic => Some Panic | Some (Ret w) => Some (Ret (Ok w)) end
  end.
Proof. unfold merge_word, first_word. destruct (has_unk m); [|done]. by destruct (get_id _ _). Qed.

Lemma tokenize_first m s draws : zlen s =? 0 = false → bpe_tokenize m s draws =
  match first_word m s with
  | Err e => Some (Ret (Err e))
  | Ok w0 => match merge_all w0 (b_merges m) (b_dropout m) draws with
             | None => None | Some Panic => Some Panic | Some (Ret w) => Some (Ret (word_to_tokens m w 0)) end
  end.
Proof.
  intros H. unfold bpe_tokenize. rewrite H, merge_word_first. destruct (first_word m s) as [w0|e]; [|done].
  by destruct (merge_all _ _ _ _) as [[w|]|].
Qed.

Lemma first_total m s w0 draws : zlen s =? 0 = false → first_word m s = Ok w0 →
  ∃ w, merge_all w0 (b_merges m) (b_dropout m) draws = Some (Ret w).
Proof.
  intros Hs Hw. destruct (tokenize_total m s draws) as [res H]. rewrite (tokenize_first m s draws Hs), Hw in H.
  destruct (merge_all _ _ _ _) as [[w|]|]; [by exists w|done|done].
Qed.

Lemma merge_loop_S fuel mm drop st : m_q st ≠ [] → merge_loop (S fuel) mm drop st =
  match merge_iter mm (drop (m_draws st)) st with Panic => Some Panic | Ret st' => merge_loop fuel mm drop st' end.
Proof. intros H. cbn [merge_loop]. by destruct (m_q st). Qed.
Lemma merge_loop_O mm drop st : m_q st ≠ [] → merge_loop 0 mm drop st = None.
Proof. intros H. cbn [merge_loop]. by destruct (m_q st). Qed.
Lemma merge_loop_nil fuel mm drop st : m_q st = [] → merge_loop fuel mm drop st = Some (Ret st).
Proof. intros H. destruct fuel; cbn [merge_loop]; by rewrite H. Qed.

Section inv.
  Context (ci : cache_impl) (m : bpe) (source : nat → Q).
  (** Whatever is needed for the answers to be the right ones. *)
  Context (H : Prop).

  Definition agrees (draws : nat → Q) (taken : list nat) : Prop := ∀ j p, taken !! j = Some p → draws j = source p.
  Lemma agrees_app draws a p : agrees draws (a ++ [p]) → agrees draws a ∧ draws (length a) = source p.
  Proof.
    intros Ha. split; [intros j q Hj; apply Ha; by apply lookup_app_l_Some|]. apply Ha.
    rewrite lookup_app_r by done. by rewrite Nat.sub_diag.
  Qed.
  Lemma agrees_exists a : ∃ draws, agrees draws a.
  Proof. exists (λ j, match a !! j with Some p => source p | None => 0%Q end). intros j p Hj. by rewrite Hj. Qed.

  Definition loop_inv (s : list Z) (st : mstate) (taken : list nat) : Prop :=
    zlen s =? 0 = false ∧ ∃ w0 q0, first_word m s = Ok w0 ∧ initial_queue (b_merges m) 0 w0 [] = Ret q0
    ∧ (if has_dropout m then length taken = m_draws st else taken = [])
    ∧ ∀ draws, agrees draws taken →
        (∀ fuel, merge_loop (m_draws st + fuel) (b_merges m) (dropped_at (b_dropout m) draws) (MState w0 q0 [] 0)
               = merge_loop fuel (b_merges m) (dropped_at (b_dropout m) draws) st)
        ∧ ∀ f, (f < m_draws st)%nat → merge_loop f (b_merges m) (dropped_at (b_dropout m) draws) (MState w0 q0 [] 0) = None.
  Definition call_inv (c : call) : Prop :=
    let s := cl_text c in
    match cl_phase c with
    | Begin => cl_taken c = []
    | Looping st => loop_inv s st (cl_taken c)
    | Storing w ts => has_dropout m = false ∧ cl_taken c = [] ∧ ∀ draws, merge_word m s draws = Some (Ret (Ok w)) ∧ bpe_tokenize m s draws = Some (Ret (Ok ts))
    | Answered r => H → ∀ draws, agrees draws (cl_taken c) → bpe_tokenize m s draws = Some (Ret r)
    | Crashed => False
    end.
  Definition good (c : ca_state ci) : Prop := ∀ k w, ca_get ci c k = Some w → ∀ dr, merge_word m k dr = Some (Ret (Ok w)).
  Definition shared_inv (sh : shared ci) : Prop := H → has_dropout m = false → good (sh_cache sh).

  Definition bound (s : list Z) : nat := match first_word m s with Ok w => merge_fuel w | Err _ => 0 end.
  Definition rest (c : call) : nat :=
    match cl_phase c with
    | Begin => bound (cl_text c) + 3
    | Looping st => (bound (cl_text c) - m_draws st) + 2
    | Storing _ _ => 1
    | Answered _ | Crashed => 0
    end%nat.

  Lemma no_dropout : has_dropout m = false → (b_dropout m <= 0)%Q.
  Proof. unfold has_dropout. intros E. apply negb_false_iff in E. by apply Qle_bool_iff. Qed.

  (** The next turn of the loop does what MergeAll would do with these numbers. *)
  Lemma loop_turn s st taken k :
    loop_inv s st taken → m_q st ≠ [] →
    let taken' := if has_dropout m then taken ++ [k] else taken in
    (m_draws st < bound s)%nat
    ∧ ∃ st', merge_iter (b_merges m) (has_dropout m && negb (Qle_bool (b_dropout m) (source k))) st = Ret st'
        ∧ m_draws st' = S (m_draws st) ∧ loop_inv s st' taken'.
  Proof.
    intros (Hs & w0 & q0 & Hw & Hq & Ht & Hl) Hne taken'.
    assert (Hd : ∀ draws, agrees draws taken' → agrees draws taken
      ∧ dropped_at (b_dropout m) draws (m_draws st) = has_dropout m && negb (Qle_bool (b_dropout m) (source k))).
    { intros draws Ha. unfold taken' in Ha. unfold dropped_at, has_dropout in *. destruct (Qle_bool (b_dropout m) 0); cbn [negb andb] in *; [done|].
      apply agrees_app in Ha as [Ha Hk]. rewrite Ht in Hk. rewrite Hk. done. }
    destruct (agrees_exists taken') as [dr Hdr]. destruct (Hd dr Hdr) as [Hdr' Hdk].
    destruct (Hl dr Hdr') as [Hl1 Hl2].
    destruct (first_total m s w0 dr Hs Hw) as [w Hall].
    assert (Hb : (m_draws st < bound s)%nat).
    { unfold bound. rewrite Hw. destruct (Nat.lt_ge_cases (m_draws st) (merge_fuel w0)) as [|Hge]; [done|]. exfalso.
      assert (merge_loop (merge_fuel w0) (b_merges m) (dropped_at (b_dropout m) dr) (MState w0 q0 [] 0) = None) as Hn.
      { destruct (decide (merge_fuel w0 = m_draws st)) as [->|Hd']; [|apply Hl2; lia].
        specialize (Hl1 O). rewrite Nat.add_0_r in Hl1. rewrite Hl1. by apply merge_loop_O. }
      unfold merge_all, merge_all_with in Hall. rewrite Hq, Hn in Hall. done. }
    split; [done|].
    destruct (merge_iter (b_merges m) (has_dropout m && negb (Qle_bool (b_dropout m) (source k))) st) as [st'|] eqn:Ei.
    - exists st'. pose proof (merge_iter_draws _ _ _ _ Ei) as Hst. split; [done|]. split; [done|]. split; [done|]. exists w0, q0.
      split; [done|]. split; [done|]. split.
      { unfold taken'. destruct (has_dropout m); [|done]. rewrite app_length, Ht, Hst. cbn [length]. lia. }
      intros draws Ha. destruct (Hd draws Ha) as [Ha' Hk]. destruct (Hl draws Ha') as [G1 G2]. rewrite Hst. split.
      + intros fuel. replace (S (m_draws st) + fuel)%nat with (m_draws st + S fuel)%nat by lia.
        rewrite G1, merge_loop_S, Hk, Ei by done. done.
      + intros f Hf. destruct (decide (f = m_draws st)) as [->|]; [|apply G2; lia].
        specialize (G1 O). rewrite Nat.add_0_r in G1. rewrite G1. by apply merge_loop_O.
    - exfalso. unfold merge_all, merge_all_with in Hall. rewrite Hq in Hall.
      assert (merge_fuel w0 = m_draws st + S (merge_fuel w0 - S (m_draws st)))%nat as Hf by (unfold bound in Hb; rewrite Hw in Hb; lia).
      rewrite Hf, Hl1, merge_loop_S, Hdk, Ei in Hall by done. done.
  Qed.

  (** The loop has ended. *)
  Lemma loop_end s st taken draws :
    loop_inv s st taken → m_q st = [] → agrees draws taken →
    merge_word m s draws = Some (Ret (Ok (remove_empty (m_w st))))
    ∧ bpe_tokenize m s draws = Some (Ret (word_to_tokens m (remove_empty (m_w st)) 0)).
  Proof.
    intros (Hs & w0 & q0 & Hw & Hq & Ht & Hl) Hnil Ha. destruct (Hl draws Ha) as [Hl1 _].
    destruct (first_total m s w0 draws Hs Hw) as [w Hall].
    assert (w = remove_empty (m_w st)) as ->.
    { unfold merge_all, merge_all_with in Hall. rewrite Hq in Hall.
      destruct (merge_loop (merge_fuel w0) _ _ _) as [[st1|]|] eqn:E; [|done|done]. injection Hall as <-.
      pose proof (Hl1 O) as H1. rewrite (merge_loop_nil 0) in H1 by done. f_equal. f_equal.
      destruct (Nat.le_ge_cases (m_draws st1 - 0) (m_draws st + 0)) as [Hle|Hle].
      - rewrite (merge_loop_enough _ (m_draws st + 0) _ _ _ _ E Hle) in H1. by injection H1.
      - destruct (decide (m_draws st + 0 = m_draws st1 - 0)%nat) as [He|He].
        + rewrite (merge_loop_enough _ (m_draws st + 0) _ _ _ _ E) in H1 by (cbn [m_draws]; lia). by injection H1.
        + rewrite (merge_loop_short _ (m_draws st + 0) _ _ _ _ E) in H1 by (cbn [m_draws]; lia). done. }
    rewrite merge_word_first, tokenize_first, Hw, Hall by done. done.
  Qed.

  Lemma call_step_inv c sh c' sh' :
    (H → cache_sound ci ∨ has_dropout m = true) →
    call_inv c → shared_inv sh → call_step ci m source c sh = Some (c', sh') →
    call_inv c' ∧ shared_inv sh' ∧ cl_text c' = cl_text c ∧ (rest c' < rest c)%nat
    ∧ ((sh_next sh' = sh_next sh ∧ cl_taken c' = cl_taken c)
       ∨ (has_dropout m = true ∧ sh_next sh' = S (sh_next sh) ∧ cl_taken c' = cl_taken c ++ [sh_next sh]))
    ∧ (has_dropout m = true → sh_cache sh' = sh_cache sh).
  Proof.
    intros Hci Hc Hsh Hst. unfold call_step in Hst. destruct c as [s ph taken]. unfold call_inv, rest in *. cbn [cl_text cl_phase cl_taken] in *.
    destruct ph as [|st|w ts|r|]; [| | |done|done].
    - injection Hst as Hst. subst taken.
      destruct (zlen s =? 0) eqn:Hs.
      { injection Hst as <- <-. cbn. split; [|split; [done|split; [done|split; [lia|split; [by left|done]]]]].
        intros _ draws _. unfold bpe_tokenize. by rewrite Hs. }
      destruct (if has_dropout m then None else ca_get ci (sh_cache sh) s) as [hit|] eqn:Eh.
      { injection Hst as <- <-. cbn. split; [|split; [done|split; [done|split; [lia|split; [by left|done]]]]].
        intros HH draws _. destruct (has_dropout m) eqn:Hd; [done|].
        unfold bpe_tokenize. rewrite Hs. by rewrite (Hsh HH Hd _ _ Eh draws). }
      destruct (first_word m s) as [w|e] eqn:Hw.
      + destruct (initial_queue (b_merges m) 0 w []) as [q|] eqn:Hq.
        * injection Hst as <- <-. cbn. split; [|split; [done|split; [done|split; [lia|split; [by left|done]]]]].
          split; [done|]. exists w, q. split; [done|]. split; [done|]. split; [by destruct (has_dropout m)|].
          intros draws _. split; [done|]. intros f Hf. cbn in Hf. lia.
        * exfalso. destruct (first_total m s w (λ _, 0%Q) Hs Hw) as [w' Hall]. unfold merge_all, merge_all_with in Hall. by rewrite Hq in Hall.
      + injection Hst as <- <-. cbn. split; [|split; [done|split; [done|split; [lia|split; [by left|done]]]]].
        intros _ draws _. rewrite tokenize_first by done. by rewrite Hw.
    - injection Hst as Hst. destruct (m_q st) eqn:Hq.
      + destruct (word_to_tokens m (remove_empty (m_w st)) 0) as [ts|e] eqn:Hts; [destruct (has_dropout m) eqn:Hd|]; injection Hst as <- <-;
          (split; [|split; [done|split; [done|split; [cbn; lia|split; [by left|done]]]]]); cbn [cl_phase cl_taken cl_text].
        * intros _ draws Ha. destruct (loop_end s st taken draws Hc Hq Ha) as [_ ->]. by rewrite Hts.
        * assert (taken = []) as ->. { destruct Hc as (_ & ? & ? & _ & _ & Ht & _). by rewrite Hd in Ht. }
          split; [done|]. split; [done|]. intros draws. destruct (loop_end s st [] draws Hc Hq) as [-> ->]; [done|]. by rewrite Hts.
        * intros _ draws Ha. destruct (loop_end s st taken draws Hc Hq Ha) as [_ ->]. by rewrite Hts.
      + destruct (loop_turn s st taken (sh_next sh) Hc) as (Hb & st' & Hi & Hdr & Hinv); [by rewrite Hq|].
        rewrite Hi in Hst. injection Hst as <- <-. cbn [cl_phase cl_taken cl_text].
        split; [done|]. split; [by destruct (has_dropout m)|]. split; [done|]. split; [rewrite Hdr; lia|].
        destruct (has_dropout m); [split; [by right|done]|split; [by left|done]].
    - injection Hst as <- <-. destruct Hc as (Hd & -> & Hc). cbn [cl_phase cl_taken cl_text sh_next sh_cache].
      split; [intros _ draws _; apply Hc|]. split; [|split; [done|split; [lia|split; [by left|by rewrite Hd]]]].
      intros HH _ k w' Hk dr. destruct (Hci HH) as [Hso|]; [|congruence].
      destruct (Hso _ _ _ _ _ Hk) as [[-> ->]|Hold]; [apply Hc|by apply (Hsh HH Hd k)].
  Qed.

  (** ** The whole system *)
  Definition total_rest (y : system ci) : nat := sum_list (map rest (sy_calls y)).
  Definition sys_inv (texts : list (list Z)) (y : system ci) : Prop :=
    Forall call_inv (sy_calls y) ∧ shared_inv (sy_shared y) ∧ map cl_text (sy_calls y) = texts
    ∧ concat (map cl_taken (sy_calls y)) ≡ₚ seq 0 (sh_next (sy_shared y))
    ∧ Forall (λ c, StronglySorted lt (cl_taken c)) (sy_calls y).

  Lemma sys_step_inv texts y y' :
    (H → cache_sound ci ∨ has_dropout m = true) →
    sys_inv texts y → sys_step ci m source y y' →
    sys_inv texts y' ∧ (total_rest y' < total_rest y)%nat
    ∧ (has_dropout m = true → sh_cache (sy_shared y') = sh_cache (sy_shared y)).
  Proof.
    intros Hci (Hcs & Hsh & Htx & Hp & Hso) Hst. destruct Hst as [i c c' calls sh sh' Hi Hst]. unfold total_rest. cbn [sy_calls sy_shared] in *.
    pose proof (Forall_lookup_1 _ _ _ _ Hcs Hi) as Hc. pose proof (Forall_lookup_1 _ _ _ _ Hso Hi) as Hs.
    destruct (call_step_inv c sh c' sh' Hci Hc Hsh Hst) as (Hc' & Hsh' & Ht & Hr & Hn & Hca).
    pose proof (lookup_lt_Some _ _ _ Hi) as Hlt.
    rewrite insert_take_drop by done. pose proof (take_drop_middle _ _ _ Hi) as Hmid.
    set (a := take i calls) in *. set (b := drop (S i) calls) in *. clearbody a b. subst calls.
    rewrite !map_app in *. cbn [map] in *. rewrite !Forall_app, !Forall_cons in *. rewrite !concat_app in *. cbn [concat] in *.
    rewrite !sum_list_with_app || idtac.
    destruct Hcs as (Hca1 & _ & Hcb). destruct Hso as (Hsa & _ & Hsb).
    split; [|split; [|done]].
    2:{ clear -Hr. induction (map rest a) as [|x l IH]; cbn [app sum_list sum_list_with] in *; cbn; lia. }
    unfold sys_inv. cbn [sy_calls sy_shared]. rewrite !map_app, !concat_app. cbn [map concat]. rewrite !Forall_app, !Forall_cons.
    split; [done|]. split; [done|]. split; [by rewrite Ht|].
    destruct Hn as [[-> ->]|(_ & -> & ->)]; [done|].
    assert (Hall : Forall (λ p, (p < sh_next sh)%nat) (cl_taken c)).
    { apply Forall_forall. intros p Hin. assert (p ∈ seq 0 (sh_next sh)) as Hin'.
      { rewrite <- Hp. rewrite !elem_of_app. auto. }
      apply elem_of_seq in Hin'. lia. }
    split.
    - rewrite seq_S. rewrite <- Hp. cbn [plus]. rewrite <- !app_assoc. apply Permutation_app_head, Permutation_app_head.
      apply Permutation_app_comm.
    - split; [done|]. split; [|done]. clear -Hs Hall. induction Hs as [|x l Hs IH Hx]; [by repeat constructor|].
      apply Forall_cons in Hall as [Hxk Hall]. cbn [app]. constructor; [by apply IH|]. apply Forall_app. split; [done|]. by repeat constructor.
  Qed.

  Lemma sys_begin_inv texts c0 : (H → has_dropout m = false → ∀ k, ca_get ci c0 k = None) → sys_inv texts (beginning texts c0).
  Proof.
    intros H0. unfold sys_inv, beginning. cbn [sy_calls sy_shared sh_next seq]. split; [|split; [|split; [|split]]].
    - apply Forall_forall. intros c Hc. apply elem_of_list_fmap in Hc as (s & -> & _). done.
    - intros HH Hd k w Hk. cbn [sh_cache] in Hk. by rewrite (H0 HH Hd) in Hk.
    - rewrite map_map. apply map_id.
    - assert (concat (map cl_taken (map (λ s, Call s Begin []) texts)) = []) as ->; [|done]. by induction texts.
    - apply Forall_forall. intros c Hc. apply elem_of_list_fmap in Hc as (s & -> & _). constructor.
  Qed.

  Lemma sys_steps_inv texts y y' n :
    (H → cache_sound ci ∨ has_dropout m = true) → sys_inv texts y → nsteps (sys_step ci m source) n y y' →
    sys_inv texts y' ∧ (n + total_rest y' <= total_rest y)%nat ∧ (has_dropout m = true → sh_cache (sy_shared y') = sh_cache (sy_shared y)).
  Proof.
    intros Hci Hy Hn. induction Hn as [y|n y1 y2 y3 Hs Hn IH]; [auto|].
    destruct (sys_step_inv _ _ _ Hci Hy Hs) as (Hy2 & Hr & Hca). destruct (IH Hy2) as (Hy3 & Hr' & Hca').
    split; [done|]. split; [lia|]. intros Hd. rewrite Hca' by done. by apply Hca.
  Qed.

  (** Whoever has not answered can go on. *)
  Lemma ended_answered texts y : sys_inv texts y → ended m source y → Forall (λ c, is_Some (answer c)) (sy_calls y).
  Proof.
    intros (Hcs & _) He. destruct y as [calls sh]. cbn [sy_calls] in *. apply Forall_lookup. intros i c Hi.
    pose proof (Forall_lookup_1 _ _ _ _ Hcs Hi) as Hc.
    destruct (call_step ci m source c sh) as [[c' sh']|] eqn:E.
    - destruct (He (System (<[i := c']> calls) sh')). by econstructor.
    - unfold call_step in E. unfold call_inv in Hc. unfold answer. destruct (cl_phase c); done.
  Qed.
End inv.

(** ** One call alone *)
Section alone.
  Context (ci : cache_impl) (m : bpe) (source : nat → Q) (k : nat).
  Definition from : nat → Q := λ i, source (k + i)%nat.
  Definition used (n : nat) : nat := if has_dropout m then n else O.

  Lemma one_step c c' (sh sh' : shared ci) : call_step ci m source c sh = Some (c', sh') →
    sys_step ci m source (System [c] sh) (System [c'] sh').
  Proof. intros E. exact (sys_step_call ci m source 0 c c' [c] sh sh' eq_refl E). Qed.

  Lemma loop_alone (c : ca_state ci) s fuel st st' :
    merge_loop fuel (b_merges m) (dropped_at (b_dropout m) from) st = Some (Ret st') →
    m_q st' = [] ∧
    rtc (sys_step ci m source)
      (System [Call s (Looping st) (seq k (used (m_draws st)))] (Shared c (k + used (m_draws st))))
      (System [Call s (Looping st') (seq k (used (m_draws st')))] (Shared c (k + used (m_draws st')))).
  Proof.
    revert st. induction fuel as [|fuel IH]; intros st E.
    - cbn [merge_loop] in E. destruct (m_q st) eqn:Eq; [|done]. injection E as <-. split; [done|apply rtc_refl].
    - destruct (m_q st) as [|x q] eqn:Eq; [rewrite merge_loop_nil in E by done; injection E as <-; split; [done|apply rtc_refl]|].
      rewrite merge_loop_S in E by (by rewrite Eq).
      destruct (merge_iter (b_merges m) (dropped_at (b_dropout m) from (m_draws st)) st) as [st1|] eqn:Ei; [|done].
      destruct (IH st1 E) as [Hq Hr]. split; [done|]. eapply rtc_l; [|exact Hr]. apply one_step.
      unfold call_step. cbn [cl_phase cl_text cl_taken sh_next sh_cache]. rewrite Eq.
      pose proof (merge_iter_draws _ _ _ _ Ei) as Hd. rewrite Hd. unfold used in *.
      unfold dropped_at in Ei. fold (has_dropout m) in Ei. unfold has_dropout in *.
      destruct (Qle_bool (b_dropout m) 0) eqn:E0; cbn [negb andb] in *.
      + rewrite Ei. done.
      + unfold from in Ei. rewrite Ei. rewrite seq_S. do 3 f_equal. lia.
  Qed.

  Lemma alone (c c' : ca_state ci) s r :
    bpe_tokenize_cached ci m s from c = Some (Ret (r, c')) →
    ∃ n, rtc (sys_step ci m source) (System [Call s Begin []] (Shared c k)) (System [Call s (Answered r) (seq k n)] (Shared c' (k + n))).
  Proof.
    intros E. unfold bpe_tokenize_cached in E.
    assert (Hone : call_step ci m source (Call s Begin []) (Shared c k) = Some (Call s (Answered r) [], Shared c' k) →
      ∃ n, rtc (sys_step ci m source) (System [Call s Begin []] (Shared c k)) (System [Call s (Answered r) (seq k n)] (Shared c' (k + n)))).
    { intros E'. exists O. rewrite Nat.add_0_r. cbn [seq]. apply rtc_once, one_step, E'. }
    unfold call_step in Hone. cbn [cl_phase cl_text cl_taken sh_next sh_cache] in Hone.
    destruct (zlen s =? 0) eqn:Es; [injection E as <- <-; by apply Hone|].
    destruct (if has_dropout m then None else ca_get ci c s) as [hit|] eqn:Eh; [injection E as <- <-; by apply Hone|].
    rewrite merge_word_first in E. destruct (first_word m s) as [w0|e] eqn:Ew; [|injection E as <- <-; by apply Hone]. clear Hone.
    destruct (merge_all w0 (b_merges m) (b_dropout m) from) as [[w|]|] eqn:Em; [|done|done].
    unfold merge_all, merge_all_with in Em. destruct (initial_queue (b_merges m) 0 w0 []) as [q0|] eqn:Eq; [|done].
    destruct (merge_loop (merge_fuel w0) (b_merges m) (dropped_at (b_dropout m) from) (MState w0 q0 [] 0)) as [[st|]|] eqn:El; [|done|done].
    injection Em as <-. destruct (loop_alone c s _ _ _ El) as [Hq Hr]. exists (used (m_draws st)).
    eapply rtc_l.
    { apply one_step. unfold call_step. cbn [cl_phase cl_text cl_taken sh_next sh_cache]. by rewrite Es, Eh, Ew, Eq. }
    cbn [m_draws] in Hr. assert (used 0 = 0)%nat as H0 by (unfold used; by destruct (has_dropout m)). rewrite H0, Nat.add_0_r in Hr. cbn [seq] in Hr.
    eapply rtc_transitive; [exact Hr|].
    destruct (word_to_tokens m (remove_empty (m_w st)) 0) as [ts|e] eqn:Et.
    - injection E as <- <-. destruct (has_dropout m) eqn:Hd.
      + apply rtc_once, one_step. unfold call_step. cbn [cl_phase cl_text cl_taken sh_next sh_cache]. by rewrite Hq, Et, Hd.
      + eapply rtc_l; [apply one_step; unfold call_step; cbn [cl_phase cl_text cl_taken sh_next sh_cache]; by rewrite Hq, Et, Hd|].
        apply rtc_once, one_step. reflexivity.
    - assert ((if has_dropout m then c else c) = c) as Hc by (by destruct (has_dropout m)). rewrite Hc in E. injection E as <- <-.
      apply rtc_once, one_step. unfold call_step. cbn [cl_phase cl_text cl_taken sh_next sh_cache]. by rewrite Hq, Et.
  Qed.
End alone.

(** ** Running a given schedule *)
Fixpoint run_schedule {ci} m source (is : list nat) (y : system ci) : option (system ci) :=
  match is with
  | [] => Some y
  | i :: is => match sy_calls y !! i with
               | None => None
               | Some c => match call_step ci m source c (sy_shared y) with
                           | None => None
                           | Some (c', sh') => run_schedule m source is (System (<[i := c']> (sy_calls y)) sh')
                           end
               end
  end.
Lemma run_schedule_steps {ci} m source is (y y' : system ci) : run_schedule m source is y = Some y' → rtc (sys_step ci m source) y y'.
Proof.
  revert y. induction is as [|i is IH]; intros [calls sh] E; cbn [run_schedule sy_calls sy_shared] in E; [injection E as <-; apply rtc_refl|].
  destruct (calls !! i) as [c|] eqn:Ei; [|done]. destruct (call_step ci m source c sh) as [[c' sh']|] eqn:Es; [|done].
  eapply rtc_l; [by econstructor|by apply IH].
Qed.
Lemma answered_ended {ci} m source (y : system ci) : Forall (λ c, is_Some (answer c)) (sy_calls y) → ended m source y.
Proof.
  intros H y' Hs. destruct Hs as [i c c' calls sh sh' Hi Hs]. pose proof (Forall_lookup_1 _ _ _ _ H Hi) as Ha.
  unfold call_step in Hs. unfold answer in Ha. destruct (cl_phase c); try done; by destruct Ha.
Qed.
