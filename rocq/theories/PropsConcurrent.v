(** Property theorems C118 (Tokenize called by several goroutines at once). *)
From Coq Require Import QArith Sorted String.
From stdpp Require Import relations.
From Verif Require Import GoBase Strutils Vocab MergeMap Bpe SpecVocab SpecBpe Concurrent SpecConcurrent BpeTok ConcurrentFacts Lit.
Import GoBase.
#[local] Open Scope Z_scope.

(** Without dropout: whatever the others do in between, and at any moment, whoever has returned has returned
    what Tokenize returns. *)
Theorem C118_answers :
  ∀ ci m source texts c0 y, cache_sound ci → (∀ k, ca_get ci c0 k = None) → (b_dropout m <= 0)%Q →
  rtc (sys_step ci m source) (beginning texts c0) y →
  map cl_text (sy_calls y) = texts
  ∧ Forall (λ c, ∀ r, answer c = Some r → ∀ draws, bpe_tokenize m (cl_text c) draws = Some (Ret r)) (sy_calls y)
  ∧ sh_next (sy_shared y) = 0%nat.
Proof.
  intros ci m source texts c0 y Hci H0 Hd Hr. apply rtc_nsteps in Hr as [n Hn].
  assert (has_dropout m = false) as Hnd. { unfold has_dropout. apply Qle_bool_iff in Hd. by rewrite Hd. }
  destruct (sys_steps_inv ci m source True texts (beginning texts c0) y n) as ((Hcs & _ & Ht & Hp & _) & _ & _); [by left| |done|].
  { apply sys_begin_inv. auto. }
  assert (Htk : Forall (λ c, cl_taken c = []) (sy_calls y) ∧ sh_next (sy_shared y) = O).
  { clear -Hn Hnd. assert (Hb : Forall (λ c, cl_taken c = []) (sy_calls (beginning texts c0)) ∧ sh_next (sy_shared (beginning texts c0)) = O).
    { split; [|done]. apply Forall_forall. intros c Hc. by apply elem_of_list_fmap in Hc as (s & -> & _). }
    revert Hb. induction Hn as [y|n y1 y2 y3 Hs Hn IH]; [done|]. intros [Hb Hk]. apply IH. clear IH Hn.
    destruct Hs as [i c c' calls sh sh' Hi Hs]. cbn [sy_calls sy_shared] in *. pose proof (Forall_lookup_1 _ _ _ _ Hb Hi) as Hc.
    unfold call_step in Hs. rewrite Hnd in Hs. destruct c as [s ph tk]. cbn [cl_text cl_phase cl_taken] in *. subst tk.
    assert (cl_taken c' = [] ∧ sh_next sh' = O) as [H1 H2]; [|split; [by apply Forall_insert|done]].
    repeat (case_match; simplify_eq; try done). }
  destruct Htk as [Htk Hk]. split; [done|]. split; [|done]. apply Forall_forall. intros c Hc r Ha draws.
  rewrite Forall_forall in Hcs, Htk. specialize (Hcs c Hc). unfold call_inv in Hcs. unfold answer in Ha. destruct (cl_phase c); try done.
  injection Ha as ->. apply Hcs; [done|]. by rewrite (Htk c Hc).
Qed.
Print Assumptions C118_answers.

(** With dropout: every number is taken by exactly one call, each call takes its own in order, and the answer is that
    of Tokenize with these numbers. The cache is left alone, and may be any. *)
Theorem C118_dropout :
  ∀ ci m source texts c0 y, (0 < b_dropout m)%Q →
  rtc (sys_step ci m source) (beginning texts c0) y →
  map cl_text (sy_calls y) = texts
  ∧ concat (map cl_taken (sy_calls y)) ≡ₚ seq 0 (sh_next (sy_shared y))
  ∧ Forall (λ c, StronglySorted lt (cl_taken c)
             ∧ ∀ r draws, answer c = Some r → (∀ j p, cl_taken c !! j = Some p → draws j = source p) →
                 bpe_tokenize m (cl_text c) draws = Some (Ret r)) (sy_calls y)
  ∧ sh_cache (sy_shared y) = c0.
Proof.
  intros ci m source texts c0 y Hd Hr. apply rtc_nsteps in Hr as [n Hn].
  assert (has_dropout m = true) as Hnd.
  { unfold has_dropout. destruct (Qle_bool (b_dropout m) 0) eqn:E; [|done]. apply Qle_bool_iff in E. by apply Qle_not_lt in E. }
  destruct (sys_steps_inv ci m source True texts (beginning texts c0) y n) as ((Hcs & _ & Ht & Hp & Hso) & _ & Hc); [by right| |done|].
  { apply sys_begin_inv. congruence. }
  split; [done|]. split; [done|]. split; [|by apply Hc]. apply Forall_forall. intros c Hin. rewrite Forall_forall in Hcs, Hso.
  split; [by apply Hso|]. intros r draws Ha Hag. specialize (Hcs c Hin). unfold call_inv in Hcs. unfold answer in Ha.
  destruct (cl_phase c); try done. injection Ha as ->. by apply Hcs.
Qed.
Print Assumptions C118_dropout.

(** Every execution ends, after a number of steps that depends on the model and the texts only, and not before every
    call has returned; none panics. For every cache, even one that returns what was never stored. *)
Theorem C118_ends :
  ∀ m texts, ∃ N, ∀ ci source c0 n y, nsteps (sys_step ci m source) n (beginning texts c0) y →
  (n <= N)%nat ∧ Forall (λ c, cl_phase c ≠ Crashed) (sy_calls y) ∧ (ended m source y ↔ Forall (λ c, is_Some (answer c)) (sy_calls y)).
Proof.
  intros m texts. exists (sum_list (map (λ s, bound m s + 3) texts)%nat). intros ci source c0 n y Hn.
  destruct (sys_steps_inv ci m source False texts (beginning texts c0) y n) as (Hy & Hle & _); [done| |done|].
  { by apply sys_begin_inv. }
  split; [|split; [|split; [by eapply ended_answered|apply answered_ended]]].
  - unfold total_rest, beginning in Hle. cbn [sy_calls] in Hle. rewrite map_map in Hle. unfold rest in Hle. cbn [cl_phase cl_text] in Hle. lia.
  - destruct Hy as (Hcs & _). eapply Forall_impl; [exact Hcs|]. intros c Hc. unfold call_inv in Hc. by destruct (cl_phase c).
Qed.
Print Assumptions C118_ends.

(** A call that is not disturbed does what the sequential function does, to the cache too, with the numbers from [k] on. *)
Theorem C118_alone :
  ∀ ci m source s (c : ca_state ci) k, ∃ n r c',
  rtc (sys_step ci m source) (System [Call s Begin []] (Shared c k)) (System [Call s (Answered r) (seq k n)] (Shared c' (k + n)))
  ∧ bpe_tokenize_cached ci m s (λ i, source (k + i)%nat) c = Some (Ret (r, c')).
Proof.
  intros ci m source s c k. change (λ i, source (k + i)%nat) with (from source k).
  assert (∃ rc, bpe_tokenize_cached ci m s (from source k) c = Some (Ret rc)) as [[r c'] E].
  { unfold bpe_tokenize_cached. destruct (tokenize_total m s (from source k)) as [res Hres]. unfold bpe_tokenize in Hres.
    destruct (zlen s =? 0); [by eexists|]. destruct (if has_dropout m then None else ca_get ci c s); [by eexists|].
    destruct (merge_word m s (from source k)) as [[[w|e]|]|]; [by eexists|by eexists|done|done]. }
  destruct (alone ci m source k c c' s r E) as [n Hn]. by exists n, r, c'.
Qed.
Print Assumptions C118_alone.

(** A fixed seed does not make the answers those of the same calls, one after the other, in whichever order. *)
Definition seed_vocab : vocab := match add_terms new_vocab (map bytes_of ["a"; "b"; "c"; "d"; "ab"; "cd"]%string) with Ret v => v | Panic => new_vocab end.
Definition seed_model (d : Q) : bpe :=
  Bpe seed_vocab {[ (0, 1) := MergeValue 0 4; (2, 3) := MergeValue 1 5 ]} d [] [] [] false.
Definition seed_source (i : nat) : Q := if decide (i < 2)%nat then 0%Q else (9 # 10)%Q.
Theorem C118_seed_refuted :
  ¬ ∀ m source texts y, rtc (sys_step stub_cache m source) (beginning (ci:=stub_cache) texts tt) y → ended m source y →
    ∃ y', rtc (sys_step stub_cache m source) (beginning (ci:=stub_cache) texts tt) y' ∧ ended m source y' ∧ in_turn y' ∧ answers y' = answers y.
Proof.
  intros Hall. set (s := bytes_of "abcd").
  assert (∃ y, run_schedule (ci:=stub_cache) (seed_model (1 # 2)) seed_source [0; 1; 0; 1; 0; 1; 0; 1; 0; 1]%nat (beginning (ci:=stub_cache) [s; s] tt) = Some y
    ∧ answers y = replicate 2 (Some (Ok [Token 4 (bytes_of "ab") (Offsets 0 2); Token 5 (bytes_of "cd") (Offsets 2 4)]))) as (y & Hrun & Ha).
  { eexists. split; vm_compute; reflexivity. }
  assert (Hend : ended (seed_model (1 # 2)) seed_source y).
  { apply answered_ended, Forall_forall. intros c Hc. assert (answer c ∈ answers y) as Hin by (by apply elem_of_list_fmap_1).
    rewrite Ha in Hin. apply elem_of_replicate in Hin as [-> _]. done. }
  destruct (Hall _ _ _ _ (run_schedule_steps _ _ _ _ _ Hrun) Hend) as (y' & Hr' & _ & Hturn & Ha'). rewrite Ha in Ha'.
  assert (Hd : (0 < b_dropout (seed_model (1 # 2)))%Q) by reflexivity.
  assert (H2 : Forall (λ c, cl_text c = s) (sy_calls y') ∧ ∃ c, c ∈ sy_calls y' ∧ ∃ n, cl_taken c = seq 0 n).
  { destruct (C118_dropout _ _ _ _ _ _ Hd Hr') as (Ht & Hp & _ & _).
    split. { apply Forall_forall. intros c Hc. assert (cl_text c ∈ map cl_text (sy_calls y')) as Hin by (by apply elem_of_list_fmap_1).
      rewrite Ht in Hin. apply elem_of_cons in Hin as [?|Hin]; [done|]. by apply elem_of_list_singleton in Hin. }
    assert (Hne : ∃ c, c ∈ sy_calls y').
    { destruct (sy_calls y') as [|c l]; [done|]. exists c. by left. }
    destruct (sh_next (sy_shared y')) as [|k].
    - destruct Hne as [c Hc]. exists c. split; [done|]. exists O. cbn [seq] in *. symmetry in Hp; apply Permutation_nil in Hp.
      assert (Hin : ∀ x, x ∉ cl_taken c); [|by destruct (cl_taken c) as [|x l]; [|destruct (Hin x); left]].
      intros x Hx. apply (not_elem_of_nil x). rewrite <- Hp. apply elem_of_list_In, in_concat. exists (cl_taken c).
      split; [|by apply elem_of_list_In]. apply in_map. by apply elem_of_list_In.
    - assert (0%nat ∈ concat (map cl_taken (sy_calls y'))) as Hin. { rewrite Hp. by left. }
      apply elem_of_list_In, in_concat in Hin as (tk & Htk & H0). apply in_map_iff in Htk as (c & <- & Hc).
      apply elem_of_list_In in Hc, H0. exists c. split; [done|]. unfold in_turn in Hturn. rewrite Forall_forall in Hturn.
      destruct (Hturn c Hc) as (a & n & Htk). rewrite Htk in *. apply elem_of_seq in H0. exists n. f_equal. lia. }
  destruct H2 as (Hs & c & Hc & n & Htk). rewrite Forall_forall in Hs.
  destruct (C118_dropout _ _ _ _ _ _ Hd Hr') as (_ & _ & Hf & _). rewrite Forall_forall in Hf.
  destruct (Hf c Hc) as [_ Hans]. assert (answer c ∈ answers y') as Hin by (by apply elem_of_list_fmap_1).
  rewrite Ha' in Hin. apply elem_of_replicate in Hin as [Hin _].
  specialize (Hans _ seed_source Hin). rewrite (Hs c Hc) in Hans.
  assert (Hsome : bpe_tokenize (seed_model (1 # 2)) s seed_source
    = Some (Ret (Ok [Token 0 [97] (Offsets 0 1); Token 1 [98] (Offsets 1 2); Token 2 [99] (Offsets 2 3); Token 3 [100] (Offsets 3 4)]))) by (vm_compute; reflexivity).
  rewrite Hsome in Hans. discriminate Hans. intros j p Hj. rewrite Htk in Hj. apply lookup_seq in Hj as [-> _]. done.
Qed.
Print Assumptions C118_seed_refuted.

(** Two goroutines work out the same text at the same time and both store it, a third finds it; with dropout, the third
    number goes to the first call and the fourth to the second. *)
Definition shared_entry_cache : cache_impl :=
  CacheImpl (option (list Z * word)) (λ c k, match c with Some (k', w) => if decide (k = k') then Some w else None | None => None end)
    (λ _ k w, Some (k, w)).
Example C118_example :
  let s := bytes_of "abcd" in
  let toks := Some (Ok [Token 4 (bytes_of "ab") (Offsets 0 2); Token 5 (bytes_of "cd") (Offsets 2 4)]) in
  (match run_schedule (ci:=shared_entry_cache) (seed_model 0) seed_source [0; 1; 0; 0; 1; 1; 0; 0; 2; 1; 1]%nat (beginning (ci:=shared_entry_cache) [s; s; s] None) with
   | Some y => answers y = [toks; toks; toks] ∧ sh_cache (sy_shared y) = Some (s, [WSym 4 2 (-1) 2; WSym 5 2 0 (-1)])
   | None => False end)
  ∧ (match run_schedule (ci:=stub_cache) (seed_model (1 # 2)) seed_source [0; 1; 0; 1; 0; 1; 0; 1; 0; 1]%nat (beginning (ci:=stub_cache) [s; s] tt) with
     | Some y => map cl_taken (sy_calls y) = [[0; 2; 4]; [1; 3; 5]]%nat ∧ answers y = [toks; toks]
     | None => False end).
Proof. vm_compute. auto. Qed.
