(** Property theorems C103: the answers that dropout can give. *)
From Coq Require Import ZifyBool QArith String.
From stdpp Require Import relations.
From Verif Require Import GoBase Strutils Vocab MergeMap Heap Bpe Lit SpecText SpecVocab SpecBpe SpecDrop SpecRead SpecTrain VocabFacts BpeFacts BpeTok ReadFacts TrainFacts
  DropFacts DropDet ReachFacts PropsBpe PropsDrop PropsTrain.
Import GoBase.
#[local] Open Scope Z_scope.

(** * C103 *)
(** With a dropout strictly between 0 and 1, MergeAll gives, for suitable random numbers, exactly the words that can be made
    by merging pairs in any order, stopping anywhere. *)
Theorem C103_merge_all :
  ∀ ss mm size dropout, Forall (λ s, 0 < s.2 ∧ 0 < size s.1) ss → additive mm size → ranks_differ mm → (0 < dropout)%Q → (dropout < 1)%Q →
  ∀ t, (∃ draws w, (∀ k, 0 <= draws k < 1)%Q ∧ merge_all (word_of ss) mm dropout draws = Some (Ret w) ∧ word_syms w = t) ↔ rtc (merge_step mm) ss t.
Proof.
  intros ss mm size dropout Hss Ha Hr H0 H1 t. split.
  - intros (draws & w & _ & E & <-). destruct (merge_all_steps mm (dropped_at dropout draws) ss) as (w' & E' & H).
    { eapply Forall_impl; [exact Hss|]. cbn. tauto. }
    unfold merge_all in E. rewrite E in E'. by injection E' as <-.
  - intros H. destruct (reach_run mm ss t [] H) as (ds & s & Hrun & <- & Hl). destruct (draws_exist dropout ds H0 H1) as (draws & Hd & Hdec).
    destruct (C97_dropout ss mm size dropout draws Hss Ha) as (w & n & ds' & s' & E & Hdec' & Hrun' & Hl' & Hs').
    exists draws, w. split_and!; [done|done|]. rewrite <- Hs'.
    by destruct (C97_determined ss mm size dropout draws n (length ds) ds' ds s' s Hss Ha Hr Hdec' Hrun' Hl' Hdec Hrun Hl) as [_ ->].
Qed.
Print Assumptions C103_merge_all.

(** In Tokenize: exactly the ways to join the characters by pairs of the merges file. *)
Theorem C103_tokenize :
  ∀ m file ls pairs s, consistent (b_vocab m) → merge_map_from_file file (b_vocab m) 0 = Ret (Ok (b_merges m)) →
  file_lines file ls → listed ls pairs → b_prefix m = [] → b_suffix m = [] → (0 < b_dropout m)%Q → (b_dropout m < 1)%Q →
  (b_unk m ≠ [] → is_Some (get_id (b_vocab m) (b_unk m))) →
  ∀ ts, (∃ draws toks, (∀ k, 0 <= draws k < 1)%Q ∧ bpe_tokenize m s draws = Some (Ret (Ok toks)) ∧ map t_value toks = ts)
    ↔ rtc (join_step pairs) (legible m false (runes s)) ts.
Proof.
  intros m file ls pairs s Hc Hf Hl Hp Hpre Hsuf H0 H1 Hu ts. destruct (decide (s = [])) as [->|Hs].
  { cbn. split.
    - intros (_ & toks & _ & [= <-] & <-). done.
    - intros H. inversion H as [|? ? ? Hst]; subst; [by exists (λ _, 0%Q), []|]. inversion Hst as [l ? ? ? ? E]. by destruct l. }
  assert (Hu' : has_unk m = true → is_Some (get_id (b_vocab m) (b_unk m))). { intros E. apply Hu. intros E'. unfold has_unk in E. by rewrite E' in E. }
  destruct (tokenize_split m s (λ _, 0%Q) Hs Hu') as (ss & G & Hpos & _). pose proof (group_sized m s ss Hc G Hpos) as Hsz.
  pose proof (loaded_additive _ _ Hc (loaded_concat _ _ _ Hf)) as Ha. pose proof (loaded_ranks _ _ _ _ Hf) as Hr.
  pose proof (symbols_legible m (runes s) ss Hpre Hsuf (λ _, Hu) G) as Hn.
  destruct (names_steps _ _ _ _ _ _ _ Hc Hf Hl Hp Hn) as [Hfwd Hbwd].
  assert (Hsplit : ∀ draws w, merge_all (word_of ss) (b_merges m) (b_dropout m) draws = Some (Ret w) → ∃ res, bpe_tokenize m s draws = Some (Ret res) ∧ answer m (word_syms w) res).
  { intros draws w E. destruct (tokenize_split m s draws Hs Hu') as (ss' & G' & _ & H). pose proof (group_unique _ _ _ _ _ G' G) as ->. apply H. by exists w. }
  split.
  - intros (draws & toks & Hd & E & <-). destruct (merge_all_steps (b_merges m) (dropped_at (b_dropout m) draws) ss Hpos) as (w & E' & H).
    destruct (Hsplit draws w E') as (res & E2 & A). rewrite E in E2. injection E2 as <-. cbn in A. destruct (Hfwd _ H) as (ts' & H3 & H4).
    by rewrite (names_values _ _ _ _ _ Hc H4 A).
  - intros H. destruct (Hbwd _ H) as (t & H3 & H4). apply (C103_merge_all ss _ _ _ Hsz Ha Hr H0 H1) in H3 as (draws & w & Hd & E & <-).
    destruct (Hsplit draws w E) as (res & E2 & A). destruct (names_answer _ _ _ _ Hc H4 A) as (toks & -> & A').
    exists draws, toks. split_and!; [done|done|]. by eapply names_values.
Qed.
Print Assumptions C103_tokenize.

(** In particular the answer without dropout stays possible. *)
Theorem C103_without_dropout :
  ∀ v mm file dropout unk prefix suffix fuse s draws, let m d := Bpe v mm d unk prefix suffix fuse in
  consistent v → merge_map_from_file file v 0 = Ret (Ok mm) → (0 < dropout)%Q → (dropout < 1)%Q → (unk ≠ [] → is_Some (get_id v unk)) →
  ∃ draws', (∀ k, 0 <= draws' k < 1)%Q ∧ bpe_tokenize (m dropout) s draws' = bpe_tokenize (m 0%Q) s draws.
Proof.
  intros v mm file dropout unk prefix suffix fuse s draws m Hc Hf H0 H1 Hu. destruct (decide (s = [])) as [->|Hs]; [by exists (λ _, 0%Q)|].
  destruct (C34_tokenize (m 0%Q) file s draws Hc Hf (Qle_refl 0) Hs Hu) as (ss & t & res & G & Hst & _ & E & A).
  assert (Hu' : has_unk (m dropout) = true → is_Some (get_id v unk)). { intros E'. apply Hu. intros E2. unfold has_unk in E'. cbn in E'. by rewrite E2 in E'. }
  destruct (tokenize_split (m dropout) s (λ _, 0%Q) Hs Hu') as (ss' & G' & Hpos & _). assert (ss' = ss) as -> by (eapply group_unique; [exact G'|exact G]).
  pose proof (group_sized (m dropout) s ss Hc G' Hpos) as Hsz.
  pose proof (loaded_additive _ _ Hc (loaded_concat _ _ _ Hf)) as Ha. pose proof (loaded_ranks _ _ _ _ Hf) as Hr.
  destruct (proj2 (C103_merge_all ss mm _ dropout Hsz Ha Hr H0 H1 t)) as (draws' & w & Hd & Ew & <-).
  { clear -Hst. induction Hst as [|x y z Hxy _ IH]; [done|]. eapply rtc_l; [by apply bpe_step_merge|done]. }
  exists draws'. split; [done|]. rewrite E. destruct (tokenize_split (m dropout) s draws' Hs Hu') as (ss' & G2 & _ & H).
  assert (ss' = ss) as -> by (eapply group_unique; [exact G2|exact G]). destruct (H (word_syms w)) as (res' & E' & A'); [by exists w|].
  rewrite E'. do 2 f_equal. destruct res as [toks|e], res' as [toks'|e']; cbn in A, A'.
  - f_equal. by eapply toks_of_fun.
  - exfalso. destruct A' as (a & c & b & Ex & _ & Hx & _). destruct (toks_of_some _ _ _ _ c A) as [x Hx']; [rewrite Ex; set_solver|]. cbn in Hx. congruence.
  - exfalso. destruct A as (a & c & b & Ex & _ & Hx & _). destruct (toks_of_some _ _ _ _ c A') as [x Hx']; [rewrite Ex; set_solver|]. cbn in Hx. congruence.
  - f_equal. destruct A as (a & c & b & Ex & Fa & Na & ->), A' as (a' & c' & b' & Ex' & Fa' & Na' & ->). do 2 f_equal. cbn in *. rewrite Ex in Ex'.
    assert (length a = length a') as El.
    { destruct (lt_eq_lt_dec (length a) (length a')) as [[Hlt|]|Hlt]; [|done|]; exfalso.
      - assert (a' !! length a = Some c) as Hk. { rewrite <- (lookup_app_l _ (c' :: b') _ Hlt), <- Ex'. by rewrite lookup_app_r, Nat.sub_diag by lia. }
        eapply Forall_lookup in Fa' as [x Hx]; [|exact Hk]. congruence.
      - assert (a !! length a' = Some c') as Hk. { rewrite <- (lookup_app_l _ (c :: b) _ Hlt), Ex'. by rewrite lookup_app_r, Nat.sub_diag by lia. }
        eapply Forall_lookup in Fa as [x Hx]; [|exact Hk]. congruence. }
    apply app_inj_1 in Ex' as [_ [= -> _]]; done.
Qed.
Print Assumptions C103_without_dropout.

(** "a b", "b a" and "ab a" on "aba" with dropout 1/2: the four answers and draws for each. *)
Example C103_example :
  let v := ex_vocab (map bytes_of ["a"; "b"; "ab"; "ba"; "aba"]%string) in
  let file := bytes_of "a b" ++ [10] ++ bytes_of "b a" ++ [10] ++ bytes_of "ab a" in
  let pairs := map (λ p, (bytes_of p.1, bytes_of p.2)) [("a", "b"); ("b", "a"); ("ab", "a")]%string in
  match merge_map_from_file file v 0 with
  | Ret (Ok mm) =>
    let run ds := match bpe_tokenize (Bpe v mm (1 # 2) [] [] [] false) (bytes_of "aba") (λ k, nth k ds 0%Q) with Some (Ret (Ok l)) => map t_value l | _ => [] end in
    run [] = map bytes_of ["a"; "b"; "a"]%string ∧ run [3 # 4]%Q = map bytes_of ["ab"; "a"]%string
    ∧ run [1 # 4; 3 # 4]%Q = map bytes_of ["a"; "ba"]%string ∧ run [3 # 4; 1 # 4; 3 # 4]%Q = [bytes_of "aba"]
  | _ => False
  end
  ∧ rtc (join_step pairs) (map bytes_of ["a"; "b"; "a"]%string) [bytes_of "aba"].
Proof.
  split; [by vm_compute|]. eapply rtc_l; [|eapply rtc_l; [|done]].
  - apply (join_step_intro _ [] (bytes_of "a") (bytes_of "b") [bytes_of "a"]). by left.
  - apply (join_step_intro _ [] (bytes_of "ab") (bytes_of "a") []). right. right. by left.
Qed.
