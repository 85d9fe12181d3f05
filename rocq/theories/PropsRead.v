(** Property theorems C88, continued: exactly what token IDs tell about a text. *)
From Coq Require Import ZifyBool QArith String.
From stdpp Require Import relations list_numbers.
From Verif Require Import GoBase Utf8Facts Strutils Vocab MergeMap Bpe WordPiece SpecText SpecVocab SpecBpe SpecWordPiece SpecDecode SpecRead
  DecodeFacts ReadFacts PropsWordPiece PropsBpe PropsDecode Lit.
Import GoBase.
#[local] Open Scope Z_scope.

(** The IDs of two texts, encoded with any merges, dropouts and random numbers, are the same only if the same is
    legible in them. Any bytes. *)
Theorem C88_bpe_legible :
  ∀ m m' file file' s s' draws draws' toks toks', same_setup m m' → consistent (b_vocab m) →
  merge_map_from_file file (b_vocab m) 0 = Ret (Ok (b_merges m)) → merge_map_from_file file' (b_vocab m') 0 = Ret (Ok (b_merges m')) →
  b_prefix m = [] → b_suffix m = [] → b_prefix m' = [] → b_suffix m' = [] → unk_apart m → unk_apart m' →
  bpe_tokenize m s draws = Some (Ret (Ok toks)) → bpe_tokenize m' s' draws' = Some (Ret (Ok toks')) → map t_id toks = map t_id toks' →
  legible m false (runes s) = legible m false (runes s').
Proof. exact legible_of_ids. Qed.
Print Assumptions C88_bpe_legible.
(** Without dropout: if and only if. *)
Theorem C88_bpe_iff :
  ∀ m file s s' draws draws' toks toks', consistent (b_vocab m) → merge_map_from_file file (b_vocab m) 0 = Ret (Ok (b_merges m)) →
  b_prefix m = [] → b_suffix m = [] → (b_dropout m <= 0)%Q → unk_apart m →
  bpe_tokenize m s draws = Some (Ret (Ok toks)) → bpe_tokenize m s' draws' = Some (Ret (Ok toks')) →
  (map t_id toks = map t_id toks' ↔ legible m false (runes s) = legible m false (runes s')).
Proof.
  intros m file s s' draws draws' toks toks' Hc Hf Hp Hx Hd Ha H H'. split.
  - by apply (C88_bpe_legible m m file file s s' draws draws').
  - by apply (ids_of_legible m file s s' draws draws').
Qed.
Print Assumptions C88_bpe_iff.
(** In particular without unknown token: if and only if the known characters are the same, in the same order. *)
Theorem C88_bpe_without_unknown_iff :
  ∀ m file s s' draws draws' toks toks', consistent (b_vocab m) → merge_map_from_file file (b_vocab m) 0 = Ret (Ok (b_merges m)) →
  b_prefix m = [] → b_suffix m = [] → (b_dropout m <= 0)%Q → b_unk m = [] →
  bpe_tokenize m s draws = Some (Ret (Ok toks)) → bpe_tokenize m s' draws' = Some (Ret (Ok toks')) →
  (map t_id toks = map t_id toks' ↔ base.filter (λ r, is_Some (get_id (b_vocab m) (encode_rune r))) (runes s) = base.filter (λ r, is_Some (get_id (b_vocab m) (encode_rune r))) (runes s')).
Proof.
  intros m file s s' draws draws' toks toks' Hc Hf Hp Hx Hd Hu H H'. rewrite (C88_bpe_iff m file s s' draws draws' toks toks'); try done.
  2:{ right. intros u a b mv. unfold unk_id. by rewrite Hu. }
  assert (Hl : ∀ b rs, legible m b rs = map encode_rune (base.filter (λ r, is_Some (get_id (b_vocab m) (encode_rune r))) rs)).
  { intros b rs. revert b. induction rs as [|r rs IH]; intros b; [done|]. cbn [legible]. rewrite filter_cons. destruct (get_id (b_vocab m) (encode_rune r)) as [i|] eqn:E.
    - rewrite decide_True by eauto. cbn [map]. by rewrite IH.
    - rewrite decide_True by auto. rewrite decide_False by (by intros [? ?]). apply IH. }
  rewrite !Hl. split; [|congruence]. intros E. apply (f_equal (@List.concat Z)) in E. rewrite <- !flat_map_concat_map in E.
  apply encode_inj_scalars; [..|exact E]; apply Forall_forall; intros r [_ Hr]%elem_of_list_filter; [pose proof (runes_scalars s) as G|pose proof (runes_scalars s') as G]; unfold scalars in G; rewrite Forall_forall in G; by apply G.
Qed.
Print Assumptions C88_bpe_without_unknown_iff.
(** The condition on the unknown token is there for something: merges can make it. *)
Theorem C88_bpe_apart_refuted :
  ¬ ∀ m file s s' draws toks toks', consistent (b_vocab m) → merge_map_from_file file (b_vocab m) 0 = Ret (Ok (b_merges m)) →
    bpe_tokenize m s draws = Some (Ret (Ok toks)) → bpe_tokenize m s' draws = Some (Ret (Ok toks')) →
    map t_id toks = map t_id toks' → legible m false (runes s) = legible m false (runes s').
Proof.
  intros H. set (v := PropsBpe.ex_vocab [[97]; [98]; [97; 98]]).
  specialize (H (Bpe v {[ (0, 1) := MergeValue 0 2 ]} 0 [97; 98] [] [] false) [97; 32; 98] [97; 98] [99] (λ _, 0%Q) [Token 2 [97; 98] (Offsets 0 2)] [Token 2 [97; 98] (Offsets 0 1)]).
  assert ([[97]; [98]] = [[97; 98]]) as E; [|done]. apply H; try done. apply grown_consistent.
Qed.
Print Assumptions C88_bpe_apart_refuted.

(** WordPiece: the same IDs come from the same bytes, or from any two words that get the unknown token. *)
Theorem C88_wordpiece_iff :
  ∀ m s s' toks toks', distinct_ids (w_vocab m) → Forall (λ c, 0 <= c <= 255) s → Forall (λ c, 0 <= c <= 255) s' →
  wp_tokenize m s = Some (Ret (Ok toks)) → wp_tokenize m s' = Some (Ret (Ok toks')) →
  (map t_id toks = map t_id toks' ↔ s = s' ∨ ∃ u, get_id (w_vocab m) (w_unk m) = Some u ∧ map t_id toks = [u] ∧ map t_id toks' = [u]).
Proof.
  intros m s s' toks toks' Hd Hs Hs' H H'. split.
  - intros E. destruct (get_id (w_vocab m) (w_unk m)) as [u|] eqn:Eu.
    + destruct (decide (map t_id toks = [u])) as [E1|Hn]; [right; exists u; by rewrite <- E|left]. eapply (C88_wordpiece_partial m s s'); try done. intros u'. rewrite Eu. by intros [= <-].
    + left. eapply (C88_wordpiece_partial m s s'); try done. by rewrite Eu.
  - intros [->|(u & _ & -> & ->)]; [|done]. rewrite H in H'. by injection H' as ->.
Qed.
Print Assumptions C88_wordpiece_iff.

(** With a, b, ab and <?> known: "axéb" is legible as a, <?>, b, if runs are fused, hence has the IDs of "aéb" but not of "ab", whose
    merge the unknown token prevents. Without unknown token it has the IDs of "ab". *)
Example C88_legible_example :
  let v := PropsBpe.ex_vocab [[97]; [98]; [97; 98]; [60; 63; 62]] in
  let ids m s := match bpe_tokenize m s (λ _, 0%Q) with Some (Ret (Ok toks)) => Some (map t_id toks) | _ => None end in
  match merge_map_from_file [97; 32; 98] v 0 with
  | Ret (Ok mm) =>
    let m := Bpe v mm 0 [60; 63; 62] [] [] true in
    let m0 := Bpe v mm 0 [] [] [] true in
    legible m false [97; 120; 0xE9; 98] = [[97]; [60; 63; 62]; [98]] ∧ ids m (encode [97; 120; 0xE9; 98]) = Some [0; 3; 1] ∧ ids m (encode [97; 0xE9; 98]) = Some [0; 3; 1]
    ∧ ids m [97; 98] = Some [2] ∧ legible m0 false [97; 120; 0xE9; 98] = [[97]; [98]] ∧ ids m0 (encode [97; 120; 0xE9; 98]) = Some [2]
    ∧ legible (Bpe v mm 0 [60; 63; 62] [] [] false) false [97; 120; 0xE9; 98] = [[97]; [60; 63; 62]; [60; 63; 62]; [98]]
  | _ => False
  end.
Proof. vm_compute. auto 10. Qed.
