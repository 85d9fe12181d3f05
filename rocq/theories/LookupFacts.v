(** The number of vocabulary lookups of WordPiece. *)
From Coq Require Import ZifyBool.
From Verif Require Import GoBase Strutils Vocab Bpe WordPiece SpecInvalid SpecLookups SliceFacts Utf8Facts InvalidFacts JsonFacts.
From stdpp Require Import list_numbers.
Import GoBase.
#[local] Open Scope Z_scope.

Lemma after_forget {A} n (o : option (outcome (A * Z))) : forget (after n o) = forget o.
Proof. by destruct o as [[[a k]|]|]. Qed.

Lemma inner_forget m s fuel o e : forget (inner_lookups fuel m s o e) = wp_inner fuel m s o e.
Proof.
  revert e. induction fuel as [|fuel IH]; intros e; cbn [inner_lookups wp_inner]; destruct (o <? e); try done.
  destruct (sub s o e) as [x|]; [|done]. cbn zeta. rewrite after_forget. destruct (get_id _ _); [done|].
  destruct (0 <? _); [|apply IH]. destruct (idx _ _); [apply IH|done].
Qed.

Lemma outer_forget m s fuel o : forget (outer_lookups fuel m s o) = wp_outer fuel m s o.
Proof.
  revert o. induction fuel as [|fuel IH]; intros o; cbn [outer_lookups wp_outer]; destruct (o <? zlen s); try done.
  rewrite <- inner_forget. destruct (inner_lookups _ m s o _) as [[[[t|] k]|]|]; try done. cbn [forget].
  rewrite after_forget, <- IH. by destruct (outer_lookups fuel m s _) as [[[[l|] k']|]|].
Qed.

Lemma tokenize_forget m s : forget (tokenize_lookups m s) = wp_tokenize m s.
Proof.
  unfold tokenize_lookups, wp_tokenize. destruct (w_max m <? _); [done|]. rewrite <- outer_forget.
  by destruct (outer_lookups _ m s 0) as [[[[l|] k]|]|].
Qed.

Lemma byte_step_pos b : 1 <= byte_step b.
Proof. apply rune_len_bounds. Qed.

Lemma inner_count m s fuel o e t k : inner_lookups fuel m s o e = Some (Ret (t, k)) →
  0 <= k <= Z.max 0 (e - o) ∧ match t with Some u => 1 <= k ∧ o < o_end (t_offsets u) <= e | None => True end.
Proof.
  revert e t k. induction fuel as [|fuel IH]; intros e t k; cbn [inner_lookups]; destruct (Z.ltb_spec o e) as [Hlt|Hlt];
    try (intros [= <- <-]; split; [lia|done]); [done|].
  destruct (sub s o e) as [x|]; [|done]. cbn zeta. destruct (get_id _ _).
  { cbn [after]. intros [= <- <-]. cbn. lia. }
  intros H. assert (∃ e' k', e' < e ∧ inner_lookups fuel m s o e' = Some (Ret (t, k')) ∧ k = 1 + k') as (e' & k' & He & Hi & ->).
  { destruct (0 <? _).
    - destruct (idx _ _) as [b|]; [|done]. pose proof (byte_step_pos b). destruct (inner_lookups _ _ _ _ _) as [[[t' k']|]|] eqn:Hi; try done.
      injection H as <- <-. exists (e - byte_step b), k'. split; [lia|done].
    - destruct (inner_lookups _ _ _ _ _) as [[[t' k']|]|] eqn:Hi; try done.
      injection H as <- <-. exists (e - 1), k'. split; [lia|done]. }
  apply IH in Hi as [H1 H2]. split; [lia|]. destruct t; [lia|done].
Qed.

Lemma outer_count m s fuel o r k : outer_lookups fuel m s o = Some (Ret (r, k)) → o <= zlen s →
  0 <= k ∧ 2 * k <= (zlen s - o) * (zlen s - o + 1) ∧ match r with Some l => zlen l <= k | None => True end.
Proof.
  revert o r k. induction fuel as [|fuel IH]; intros o r k; cbn [outer_lookups]; destruct (Z.ltb_spec o (zlen s)) as [Hlt|Hlt];
    try (intros [= <- <-] Ho; split; [lia|]; split; [nia|]; by rewrite zlen_nil); [done|].
  destruct (inner_lookups _ m s o _) as [[[[t|] k1]|]|] eqn:Hi; try done; apply inner_count in Hi as [H1 H2].
  - intros H Ho. destruct (outer_lookups fuel m s _) as [[[[l|] k2]|]|] eqn:Hr; try done; cbn [after] in H; injection H as <- <-;
      apply IH in Hr as (G1 & G2 & G3); try lia; (split; [lia|]); (split; [nia|]); [|done]. rewrite zlen_cons. lia.
  - intros [= <- <-] Ho. split; [lia|]. split; [nia|done].
Qed.

Lemma bytes_per_rune s : zlen s <= 4 * zlen (runes s).
Proof.
  pose proof (encode_runes_zlen s). assert (0 <= bad_bytes s) by (apply zlen_nonneg).
  assert (∀ l, zlen (encode l) <= 4 * zlen l) as Hl.
  { induction l as [|c l IH]; [done|]. rewrite zlen_encode_cons, zlen_cons. pose proof (rune_len_bounds c). lia. }
  specialize (Hl (runes s)). lia.
Qed.

(** ** The worst case *)

(** A vocabulary with the terms "a" and "##a". *)
Definition just_a : vocab := Vocab false {[ [97] := 0; [35; 35; 97] := 1 ]} {[ 0 := [97]; 1 := [35; 35; 97] ]}.
Definition worst_model (n : Z) : wordpiece := WordPiece just_a [91; 85; 78; 75; 93] [35; 35] n.

Lemma just_a_first k : get_id just_a (replicate k 97) = if bool_decide (k = 1%nat) then Some 0 else None.
Proof.
  unfold get_id, just_a. cbn [v_ids]. destruct k as [|[|k]]; [by vm_compute|by vm_compute|].
  rewrite bool_decide_false by lia. rewrite lookup_insert_ne by done. by rewrite lookup_singleton_ne.
Qed.
Lemma just_a_next k : get_id just_a ([35; 35] ++ replicate k 97) = if bool_decide (k = 1%nat) then Some 1 else None.
Proof.
  unfold get_id, just_a. cbn [v_ids]. destruct k as [|[|k]]; [by vm_compute|by vm_compute|].
  rewrite bool_decide_false by lia. rewrite lookup_insert_ne by done. by rewrite lookup_singleton_ne.
Qed.

Lemma sub_replicate n i j : 0 <= i → i <= j → j <= Z.of_nat n → sub (replicate n 97) i j = Ret (replicate (Z.to_nat (j - i)) 97).
Proof.
  intros H1 H2 H3. unfold sub. assert (zlen (replicate n 97) = Z.of_nat n) as -> by (unfold zlen; by rewrite replicate_length).
  destruct (Z.leb_spec 0 i), (Z.leb_spec i j), (Z.leb_spec j (Z.of_nat n)); try lia. cbn [andb]. f_equal.
  rewrite drop_replicate, take_replicate. f_equal. lia.
Qed.

Lemma idx_last_a p k : idx (p ++ replicate (S k) 97) (zlen (p ++ replicate (S k) 97) - 1) = Ret 97.
Proof.
  apply idx_lookup. rewrite zlen_app. assert (zlen (replicate (S k) 97) = Z.of_nat (S k)) as -> by (unfold zlen; by rewrite replicate_length).
  pose proof (zlen_nonneg p). split; [lia|]. unfold zlen. rewrite lookup_app_r by lia. apply lookup_replicate. lia.
Qed.

Lemma worst_inner mx n fuel i e : 0 <= i → i < e → e <= Z.of_nat n → e - i <= Z.of_nat fuel →
  ∃ t, inner_lookups fuel (worst_model mx) (replicate n 97) i e = Some (Ret (Some t, e - i)) ∧ t_offsets t = Offsets i (i + 1).
Proof.
  revert e. induction fuel as [|fuel IH]; intros e H1 H2 H3 H4; [lia|]. cbn [inner_lookups].
  destruct (Z.ltb_spec i e); [|lia]. rewrite sub_replicate by lia. cbn zeta. unfold worst_model at 1 2 3 4 5 6. cbn [w_prefix w_vocab].
  set (p := if 0 <? i then [35; 35] else []).
  assert ((if 0 <? i then [35; 35] ++ replicate (Z.to_nat (e - i)) 97 else replicate (Z.to_nat (e - i)) 97) = p ++ replicate (Z.to_nat (e - i)) 97) as ->
    by (unfold p; by destruct (0 <? i)).
  assert (∃ j, get_id just_a (p ++ replicate (Z.to_nat (e - i)) 97) = if bool_decide (Z.to_nat (e - i) = 1%nat) then Some j else None) as [j ->].
  { unfold p. destruct (0 <? i); eexists; [apply just_a_next|apply just_a_first]. }
  case_bool_decide as He.
  - eexists. cbn [after]. split; [repeat f_equal; lia|]. cbn. f_equal. lia.
  - destruct (IH (e - 1)) as (t & Ht & Ho); [lia..|].
    replace (Z.to_nat (e - i)) with (S (Z.to_nat (e - i) - 1)) by lia. rewrite idx_last_a.
    assert (0 <? zlen (p ++ replicate (S (Z.to_nat (e - i) - 1)) 97) = true) as ->.
    { apply Z.ltb_lt. unfold zlen. rewrite app_length, replicate_length. lia. }
    assert (byte_step 97 = 1) as -> by done. rewrite Ht. cbn [after]. exists t. split; [repeat f_equal; lia|done].
Qed.

Lemma worst_outer mx n fuel i : 0 <= i → i <= Z.of_nat n → Z.of_nat n - i <= Z.of_nat fuel →
  ∃ l k, outer_lookups fuel (worst_model mx) (replicate n 97) i = Some (Ret (Some l, k))
    ∧ 2 * k = (Z.of_nat n - i) * (Z.of_nat n - i + 1) ∧ zlen l = Z.of_nat n - i.
Proof.
  revert i. assert (zlen (replicate n 97) = Z.of_nat n) as Hz by (unfold zlen; by rewrite replicate_length).
  induction fuel as [|fuel IH]; intros i H1 H2 H3; cbn [outer_lookups]; rewrite Hz; destruct (Z.ltb_spec i (Z.of_nat n)); try lia;
    try (exists [], 0; split; [done|]; split; [nia|rewrite zlen_nil; lia]).
  destruct (worst_inner mx n (S (length (replicate n 97))) i (Z.of_nat n)) as (t & -> & Ho); [lia..|rewrite replicate_length; lia|].
  rewrite Ho. cbn [o_end]. destruct (IH (i + 1)) as (l & k & -> & Hk & Hl); [lia..|]. cbn [after].
  eexists _, _. split; [done|]. split; [nia|]. rewrite zlen_cons. lia.
Qed.

Lemma worst_tokenize n : ∃ l k, tokenize_lookups (worst_model (Z.of_nat n)) (replicate n 97) = Some (Ret (Ok l, k))
  ∧ 2 * k = Z.of_nat n * (Z.of_nat n + 1) ∧ zlen l = Z.of_nat n.
Proof.
  assert (zlen (runes (replicate n 97)) = Z.of_nat n) as Hr.
  { induction n as [|n IH]; [done|]. cbn [replicate]. rewrite runes_ascii by lia. rewrite zlen_cons, IH. lia. }
  unfold tokenize_lookups. rewrite Hr. cbn [worst_model w_max]. rewrite Z.ltb_irrefl.
  destruct (worst_outer (Z.of_nat n) n (S (length (replicate n 97))) 0) as (l & k & Ho & Hk & Hl); [lia|lia|rewrite replicate_length; lia|].
  unfold worst_model in Ho |- *. rewrite Ho. exists l, k. split; [done|]. split; [nia|lia].
Qed.
