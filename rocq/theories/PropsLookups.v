(** C93: how often WordPiece looks into its vocabulary. *)
From Coq Require Import ZifyBool String.
From Verif Require Import GoBase Strutils Vocab Bpe WordPiece SpecNorm SpecLookups Lit SliceFacts Utf8Facts WordPieceFacts LookupFacts LookupExact.
Import GoBase.
#[local] Open Scope Z_scope.

(** Counting the lookups does not change the answer. *)
Theorem C93_same m s : forget (tokenize_lookups m s) = wp_tokenize m s.
Proof. apply tokenize_forget. Qed.
Print Assumptions C93_same.

(** A text of [n] bytes takes at most n(n+1)/2 lookups, and one more for the unknown token. *)
Theorem C93_bound m s : bytes s → ∃ r k, tokenize_lookups m s = Some (Ret (r, k))
  ∧ 0 <= k ∧ 2 * (k - 1) <= zlen s * (zlen s + 1).
Proof.
  intros Hs. assert (∃ r, wp_tokenize m s = Some (Ret r)) as [r Hr].
  { destruct (wp_tokenize_spec m s Hs) as [(l & _ & -> & _)|(_ & ->)]; eauto. }
  rewrite <- C93_same in Hr. destruct (tokenize_lookups m s) as [[[r' k]|]|] eqn:Ht; try done. injection Hr as ->.
  exists r, k. split; [done|]. unfold tokenize_lookups in Ht. pose proof (zlen_nonneg s).
  destruct (w_max m <? _); [injection Ht as _ <-; nia|].
  destruct (outer_lookups _ m s 0) as [[[[l|] k']|]|] eqn:Ho; try done; apply outer_count in Ho as (H1 & H2 & _); try lia;
    injection Ht as _ <-; nia.
Qed.
Print Assumptions C93_bound.

(** However long the text: the limit on characters limits the lookups. *)
Theorem C93_limit m s r k : 0 <= w_max m → tokenize_lookups m s = Some (Ret (r, k)) →
  2 * (k - 1) <= (4 * w_max m) * (4 * w_max m + 1).
Proof.
  intros Hm Ht. unfold tokenize_lookups in Ht. destruct (Z.ltb_spec (w_max m) (zlen (runes s))) as [Hc|Hc]; [injection Ht as _ <-; nia|].
  pose proof (bytes_per_rune s). pose proof (zlen_nonneg s).
  destruct (outer_lookups _ m s 0) as [[[[l|] k']|]|] eqn:Ho; try done; apply outer_count in Ho as (H1 & H2 & _); try lia;
    injection Ht as _ <-; nia.
Qed.
Print Assumptions C93_limit.

(** No text takes fewer lookups than it has tokens. *)
Theorem C93_tokens m s l k : tokenize_lookups m s = Some (Ret (Ok l, k)) → zlen l <= k.
Proof.
  unfold tokenize_lookups, wp_unknown. destruct (w_max m <? _).
  { destruct (get_id _ _); [|done]. by intros [= <- <-]. }
  destruct (outer_lookups _ m s 0) as [[[[l'|] k']|]|] eqn:Ho; try done; apply outer_count in Ho as (H1 & H2 & H3); try apply zlen_nonneg.
  - by intros [= <- <-].
  - destruct (get_id _ _); [|done]. intros [= <- <-]. unfold zlen. cbn. lia.
Qed.
Print Assumptions C93_tokens.

(** The bound is attained, for every length: "aa...a" with the terms "a" and "##a". *)
Theorem C93_worst n : ∃ m s l k, zlen s = Z.of_nat n ∧ tokenize_lookups m s = Some (Ret (Ok l, k))
  ∧ 2 * k = zlen s * (zlen s + 1).
Proof.
  destruct (worst_tokenize n) as (l & k & H1 & H2 & _). exists (worst_model (Z.of_nat n)), (replicate n 97), l, k.
  assert (zlen (replicate n 97) = Z.of_nat n) as -> by (unfold zlen; by rewrite replicate_length). done.
Qed.
Print Assumptions C93_worst.

(** An ASCII text whose tokens are not the unknown token: exactly how many; n(n+1)/2 if and only if all tokens are of one byte. *)
Theorem C93_exact :
  ∀ m s ts k, Forall (λ b, 0 <= b < 128) s → tokenize_lookups m s = Some (Ret (Ok ts, k)) → (∀ t, t ∈ ts → t_value t ≠ w_unk m) →
  k = asked_for (zlen s) ts
  ∧ (2 * k = zlen s * (zlen s + 1) ↔ ∀ t, t ∈ ts → o_end (t_offsets t) = o_start (t_offsets t) + 1).
Proof.
  intros m s ts k Hs Ha Hu. unfold tokenize_lookups in Ha.
  assert (Hno : ∀ k' k'', (wp_unknown m s, k') ≠ (Ok ts, k'' : Z)).
  { unfold wp_unknown. intros k' k'' H. destruct (get_id (w_vocab m) (w_unk m)); [|done]. injection H as <- _.
    eapply Hu; [by left|done]. }
  destruct (w_max m <? zlen (runes s)); [injection Ha as H1 H2; by destruct (Hno 1 1); rewrite H1|].
  destruct (outer_lookups (S (length s)) m s 0) as [[[[ts'|] l]|]|] eqn:Ho; try done;
    [|injection Ha as H1 H2; by destruct (Hno 1 1); rewrite H1].
  injection Ha as <- <-. apply outer_exact in Ho as [H1 H2]; [|apply zlen_nonneg]. specialize (H2 Hs). split; [done|].
  rewrite H2. destruct (asked_for_most _ _ _ H1) as [_ H3]. rewrite Z.sub_0_r in H3. rewrite H3. by rewrite Forall_forall.
Qed.
Print Assumptions C93_exact.

(** "aaaa" takes 4 + 3 + 2 + 1 lookups; "aab" takes 3 + 2 + 1, the last for "##b", which is no term, and
    then one for the unknown token, which is missing; "é" is looked up once, as both its bytes are dropped
    together; and a text that is too long is given up at once. *)
Example C93_example :
  let m := worst_model 4 in
  match tokenize_lookups m (bytes_of "aaaa") with
  | Some (Ret (Ok l, k)) => (map t_id l, k) = ([0; 1; 1; 1], 10) | _ => False end
  ∧ tokenize_lookups m (bytes_of "aab") = Some (Ret (Err EUnknownTokenOutOfVocabulary, 7))
  ∧ tokenize_lookups m [195; 169] = Some (Ret (Err EUnknownTokenOutOfVocabulary, 2))
  ∧ tokenize_lookups m (bytes_of "aaaaa") = Some (Ret (Err EUnknownTokenOutOfVocabulary, 1))
  ∧ tokenize_lookups m [] = Some (Ret (Ok [], 0)).
Proof. vm_compute. auto. Qed.

(** "abc" as one token, as three, and as "a" and "##bc". *)
Example C93_example_exact :
  let m ts := WordPiece (Vocab false (list_to_map (zip ts [0; 1; 2])) ∅) (bytes_of "[UNK]") (bytes_of "##") 100 in
  let asked ts := match tokenize_lookups (m (map bytes_of ts)) (bytes_of "abc") with
                  | Some (Ret (Ok l, k)) => (map (λ t, o_end (t_offsets t)) l, k, asked_for 3 l)
                  | _ => ([], 0, 0)
                  end in
  asked ["abc"]%string = ([3], 1, 1)
  ∧ asked ["a"; "##b"; "##c"]%string = ([1; 2; 3], 6, 6)
  ∧ asked ["a"; "##bc"]%string = ([1; 3], 4, 4).
Proof. vm_compute. auto. Qed.
