(** The exact number of lookups of WordPiece on ASCII words. *)
From Coq Require Import ZifyBool ZifyNat.
From Verif Require Import GoBase Utf8Facts Strutils Vocab Bpe WordPiece SpecText SpecLookups SliceFacts WordPieceFacts LookupFacts.
Import GoBase.
#[local] Open Scope Z_scope.

Lemma byte_step_ascii b : 0 <= b < 128 → byte_step b = 1.
Proof. intros H. unfold byte_step. rewrite rune_len_byte by lia. destruct (128 <=? b) eqn:E; lia. Qed.

(** The last end that is asked. *)
Definition last_asked (o : Z) (r : option token) : Z := match r with Some t => o_end (t_offsets t) | None => o + 1 end.

Lemma inner_exact m s o fuel : ∀ e r k, o < e → inner_lookups fuel m s o e = Some (Ret (r, k)) →
  o < last_asked o r <= e ∧ (∀ t, r = Some t → o_start (t_offsets t) = o)
  ∧ (Forall (λ b, 0 <= b < 128) s → k = e - last_asked o r + 1).
Proof.
  induction fuel as [|fuel IH]; intros e r k Hlt; cbn [inner_lookups]; destruct (o <? e) eqn:E; try lia; [done|].
  destruct (sub s o e) as [x|] eqn:Hx; [|done].
  set (sb := if 0 <? o then w_prefix m ++ x else x). destruct (get_id (w_vocab m) sb) as [i|] eqn:Hi.
  { cbn [after]. intros [= <- <-]. cbn [last_asked t_offsets o_end o_start]. split; [lia|]. split; [by intros t [= <-]|lia]. }
  assert (Hgo : ∀ d, 1 <= d → (Forall (λ b, 0 <= b < 128) s → d = 1) →
     after 1 (inner_lookups fuel m s o (e - d)) = Some (Ret (r, k)) →
     o < last_asked o r <= e ∧ (∀ t, r = Some t → o_start (t_offsets t) = o)
     ∧ (Forall (λ b, 0 <= b < 128) s → k = e - last_asked o r + 1)).
  { intros d Hd Ha. destruct (inner_lookups fuel m s o (e - d)) as [[[r1 k1]|]|] eqn:Hr; try done. intros [= -> <-].
    destruct (decide (o < e - d)) as [Hod|Hod].
    - destruct (IH _ _ _ Hod Hr) as (H4 & H5 & H6). split; [lia|]. split; [done|]. intros Hs. specialize (H6 Hs). specialize (Ha Hs). lia.
    - assert (r = None ∧ k1 = 0) as [-> ->].
      { destruct fuel; cbn [inner_lookups] in Hr; destruct (o <? e - d) eqn:E'; try lia; by injection Hr as <- <-. }
      cbn [last_asked]. split; [lia|]. split; [done|]. intros Hs. specialize (Ha Hs). lia. }
  destruct (0 <? zlen sb) eqn:Hsb; [|apply Hgo; lia].
  destruct (idx sb (zlen sb - 1)) as [b|] eqn:Hb; [|done]. apply Hgo; [apply byte_step_pos|].
  intros Hs. apply byte_step_ascii.
  apply text_at_sub in Hx. destruct (last_byte _ _ _ _ Hx Hlt) as (b' & Hb' & Hi' & Hpos).
  assert (b = b') as ->.
  { unfold sb in Hb. destruct (0 <? o); [|congruence].
    apply idx_lookup in Hb as [_ Hb]. apply idx_lookup in Hi' as [_ Hi'].
    rewrite zlen_app in Hb. rewrite lookup_app_r in Hb by (unfold zlen in *; lia).
    replace (Z.to_nat (zlen (w_prefix m) + zlen x - 1) - length (w_prefix m))%nat with (Z.to_nat (zlen x - 1)) in Hb by (unfold zlen in *; lia).
    congruence. }
  rewrite Forall_lookup in Hs. by eapply Hs.
Qed.

(** Tokens one after the other, from [o] to [e]. *)
Fixpoint in_row (o e : Z) (ts : list token) : Prop :=
  match ts with
  | [] => o = e
  | t :: ts => o_start (t_offsets t) = o ∧ o < o_end (t_offsets t) <= e ∧ in_row (o_end (t_offsets t)) e ts
  end.

Lemma asked_for_most e ts : ∀ o, in_row o e ts →
  2 * asked_for e ts <= (e - o) * (e - o + 1) ∧ (2 * asked_for e ts = (e - o) * (e - o + 1) ↔ Forall (λ t, o_end (t_offsets t) = o_start (t_offsets t) + 1) ts).
Proof.
  induction ts as [|t ts IH]; intros o; cbn [in_row asked_for foldr]; [intros ->; split; [lia|]; split; [constructor|lia]|].
  intros (H1 & H2 & H3). destruct (IH _ H3) as [I1 I2]. unfold asked_for in I1, I2.
  set (x := foldr _ _ _) in *. rewrite Forall_cons, <- I2. split; [nia|]. split; [|intros [H4 H5]; rewrite H4, H1 in *; nia].
  intros H. assert (o_end (t_offsets t) = o + 1) as H4 by nia. split; [lia|]. rewrite H4 in *. nia.
Qed.

Lemma outer_exact m s fuel : ∀ o ts k, outer_lookups fuel m s o = Some (Ret (Some ts, k)) → o <= zlen s →
  in_row o (zlen s) ts ∧ (Forall (λ b, 0 <= b < 128) s → k = asked_for (zlen s) ts).
Proof.
  induction fuel as [|fuel IH]; intros o ts k; cbn [outer_lookups]; destruct (o <? zlen s) eqn:E; try done.
  1, 3: intros [= <- <-] Ho; cbn [in_row]; split; [lia|done].
  destruct (inner_lookups (S (length s)) m s o (zlen s)) as [[[[t|] k1]|]|] eqn:Hi; try done.
  apply inner_exact in Hi as (H4 & H5 & H6); [|lia]. cbn [last_asked] in *.
  destruct (outer_lookups fuel m s (o_end (t_offsets t))) as [[[[ts2|] k2]|]|] eqn:Ho2; try done.
  intros [= <- <-] Ho. destruct (IH _ _ _ Ho2 ltac:(lia)) as [I5 I6]. split.
  { cbn [in_row]. split; [by apply H5|]. split; [lia|done]. }
  intros Hs. cbn [asked_for foldr]. rewrite H6 by done. rewrite (I6 Hs). unfold asked_for. lia.
Qed.
