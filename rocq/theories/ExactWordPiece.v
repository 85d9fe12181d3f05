(** For which words WordPiece is greedy over all vocabularies. *)
From Coq Require Import ZifyBool.
From Verif Require Import GoBase Strutils Vocab Bpe WordPiece SpecText SpecVocab SpecBpe SpecWordPiece Utf8Facts SliceFacts VocabFacts
  WordPieceFacts.
Import GoBase.
#[local] Open Scope Z_scope.

Lemma not_tried a c b : rune_len c = 3 → Forall (λ r, rune_len r ≠ 3) b → ¬ tried (encode (a ++ c :: b)) (zlen (encode a)).
Proof.
  intros H3 Hb Ht. pose proof (tried_chars (a ++ [c]) b Hb) as H1. rewrite <- app_assoc in H1. cbn [app] in H1.
  set (s := encode (a ++ c :: b)) in *. rewrite encode_app, zlen_app, zlen_encode_cons, zlen_encode_nil, H3 in H1.
  assert (∀ k x, encode_rune c !! k = Some x → s !! (length (encode a) + k)%nat = Some x) as Hlk.
  { intros k x Hk. unfold s. rewrite encode_app, encode_cons, lookup_app_r by lia. replace (_ + k - _)%nat with k by lia.
    rewrite lookup_app_l; [done|]. by apply lookup_lt_Some in Hk. }
  assert (∃ x y z, encode_rune c = [x; y; z] ∧ 128 <= x ∧ 128 <= z) as (x & y & z & E & Hx & Hz).
  { revert H3. unfold rune_len, encode_rune, encode_scalar. pose proof (sanitize_scalar c) as Hsc. apply scalar_spec in Hsc.
    repeat case_match; intros; try done. do 3 eexists. split; [done|].
    assert (0 <= Z.land (sanitize c) 0x3F) by (apply Z.land_nonneg; lia). pose proof (Z.shiftr_nonneg (sanitize c) 12). lia. }
  pose proof (Hlk 0%nat x) as L0. pose proof (Hlk 2%nat z) as L2. rewrite E in L0, L2. specialize (L0 eq_refl). specialize (L2 eq_refl).
  pose proof (zlen_nonneg (encode a)) as Hn.
  assert (back s (zlen (encode a) + (3 + 0)) = zlen (encode a) + 1) as E1.
  { unfold back. replace (Z.to_nat _) with (length (encode a) + 2)%nat by (unfold zlen; lia). rewrite L2. case_match; lia. }
  assert (back s (zlen (encode a) + 1) = zlen (encode a) - 1) as E2.
  { unfold back. replace (Z.to_nat _) with (length (encode a) + 0)%nat by (unfold zlen; lia). rewrite L0. case_match; lia. }
  apply tried_back in H1. rewrite E1 in H1. pose proof (tried_gap _ _ _ H1 Ht ltac:(lia)). lia.
Qed.

Lemma last_three rs : Forall (λ r, rune_len r ≠ 3) rs ∨ ∃ a c b, rs = a ++ c :: b ∧ rune_len c = 3 ∧ Forall (λ r, rune_len r ≠ 3) b.
Proof.
  induction rs as [|x rs IH]; [by left|]. destruct IH as [IH|(a & c & b & -> & H)].
  - destruct (decide (rune_len x = 3)); [right; by exists [], x, rs|left; by constructor].
  - right. by exists (x :: a), c, b.
Qed.

Lemma greedy_needs rs : scalars rs →
  (∀ m, zlen rs <= w_max m → valid_terms (w_vocab m) → valid_utf8 (w_prefix m) = true →
     ∃ res, wp_tokenize m (encode rs) = Some (Ret res) ∧ greedy_answer m rs res) →
  Forall (λ r, rune_len r ≠ 3) (tail rs).
Proof.
  intros Hs H. destruct rs as [|y rs]; [constructor|]. cbn [tail]. destruct (last_three rs) as [|(a & c & b & -> & H3 & Hb)]; [done|]. exfalso.
  set (p := if y =? 35 then 36 else 35). assert (scalar p = true) as Hp by (unfold p; by destruct (y =? 35)).
  assert (y ≠ p) as Hyp by (unfold p; destruct (Z.eqb_spec y 35); lia).
  set (t1 := encode (y :: a)). set (t2 := encode (p :: c :: b)).
  destruct (grown_add_terms [] new_vocab [t1; t2] grown_new) as (v & _ & G & _). cbn [app] in G.
  assert (scalars (y :: a) ∧ scalars (c :: b)) as [Hs1 Hs2]. { by apply (scalars_app (y :: a) (c :: b)). }
  assert (∀ t i, get_id v t = Some i → t = t1 ∨ t = t2) as Hin.
  { intros t i Hi. assert (t ∈ dom (v_ids v)) as Hd by (apply elem_of_dom; by exists i). rewrite (gr_dom _ _ G) in Hd.
    unfold terms_set in Hd. set_solver. }
  assert (∀ t, t = t1 ∨ t = t2 → is_Some (get_id v t)) as Hid.
  { intros t Ht. apply elem_of_dom. rewrite (gr_dom _ _ G). unfold terms_set. set_solver. }
  assert (scalars (p :: c :: b)) as Hs2' by (by constructor).
  assert (piece_term [p] false (encode (c :: b)) = t2) as Et2.
  { unfold t2, piece_term. rewrite (encode_cons p). unfold encode_rune, encode_scalar. rewrite sanitize_id by done.
    unfold p. by destruct (y =? 35). }
  assert (∀ q, scalars (y :: q) → is_Some (get_id v (encode (y :: q))) → q = a) as Hpre.
  { intros q Hq [i Hi]. destruct (Hin _ _ Hi) as [E|E]; unfold t1, t2 in E; apply (f_equal runes) in E; rewrite !runes_encode_scalars in E by done; congruence. }
  pose (m := WordPiece v [] [p] (zlen (y :: a ++ c :: b))).
  destruct (H m) as (res & Hr & Hg); [done| |by unfold p; destruct (y =? 35)|].
  { intros t i Hi. destruct (Hin _ _ Hi) as [->| ->]; apply valid_utf8_encode. }
  assert (greedy v [p] true (y :: a ++ c :: b) [y :: a; c :: b]) as Hgr.
  { apply (greedy_cons v [p] true (y :: a) (c :: b)); [done|apply Hid; by left| |].
    - intros a' b' E Hl. destruct (get_id v _) as [i|] eqn:Hi; [|done]. exfalso.
      destruct a' as [|y' a']; [cbn in Hl; lia|]. cbn [app] in E. injection E as <- E.
      rewrite (Hpre a') in Hl; [lia| |by exists i].
      assert (scalars ((y :: a') ++ b')) as Hs' by (cbn [app]; rewrite <- E; exact Hs). by apply scalars_app in Hs' as [? _].
    - pose proof (greedy_cons v [p] false (c :: b) [] []) as Hc. rewrite app_nil_r in Hc. apply Hc; [done|rewrite Et2; apply Hid; by right| |constructor].
      intros a' b' E Hl. apply (f_equal length) in E. rewrite !app_length in E. cbn in *. lia. }
  destruct Hg as [(segs & toks & G1 & G2 & ->)|[Hno _]]; [|by apply (Hno _ Hgr)].
  rewrite (greedy_fun _ _ _ _ _ _ G1 Hgr) in G2. cbn [w_vocab w_prefix m] in G2.
  inversion G2 as [|? ? ? i ts Hi Hts]; subst. 
  assert (get_id v [] = None) as Hnil.
  { destruct (get_id v []) as [j|] eqn:Hj; [|done]. exfalso. destruct (Hin _ _ Hj) as [E|E]; unfold t1, t2 in E; apply (f_equal zlen) in E.
    - pose proof (encode_pos y a). rewrite zlen_nil in E. lia.
    - pose proof (encode_pos p (c :: b)). rewrite zlen_nil in E. lia. }
  destruct (wp_tokenize_spec m (encode (y :: a ++ c :: b)) (encode_bytes _)) as [(l & _ & E & Hl)|(_ & E)]; rewrite Hr in E; injection E as E.
  - rewrite <- E in Hl. inversion Hl as [|? e x j ts' L1 L2 L3 L4 L5 L6]; subst. rewrite Z.add_0_l in *.
    by apply (not_tried (y :: a) c b H3 Hb).
  - unfold wp_unknown in E. cbn [w_vocab w_unk m] in E. by rewrite Hnil in E.
Qed.
