(** Terms that are their own encodings; vocabularies with all characters. *)
From Coq Require Import ZifyBool QArith.
From stdpp Require Import relations.
From Verif Require Import GoBase Utf8Facts SliceFacts Strutils Vocab MergeMap Bpe WordPiece SpecText SpecVocab SpecBpe SpecWordPiece VocabFacts WordPieceFacts ExactWordPiece.
Import GoBase.
#[local] Open Scope Z_scope.

(** The longest known piece at the start of a text. *)
Lemma longest_piece v pre first rs k : (0 < k <= length rs)%nat → is_Some (get_id v (piece_term pre first (encode (take k rs)))) →
  ∃ a b, rs = a ++ b ∧ a ≠ [] ∧ is_Some (get_id v (piece_term pre first (encode a)))
    ∧ ∀ a' b', a ++ b = a' ++ b' → (length a < length a')%nat → get_id v (piece_term pre first (encode a')) = None.
Proof.
  intros Hk H. remember (length rs - k)%nat as n eqn:En. revert k Hk H En. induction n as [n IH] using lt_wf_ind. intros k Hk H En.
  destruct (decide (Exists (λ j, (k < j)%nat ∧ is_Some (get_id v (piece_term pre first (encode (take j rs))))) (seq 1 (length rs)))) as [He|He].
  - apply Exists_exists in He as (j & Hj%elem_of_seq & Hkj & Hsome). apply (IH (length rs - j)%nat ltac:(lia) j); [lia|done|done].
  - exists (take k rs), (drop k rs). rewrite take_drop. split_and!; [done| |done|].
    + intros E. apply (f_equal length) in E. rewrite take_length in E. cbn in E. lia.
    + intros a' b' E Hl. rewrite take_length in Hl. destruct (get_id v (piece_term pre first (encode a'))) as [i|] eqn:Ei; [|done]. exfalso.
      apply He, Exists_exists. exists (length a'). assert (length a' <= length rs)%nat by (apply (f_equal length) in E; rewrite app_length in E; lia).
      split; [apply elem_of_seq; lia|]. split; [lia|]. rewrite E, take_app. by eexists.
Qed.

Lemma greedy_total v pre rs : ∀ first, 
  match rs with c :: _ => is_Some (get_id v (piece_term pre first (encode [c]))) | [] => True end →
  Forall (λ c, is_Some (get_id v (pre ++ encode [c]))) (tail rs) → ∃ segs, greedy v pre first rs segs.
Proof.
  remember (length rs) as n eqn:En. revert rs En. induction n as [n IH] using lt_wf_ind. intros rs -> first Hf Ht.
  destruct rs as [|c rs]; [exists []; constructor|].
  destruct (longest_piece v pre first (c :: rs) 1) as (a & b & E & Ha & Hs & Hl); [cbn; lia|done|].
  destruct (IH (length b)) with (rs := b) (first := false) as (segs & Hg).
  - rewrite E, app_length. destruct a; [done|]. cbn. lia.
  - done.
  - destruct a as [|x a]; [done|]. injection E as -> E. cbn in Ht. rewrite E in Ht. apply Forall_app in Ht as [_ Ht]. destruct b as [|y b]; [done|].
    by apply Forall_cons in Ht as [? _].
  - destruct a as [|x a]; [done|]. injection E as -> E. cbn in Ht. rewrite E in Ht. apply Forall_app in Ht as [_ Ht]. destruct b as [|y b]; [done|].
    by apply Forall_cons in Ht as [_ ?].
  - exists (a :: segs). rewrite E. by constructor.
Qed.

(** * Words that need more than their characters *)
Lemma tried_toks_ends v pre s o toks : tried_toks v pre s o toks → Forall (λ t, tried s (o_end (t_offsets t))) toks.
Proof. induction 1; by constructor. Qed.
(** With pieces of one character, there is a token that ends behind the first characters. *)
Lemma single_toks_end v pre o a b toks : a ≠ [] → seg_toks v pre o (map (λ c, [c]) (a ++ b)) toks →
  Exists (λ t, o_end (t_offsets t) = o + zlen (encode a)) toks.
Proof.
  revert o toks. induction a as [|x a IH]; intros o toks Ha H; [done|]. cbn [app map] in H. inversion H as [|? ? ? i ts Hi Hts]; subst.
  destruct a as [|y a]; [by left|]. right. apply IH in Hts; [|done]. eapply Exists_impl; [exact Hts|]. cbv beta. intros t ->.
  rewrite (encode_cons x (y :: a)), (encode_cons x []), !zlen_app, zlen_encode_nil. lia.
Qed.
Lemma greedy_singles v pre rs segs : scalars rs →
  (∀ a, scalars a → is_Some (get_id v (piece_term pre false (encode a))) → ∃ c, a = [c]) →
  greedy v pre false rs segs → segs = map (λ c, [c]) rs.
Proof.
  intros Hs Hv H. remember false as f eqn:Ef. induction H as [|f a b segs Ha Hi _ H IH]; [done|]. subst f.
  apply scalars_app in Hs as [Hsa Hsb]. destruct (Hv a Hsa Hi) as [c ->]. cbn [app map]. f_equal. by apply IH.
Qed.

Lemma characters_need rs : scalars rs →
  (∀ m, zlen rs <= w_max m → valid_terms (w_vocab m) → valid_utf8 (w_prefix m) = true →
     match rs with c :: _ => is_Some (get_id (w_vocab m) (encode [c])) | [] => True end →
     Forall (λ c, is_Some (get_id (w_vocab m) (w_prefix m ++ encode [c]))) (tail rs) →
     ∃ segs toks, greedy (w_vocab m) (w_prefix m) true rs segs ∧ seg_toks (w_vocab m) (w_prefix m) 0 segs toks
       ∧ wp_tokenize m (encode rs) = Some (Ret (Ok toks))) →
  Forall (λ r, rune_len r ≠ 3) (tail rs).
Proof.
  intros Hs H. destruct rs as [|y rs]; [constructor|]. cbn [tail]. destruct (last_three rs) as [|(a & c & b & -> & H3 & Hb)]; [done|]. exfalso.
  set (p := if y =? 35 then 36 else 35). assert (scalar p = true) as Hp by (unfold p; by destruct (y =? 35)).
  assert (y ≠ p) as Hyp by (unfold p; destruct (Z.eqb_spec y 35); lia).
  set (rest := a ++ c :: b) in *. pose proof Hs as Hs'. apply Forall_cons in Hs' as [Hy Hrest].
  set (terms := encode [y] :: map (λ x, encode [p; x]) rest).
  destruct (grown_add_terms [] new_vocab terms grown_new) as (v & _ & G & _). cbn [app] in G.
  assert (Hdom : ∀ t, is_Some (get_id v t) ↔ t ∈ terms).
  { intros t. unfold get_id. rewrite <- elem_of_dom, (gr_dom _ _ G). unfold terms_set. by rewrite elem_of_list_to_set. }
  assert (Hpx : ∀ q, piece_term [p] false (encode q) = encode (p :: q)).
  { intros q. unfold piece_term. rewrite (encode_cons p). unfold encode_rune, encode_scalar. rewrite sanitize_id by done. unfold p. by destruct (y =? 35). }
  assert (Hpp : ∀ q, [p] ++ encode q = encode (p :: q)) by (intros q; apply Hpx).
  assert (Hone : ∀ q, scalars q → is_Some (get_id v (piece_term [p] false (encode q))) → ∃ x, q = [x]).
  { intros q Hq Hi. rewrite Hpx, Hdom in Hi. assert (Hq' : scalars (p :: q)) by (by constructor). apply elem_of_cons in Hi as [E|Hi].
    - apply (f_equal runes) in E. rewrite !runes_encode_scalars in E by (done || by repeat constructor). congruence.
    - apply elem_of_list_fmap in Hi as (x & E & Hx). exists x. assert (Hx' : scalars [p; x]).
      { constructor; [done|]. constructor; [|constructor]. unfold scalars in Hrest. rewrite Forall_forall in Hrest. by apply Hrest. }
      apply (f_equal runes) in E. rewrite !runes_encode_scalars in E by done. congruence. }
  assert (Hfirst : ∀ q, scalars (y :: q) → is_Some (get_id v (encode (y :: q))) → q = []).
  { intros q Hq Hi. rewrite Hdom in Hi. apply elem_of_cons in Hi as [E|Hi].
    - apply (f_equal runes) in E. rewrite !runes_encode_scalars in E by (done || by repeat constructor). congruence.
    - apply elem_of_list_fmap in Hi as (x & E & Hx). exfalso. assert (Hx' : scalars [p; x]).
      { constructor; [done|]. constructor; [|constructor]. unfold scalars in Hrest. rewrite Forall_forall in Hrest. by apply Hrest. }
      apply (f_equal runes) in E. rewrite !runes_encode_scalars in E by done. congruence. }
  pose (m := WordPiece v [] [p] (zlen (y :: rest))).
  destruct (H m) as (segs & toks & Hg & Ht & E).
  - done.
  - intros t i Hi. assert (is_Some (get_id v t)) as Hd by (by exists i). rewrite Hdom in Hd. apply elem_of_cons in Hd as [->|Hd]; [apply valid_utf8_encode|].
    apply elem_of_list_fmap in Hd as (x & -> & _). apply valid_utf8_encode.
  - by unfold m, p; cbn [w_prefix]; destruct (y =? 35).
  - apply Hdom. by left.
  - cbn [tail]. apply Forall_forall. intros x Hx. cbn [w_vocab w_prefix m]. rewrite Hpp. apply Hdom. right. apply elem_of_list_fmap. by exists x.
  - assert (segs = map (λ c, [c]) (y :: rest)) as ->.
    { cbn [w_vocab w_prefix m] in Hg. inversion Hg as [|? q b' segs' Hq Hi _ Hg' E1 E2]. destruct q as [|y' q]; [done|]. cbn [app] in E2. injection E2 as -> E2.
      assert (Hsq : scalars (y :: q)). { rewrite <- E2 in Hs. by apply (scalars_app (y :: q) b') in Hs as [? _]. }
      rewrite (Hfirst q Hsq Hi) in *. cbn [app] in E2. subst b'. by rewrite (greedy_singles v [p] rest segs' Hrest Hone Hg'). }
    destruct (wp_tokenize_spec m (encode (y :: rest)) (encode_bytes _)) as [(l & _ & E' & Hl)|(_ & E')]; rewrite E in E'; injection E' as E'.
    + subst l. apply tried_toks_ends in Hl. change (y :: rest) with ((y :: a) ++ c :: b) in Ht. apply single_toks_end in Ht; [|done].
      apply Exists_exists in Ht as (t & Hin & Et). rewrite Forall_forall in Hl. specialize (Hl t Hin). rewrite Et, Z.add_0_l in Hl.
      by apply (not_tried (y :: a) c b H3 Hb).
    + unfold wp_unknown in E'. cbn [w_vocab w_unk m] in E'. destruct (get_id v []) as [j|] eqn:Hj; [|done].
      assert (is_Some (get_id v [])) as Hd by (by exists j). rewrite Hdom in Hd. apply elem_of_cons in Hd as [E1|Hd].
      * pose proof (encode_pos y []) as Hz. apply (f_equal zlen) in E1. rewrite zlen_nil in E1. lia.
      * apply elem_of_list_fmap in Hd as (x & E1 & _). pose proof (encode_pos p [x]) as Hz. apply (f_equal zlen) in E1. rewrite zlen_nil in E1. lia.
Qed.
