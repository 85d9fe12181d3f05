(** Pipelines and the reference programs (C111, C112). *)
From Coq Require Import ZifyBool ZifyNat Sorted QArith.
From stdpp Require Import relations.
From Verif Require Import GoBase Utf8Facts Strutils SplitPattern NormString Vocab MergeMap Bpe WordPiece Encodings PreTokString Normalizers PreTokenizers Regex SpecText SpecNorm SpecVocab SpecBpe SpecWordPiece SpecPts SpecPretok SpecNormalizers SpecDrop SpecTrain SpecRead SpecGpt2 SpecEnd SpecPipe SpecRef
  SliceFacts NormFacts NormInv WordPieceFacts BpeTok PretokFacts ByteFacts NormSlice EndFacts PipeFacts TrainFacts.
Import GoBase NormString SpecNorm.
#[local] Open Scope Z_scope.

(** * The tokens of an encoding *)
Lemma encoded_tokens wi ty i ts tss es : encoded wi ty i ts tss es →
  map et_token es = concat (map (map t_value) tss) ∧ map et_id es = concat (map (map t_id) tss).
Proof.
  induction 1 as [|i t ts toks toks' es es' He H [IH1 IH2]]; [done|]. cbn [map concat]. rewrite !map_app, IH1, IH2.
  assert (map et_token es = map t_value toks ∧ map et_id es = map t_id toks) as [-> ->]; [|done].
  clear -He. induction He as [|tok en toks es (E1 & E2 & _) He [IH1 IH2]]; [done|]. cbn [map]. by rewrite E1, E2, IH1, IH2.
Qed.
Lemma pipeline_tokens pre (model : a_model) n wi ty o ts l :
  pre (pts_from_ns n) = Ret (Pts o (splits_from_ns l), None) → Forall2 holds_at ts l →
  (∀ j t, t ∈ ts → ∃ r, model j (encode t.*1) = Ret r ∧ ∀ toks, r = Ok toks → toks_tile 0 toks (alen t)
     ∧ Forall (λ tok, boundary (encode t.*1) (o_start (t_offsets tok)) ∧ boundary (encode t.*1) (o_end (t_offsets tok))) toks) →
  (∃ e tss, encode_ns pre model n wi ty = Ret (Ok e) ∧ length tss = length ts
     ∧ (∀ j t toks, ts !! j = Some t → tss !! j = Some toks → model j (encode t.*1) = Ret (Ok toks))
     ∧ e_tokens e = concat (map (map t_value) tss) ∧ e_ids e = concat (map (map t_id) tss))
  ∨ (∃ e j t, encode_ns pre model n wi ty = Ret (Err e) ∧ ts !! j = Some t ∧ model j (encode t.*1) = Ret (Err e)).
Proof.
  intros Hp Hh Hm.
  assert (Hn : ∀ t n, holds_at t n → ns_norm n = encode t.*1 ∧ scalars t.*1). { intros t n' (H' & H & _). by rewrite shift_spans_chars in H, H'. }
  assert (Hsc : ∀ t, t ∈ ts → scalars t.*1).
  { intros t Hin. apply elem_of_list_lookup in Hin as (i & Hi). destruct (Forall2_lookup_l _ _ _ _ _ Hh Hi) as (n' & _ & H). by apply Hn in H as [_ H]. }
  destruct (encode_ns_pipeline pre model n wi ty o ts l Hp Hh) as [(tss & e & es & H1 & H2 & H3 & H4)|(e & l1 & n' & l2 & tss & H1 & H2 & H3 & H4)].
  { intros j t Hin. destruct (Hm j t Hin) as (r & Hr & Hr'). exists r. split; [done|]. intros toks Htoks. destruct (Hr' toks Htoks) as [Ht Hb].
    apply Forall_forall. intros tok Htok. rewrite Forall_forall in Hb. destruct (Hb tok Htok). apply on_chars_boundary; try done; [by apply Hsc|]. by apply (toks_tile_in _ _ _ _ Ht). }
  - left. exists e, tss. split; [done|]. split; [|split].
    + rewrite (answered_length _ _ _ _ H2). symmetry. by eapply Forall2_length.
    + intros j t toks Hj Htoks. destruct (Forall2_lookup_l _ _ _ _ _ Hh Hj) as (n' & Hn' & Hht). apply Hn in Hht as [<- _]. by apply (answered_lookup model 0 l tss j n' toks).
    + destruct (encoded_tokens _ _ _ _ _ _ H4) as [E1 E2]. rewrite H3. done.
  - right. assert (l !! length l1 = Some n') as Hn'. { rewrite H2. by rewrite list_lookup_middle. }
    destruct (Forall2_lookup_r _ _ _ _ _ Hh Hn') as (t & Ht & Hht). apply Hn in Hht as [E _]. exists e, (length l1), t. rewrite <- E. done.
Qed.

(** * GPT-2 *)
Lemma adjacent_cons a b x y r : adjacent a b (x :: y :: r) ↔ (x = a ∧ y = b) ∨ adjacent a b (y :: r).
Proof. done. Qed.
#[global] Instance adjacent_dec a b ts : Decision (adjacent a b ts).
Proof. induction ts as [|x [|y r] IH]; cbn [adjacent]; apply _. Defined.
Lemma join_absent a b ts : ¬ adjacent a b ts → join_pass a b ts = ts.
Proof.
  revert ts. refine (pairs_ind _ _ _ _); [done|done|]. intros x y r _ IH H. rewrite join_cons, decide_False; [|intros E; apply H; by left].
  f_equal. apply IH. intros E. apply H. by right.
Qed.
Lemma join_shorter a b ts : adjacent a b ts → (length (join_pass a b ts) < length ts)%nat.
Proof.
  assert (Hle : ∀ ts, (length (join_pass a b ts) <= length ts)%nat).
  { refine (pairs_ind _ _ _ _); [done|done|]. intros x y r IH1 IH2. rewrite join_cons. destruct (decide _); cbn [length] in *; lia. }
  revert ts. refine (pairs_ind _ _ _ _); [done|done|]. intros x y r _ IH H. rewrite join_cons. destruct (decide _) as [E|E].
  - cbn [length]. specialize (Hle r). lia.
  - destruct H as [H|H]; [done|]. specialize (IH H). cbn [length] in *. lia.
Qed.
Lemma join_head a b y r : head (join_pass a b (y :: r)) = Some y ∨ head (join_pass a b (y :: r)) = Some (a ++ b).
Proof. destruct r as [|z r]; [by left|]. rewrite join_cons. destruct (decide _); [by right|by left]. Qed.
(** A pass leaves nothing of its pair, and makes no pair of other texts. *)
Lemma join_adjacent a b c d ts : c ≠ a ++ b → d ≠ a ++ b → adjacent c d (join_pass a b ts) → adjacent c d ts ∧ (c, d) ≠ (a, b).
Proof.
  intros Hc Hd. revert ts. refine (pairs_ind _ _ _ _); [done|done|]. intros x y r IH1 IH2. rewrite join_cons. destruct (decide (x = a ∧ y = b)) as [[-> ->]|Hn].
  - intros H. assert (G : adjacent c d (join_pass a b r)). { destruct (join_pass a b r); [done|]. destruct H as [[E _]|H]; [by destruct Hc|done]. }
    destruct (IH1 G) as [G1 G2]. split; [|done]. right. destruct r; [done|]. by right.
  - intros H. pose proof (join_head a b y r) as Hh. destruct (join_pass a b (y :: r)) as [|z r'] eqn:E; [done|]. destruct H as [[<- <-]|H].
    + destruct Hh as [[= ->]|[= ->]]; [|done]. split; [by left|]. intros [= <- <-]. by apply Hn.
    + destruct (IH2 H). split; [by right|done].
Qed.
Lemma gpt2_fun pairs ts r1 r2 : gpt2_bpe pairs ts r1 → gpt2_bpe pairs ts r2 → r1 = r2.
Proof.
  intros H. revert r2. induction H as [ts Hd|before p after ts res E Hb Ha _ IH]; intros r2 H2; inversion H2 as [? Hd'|before' p' after' ? res' E' Hb' Ha' H2']; subst.
  - done.
  - exfalso. eapply (Hd p'); [set_solver|done].
  - exfalso. eapply (Hd' p); [set_solver|done].
  - apply IH. assert (p = p') as ->; [|done].
    assert (length before = length before') as El.
    { destruct (lt_eq_lt_dec (length before) (length before')) as [[Hl|?]|Hl]; [exfalso|done|exfalso].
      - apply (Hb' p); [|done]. assert (G : (before' ++ p' :: after') !! length before = Some p) by (rewrite <- E'; by apply list_lookup_middle).
        rewrite lookup_app_l in G by done. by eapply elem_of_list_lookup_2.
      - apply (Hb p'); [|done]. assert (G : (before ++ p :: after) !! length before' = Some p') by (rewrite E'; by apply list_lookup_middle).
        rewrite lookup_app_l in G by done. by eapply elem_of_list_lookup_2. }
    apply app_inj_1 in E' as [_ E']; [|done]. congruence.
Qed.
Lemma gpt2_total pairs ts : ∃ res, gpt2_bpe pairs ts res.
Proof.
  remember (length ts) as n eqn:En. revert ts En. induction (lt_wf n) as [n _ IH]. intros ts ->.
  assert ((∀ p, p ∈ pairs → ¬ adjacent p.1 p.2 ts) ∨ ∃ before p after, pairs = before ++ p :: after ∧ (∀ q, q ∈ before → ¬ adjacent q.1 q.2 ts) ∧ adjacent p.1 p.2 ts) as [H|(before & p & after & E & Hb & Ha)].
  { clear. induction pairs as [|p pairs IH]; [left; by intros ? ?%elem_of_nil|].
    destruct (decide (adjacent p.1 p.2 ts)) as [H|H]; [right; exists [], p, pairs; split; [done|]; split; [by intros ? ?%elem_of_nil|done]|].
    destruct IH as [IH|(before & q & after & -> & Hb & Ha)].
    - left. intros q [->|Hq]%elem_of_cons; [done|by apply IH].
    - right. exists (p :: before), q, after. split; [done|]. split; [|done]. intros q' [->|Hq]%elem_of_cons; [done|by apply Hb]. }
  - exists ts. by apply gpt2_done.
  - destruct (IH _ (join_shorter _ _ _ Ha) _ eq_refl) as (res & Hres). exists res. by eapply gpt2_join.
Qed.
(** If no pair uses what itself or a later one makes: one pass for each pair. *)
Lemma gpt2_passes pairs done todo ts : pairs = done ++ todo → training_order pairs →
  (∀ p, p ∈ done → ¬ adjacent p.1 p.2 ts) → gpt2_bpe pairs ts (join_all todo ts).
Proof.
  intros E Ht. revert done ts E. induction todo as [|p todo IH]; intros dn ts E Hd.
  - apply gpt2_done. rewrite E, app_nil_r. done.
  - unfold join_all. cbn [foldl]. change (foldl _ ?x todo) with (join_all todo x).
    assert (E' : pairs = (dn ++ [p]) ++ todo) by (by rewrite <- app_assoc).
    destruct (decide (adjacent p.1 p.2 ts)) as [Ha|Ha].
    + eapply gpt2_join; [exact E|done|done|]. apply (IH (dn ++ [p])); [done|]. intros q Hq Hadj.
      apply elem_of_list_lookup in Hq as (i & Hi). assert (Hp : pairs !! length dn = Some p) by (by rewrite E, list_lookup_middle).
      assert (Hi' : pairs !! i = Some q) by (rewrite E'; by apply lookup_app_l_Some).
      assert (i <= length dn)%nat as Hle. { apply lookup_lt_Some in Hi. rewrite app_length in Hi. cbn in Hi. lia. }
      destruct (Ht _ _ _ _ Hle Hi' Hp) as [N1 N2]. destruct (join_adjacent _ _ _ _ _ N1 N2 Hadj) as [G1 G2].
      apply elem_of_list_lookup_2 in Hi. apply elem_of_app in Hi as [Hi| ->%elem_of_list_singleton]; [by apply (Hd q)|by destruct p].
    + rewrite join_absent by done. apply (IH (dn ++ [p])); [done|]. intros q [Hq| ->%elem_of_list_singleton]%elem_of_app; [by apply Hd|done].
Qed.
Lemma legible_known m rs b : Forall (λ c, is_Some (get_id (b_vocab m) (encode_rune c))) rs → legible m b rs = map encode_rune rs.
Proof. intros H. revert b. induction H as [|c rs [i Hi] _ IH]; intros b; [done|]. cbn [legible map]. by rewrite Hi, IH. Qed.
