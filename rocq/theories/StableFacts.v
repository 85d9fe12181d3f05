(** Proofs for C69 and C70: answers do not change when the text is cut between tokens. *)
From Coq Require Import ZifyBool QArith.
From stdpp Require Import relations.
From Verif Require Import GoBase Utf8Facts Strutils Vocab MergeMap Heap Bpe WordPiece SpecText SpecVocab SpecBpe SpecWordPiece VocabFacts
  HeapFacts BpeWord BpeLoop BpeFacts BpeTok WordPieceFacts.
Import GoBase.
#[local] Open Scope Z_scope.

(** * BPE *)
Lemma pair_at_mid mm x y z k m : pair_at mm y k m → pair_at mm (x ++ y ++ z) (length x + k) m.
Proof.
  intros (l & a & la & b & lb & r & -> & <- & Hm). exists (x ++ l), a, la, b, lb, (r ++ z).
  split; [by rewrite <- !app_assoc|]. split; [by rewrite app_length|done].
Qed.
Lemma saturated_mid mm x y z : saturated mm (x ++ y ++ z) → saturated mm y.
Proof. intros H k m Hp. by apply (H (length x + k)%nat m), pair_at_mid. Qed.

(** A step of the whole is a step of one of three parts. *)
Lemma bpe_step_mid mm s x y z : bpe_step mm s (x ++ y ++ z) →
  ∃ x' y' z', s = x' ++ y' ++ z' ∧ sym_bytes x' = sym_bytes x ∧ sym_bytes y' = sym_bytes y ∧ (y' = y ∨ bpe_step mm y' y).
Proof.
  intros H. remember (x ++ y ++ z) as t eqn:Et. destruct H as [l a la b lb r m Hm Hmin].
  destruct (app_eq_inv l ((mv_id m, la + lb) :: r) x (y ++ z) Et) as [(k & -> & E)|(k & -> & E)].
  - destruct (app_eq_inv y z k ((mv_id m, la + lb) :: r) E) as [(j & -> & E')|(j & -> & E')].
    + destruct j as [|c j].
      * (* the merge is at the start of z *)
        exists x, (k ++ []), ((a, la) :: (b, lb) :: r). rewrite app_nil_r. split; [by rewrite <- app_assoc|]. auto.
      * cbn in E'. injection E' as <- ->. exists x, (k ++ (a, la) :: (b, lb) :: j), z.
        split; [by rewrite <- !app_assoc|]. split; [done|]. split; [rewrite !sym_bytes_app; cbn; lia|]. right. constructor; [done|].
        intros i m' Hp. specialize (Hmin (length x + i)%nat m'). rewrite app_length in Hmin.
        destruct Hmin as [?|[? ?]]; [|by left|right; split; [done|lia]].
        replace ((x ++ k) ++ (a, la) :: (b, lb) :: j ++ z) with (x ++ (k ++ (a, la) :: (b, lb) :: j) ++ z) by by rewrite <- !app_assoc.
        by apply pair_at_mid.
    + exists x, y, (j ++ (a, la) :: (b, lb) :: r). split; [by rewrite <- !app_assoc|]. auto.
  - destruct k as [|c k].
    + cbn in E. rewrite app_nil_r. destruct y as [|c y].
      * cbn in E. exists l, [], ((a, la) :: (b, lb) :: r). auto.
      * cbn in E. injection E as <- ->. exists l, ((a, la) :: (b, lb) :: y), z. split; [done|]. split; [done|]. split; [cbn; lia|].
        right. apply (bpe_step_intro mm [] a la b lb y m Hm). intros i m' Hp. specialize (Hmin (length l + i)%nat m').
        destruct Hmin as [?|[? ?]]; [|by left|right; split; [done|cbn; lia]].
        change (l ++ (a, la) :: (b, lb) :: y ++ z) with (l ++ ((a, la) :: (b, lb) :: y) ++ z). by apply pair_at_mid.
    + cbn in E. injection E as <- ->. exists (l ++ (a, la) :: (b, lb) :: k), y, z. split; [by rewrite <- !app_assoc|].
      split; [rewrite !sym_bytes_app; cbn; lia|]. auto.
Qed.
Lemma bpe_steps_mid mm s x y z : rtc (bpe_step mm) s (x ++ y ++ z) →
  ∃ x' y' z', s = x' ++ y' ++ z' ∧ sym_bytes x' = sym_bytes x ∧ sym_bytes y' = sym_bytes y ∧ rtc (bpe_step mm) y' y.
Proof.
  intros H. remember (x ++ y ++ z) as t eqn:Et. revert x y z Et. induction H as [s|s t u Hst _ IH]; intros x y z Et; [by exists x, y, z|].
  destruct (IH x y z Et) as (x1 & y1 & z1 & -> & Hx & Hy & Hr). destruct (bpe_step_mid _ _ _ _ _ Hst) as (x2 & y2 & z2 & -> & Hx' & Hy' & [->|Hr']).
  - exists x2, y1, z2. split; [done|]. split; [lia|]. split; [lia|done].
  - exists x2, y2, z2. split; [done|]. split; [lia|]. split; [lia|]. by eapply rtc_l.
Qed.

(** With all characters known, the symbols are those of the characters one by one. *)
Lemma group_known m rs ss : b_prefix m = [] → b_suffix m = [] → Forall (λ r, is_Some (get_id (b_vocab m) (encode_rune r))) rs →
  group_syms (b_fuse m) (unk_id m) (char_classes m rs) ss ↔ Forall2 (λ r s, get_id (b_vocab m) (encode_rune r) = Some s.1 ∧ s.2 = rune_len r) rs ss.
Proof.
  intros Hp Hs. unfold char_classes, char_terms. rewrite Hp, Hs.
  assert (imap (λ i r, (if decide (i = 0%nat) then [] else []) ++ encode_rune r ++ (if decide (S i = length rs) then [] else [])) rs = map encode_rune rs) as ->.
  { apply list_eq. intros k. rewrite list_lookup_imap, (list_lookup_fmap _ rs). destruct (rs !! k); [|done]. cbn. f_equal.
    repeat case_decide; cbn; by rewrite app_nil_r. }
  revert ss. induction rs as [|r rs IH]; intros ss Hk; cbn in *.
  - split; intros G.
    + inversion G as [| | | |u ns cs ss' _ _ Hne _ _ E]; subst; [constructor|]. destruct ns; done.
    + inversion G. constructor.
  - apply Forall_cons in Hk as [[i Hi] Hk]. rewrite Hi. split; intros G.
    + inversion G as [|i' n cs ss' G' E| | |u ns cs ss' _ _ Hne _ G' E]; subst.
      * constructor; [done|by apply IH].
      * destruct ns; done.
    + apply Forall2_cons_inv_l in G as ([i' n] & ss' & [Hi' Hn] & G & ->). cbn in Hi', Hn. rewrite Hi in Hi'. injection Hi' as ->. subst n.
      constructor. by apply IH.
Qed.

Lemma toks_of_app v o ss ts1 ts2 : toks_of v o ss (ts1 ++ ts2) → ∃ s1 s2, ss = s1 ++ s2 ∧ toks_of v o s1 ts1 ∧ toks_of v (o + sym_bytes s1) s2 ts2.
Proof.
  revert o ss. induction ts1 as [|t ts1 IH]; intros o ss H.
  - exists [], ss. split; [done|]. split; [constructor|]. cbn. by rewrite Z.add_0_r.
  - inversion H as [|o' i n x ss' ts' Hx H' E]; subst. destruct (IH _ _ H') as (s1 & s2 & -> & H1 & H2).
    exists ((i, n) :: s1), s2. split; [done|]. split; [by constructor|]. cbn. by rewrite Z.add_assoc.
Qed.
Lemma toks_of_move v o d ss ts : toks_of v o ss ts → toks_of v (o + d) ss (map (move_tok d) ts).
Proof.
  induction 1 as [o|o i n x ss ts Hx H IH]; [constructor|]. cbn [map]. unfold move_tok at 1. cbn [t_id t_value t_offsets o_start o_end].
  replace (o + n + d) with (o + d + n) by lia. constructor; [done|]. by replace (o + d + n) with (o + n + d) by lia.
Qed.
Lemma spells_values v ss txt o ts : consistent v → spells v ss txt → toks_of v o ss ts → map t_value ts = txt.
Proof.
  intros Hc H. revert o ts. induction H as [|[i n] t ss txt [Hi Hn] _ IH]; intros o ts Ht; inversion Ht as [|o' i' n' x ss' ts' Hx Ht' E]; subst; [done|].
  cbn. f_equal; [|by eapply IH]. cbn in Hi. apply Hc in Hi. congruence.
Qed.

(** * WordPiece *)
Lemma back_app p q e : e <= zlen p → p ≠ [] → back (p ++ q) e = back p e.
Proof.
  intros He Hp. unfold back. rewrite lookup_app_l; [done|]. destruct p as [|c p]; [done|]. unfold zlen in He. cbn in *. lia.
Qed.
Lemma tried_app p q e : p ≠ [] → tried (p ++ q) (zlen p) → e <= zlen p → tried (p ++ q) e ↔ tried p e.
Proof.
  intros Hp [k Hk] He.
  assert (Hit : ∀ n, Nat.iter n (back (p ++ q)) (zlen p) = Nat.iter n (back p) (zlen p)).
  { induction n as [|n IH]; [done|]. transitivity (back (p ++ q) (Nat.iter n (back p) (zlen p))); [by rewrite <- IH|]. apply back_app; [apply iter_back_le|done]. }
  split.
  - intros [n ->]. destruct (decide (k <= n)%nat) as [Hn|Hn].
    + replace n with ((n - k) + k)%nat by lia. rewrite iter_add, <- Hk, Hit. by eexists.
    + exfalso. replace k with (S (k - n - 1) + n)%nat in Hk by lia. rewrite iter_add in Hk.
      pose proof (iter_back_lt (p ++ q) (S (k - n - 1)) (Nat.iter n (back (p ++ q)) (zlen (p ++ q)))). lia.
  - intros [n ->]. rewrite <- Hit. rewrite Hk. exists (n + k)%nat. by rewrite iter_add.
Qed.
Lemma text_at_app_l p q i j x : text_at p i j x → text_at (p ++ q) i j x.
Proof. intros (a & b & -> & Hi & Hj). exists a, (b ++ q). split; [by rewrite <- !app_assoc|done]. Qed.
Lemma text_at_app_inv p q i j x : j <= zlen p → text_at (p ++ q) i j x → text_at p i j x.
Proof.
  intros Hj (a & b & E & Hi & Hx). exists a. rewrite app_assoc in E.
  assert (zlen (a ++ x) = j) as Hz by (rewrite zlen_app; lia).
  destruct (app_eq_inv p q (a ++ x) b E) as [(k & -> & ->)|(k & Ek & ->)].
  - exists k. split; [by rewrite <- app_assoc|]. done.
  - assert (k = []) as ->. { apply (f_equal zlen) in Ek. rewrite Hz, zlen_app in Ek. destruct k; [done|]. rewrite zlen_cons in Ek. pose proof (zlen_nonneg k). lia. }
    exists []. rewrite !app_nil_r in *. by split_and!.
Qed.
Lemma toks_tile_le i ts n : toks_tile i ts n → i <= n.
Proof. revert i. induction ts as [|t ts IH]; intros i; cbn; [lia|]. intros (_ & ? & H%IH). lia. Qed.

Lemma tried_toks_prefix v pre p q o l1 l2 : p ≠ [] → tried_toks v pre (p ++ q) o (l1 ++ l2) → toks_tile o l1 (zlen p) → l1 ≠ [] →
  tried (p ++ q) (zlen p) ∧ tried_toks v pre p o l1.
Proof.
  intros Hp. revert o. induction l1 as [|t l1 IH]; intros o H Ht Hne; [done|]. cbn [app] in H. cbn [toks_tile] in Ht.
  inversion H as [|o' e x i ts H1 H2 H3 H4 H5 H6]; subst. cbn [t_offsets o_start o_end] in Ht. destruct Ht as (_ & _ & Ht).
  pose proof (toks_tile_le _ _ _ Ht) as Hle.
  assert (tried (p ++ q) (zlen p) ∧ tried_toks v pre p e l1) as [Htr Hl].
  { destruct l1 as [|t' l1]; [|by apply IH]. cbn in Ht. subst e. split; [done|constructor]. }
  split; [done|]. econstructor; [done|by apply tried_app in H2|by eapply text_at_app_inv|done| |done].
  intros e' x' He' Hte Hx'. pose proof (tried_le _ _ Hte). apply (H5 e' x' He'); [by apply tried_app|by apply text_at_app_l].
Qed.
