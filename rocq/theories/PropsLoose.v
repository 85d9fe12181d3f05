(** C92: what every history of calls preserves, Append and Replace with any arguments included. *)
From Coq Require Import ZifyBool Sorted.
From stdpp Require Import relations.
From Verif Require Import GoBase Utf8Facts Strutils SplitPattern NormString SpecText SpecNorm SpecHist SliceFacts NormSlice RangeFacts
  Bpe Encodings PreTokString SpecPts PtsFacts SpecLoose LooseFacts PropsRange PropsPts Lit.
Import GoBase NormString.
#[local] Open Scope Z_scope.

(** Whatever was called, with whatever arguments: the original is valid UTF-8, there is one alignment per byte, alignments are
    ranges of whole characters of the original, in order. *)
Theorem C92_history : ∀ n, loosely_reachable n → byte_invariants n.
Proof. intros n H. by apply sound_invariants, loosely_sound. Qed.
Print Assumptions C92_history.

(** Every history of C04 is one of these. *)
Theorem C92_more : ∀ n, reachable n → loosely_reachable n.
Proof.
  intros n (rs & Hs & H). exists rs. split; [done|]. assert (Hw : wf (from_string (encode rs))) by (eexists; by apply NormFacts.from_string_wf).
  revert Hw. induction H as [|x y z Hxy _ IH]; intros Hw; [apply rtc_refl|]. eapply rtc_l; [|apply IH; by eapply HistFacts.edit_wf].
  destruct Hxy as [f n' H|keep n' H|l r n' H|p n' H|p n' Hb H|p cs content n' Hp Hc H1 H|dest off n' H|r dest off n' s e ok Hc Hb H|r n' H].
  - by eapply loose_map.
  - by eapply loose_filter.
  - by eapply loose_trim.
  - by eapply loose_prepend.
  - by eapply loose_append.
  - by eapply loose_replace.
  - by eapply loose_transform.
  - eapply loose_transform_range; [exact Hc| |exact H]. intros Hok. destruct (Hb Hok) as (B1 & B2 & [B3|B3]); [by left|right].
    destruct ok; [|done]. unfold transform_range in H. rewrite Hc in H. cbn [negb] in H. apply bind_Ret in H as (rep & Hrep & H). apply bind_Ret in H as (r0 & Hr0 & _).
    apply sub_bounds in Hr0. pose proof (sub_zlen _ _ _ _ Hrep). destruct (sub_total (ns_norm x) (s + off) e) as (t & Ht); [apply boundary_range in B3; lia|lia|apply boundary_range in B2; lia|].
    apply text_at_sub in Ht. pose proof (valid_sub _ _ _ _ Ht B3 B2) as Hv. apply valid_utf8_spec in Hv as (rs' & _ & ->). by exists rs'.
  - by eapply loose_slice.
Qed.
Print Assumptions C92_more.

(** OriginalAlignments is right after every history, and panics only on the empty text. *)
Theorem C92_original_alignments :
  ∀ n, loosely_reachable n → ns_norm n ≠ [] →
  ∃ l, original_alignments n = Ret l ∧ zlen l = zlen (ns_orig n)
    ∧ ∀ i s e, idx l i = Ret (s, e) →
        0 <= s <= e ∧ e <= zlen (ns_norm n)
        ∧ ∀ k a, idx (ns_al n) k = Ret a → (s <= k < e ↔ a.1 <= i < a.2) ∧ (k < s ↔ a.2 <= i).
Proof.
  intros n Hn Hne. apply loosely_sound in Hn. pose proof (flat_wf n Hn) as Hw. destruct (C19_original_alignments (flat n)) as (l & Hl & Hz & H).
  { by eexists. }
  { intros E. pose proof (flat_len n) as Hf. rewrite E in Hf. destruct (ns_norm n); [done|]. rewrite zlen_cons in Hf. change (zlen (@nil Z)) with 0 in Hf. pose proof (zlen_nonneg l). lia. }
  exists l. split; [done|]. split; [done|]. intros i s e Hi. rewrite <- (flat_len n). by apply H.
Qed.
Print Assumptions C92_original_alignments.

(** So are the conversions of ranges. *)
Theorem C92_to_original :
  ∀ n s e, loosely_reachable n → 0 <= s → s < e → e <= zlen (ns_norm n) →
  ∃ lo hi, coerce_to_orig n (NRange s e) = Ret ((lo, hi), true) ∧ boundary (ns_orig n) lo ∧ boundary (ns_orig n) hi
    ∧ (∀ k a, s <= k < e → idx (ns_al n) k = Ret a → lo <= a.1 ∧ a.2 <= hi)
    ∧ ∀ lo' hi', (∀ k a, s <= k < e → idx (ns_al n) k = Ret a → lo' <= a.1 ∧ a.2 <= hi') → lo' <= lo ∧ hi <= hi'.
Proof.
  intros n s e Hn H1 H2 H3. apply loosely_sound in Hn. pose proof (flat_wf n Hn) as Hw. pose proof Hn as (_ & Hl & _).
  destruct (C20_to_original (flat n) s e) as (lo & hi & Hc & H); [by eexists|done|done|by rewrite flat_len|]. rewrite flat_orig in Hc. exists lo, hi. split; [done|].
  destruct (coerce_to_orig_bytes n s e) as (a & b & Ha & Hb & Hc'); [lia..|]. rewrite Hc in Hc'. injection Hc' as -> ->.
  destruct (sound_al_ok n s a Hn (or_intror Ha)) as (_ & ? & _). destruct (sound_al_ok n (e - 1) b Hn (or_intror Hb)) as (_ & _ & ?). done.
Qed.
Print Assumptions C92_to_original.

Theorem C92_to_normalized :
  ∀ n a b, loosely_reachable n → a < b →
  let '((i, j), ok) := coerce_to_norm n (ORange a b) in
  if (ok : bool) then
    0 <= i <= j ∧ j <= zlen (ns_norm n)
    ∧ (∃ k s, idx (ns_al n) k = Ret s ∧ s.2 <= b)
    ∧ (∀ k s, idx (ns_al n) k = Ret s → i <= k < j → a <= s.1 ∧ s.2 <= b)
    ∧ (∀ k s, idx (ns_al n) k = Ret s → a <= s.1 → s.1 < s.2 → s.2 <= b → i <= k < j)
    ∧ (i < j → ∃ s, idx (ns_al n) i = Ret s ∧ s.1 < s.2)
  else ∀ k s, idx (ns_al n) k = Ret s → b < s.2.
Proof.
  intros n a b Hn Hab. apply loosely_sound in Hn. pose proof (flat_wf n Hn) as Hw. pose proof (C21_to_normalized (flat n) a b ltac:(by eexists) Hab) as H. rewrite flat_norm in H.
  destruct (coerce_to_norm n (ORange a b)) as [[i j] [|]]; [|done]. rewrite flat_len in H. tauto.
Qed.
Print Assumptions C92_to_normalized.

(** Pre-tokenized strings, whatever was called on them and whatever the functions given to Split, Normalize and Tokenize did to their arguments:
    all offsets of the encoding are places in the original text. *)
Theorem C92_encoding_offsets :
  ∀ p wi ty, loosely_reachable_pts p →
  Forall (λ x, ∃ ts, sp_tokens x = Some ts ∧ Forall (token_in (sp_ns x)) ts) (p_splits p) →
  ∃ e, into_encoding p wi ty = Ret (Ok e)
     ∧ Forall2 (λ x o, token_place (p_original p) x.1.2 x.2 o) (all_tokens 0 (p_splits p)) (e_offsets e).
Proof.
  intros p wi ty Hr Ht. apply loosely_reachable_good in Hr as (rs & _ & Ho & Hg). rewrite Ho. unfold into_encoding.
  destruct (Z.eqb_spec (zlen (p_splits p)) 0) as [Hz|Hz].
  { destruct (p_splits p); [|unfold zlen in Hz; cbn in Hz; lia]. eexists. split; [done|]. constructor. }
  replace (all_have_tokens (p_splits p)) with true; cbn [negb].
  - destruct (encode_splits_places (encode rs) wi ty 0 (map flat_split (p_splits p))) as (out & Hout & H).
    { apply Forall_map. eapply Forall_impl; [exact Hg|]. intros x [Hx Hx']. cbn [flat_split sp_ns]. split; [eexists; by apply flat_wf|exact Hx']. }
    { apply Forall_map. eapply Forall_impl; [exact Ht|]. intros x (ts & Hts & Hx). cbn [flat_split sp_ns sp_tokens]. rewrite Hts. cbn. eapply Forall_impl; [exact Hx|].
      intros t. unfold token_in. by rewrite flat_len. }
    rewrite flat_encode_splits in Hout. rewrite Hout. cbn [mbind outcome_bind]. eexists. split; [done|]. rewrite encoding_from_tokens_eq. cbn [e_offsets].
    rewrite flat_all_tokens in H. apply Forall2_fmap_l in H. exact H.
  - symmetry. apply all_have_tokens_spec. eapply Forall_impl; [exact Ht|]. intros x (ts & -> & _). by eexists.
Qed.
Print Assumptions C92_encoding_offsets.

(** The condition on TransformRange is needed: over the second byte of the first character of "éab", the alignment of "b" comes before that of "a",
    and OriginalAlignments panics on the result. *)
Theorem C92_transform_range_refuted :
  ¬ (∀ rs s e dest off n', scalars rs → transform_range (from_string (encode rs)) (NRange s e) dest off = Ret n' →
     (∀ i j a b, i <= j → idx (ns_al n') i = Ret a → idx (ns_al n') j = Ret b → a = b ∨ a.2 <= b.1) ∧ original_alignments n' ≠ Panic).
Proof.
  intros H. destruct (transform_range (from_string (encode [0xE9; 97; 98])) (NRange 1 2) [(120, 0); (121, 1)] 0) as [n'|] eqn:E; [|by vm_compute in E].
  specialize (H [0xE9; 97; 98] 1 2 [(120, 0); (121, 1)] 0 n' ltac:(by repeat constructor) E) as [H1 H2]. vm_compute in E. injection E as <-.
  destruct (H1 2 3 (3, 4) (2, 3) ltac:(lia) eq_refl eq_refl) as [H|H]; [done|]. cbn in H. lia.
Qed.
Print Assumptions C92_transform_range_refuted.

(** A history that leaves valid UTF-8 behind (Append cuts a character of four bytes in two), and goes on: Prepend of bytes that are no text, then Replace. *)
Example C92_example : ∃ n1 n2 n3,
  append (from_string (encode [0x1D560; 97; 98])) [120] = Ret n1 ∧ prepend n1 [121; 0xFF] = Ret n2 ∧ replace n2 (rune_pattern 120) [0xC3] = Ret (Ok n3)
  ∧ ns_norm n1 = [0xF0; 0x9D; 98; 120] ∧ valid_utf8 (ns_norm n1) = false ∧ loosely_reachable n3
  ∧ ns_al n3 = [(0, 4); (0, 4); (0, 4); (0, 4); (0, 4); (0, 4); (0, 4); (4, 5); (4, 5); (4, 5)]
  ∧ original_alignments n3 = Ret [(0, 7); (0, 7); (0, 7); (0, 7); (7, 10); (10, 10)]
  ∧ coerce_to_orig n3 (NRange 3 8) = Ret ((0, 5), true).
Proof.
  eexists _, _, _. split; [vm_compute; reflexivity|]. split; [vm_compute; reflexivity|]. split; [vm_compute; reflexivity|]. split; [done|]. split; [done|]. split; [|vm_compute; auto].
  exists [0x1D560; 97; 98]. split; [by repeat constructor|].
  eapply rtc_l; [eapply (loose_append _ [120]); vm_compute; reflexivity|]. eapply rtc_l; [eapply (loose_prepend _ [121; 0xFF]); vm_compute; reflexivity|].
  eapply rtc_l; [eapply (loose_replace _ (rune_pattern 120) [0xC3]); vm_compute; reflexivity|]. apply rtc_refl.
Qed.

(** The same text through a pre-tokenized string: Normalize appends, Tokenize cuts before the last byte. *)
Definition appending : unit → ns → outcome (unit * ns * option err) := λ u n, n' ← append n [120]; Ret (u, n', None).
Definition two_tokens : unit → ns → outcome (unit * ns * result (list token)) :=
  λ u n, Ret (u, n, Ok [Token 1 [] (Offsets 0 (ns_len n - 1)); Token 2 [] (Offsets (ns_len n - 1) (ns_len n))]).
Example C92_pts_example :
  ∃ p p', pts_normalize appending tt (pts_from_string (encode [0x1D560; 97; 98])) = Ret (tt, p, None) ∧ pts_tokenize two_tokens tt p = Ret (tt, p', None)
    ∧ loosely_reachable_pts p'
    ∧ Forall (λ x, valid_utf8 (ns_norm (sp_ns x)) = false ∧ ∃ ts, sp_tokens x = Some ts ∧ Forall (token_in (sp_ns x)) ts) (p_splits p')
    ∧ ∃ e, into_encoding p' (-1) 0 = Ret (Ok e) ∧ e_offsets e = [Offsets 0 4; Offsets 4 5].
Proof.
  eexists _, _. split; [vm_compute; reflexivity|]. split; [vm_compute; reflexivity|]. split; [|split].
  - exists [0x1D560; 97; 98]. split; [by repeat constructor|]. eapply rtc_l.
    + eapply (loose_step_normalize _ unit appending tt); [|vm_compute; reflexivity]. intros st n st' n' r _ H. unfold appending in H. apply bind_Ret in H as (n1 & H & [= <- <- <-]).
      apply rtc_once. by eapply loose_append.
    + apply rtc_once. eapply (loose_step_tokenize _ unit two_tokens tt); [|vm_compute; reflexivity]. intros st n st' n' r _ [= <- <- <-]. apply rtc_refl.
  - constructor; [|done]. split; [done|]. eexists. split; [done|]. repeat (apply Forall_cons; split; [unfold token_in; cbn [t_offsets o_start o_end ns_norm sp_ns]; change (zlen _) with 4; lia|]). constructor.
  - eexists. split; [vm_compute; reflexivity|done].
Qed.
