(** Every history keeps the invariants. *)
From Coq Require Import ZifyBool Sorted.
From stdpp Require Import relations.
From Verif Require Import GoBase Utf8Facts Strutils SplitPattern NormString SpecText SpecNorm SpecHist SliceFacts
  StrutilsFacts PatternFacts NormFacts NormEdits NormInv NormReplace NormSlice.

Lemma edit_wf n n' : wf n → edit n n' → wf n'.
Proof.
  intros Hwf H. destruct H as [f n' H|keep n' H|l r n' H|p n' H|p n' Hb H|p cs content n' Hp Hc Hs H|dest off n' H
    |r dest off n' s e ok Hc Hb H|r n' H].
  - by eapply map_runes_wf.
  - by eapply filter_runes_wf.
  - by eapply trim_wf.
  - by eapply prepend_wf.
  - eapply append_wf; [done| |done]. tauto.
  - by eapply replace_wf.
  - by eapply transform_wf.
  - destruct ok.
    + destruct (Hb eq_refl) as (H1 & H2 & H3). by eapply transform_range_wf.
    + unfold transform_range in H. rewrite Hc in H. cbn [negb] in H. by injection H as <-.
  - by eapply slice_wf.
Qed.

Lemma reachable_wf n : reachable n → wf n.
Proof.
  intros (rs & Hs & H). assert (Hwf : wf (from_string (encode rs))) by (eexists; by apply from_string_wf).
  revert Hwf. induction H as [|x y z Hxy _ IH]; [done|]. intros Hx. apply IH. by eapply edit_wf.
Qed.

Lemma wf_invariants n : wf n → invariants n.
Proof.
  intros (v & (Hs & Hn & Hal) & Hv & Ha). split; [rewrite Hn; apply valid_utf8_encode|]. split; [done|].
  split; [rewrite Hal, Hn, zlen_spans; done|]. split; [|split].
  - intros i a Hi. rewrite Hal in Hi. apply idx_spans_in in Hi. destruct Ha as [Hok _]. rewrite Forall_forall in Hok.
    pose proof (Hok a Hi) as Ho. pose proof (span_ok_nonneg _ _ Ho). destruct Ho as (_ & H1 & H2). repeat split; (done || lia).
  - intros i j a b Hij Hi Hj. rewrite Hal in Hi, Hj. eapply (aligned_al_sorted _ _ Ha i j); [by right|by right|done].
  - intros l r l' i Hs' Heq Hi. rewrite Hn in Heq. apply encode_inj_scalars in Heq; [|done|done].
    apply fmap_app_inv in Heq as (v1 & v2 & Hl & Hr & Hv'). symmetry in Hr. apply fmap_cons_inv in Hr as ([x a] & v3 & Hx & _ & ->).
    cbn in Hx. subst x. rewrite Hal, Hv'. subst l.
    change (zlen (encode v1.*1)) with (alen v1). rewrite idx_spans_middle by done.
    pose proof (idx_spans_middle v1 r a v3 0) as H0. rewrite Z.add_0_r in H0. rewrite H0; [done|].
    pose proof (rune_len_bounds r). lia.
Qed.
