(** Contractions with and without regard to case (C111). *)
From Coq Require Import ZifyBool.
From stdpp Require Import sets.
From Verif Require Import GoBase Utf8Facts SpecGpt2 SpecRef Gpt2Facts.
Import GoBase.
#[local] Open Scope Z_scope.

Section case.
  Context (fold : Z → Z) (letter number space : Z → bool).
  Notation same := (λ c : Z, c).
  Notation first_piece f := (first_piece f letter number space).
  Notation pieces f := (pieces f letter number space).

  (** The first characters of the endings differ. *)
  Lemma endings_head w w' t t' : w ∈ endings → w' ∈ endings → w ++ t = w' ++ t' → w = w'.
  Proof.
    unfold endings. intros H H' E. repeat (apply elem_of_cons in H as [->|H]); try (by apply elem_of_nil in H);
      repeat (apply elem_of_cons in H' as [->|H']); try (by apply elem_of_nil in H'); by simplify_list_eq.
  Qed.
  Lemma contracts_same s w x t : contracts same s w x t ↔ s = x ++ t ∧ x = 39 :: w.
  Proof. unfold contracts. by rewrite (map_id x), (map_id (39 :: w)). Qed.
  Lemma contracts_weak s w x t : contracts same s w x t → contracts fold s w x t.
  Proof. rewrite contracts_same. intros [-> ->]. done. Qed.

  Lemma first_same s x t : first_piece fold s x t → ¬ capitalised fold x → first_piece same s x t.
  Proof.
    intros H Hx.
    assert (Hw : (∀ w x t', w ∈ endings → ¬ contracts fold s w x t') → ∀ w x t', w ∈ endings → ¬ contracts same s w x t').
    { intros Hn w x' t' Hin Hc. by eapply Hn, contracts_weak. }
    destruct H as [s before w after x t E Hc Hb|s k sp y t Hn E Hsp Hk Hy Ha Hst|s Hn Hne Ha|s x w t Hn E Hne Ha Ht Hst|s w t Hn E Hw32 Hk Ht Hst].
    - assert (∃ w', w' ∈ endings ∧ x = 39 :: w') as (w' & Hin & ->).
      { destruct (decide (Exists (λ w', x = 39 :: w') endings)) as [(w' & ? & ?)%Exists_exists|Hno]; [by exists w'|]. exfalso. apply Hx. split.
        - exists w. destruct Hc as [_ Hc]. split; [|done]. rewrite E. set_solver.
        - intros w' Hin ->. apply Hno, Exists_exists. by exists w'. }
      destruct Hc as [-> _]. apply elem_of_list_split in Hin as (b' & a' & E'). apply (first_contraction same letter number space _ b' w' a'); [done|by apply contracts_same|].
      intros w'' x'' t'' Hin''. rewrite contracts_same. intros [E2 ->]. injection E2 as E2.
      assert (w' = w'') as <-. { eapply endings_head; [| |exact E2]; rewrite E'; set_solver. }
      assert (NoDup endings) as Hnd by (repeat constructor; set_solver). rewrite E' in Hnd. apply NoDup_app in Hnd as (_ & Hnd & _). apply (Hnd _ Hin''). set_solver.
    - by eapply first_run; [apply Hw|..].
    - by apply first_end; [apply Hw|..].
    - by eapply first_spaces; [apply Hw|..].
    - by eapply first_one; [apply Hw|..].
  Qed.
  Lemma pieces_same s ps : pieces fold s ps → Forall (λ x, ¬ capitalised fold x) ps → pieces same s ps.
  Proof.
    induction 1 as [|s x t ps H _ IH]; intros HF; [constructor|]. apply Forall_cons in HF as [Hx HF]. econstructor; [by eapply first_same|by apply IH].
  Qed.

  Lemma capitalised_shape x : letter_case fold letter → capitalised fold x → ∃ c y, x = 39 :: c :: y ∧ letter c = true.
  Proof.
    intros (H1 & _ & H3) ((w & Hin & E) & _). destruct x as [|a x]; [done|]. cbn [map] in E. injection E as Ea E. apply H1 in Ea as ->.
    destruct w as [|d w]; [exfalso; unfold endings in Hin; set_solver|]. destruct x as [|c y]; [done|]. cbn [map] in E. injection E as Ec _.
    exists c, y. split; [done|]. eapply H3; [exact Hin| |exact Ec]. set_solver.
  Qed.
  Lemma first_not_capitalised s x t : letter_case fold letter → disjoint_kinds letter number space → first_piece same s x t → ¬ capitalised fold x.
  Proof.
    intros Hl Hk H Hc. destruct (capitalised_shape x Hl Hc) as (c & y & -> & Hletter). destruct Hl as (_ & H39 & _).
    assert (Hkc : kind_at letter number space c = KLetter) by (unfold kind_at; by rewrite Hletter).
    assert (Hk39 : kind_at letter number space 39 ≠ KLetter) by (unfold kind_at; rewrite H39; by repeat case_match).
    remember (39 :: c :: y) as x0 eqn:Ex. destruct H as [s before w after x t E Hc' Hb|s k sp z t Hn E Hsp Hks Hy Ha Hst|s Hn Hne Ha|s x w t Hn E Hne Ha Ht Hst|s w t Hn E Hw32 Hks Ht Hst].
    - apply contracts_same in Hc' as [_ Hc']. destruct Hc as [_ Hc]. apply (Hc w); [rewrite E; set_solver|done].
    - destruct Hsp as [->| ->]; [|done]. cbn [app] in Ex. subst z. apply Forall_cons in Ha as [Ha1 Ha]. apply Forall_cons in Ha as [Ha2 _]. congruence.
    - subst s. apply Forall_cons in Ha as [_ Ha]. apply Forall_cons in Ha as [Ha2 _]. congruence.
    - subst x. apply Forall_cons in Ha as [_ Ha]. apply Forall_cons in Ha as [Ha2 _]. congruence.
    - done.
  Qed.
  Lemma pieces_not_capitalised s ps : letter_case fold letter → disjoint_kinds letter number space → pieces same s ps → Forall (λ x, ¬ capitalised fold x) ps.
  Proof. intros Hl Hk. induction 1 as [|s x t ps H _ IH]; constructor; [by eapply first_not_capitalised|done]. Qed.
End case.
