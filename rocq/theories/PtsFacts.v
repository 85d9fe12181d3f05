(** Facts about PreTokString.v and Encodings.v. *)
From Coq Require Import ZifyBool.
From stdpp Require Import relations.
From Verif Require Import GoBase Strutils SplitPattern NormString Bpe Encodings PreTokString SpecText SpecNorm SpecHist SpecPts
  Utf8Facts SliceFacts NormFacts NormInv NormSlice HistFacts.
#[local] Open Scope Z_scope.

(** * Encodings *)
Lemma encoding_fold ts e :
  foldl add_token e ts = Encoding (e_ids e ++ map et_id ts) (e_type_ids e ++ map et_type ts) (e_tokens e ++ map et_token ts)
    (e_words e ++ map et_word ts) (e_offsets e ++ map et_offsets ts) (e_special e ++ map (λ _, 0) ts)
    (e_attention e ++ map (λ _, 1) ts) (e_overflowing e).
Proof.
  revert e. induction ts as [|t ts IH]; intros e; cbn [foldl map].
  - rewrite !app_nil_r. by destruct e.
  - rewrite IH. unfold add_token. cbn. by rewrite <- !app_assoc.
Qed.
Lemma encoding_from_tokens_eq ts :
  encoding_from_tokens ts = Encoding (map et_id ts) (map et_type ts) (map et_token ts) (map et_word ts) (map et_offsets ts)
    (map (λ _, 0) ts) (map (λ _, 1) ts) [].
Proof. unfold encoding_from_tokens. by rewrite encoding_fold. Qed.

(** * Loops *)
Lemma non_empty_filter l : base.filter (λ i, negb (ns_is_empty (sp_ns i))) l = non_empty l.
Proof.
  unfold non_empty. apply list_filter_iff. intros x. unfold ns_is_empty, ns_len. destruct (ns_norm (sp_ns x)) as [|b s]; cbn; split; try done.
Qed.

Section split.
  Context {St : Type} (f : split_func St).

  Lemma logged_eq st log i n : logged f (st, log) i n
    = (x ← f st i n; let '(st', n', r) := x in Ret ((st', log ++ [SplitCall i n r]), n', r)).
  Proof. done. Qed.
  Lemma split_loop_logged st log i l :
    split_loop f st i l = (x ← split_loop (logged f) (st, log) i l; Ret (x.1.1.1, x.1.2, x.2)).
  Proof.
    revert st log i. induction l as [|[n [ts|]] l IH]; intros st log i; cbn [split_loop sp_tokens]; [done|..].
    - rewrite (IH st log). destruct (split_loop (logged f) _ _ l) as [[[[s lg] old] new]|]; done.
    - cbn [sp_ns]. rewrite logged_eq. destruct (f st i n) as [[[st1 n'] [items|e]]|]; cbn [mbind outcome_bind]; [|done|done].
      rewrite (IH st1 (log ++ [SplitCall i n (Ok items)])). destruct (split_loop (logged f) _ _ l) as [[[[s lg] old] new]|]; done.
  Qed.

  (** What the calls were and what came of them. *)
  Lemma split_loop_spec st log i l st' log' old new :
    split_loop (logged f) (st, log) i l = Ret ((st', log'), old, new) →
    match new with
    | Ok out => ∃ calls rs, log' = log ++ calls ∧ map (λ c, (sc_index c, sc_input c)) calls = untokenized i l
        ∧ map sc_result calls = map Ok rs ∧ refined l rs out
    | Err e => ∃ a n b calls rs a' n', l = a ++ PSplit n None :: b ∧ old = a' ++ PSplit n' None :: b
        ∧ Forall2 (λ x y, sp_tokens y = sp_tokens x ∧ (sp_tokens x ≠ None → y = x)) a a'
        ∧ log' = log ++ calls ∧ map (λ c, (sc_index c, sc_input c)) calls = untokenized i (a ++ [PSplit n None])
        ∧ map sc_result calls = map Ok rs ++ [Err e]
    end.
  Proof.
    revert st log i st' log' old new. induction l as [|[n [ts|]] l IH]; intros st log i st' log' old new H; cbn [split_loop sp_tokens] in H.
    - injection H as <- <- <- <-. exists [], []. rewrite app_nil_r. split_and!; try done. constructor.
    - destruct (split_loop (logged f) (st, log) (i + 1) l) as [[[[s lg] old1] new1]|] eqn:E; [|done]. cbn [mbind outcome_bind] in H.
      injection H as <- <- <- Hn. specialize (IH _ _ _ _ _ _ _ E). destruct new1 as [out|e]; subst new.
      + destruct IH as (calls & rs & H1 & H2 & H3 & H4). exists calls, rs. split_and!; try done. by constructor.
      + destruct IH as (a & n0 & b & calls & rs & a' & n' & H1 & H2 & H3 & H4 & H5 & H6).
        exists (PSplit n (Some ts) :: a), n0, b, calls, rs, (PSplit n (Some ts) :: a'), n'. subst. split_and!; try done. by constructor.
    - cbn [sp_ns] in H. rewrite logged_eq in H. destruct (f st i n) as [[[st1 n1] [items|e]]|]; cbn [mbind outcome_bind] in H; [| |done].
      + destruct (split_loop (logged f) _ (i + 1) l) as [[[[s lg] old1] new1]|] eqn:E; [|done]. cbn [mbind outcome_bind] in H.
        injection H as <- <- <- Hn. specialize (IH _ _ _ _ _ _ _ E). destruct new1 as [out|e]; subst new.
        * destruct IH as (calls & rs & H1 & H2 & H3 & H4). exists (SplitCall i n (Ok items) :: calls), (items :: rs).
          subst lg. rewrite <- app_assoc. split_and!; [done|by cbn; f_equal|by cbn; f_equal|]. rewrite non_empty_filter. by constructor.
        * destruct IH as (a & n0 & b & calls & rs & a' & n' & H1 & H2 & H3 & H4 & H5 & H6).
          exists (PSplit n None :: a), n0, b, (SplitCall i n (Ok items) :: calls), (items :: rs), (PSplit n1 None :: a'), n'. subst.
          rewrite <- app_assoc. split_and!; [done..| |done|by cbn; f_equal|by cbn; f_equal]. by constructor.
      + injection H as <- <- <- <-. exists [], n, l, [SplitCall i n (Err e)], [], [], n1. split_and!; done.
  Qed.

  (** If strings are not modified, neither are the splits. *)
  Lemma split_loop_pure st i l st' old new :
    (∀ st i n st' n' r, f st i n = Ret (st', n', r) → n' = n) → split_loop f st i l = Ret (st', old, new) → old = l.
  Proof.
    intros Hf. revert st i st' old new. induction l as [|[n [ts|]] l IH]; intros st i st' old new H; cbn [split_loop sp_tokens sp_ns] in H.
    - by injection H as <- <- <-.
    - destruct (split_loop f st (i + 1) l) as [[[s old1] new1]|] eqn:E; [|done]. cbn [mbind outcome_bind] in H.
      injection H as <- <- <-. f_equal. by eapply IH.
    - destruct (f st i n) as [[[st1 n1] r]|] eqn:Ef; cbn [mbind outcome_bind] in H; [|done]. apply Hf in Ef as ->. destruct r as [items|e].
      + destruct (split_loop f st1 (i + 1) l) as [[[s old1] new1]|] eqn:E; [|done]. cbn [mbind outcome_bind] in H.
        injection H as <- <- <-. f_equal. by eapply IH.
      + by injection H as <- <- <-.
  Qed.

  Lemma split_loop_inv (P : ns → Prop) st i l st' old new :
    (∀ st i n st' n' r, f st i n = Ret (st', n', r) → P n → P n' ∧ ∀ l, r = Ok l → Forall (λ x, P (sp_ns x)) l) →
    split_loop f st i l = Ret (st', old, new) → Forall (λ x, P (sp_ns x)) l →
    Forall (λ x, P (sp_ns x)) old ∧ ∀ out, new = Ok out → Forall (λ x, P (sp_ns x)) out.
  Proof.
    intros Hf. revert st i st' old new. induction l as [|[n [ts|]] l IH]; intros st i st' old new H Hl; cbn [split_loop sp_tokens sp_ns] in H.
    - injection H as <- <- <-. split; [done|]. by intros out [= <-].
    - apply Forall_cons in Hl as [Hn Hl]. destruct (split_loop f st (i + 1) l) as [[[s old1] new1]|] eqn:E; [|done]. cbn [mbind outcome_bind] in H.
      injection H as <- <- <-. destruct (IH _ _ _ _ _ E Hl) as [H1 H2]. split; [by constructor|]. destruct new1 as [out|]; [|done].
      intros out' [= <-]. constructor; [done|by apply H2].
    - apply Forall_cons in Hl as [Hn Hl]. cbn [sp_ns] in Hn. destruct (f st i n) as [[[st1 n1] r]|] eqn:Ef; cbn [mbind outcome_bind] in H; [|done].
      destruct (Hf _ _ _ _ _ _ Ef Hn) as [Hn1 Hr]. destruct r as [items|e].
      + destruct (split_loop f st1 (i + 1) l) as [[[s old1] new1]|] eqn:E; [|done]. cbn [mbind outcome_bind] in H.
        injection H as <- <- <-. destruct (IH _ _ _ _ _ E Hl) as [H1 H2]. split; [by constructor|]. destruct new1 as [out|]; [|done].
        intros out' [= <-]. rewrite non_empty_filter. apply Forall_app. split; [|by apply H2]. apply Forall_forall.
        intros x [_ Hx]%elem_of_list_filter. pose proof (Hr _ eq_refl) as Hi. rewrite Forall_forall in Hi. by apply Hi.
      + injection H as <- <- <-. split; [by constructor|done].
  Qed.
End split.

Section normalize.
  Context {St : Type} (f : St → ns → outcome (St * ns * option err)).

  Lemma logged_norm_eq st log n : logged_norm f (st, log) n
    = (x ← f st n; let '(st', n', r) := x in Ret ((st', log ++ [NormCall n n' r]), n', r)).
  Proof. done. Qed.
  Lemma normalize_loop_logged st log l :
    normalize_loop f st l = (x ← normalize_loop (logged_norm f) (st, log) l; Ret (x.1.1.1, x.1.2, x.2)).
  Proof.
    revert st log. induction l as [|[n [ts|]] l IH]; intros st log; cbn [normalize_loop sp_tokens]; [done|..].
    - rewrite (IH st log). destruct (normalize_loop (logged_norm f) _ l) as [[[[s lg] old] new]|]; done.
    - cbn [sp_ns]. rewrite logged_norm_eq. destruct (f st n) as [[[st1 n'] [e|]]|]; cbn [mbind outcome_bind]; [done| |done].
      rewrite (IH st1 (log ++ [NormCall n n' None])). destruct (normalize_loop (logged_norm f) _ l) as [[[[s lg] old] new]|]; done.
  Qed.

  (** The calls, and the list with the untokenized splits' strings replaced by what the calls made of them. *)
  Lemma normalize_loop_spec st log l st' log' out e :
    normalize_loop (logged_norm f) (st, log) l = Ret ((st', log'), out, e) →
    ∃ a b calls, l = a ++ b ∧ log' = log ++ calls ∧ map nc_input calls = (untokenized 0 a).*2
      ∧ Forall2 (λ x y, sp_tokens y = sp_tokens x ∧ (sp_tokens x ≠ None → y = x)) a (take (length a) out)
      ∧ drop (length a) out = b ∧ (untokenized 0 (take (length a) out)).*2 = map nc_output calls
      ∧ match e with
        | None => b = [] ∧ map nc_result calls = map (λ _, None) calls
        | Some er => (∃ a0 n, a = a0 ++ [PSplit n None]) ∧ ∃ cs, map nc_result calls = map (λ _ : norm_call, None) cs ++ [Some er]
        end.
  Proof.
    assert (Hu : ∀ i j l, (untokenized i l).*2 = (untokenized j l).*2).
    { intros i j l0. revert i j. induction l0 as [|[n [ts|]] l0 IH]; intros i j; cbn [untokenized]; [done|apply IH|].
      rewrite !fmap_cons. cbn [snd]. f_equal. apply IH. }
    revert st log st' log' out e. induction l as [|[n [ts|]] l IH]; intros st log st' log' out e H; cbn [normalize_loop sp_tokens] in H.
    - injection H as <- <- <- <-. exists [], [], []. rewrite (app_nil_r log). split_and!; try done; constructor.
    - destruct (normalize_loop (logged_norm f) (st, log) l) as [[[[s lg] old1] new1]|] eqn:E; [|done]. cbn [mbind outcome_bind] in H.
      injection H as <- <- <- <-. destruct (IH _ _ _ _ _ _ E) as (a & b & calls & H1 & H2 & H3 & H4 & H5 & H6 & H7).
      exists (PSplit n (Some ts) :: a), b, calls. cbn [length take drop untokenized app]. subst l lg.
      split; [done|]. split; [done|]. split; [by rewrite (Hu (0 + 1) 0)|]. split; [by constructor|]. split; [done|]. split; [by rewrite (Hu (0 + 1) 0)|].
      destruct new1 as [er|]; [|done]. destruct H7 as [(a0 & n0 & ->) H7]. split; [|done]. by exists (PSplit n (Some ts) :: a0), n0.
    - cbn [sp_ns] in H. rewrite logged_norm_eq in H. destruct (f st n) as [[[st1 n1] [er|]]|]; cbn [mbind outcome_bind] in H; [| |done].
      + injection H as <- <- <- <-. exists [PSplit n None], l, [NormCall n n1 (Some er)]. cbn [length take drop untokenized app].
        split; [done|]. split; [done|]. split; [done|]. split; [by repeat constructor|]. split; [by rewrite take_0 || done|]. split; [by rewrite take_0|].
        split; [by exists [], n|by exists []].
      + destruct (normalize_loop (logged_norm f) _ l) as [[[[s lg] old1] new1]|] eqn:E; [|done]. cbn [mbind outcome_bind] in H.
        injection H as <- <- <- <-. destruct (IH _ _ _ _ _ _ E) as (a & b & calls & H1 & H2 & H3 & H4 & H5 & H6 & H7).
        exists (PSplit n None :: a), b, (NormCall n n1 None :: calls). cbn [length take drop untokenized app]. subst l lg.
        rewrite <- app_assoc. split; [done|]. split; [done|]. split; [rewrite (fmap_cons snd); cbn [map snd nc_input]; by rewrite H3, (Hu (0 + 1) 0)|].
        split; [by constructor|]. split; [done|]. split; [rewrite (fmap_cons snd); cbn [map snd nc_output]; by rewrite <- H6, (Hu (0 + 1) 0)|].
        destruct new1 as [er|].
        * destruct H7 as [(a0 & n0 & ->) (cs & H7)]. split; [by exists (PSplit n None :: a0), n0|].
          exists (NormCall n n1 None :: cs). cbn [map nc_result app]. by rewrite H7.
        * destruct H7 as [-> H7]. split; [done|]. cbn [map nc_result]. by rewrite H7.
  Qed.

  Lemma normalize_loop_inv (P : ns → Prop) st l st' out e :
    (∀ st n st' n' r, f st n = Ret (st', n', r) → P n → P n') →
    normalize_loop f st l = Ret (st', out, e) → Forall (λ x, P (sp_ns x)) l → Forall (λ x, P (sp_ns x)) out.
  Proof.
    intros Hf. revert st st' out e. induction l as [|[n [ts|]] l IH]; intros st st' out e H Hl; cbn [normalize_loop sp_tokens sp_ns] in H.
    - by injection H as <- <- <-.
    - apply Forall_cons in Hl as [Hn Hl]. destruct (normalize_loop f st l) as [[[s old1] new1]|] eqn:E; [|done]. cbn [mbind outcome_bind] in H.
      injection H as <- <- <-. constructor; [done|by eapply IH].
    - apply Forall_cons in Hl as [Hn Hl]. cbn [sp_ns] in Hn. destruct (f st n) as [[[st1 n1] r]|] eqn:Ef; cbn [mbind outcome_bind] in H; [|done].
      pose proof (Hf _ _ _ _ _ Ef Hn). destruct r as [er|].
      + injection H as <- <- <-. by constructor.
      + destruct (normalize_loop f st1 l) as [[[s old1] new1]|] eqn:E; [|done]. cbn [mbind outcome_bind] in H.
        injection H as <- <- <-. constructor; [done|by eapply IH].
  Qed.
End normalize.

Section tokenize.
  Context {St : Type} (f : St → ns → outcome (St * ns * result (list token))).

  Lemma logged_tok_eq st log n : logged_tok f (st, log) n
    = (x ← f st n; let '(st', n', r) := x in Ret ((st', log ++ [TokCall n n' r]), n', r)).
  Proof. done. Qed.
  Lemma tokenize_loop_logged st log l :
    tokenize_loop f st l = (x ← tokenize_loop (logged_tok f) (st, log) l; Ret (x.1.1.1, x.1.2, x.2)).
  Proof.
    revert st log. induction l as [|[n [ts|]] l IH]; intros st log; cbn [tokenize_loop sp_tokens]; [done|..].
    - rewrite (IH st log). destruct (tokenize_loop (logged_tok f) _ l) as [[[[s lg] old] new]|]; done.
    - cbn [sp_ns]. rewrite logged_tok_eq. destruct (f st n) as [[[st1 n'] [ts|e]]|]; cbn [mbind outcome_bind]; [|done|done].
      rewrite (IH st1 (log ++ [TokCall n n' (Ok ts)])). destruct (tokenize_loop (logged_tok f) _ l) as [[[[s lg] old] new]|]; done.
  Qed.

  Lemma tokenize_loop_spec st log l st' log' out e :
    tokenize_loop (logged_tok f) (st, log) l = Ret ((st', log'), out, e) →
    match e with
    | None => ∃ calls rs, log' = log ++ calls ∧ map tc_input calls = (untokenized 0 l).*2
        ∧ map (λ c, (tc_output c, tc_result c)) calls = map (λ r, (r.1, Ok r.2)) rs ∧ tokenized l rs out
    | Some er => ∃ a n b calls n' rs a', l = a ++ PSplit n None :: b ∧ out = a' ++ PSplit n' None :: b
        ∧ log' = log ++ calls ++ [TokCall n n' (Err er)] ∧ map tc_input calls = (untokenized 0 a).*2
        ∧ map (λ c, (tc_output c, tc_result c)) calls = map (λ r, (r.1, Ok r.2)) rs ∧ tokenized a rs a'
    end.
  Proof.
    assert (Hu : ∀ i j l, (untokenized i l).*2 = (untokenized j l).*2).
    { intros i j l0. revert i j. induction l0 as [|[n [ts|]] l0 IH]; intros i j; cbn [untokenized]; [done|apply IH|].
      rewrite !fmap_cons. cbn [snd]. f_equal. apply IH. }
    revert st log st' log' out e. induction l as [|[n [ts|]] l IH]; intros st log st' log' out e H; cbn [tokenize_loop sp_tokens] in H.
    - injection H as <- <- <- <-. exists [], []. rewrite app_nil_r. split_and!; try done. constructor.
    - destruct (tokenize_loop (logged_tok f) (st, log) l) as [[[[s lg] old1] new1]|] eqn:E; [|done]. cbn [mbind outcome_bind] in H.
      injection H as <- <- <- <-. specialize (IH _ _ _ _ _ _ E). destruct new1 as [er|].
      + destruct IH as (a & n0 & b & calls & n' & rs & a' & H1 & H2 & H3 & H4 & H5 & H6).
        exists (PSplit n (Some ts) :: a), n0, b, calls, n', rs, (PSplit n (Some ts) :: a'). subst. split_and!; try done.
        * cbn [untokenized]. by rewrite (Hu (0 + 1) 0).
        * by constructor.
      + destruct IH as (calls & rs & H1 & H2 & H3 & H4). exists calls, rs. split_and!; try done.
        * cbn [untokenized]. by rewrite (Hu (0 + 1) 0).
        * by constructor.
    - cbn [sp_ns] in H. rewrite logged_tok_eq in H. destruct (f st n) as [[[st1 n1] [ts|er]]|]; cbn [mbind outcome_bind] in H; [| |done].
      + destruct (tokenize_loop (logged_tok f) _ l) as [[[[s lg] old1] new1]|] eqn:E; [|done]. cbn [mbind outcome_bind] in H.
        injection H as <- <- <- <-. specialize (IH _ _ _ _ _ _ E). destruct new1 as [er|].
        * destruct IH as (a & n0 & b & calls & n' & rs & a' & H1 & H2 & H3 & H4 & H5 & H6).
          exists (PSplit n None :: a), n0, b, (TokCall n n1 (Ok ts) :: calls), n', ((n1, ts) :: rs), (PSplit n1 (Some ts) :: a'). subst.
          rewrite <- !app_assoc. split_and!; try done.
          -- cbn [untokenized]. rewrite (fmap_cons snd). cbn [map tc_input snd]. by rewrite H4, (Hu (0 + 1) 0).
          -- cbn [map fst snd tc_output tc_result]. by rewrite H5.
          -- by constructor.
        * destruct IH as (calls & rs & H1 & H2 & H3 & H4). exists (TokCall n n1 (Ok ts) :: calls), ((n1, ts) :: rs). subst.
          rewrite <- !app_assoc. split_and!; try done.
          -- cbn [untokenized]. rewrite (fmap_cons snd). cbn [map tc_input snd]. by rewrite H2, (Hu (0 + 1) 0).
          -- cbn [map fst snd tc_output tc_result]. by rewrite H3.
          -- by constructor.
      + injection H as <- <- <- <-. exists [], n, l, [], n1, [], []. split_and!; try done. constructor.
  Qed.

  Lemma tokenize_loop_inv (P : ns → Prop) st l st' out e :
    (∀ st n st' n' r, f st n = Ret (st', n', r) → P n → P n') →
    tokenize_loop f st l = Ret (st', out, e) → Forall (λ x, P (sp_ns x)) l → Forall (λ x, P (sp_ns x)) out.
  Proof.
    intros Hf. revert st st' out e. induction l as [|[n [ts|]] l IH]; intros st st' out e H Hl; cbn [tokenize_loop sp_tokens sp_ns] in H.
    - by injection H as <- <- <-.
    - apply Forall_cons in Hl as [Hn Hl]. destruct (tokenize_loop f st l) as [[[s old1] new1]|] eqn:E; [|done]. cbn [mbind outcome_bind] in H.
      injection H as <- <- <-. constructor; [done|by eapply IH].
    - apply Forall_cons in Hl as [Hn Hl]. cbn [sp_ns] in Hn. destruct (f st n) as [[[st1 n1] r]|] eqn:Ef; cbn [mbind outcome_bind] in H; [|done].
      pose proof (Hf _ _ _ _ _ Ef Hn). destruct r as [ts|er].
      + destruct (tokenize_loop f st1 l) as [[[s old1] new1]|] eqn:E; [|done]. cbn [mbind outcome_bind] in H.
        injection H as <- <- <-. constructor; [done|by eapply IH].
      + injection H as <- <- <-. by constructor.
  Qed.

  (** Runs of a tokenizer whose answers do not depend on its state, except for failures that leave the string alone. *)
  Hypothesis Hagree : ∀ s1 s2 n s1' s2' n1 n2 t1 t2,
    f s1 n = Ret (s1', n1, Ok t1) → f s2 n = Ret (s2', n2, Ok t2) → n1 = n2 ∧ t1 = t2.
  Hypothesis Hfail : ∀ s n s' n' e, f s n = Ret (s', n', Err e) → n' = n.

  Definition completes (x y : psplit) : Prop :=
    match sp_tokens x with
    | Some _ => y = x
    | None => ∃ s s' n' t, f s (sp_ns x) = Ret (s', n', Ok t) ∧ y = PSplit n' (Some t)
    end.
  Lemma completes_fun l o1 o2 : Forall2 completes l o1 → Forall2 completes l o2 → o1 = o2.
  Proof.
    intros H. revert o2. induction H as [|[n o] y l o1 Hx _ IH]; intros o2 H2; [by apply Forall2_nil_inv_l in H2 as ->|].
    apply Forall2_cons_inv_l in H2 as (z & o2' & Hz & H2 & ->). f_equal; [|by apply IH].
    unfold completes in *. cbn [sp_tokens sp_ns] in *. destruct o as [ts|]; [congruence|].
    destruct Hx as (s1 & s1' & n1 & t1 & F1 & ->), Hz as (s2 & s2' & n2 & t2 & F2 & ->). by destruct (Hagree _ _ _ _ _ _ _ _ _ F1 F2) as [-> ->].
  Qed.
  Lemma completes_done o : Forall (λ x, is_Some (sp_tokens x)) o → Forall2 completes o o.
  Proof. induction 1 as [|x o [t Hx] _ IH]; constructor; [|done]. unfold completes. by rewrite Hx. Qed.
  Lemma tokenize_loop_completes s l s' l1 e out :
    tokenize_loop f s l = Ret (s', l1, e) → Forall2 completes l1 out → Forall2 completes l out.
  Proof.
    revert s s' l1 e out. induction l as [|[n [ts|]] l IH]; intros s s' l1 e out H Ho; cbn [tokenize_loop sp_tokens sp_ns] in H.
    - by injection H as <- <- <-.
    - destruct (tokenize_loop f s l) as [[[a1 b1] c1]|] eqn:E1; [|done]. cbn [mbind outcome_bind] in H. injection H as <- <- <-.
      apply Forall2_cons_inv_l in Ho as (y & o & Hy & Ho & ->). constructor; [done|]. by eapply IH.
    - destruct (f s n) as [[[p1 n1] [t1|e1]]|] eqn:F1; [| |done]; cbn [mbind outcome_bind] in H.
      + destruct (tokenize_loop f p1 l) as [[[a1 b1] c1]|] eqn:E1; [|done]. cbn [mbind outcome_bind] in H. injection H as <- <- <-.
        apply Forall2_cons_inv_l in Ho as (y & o & Hy & Ho & ->). constructor; [|by eapply IH]. unfold completes in *. cbn in *. subst y. eauto 10.
      + injection H as <- <- <-. by rewrite (Hfail _ _ _ _ _ F1) in Ho.
  Qed.
End tokenize.

(** * Histories *)
Lemma text_at_trans s i j x a b y : text_at s i j x → text_at x a b y → text_at s (i + a) (i + b) y.
Proof.
  intros (p & q & -> & -> & ->) (p' & q' & -> & -> & ->). exists (p ++ p'), (q' ++ q).
  rewrite <- !app_assoc. split; [done|]. rewrite !zlen_app. lia.
Qed.

Lemma edit_same_or_slice n n' : edit n n' → same_origin n n' ∨ ∃ r, slice n r = Ret (Some n').
Proof.
  intros H. destruct H as [f n' H|f n' H|l r n' H|p n' H|p n' _ H|p cs c n' _ _ _ H|d o n' H|r d o n' s e ok _ _ H|r n' H];
    [left; by eapply transform_range_origin|left; by eapply transform_range_origin|left|left|left|left
    |left; by eapply transform_range_origin|left; by eapply transform_range_origin|right; eauto].
  - unfold trim_left_right in H. destruct (_ && _) in H; [by injection H as <-|]. by eapply transform_range_origin.
  - unfold prepend in H. destruct (_ =? _) in H; [by injection H as <-|].
    apply bind_Ret in H as (x & _ & H). by eapply transform_range_origin.
  - unfold append in H. destruct (_ =? _) in H; [by injection H as <-|].
    apply bind_Ret in H as (x & _ & H). by eapply transform_range_origin.
  - unfold replace in H. apply bind_Ret in H as ([cs'|er] & _ & H); [|done].
    apply bind_Ret in H as (m & H & [= <-]). by eapply replace_loop_origin.
Qed.

Lemma slice_origin n r n' : slice n r = Ret (Some n') → ∃ a b, text_at (ns_orig n) a b (ns_orig n') ∧ ns_shift n' = ns_shift n + a.
Proof.
  unfold slice. intros H. apply bind_Ret in H as (v & _ & H). destruct (negb v); [done|].
  destruct (coerce_to_norm n r) as [[n_s n_e] nok]. destruct (negb nok); [done|].
  apply bind_Ret in H as ([[o_s o_e] ook] & Ho & H). destruct ook; [|done]. cbn [negb] in H.
  apply bind_Ret in H as (orig & Hg & H). apply bind_Ret in H as (norm & _ & H). apply bind_Ret in H as (als & _ & H). injection H as <-.
  unfold get_original_range in Hg. rewrite Ho in Hg. cbn [mbind outcome_bind negb] in Hg. apply bind_Ret in Hg as (x & Hx & [= <-]).
  exists o_s, o_e. cbn. split; [by apply text_at_sub|done].
Qed.

Lemma edit_rooted root n n' : edit n n' → rooted root n → rooted root n'.
Proof.
  intros [H|[r H]]%edit_same_or_slice; unfold rooted.
  - destruct H as [-> ->]. done.
  - intros Hr. destruct (slice_origin _ _ _ H) as (a & b & Ht & ->). pose proof (text_at_trans _ _ _ _ _ _ _ Hr Ht) as H2.
    destruct Ht as (p & q & _ & -> & ->). by rewrite <- Z.add_assoc.
Qed.

Lemma edits_keep root n n' : rtc edit n n' → wf n ∧ rooted root n → wf n' ∧ rooted root n'.
Proof.
  induction 1 as [|x y z Hxy _ IH]; [done|]. intros [H1 H2]. apply IH. split; [by eapply edit_wf|by eapply edit_rooted].
Qed.

Definition good (root : list Z) (p : pts) : Prop :=
  p_original p = root ∧ Forall (λ x, wf (sp_ns x) ∧ rooted root (sp_ns x)) (p_splits p).

Lemma pts_step_good root p p' : pts_step p p' → good root p → good root p'.
Proof.
  intros H [Ho Hg]. destruct H as [St f st st' p' e Hf H|St f st st' p' e Hf H|St f st st' p' e Hf H].
  - unfold pts_split in H. apply bind_Ret in H as ([[s old] new] & H & E).
    assert (Hs : ∀ st i n st' n' r, f st i n = Ret (st', n', r) → wf n ∧ rooted root n →
      (wf n' ∧ rooted root n') ∧ ∀ l, r = Ok l → Forall (λ x, wf (sp_ns x) ∧ rooted root (sp_ns x)) l).
    { intros st0 i n st1 n1 r Hr Hn. destruct (Hf _ _ _ _ _ _ (proj1 Hn) Hr) as [H1 H2]. split; [exact (edits_keep root _ _ H1 Hn)|].
      intros l Hl. pose proof (H2 l Hl) as H3. eapply Forall_impl; [exact H3|]. intros x Hx. exact (edits_keep root _ _ Hx Hn). }
    destruct (split_loop_inv f (λ n, wf n ∧ rooted root n) _ _ _ _ _ _ Hs H Hg) as [H1 H2].
    destruct new as [l|er]; injection E as <- <- <-; (split; [done|]); [by apply H2|done].
  - unfold pts_normalize in H. apply bind_Ret in H as ([[s l] er] & H & E). injection E as <- <- <-. split; [done|].
    eapply (normalize_loop_inv f (λ n, wf n ∧ rooted root n)); [|done|done]. intros ? ? ? ? ? Hr Hn. eapply edits_keep; [|exact Hn]. eapply Hf; [exact (proj1 Hn)|exact Hr].
  - unfold pts_tokenize in H. apply bind_Ret in H as ([[s l] er] & H & E). injection E as <- <- <-. split; [done|].
    eapply (tokenize_loop_inv f (λ n, wf n ∧ rooted root n)); [|done|done]. intros ? ? ? ? ? Hr Hn. eapply edits_keep; [|exact Hn]. eapply Hf; [exact (proj1 Hn)|exact Hr].
Qed.

Lemma reachable_pts_good p : reachable_pts p → ∃ rs, scalars rs ∧ good (encode rs) p.
Proof.
  intros (rs & Hs & H). exists rs. split; [done|].
  assert (good (encode rs) (pts_from_string (encode rs))) as Hg.
  { split; [done|]. constructor; [|done]. cbn [sp_ns]. split; [eexists; by apply from_string_wf|].
    exists [], []. cbn. rewrite app_nil_r. done. }
  revert Hg. induction H as [|x y z Hxy _ IH]; [done|]. intros Hg. apply IH. by eapply pts_step_good.
Qed.
