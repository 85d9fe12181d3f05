(** Facts for C110. *)
From Coq Require Import ZifyBool.
From stdpp Require Import relations.
From Verif Require Import GoBase Strutils SplitPattern NormString Normalizers Bpe Encodings PreTokString PreTokenizers SpecText SpecNorm SpecLoose LooseFacts
  SliceFacts Recover SpecRecover.
Import GoBase NormString.
#[local] Open Scope Z_scope.

(** ** Single edits *)
Definition aon (m : method ns unit) (f : ns → outcome ns) : Prop := ∀ n, m n = match f n with Ret n' => (n', Ret tt) | Panic => (n, Panic) end.

Lemma m_transform_range_eq r dest off : aon (m_transform_range r dest off) (λ n, transform_range n r dest off).
Proof.
  intros n. unfold m_transform_range, m_bind, m_read, m_ret, m_write, tr_before, transform_range. destruct (coerce_to_norm n r) as [[s e] ok]. destruct ok; cbn [negb]; [|done].
  destruct (sub (ns_norm n) s e) as [rep|] eqn:E; cbn [mbind outcome_bind]; [|done]. destruct (sub rep 0 off) as [r0|]; cbn [mbind outcome_bind]; [|done].
  destruct (sub rep off (zlen rep)) as [r1|]; cbn [mbind outcome_bind]; [|done]. destruct (tr_loop _ _ _ _) as [x|]; cbn [mbind outcome_bind]; [|done].
  destruct (sub (ns_al n) 0 s) as [ab|]; cbn [mbind outcome_bind]; [|done]. destruct (sub (ns_al n) e _) as [aa|]; cbn [mbind outcome_bind]; [|done]. cbn [set_al ns_norm].
  apply sub_bounds in E as Hb. destruct (sub_total (ns_norm n) 0 s) as (a & ->); [lia..|]. destruct (sub_total (ns_norm n) e (zlen (ns_norm n))) as (b & ->); [lia..|]. done.
Qed.
Lemma m_transform_eq dest off : aon (m_transform dest off) (λ n, transform n dest off).
Proof. intros n. apply m_transform_range_eq. Qed.
Lemma m_map_eq f : aon (m_map f) (λ n, map_runes n f).
Proof. intros n. apply m_transform_eq. Qed.
Lemma m_filter_eq keep : aon (m_filter keep) (λ n, filter_runes n keep).
Proof. intros n. apply m_transform_eq. Qed.
Lemma m_trim_eq l r : aon (m_trim l r) (λ n, trim_left_right n l r).
Proof. intros n. unfold m_trim, trim_left_right. destruct (_ && _); [done|]. apply m_transform_eq. Qed.
Lemma m_prepend_eq s : aon (m_prepend s) (λ n, prepend n s).
Proof.
  intros n. unfold m_prepend, prepend. destruct (_ =? _); [done|]. unfold m_bind, m_read. destruct (idx _ 0) as [a|]; cbn [mbind outcome_bind]; [|done]. apply m_transform_range_eq.
Qed.
Lemma m_append_eq s : aon (m_append s) (λ n, append n s).
Proof.
  intros n. unfold m_append, append. destruct (_ =? _); [done|]. unfold m_bind, m_read. destruct (idx _ _) as [a|]; cbn [mbind outcome_bind]; [|done]. apply m_transform_range_eq.
Qed.
Lemma m_chinese_eq : aon m_handle_chinese handle_chinese.
Proof. intros n. apply m_transform_eq. Qed.
Lemma m_byte_level_normalize_eq : aon m_byte_level_normalize byte_level_normalize.
Proof.
  intros n. unfold m_byte_level_normalize, byte_level_normalize, m_bind, m_read. destruct (byte_changes _ _ _) as [c|]; cbn [mbind outcome_bind]; [|done]. apply m_transform_eq.
Qed.
Lemma aon_all m f : aon m f → all_or_nothing m (λ n, n' ← f n; Ret (n', tt)).
Proof. intros H n. rewrite H. cbn beta. by destruct (f n). Qed.
Lemma aon_left m f n : aon m f → (m n).1 = match f n with Ret n' => n' | Panic => n end.
Proof. intros H. rewrite H. by destruct (f n). Qed.

(** ** Replace *)
Lemma m_replace_loop_eq cs content : ∀ off n,
  match m_replace_loop cs content off n with
  | (n', Ret _) => replace_loop n cs content off = Ret n'
  | (n', Panic) => replace_loop n cs content off = Panic
      ∧ ∃ cs1 c cs2, cs = cs1 ++ c :: cs2 ∧ replace_loop n cs1 content off = Ret n' ∧ replace_loop n (cs1 ++ [c]) content off = Panic
  end.
Proof.
  induction cs as [|c cs IH]; intros off n; cbn [m_replace_loop replace_loop]; [done|]. destruct (c_match c) eqn:Em; cbn [negb].
  - unfold m_bind at 1, m_read. destruct (sub (ns_norm n) _ _) as [t|] eqn:Et; cbn [mbind outcome_bind].
    + unfold m_bind. rewrite m_transform_range_eq. destruct (transform_range n _ _ _) as [n1|] eqn:E1; cbn [mbind outcome_bind].
      * specialize (IH (off + (zlen content - (c_end c - c_start c))) n1). destruct (m_replace_loop cs content _ n1) as [n' [u|]]; [done|].
        destruct IH as [H (cs1 & c' & cs2 & -> & H1 & H2)]. split; [done|]. exists (c :: cs1), c', cs2. split; [done|]. cbn [app replace_loop]. rewrite Em. cbn [negb].
        rewrite Et. cbn [mbind outcome_bind]. rewrite E1. cbn [mbind outcome_bind]. done.
      * split; [done|]. exists [], c, cs. split; [done|]. split; [done|]. cbn [app replace_loop]. rewrite Em. cbn [negb]. rewrite Et. cbn [mbind outcome_bind]. by rewrite E1.
    + split; [done|]. exists [], c, cs. split; [done|]. split; [done|]. cbn [app replace_loop]. rewrite Em. cbn [negb]. by rewrite Et.
  - specialize (IH off n). destruct (m_replace_loop cs content off n) as [n' [u|]]; [done|]. destruct IH as [H (cs1 & c' & cs2 & -> & H1 & H2)]. split; [done|].
    exists (c :: cs1), c', cs2. split; [done|]. cbn [app replace_loop]. rewrite Em. cbn [negb]. done.
Qed.
Lemma m_replace_eq p content n :
  match m_replace p content n with
  | (n', Ret e) => replace n p content = Ret (match e with Some er => Err er | None => Ok n' end) ∧ (e ≠ None → n' = n)
  | (n', Panic) => replace n p content = Panic
      ∧ ((p (ns_norm n) = Panic ∧ n' = n)
         ∨ ∃ cs1 c cs2, p (ns_norm n) = Ret (Ok (cs1 ++ c :: cs2)) ∧ replace n (λ _, Ret (Ok cs1)) content = Ret (Ok n')
             ∧ replace n (λ _, Ret (Ok (cs1 ++ [c]))) content = Panic)
  end.
Proof.
  unfold m_replace, m_bind, m_read, replace. destruct (p (ns_norm n)) as [[cs|e]|] eqn:Ep; cbn [mbind outcome_bind].
  - pose proof (m_replace_loop_eq cs content 0 n) as H. destruct (m_replace_loop cs content 0 n) as [n' [u|]]; cbn.
    + rewrite H. done.
    + destruct H as [H (cs1 & c & cs2 & -> & H1 & H2)]. rewrite H. split; [done|]. right. exists cs1, c, cs2. rewrite H1, H2. done.
  - done.
  - split; [done|]. by left.
Qed.

(** ** Histories of a string *)
Lemma aon_loose (m : method ns unit) f n : aon m f → (∀ n', f n = Ret n' → loose_edit n n') → rtc loose_edit n (m n).1.
Proof. intros Hm H. rewrite (aon_left m f n Hm). destruct (f n) as [n'|]; [by apply rtc_once, H|apply rtc_refl]. Qed.
Lemma recovered_loose n n' : recovered_edit n n' → rtc loose_edit n n'.
Proof.
  destruct 1 as [f|keep|l r|p|p|p content|dest off|r dest off s e ok H1 H2|r n' H|p b l n' H Hl].
  - eapply aon_loose; [apply m_map_eq|]. intros n1 E1; eapply loose_map; exact E1.
  - eapply aon_loose; [apply m_filter_eq|]. intros n1 E1; eapply loose_filter; exact E1.
  - eapply aon_loose; [apply m_trim_eq|]. intros n1 E1; eapply loose_trim; exact E1.
  - eapply aon_loose; [apply m_prepend_eq|]. intros n1 E1; eapply loose_prepend; exact E1.
  - eapply aon_loose; [apply m_append_eq|]. intros n1 E1; eapply loose_append; exact E1.
  - pose proof (m_replace_eq p content n) as H. destruct (m_replace p content n) as [n' [[er|]|]]; cbn [fst].
    + destruct H as [_ H]. rewrite H; [apply rtc_refl|done].
    + apply rtc_once. eapply loose_replace. by apply H.
    + destruct H as [_ [[_ ->]|(cs1 & c & cs2 & _ & H & _)]]; [apply rtc_refl|]. apply rtc_once. by eapply loose_replace.
  - eapply aon_loose; [apply m_transform_eq|]. intros n1 E1; eapply loose_transform; exact E1.
  - eapply aon_loose; [apply m_transform_range_eq|]. intros n1 E1; eapply loose_transform_range; [exact H1|exact H2|exact E1].
  - apply rtc_once. by eapply loose_slice.
  - apply rtc_once. by eapply loose_piece.
Qed.
Lemma aon_is (m : method ns unit) f n n' : aon m f → f n = Ret n' → n' = (m n).1.
Proof. intros Hm H. rewrite (aon_left m f n Hm). by rewrite H. Qed.
Lemma loose_recovered n n' : loose_edit n n' → recovered_edit n n'.
Proof.
  destruct 1 as [f n' H|keep n' H|l r n' H|p n' H|p n' H|p content n' H|dest off n' H|r dest off n' s e ok H1 H2 H|r n' H|p b l n' H Hl].
  - rewrite (aon_is _ _ _ _ (m_map_eq f) H). constructor.
  - rewrite (aon_is _ _ _ _ (m_filter_eq keep) H). constructor.
  - rewrite (aon_is _ _ _ _ (m_trim_eq l r) H). constructor.
  - rewrite (aon_is _ _ _ _ (m_prepend_eq p) H). constructor.
  - rewrite (aon_is _ _ _ _ (m_append_eq p) H). constructor.
  - pose proof (m_replace_eq p content n) as E. pose proof (recovered_replace n p content) as R. destruct (m_replace p content n) as [m [[er|]|]]; cbn [fst] in R.
    + destruct E as [E _]. rewrite H in E. done.
    + destruct E as [E _]. rewrite H in E. by injection E as ->.
    + destruct E as [E _]. by rewrite H in E.
  - rewrite (aon_is _ _ _ _ (m_transform_eq dest off) H). constructor.
  - rewrite (aon_is _ _ _ _ (m_transform_range_eq r dest off) H). by econstructor.
  - by eapply recovered_slice.
  - by eapply recovered_piece.
Qed.
Lemma recovered_rtc n n' : rtc recovered_edit n n' ↔ rtc loose_edit n n'.
Proof.
  split.
  - induction 1 as [|x y z H _ IH]; [apply rtc_refl|]. etrans; [by apply recovered_loose|done].
  - induction 1 as [|x y z H _ IH]; [apply rtc_refl|]. eapply rtc_l; [by apply loose_recovered|done].
Qed.

(** ** Pre-tokenized strings *)
Definition split_panic_as {St} (e : err) (f : St → Z → ns → St * ns * outcome (result (list psplit))) : split_func St := λ st i, panic_as (Err e) (λ st, f st i) st.
Definition err_of (e : err) {A} (o : outcome (result A)) : result A := match o with Ret r => r | Panic => Err e end.
Lemma m_split_loop_eq {St} (f : St → Z → ns → St * ns * outcome (result (list psplit))) e l : ∀ st i,
  split_loop (split_panic_as e f) st i l = Ret ((m_split_loop f st i l).1, err_of e (m_split_loop f st i l).2).
Proof.
  induction l as [|[n [ts|]] l IH]; intros st i; cbn [split_loop m_split_loop sp_tokens sp_ns]; [done| |].
  - rewrite IH. cbn [mbind outcome_bind]. destruct (m_split_loop f st (i + 1) l) as [[st' old] [[new|er]|]]; done.
  - change (split_panic_as e f st i n) with (let '(st', n', o) := f st i n in Ret (st', n', match o with Ret r => r | Panic => Err e end)). destruct (f st i n) as [[st1 n'] [[items|er]|]]; cbn [mbind outcome_bind]; [|done..].
    rewrite IH. cbn [mbind outcome_bind]. destruct (m_split_loop f st1 (i + 1) l) as [[st' old] [[new|er]|]]; done.
Qed.
Lemma m_pts_split_eq {St} (f : St → Z → ns → St * ns * outcome (result (list psplit))) e st p :
  pts_split (split_panic_as e f) st p
  = Ret ((m_pts_split f st p).1, match (m_pts_split f st p).2 with Ret er => er | Panic => Some e end).
Proof.
  unfold pts_split, m_pts_split. rewrite m_split_loop_eq. cbn [mbind outcome_bind]. destruct (m_split_loop f st 0 (p_splits p)) as [[st' old] [[new|er]|]]; done.
Qed.
Lemma m_normalize_loop_eq {St} (f : m_func St (option err)) e l : ∀ st,
  normalize_loop (panic_as (Some e) f) st l
  = Ret ((m_normalize_loop f st l).1, match (m_normalize_loop f st l).2 with Ret er => er | Panic => Some e end).
Proof.
  induction l as [|[n [ts|]] l IH]; intros st; cbn [normalize_loop m_normalize_loop sp_tokens sp_ns]; [done| |].
  - rewrite IH. cbn [mbind outcome_bind]. destruct (m_normalize_loop f st l) as [[st' old] [[er|]|]]; done.
  - change (panic_as (Some e) f st n) with (let '(st', n', o) := f st n in Ret (st', n', match o with Ret r => r | Panic => Some e end)). destruct (f st n) as [[st1 n'] [[er|]|]]; cbn [mbind outcome_bind]; [done| |done].
    rewrite IH. cbn [mbind outcome_bind]. destruct (m_normalize_loop f st1 l) as [[st' old] [[er|]|]]; done.
Qed.
Lemma m_pts_normalize_eq {St} (f : m_func St (option err)) e st p :
  pts_normalize (panic_as (Some e) f) st p
  = Ret ((m_pts_normalize f st p).1, match (m_pts_normalize f st p).2 with Ret er => er | Panic => Some e end).
Proof.
  unfold pts_normalize, m_pts_normalize. rewrite m_normalize_loop_eq. cbn [mbind outcome_bind]. destruct (m_normalize_loop f st (p_splits p)) as [[st' old] o]; done.
Qed.
Lemma m_tokenize_loop_eq {St} (f : m_func St (result (list token))) e l : ∀ st,
  tokenize_loop (panic_as (Err e) f) st l
  = Ret ((m_tokenize_loop f st l).1, match (m_tokenize_loop f st l).2 with Ret er => er | Panic => Some e end).
Proof.
  induction l as [|[n [ts|]] l IH]; intros st; cbn [tokenize_loop m_tokenize_loop sp_tokens sp_ns]; [done| |].
  - rewrite IH. cbn [mbind outcome_bind]. destruct (m_tokenize_loop f st l) as [[st' old] [[er|]|]]; done.
  - change (panic_as (Err e) f st n) with (let '(st', n', o) := f st n in Ret (st', n', match o with Ret r => r | Panic => Err e end)). destruct (f st n) as [[st1 n'] [[ts|er]|]]; cbn [mbind outcome_bind]; [|done..].
    rewrite IH. cbn [mbind outcome_bind]. destruct (m_tokenize_loop f st1 l) as [[st' old] [[er|]|]]; done.
Qed.
Lemma m_pts_tokenize_eq {St} (f : m_func St (result (list token))) e st p :
  pts_tokenize (panic_as (Err e) f) st p
  = Ret ((m_pts_tokenize f st p).1, match (m_pts_tokenize f st p).2 with Ret er => er | Panic => Some e end).
Proof.
  unfold pts_tokenize, m_pts_tokenize. rewrite m_tokenize_loop_eq. cbn [mbind outcome_bind]. destruct (m_tokenize_loop f st (p_splits p)) as [[st' old] o]; done.
Qed.

Lemma recovered_step_loose p p' : recovered_step p p' → loose_step p p'.
Proof.
  destruct 1 as [St f st H|St f st H|St f st H].
  - pose proof (m_pts_split_eq f ENotTokenized st p) as E. destruct (m_pts_split f st p) as [[st' p'] o]. cbn [fst snd] in E |- *. eapply loose_step_split; [|exact E].
    intros s i n s' n' r Hb Hr. unfold split_panic_as, panic_as in Hr. destruct (f s i n) as [[s1 n1] o'] eqn:Ef. injection Hr as <- <- <-.
    destruct (H _ _ _ _ _ _ Hb Ef) as [H1 H2]. split; [by apply recovered_rtc|]. intros l Hl. destruct o' as [r|]; [|done]. subst r.
    eapply Forall_impl; [by apply H2|]. intros x Hx. by apply recovered_rtc.
  - pose proof (m_pts_normalize_eq f ENotTokenized st p) as E. destruct (m_pts_normalize f st p) as [[st' p'] o]. cbn [fst snd] in E |- *. eapply loose_step_normalize; [|exact E].
    intros s n s' n' r Hb Hr. unfold panic_as in Hr. destruct (f s n) as [[s1 n1] o'] eqn:Ef. injection Hr as <- <- <-. by eapply recovered_rtc, H.
  - pose proof (m_pts_tokenize_eq f ENotTokenized st p) as E. destruct (m_pts_tokenize f st p) as [[st' p'] o]. cbn [fst snd] in E |- *. eapply loose_step_tokenize; [|exact E].
    intros s n s' n' r Hb Hr. unfold panic_as in Hr. destruct (f s n) as [[s1 n1] o'] eqn:Ef. injection Hr as <- <- <-. by eapply recovered_rtc, H.
Qed.

(** ** Normalizers and pre-tokenizers *)
Definition follows (m : method ns unit) (l : list (ns → outcome ns)) : Prop := ∀ n,
  match m n with
  | (n', Ret _) => run_edits l n = Ret n'
  | (n', Panic) => run_edits l n = Panic ∧ ∃ l1 f l2, l = l1 ++ f :: l2 ∧ run_edits l1 n = Ret n' ∧ f n' = Panic
  end.
Lemma follows_nil : follows (m_ret tt) [].
Proof. intros n. done. Qed.
Lemma follows_one m f : aon m f → follows m [f].
Proof. intros H n. rewrite H. cbn [run_edits]. destruct (f n) as [n'|] eqn:E; cbn [mbind outcome_bind]; [done|]. split; [done|]. by exists [], f, []. Qed.
Lemma run_edits_app l1 l2 n : run_edits (l1 ++ l2) n = (n' ← run_edits l1 n; run_edits l2 n').
Proof. revert n. induction l1 as [|f l1 IH]; intros n; cbn [app run_edits]; [done|]. destruct (f n) as [n'|]; cbn [mbind outcome_bind]; [apply IH|done]. Qed.
Lemma follows_bind m l m' l' : follows m l → follows m' l' → follows (m_bind m (λ _, m')) (l ++ l').
Proof.
  intros H H' n. unfold m_bind. specialize (H n). destruct (m n) as [n1 [u|]].
  - specialize (H' n1). destruct (m' n1) as [n2 [u'|]].
    + by rewrite run_edits_app, H.
    + destruct H' as [E (l1 & f & l2 & -> & H1 & H2)]. split; [by rewrite run_edits_app, H|]. exists (l ++ l1), f, l2. split; [by rewrite app_assoc|]. by rewrite run_edits_app, H.
  - destruct H as [E (l1 & f & l2 & -> & H1 & H2)]. split; [by rewrite run_edits_app, E|]. exists l1, f, (l2 ++ l'). by rewrite <- app_assoc.
Qed.
Lemma follows_if (b : bool) m l : follows m l → follows (if b then m else m_ret tt) (if b then l else []).
Proof. intros H. destruct b; [done|apply follows_nil]. Qed.

Lemma agrees_ret {S A} (a : A) : agrees (m_ret (S := S) a) (λ s, Ret (s, a)).
Proof. intros s. done. Qed.
Lemma agrees_bind {S A B} (m : method S A) (k : A → method S B) f g : agrees m f → (∀ a, agrees (k a) (g a)) → agrees (m_bind m k) (λ s, x ← f s; g x.2 x.1).
Proof. intros Hm Hk s. unfold m_bind. rewrite Hm. destruct (m s) as [s1 [a|]]; cbn [fst snd mbind outcome_bind]; [|done]. apply Hk. Qed.
Lemma agrees_ext {S A} (m : method S A) f g : (∀ s, f s = g s) → agrees m f → agrees m g.
Proof. intros E H s. by rewrite <- E. Qed.
Lemma agrees_aon m f : aon m f → agrees m (λ n, n' ← f n; Ret (n', tt)).
Proof. intros H n. pose proof (H n) as E. cbn beta. destruct (m n) as [n1 o]. destruct (f n) as [n2|]; by injection E as -> ->. Qed.
Lemma agrees_no_error m f : aon m f → agrees (m_no_error m) (no_error f).
Proof. intros H n. unfold m_no_error, m_bind, no_error. pose proof (H n) as E. destruct (m n) as [n1 o]. destruct (f n) as [n2|]; by injection E as -> ->. Qed.
Lemma agrees_replace p c : agrees (m_replace p c) (λ n, r ← replace n p c; Ret (match r with Ok n' => (n', None) | Err e => (n, Some e) end)).
Proof.
  intros n. pose proof (m_replace_eq p c n) as H. destruct (m_replace p c n) as [n' [[e|]|]]; cbn [fst snd mbind outcome_bind].
  - destruct H as [-> H]. by rewrite H.
  - destruct H as [-> _]. done.
  - destruct H as [-> _]. done.
Qed.
Lemma agrees_split_by p b : agrees (m_split_by p b) (split_by p b).
Proof. intros n. unfold m_split_by, m_read, split_by. cbn [fst snd]. by destruct (split n p b) as [[l|e]|]. Qed.

Lemma m_split_loop_agrees (f : method ns (result (list psplit))) g l : agrees f g → ∀ i,
  split_loop (λ (_ : unit) _ n, x ← g n; Ret (tt, x.1, x.2)) tt i l
  = (r ← (m_split_loop (λ (_ : unit) _ n, (tt, (f n).1, (f n).2)) tt i l).2; Ret ((m_split_loop (λ (_ : unit) _ n, (tt, (f n).1, (f n).2)) tt i l).1, r)).
Proof.
  intros Hg. induction l as [|[n [ts|]] l IH]; intros i; cbn [split_loop m_split_loop sp_tokens sp_ns]; [done| |].
  - rewrite IH. destruct (m_split_loop _ tt (i + 1) l) as [[[] old] [[new|er]|]]; done.
  - rewrite (Hg n). destruct (f n) as [n' [[items|er]|]]; cbn [fst snd mbind outcome_bind]; [|done..].
    rewrite IH. destruct (m_split_loop _ tt (i + 1) l) as [[[] old] [[new|er]|]]; done.
Qed.
Lemma m_run_split_agrees f g : agrees f g → agrees (m_run_split f) (run_split g).
Proof.
  intros Hg p. unfold m_run_split, run_split, pts_split, m_pts_split, stateless. rewrite (m_split_loop_agrees f g _ Hg).
  destruct (m_split_loop _ tt 0 (p_splits p)) as [[[] old] [[new|er]|]]; done.
Qed.
Lemma m_run_normalize_agrees (f : m_normalizer) (g : normalizer) : agrees f g →
  agrees (m_run_normalize f) (λ p, y ← pts_normalize (λ (_ : unit) n, x ← g n; Ret (tt, x.1, x.2)) tt p; let '(_, p2, e2) := y in Ret (p2, e2)).
Proof.
  intros Hg p. unfold m_run_normalize, pts_normalize, m_pts_normalize.
  assert (H : ∀ l, normalize_loop (λ (_ : unit) n, x ← g n; Ret (tt, x.1, x.2)) tt l
    = (r ← (m_normalize_loop (λ (_ : unit) n, (tt, (f n).1, (f n).2)) tt l).2; Ret ((m_normalize_loop (λ (_ : unit) n, (tt, (f n).1, (f n).2)) tt l).1, r))).
  { induction l as [|[n [ts|]] l IH]; cbn [normalize_loop m_normalize_loop sp_tokens sp_ns]; [done| |].
    - rewrite IH. destruct (m_normalize_loop _ tt l) as [[[] old] [e|]]; done.
    - rewrite (Hg n). destruct (f n) as [n' [[er|]|]]; cbn [fst snd mbind outcome_bind]; [done| |done].
      rewrite IH. destruct (m_normalize_loop _ tt l) as [[[] old] [e|]]; done. }
  rewrite H. destruct (m_normalize_loop _ tt (p_splits p)) as [[[] old] [e|]]; done.
Qed.
Lemma agrees_prepend_if (c : ns → bool) s : agrees (λ n, (if c n then m_prepend s else m_ret tt) n) (λ n, n1 ← (if c n then prepend n s else Ret n); Ret (n1, tt)).
Proof. intros n. cbn beta. destruct (c n); [|done]. apply (agrees_aon _ _ (m_prepend_eq s) n). Qed.
Lemma m_metaspace_split_agrees r b : agrees (m_metaspace_split r b) (metaspace_split r b).
Proof.
  unfold m_metaspace_split. cbv zeta. eapply agrees_ext; [|eapply agrees_bind; [apply (agrees_prepend_if (λ n, b && negb (starts_with (ns_norm n) (encode_rune r))))|intros u;
    eapply agrees_bind; [apply agrees_replace|intros e]]].
  2: { instantiate (1 := λ e, match e with Some er => λ n, Ret (n, Err er) | None => split_by (rune_pattern r) MergedWithNext end).
       destruct e as [er|]; [apply agrees_ret|apply agrees_split_by]. }
  intros n. cbn beta. unfold metaspace_split. cbv zeta. destruct (if b && _ then _ else _) as [n1|]; cbn [mbind outcome_bind fst snd]; [|done].
  destruct (replace n1 _ _) as [[n2|e]|]; done.
Qed.
Lemma m_byte_level_split_agrees eng b : agrees (m_byte_level_split eng b) (byte_level_split eng b).
Proof.
  unfold m_byte_level_split. eapply agrees_ext; [|eapply agrees_bind; [apply (agrees_prepend_if (λ n, b && negb (starts_with_whitespace (ns_norm n))))|intros u; apply agrees_split_by]].
  intros n. cbn beta. unfold byte_level_split. destruct (if b && _ then _ else _) as [n1|]; done.
Qed.
Lemma m_byte_level_agrees eng b : agrees (m_byte_level eng b) (byte_level eng b).
Proof.
  intros p. unfold m_byte_level, byte_level, m_bind. rewrite (m_run_split_agrees _ _ (m_byte_level_split_agrees eng b) p).
  destruct (m_run_split _ p) as [p1 [[e|]|]]; cbn [fst snd mbind outcome_bind]; [done| |done].
  pose proof (m_run_normalize_agrees _ _ (agrees_no_error _ _ m_byte_level_normalize_eq) p1) as H. rewrite <- H. unfold no_error.
  assert (E : ∀ l, normalize_loop (λ (_ : unit) n, n' ← byte_level_normalize n; Ret (tt, n', None)) tt l
    = normalize_loop (λ (_ : unit) n, x ← (n' ← byte_level_normalize n; Ret (n', None)); Ret (tt, x.1, x.2)) tt l).
  { induction l as [|[n [ts|]] l IH]; cbn [normalize_loop sp_tokens sp_ns]; [done|by rewrite IH|]. destruct (byte_level_normalize n) as [n'|]; cbn; [|done]. by rewrite IH. }
  unfold pts_normalize. by rewrite E.
Qed.

(** ** The library's own stages *)
Definition edits_only {A} (m : method ns A) : Prop := ∀ n, rtc recovered_edit n (m n).1.
Definition pieces_only (m : method ns (result (list psplit))) : Prop := ∀ n,
  rtc recovered_edit n (m n).1 ∧ ∀ l, (m n).2 = Ret (Ok l) → Forall (λ x, rtc recovered_edit n (sp_ns x)) l.
Lemma pieces_bind {A} (m : method ns A) k : edits_only m → (∀ a, pieces_only (k a)) → pieces_only (m_bind m k).
Proof.
  intros Hm Hk n. specialize (Hm n). unfold m_bind. destruct (m n) as [n1 [a|]]; cbn [fst snd] in *; [|done].
  destruct (Hk a n1) as [H1 H2]. split; [by etrans|]. intros l Hl. eapply Forall_impl; [by apply H2|]. intros x Hx. by etrans.
Qed.
Lemma pieces_split_by p b : pieces_only (m_split_by p b).
Proof.
  intros n. unfold m_split_by, m_read. cbn [fst snd]. split; [apply rtc_refl|]. intros l Hl. apply bind_Ret in Hl as ([l0|e] & H & E); [|done]. injection E as <-.
  unfold splits_from_ns. apply Forall_map, Forall_forall. intros x Hx. apply rtc_once. cbn [sp_ns]. by eapply recovered_piece.
Qed.
Lemma edits_prepend_if (c : ns → bool) s : edits_only (λ n, (if c n then m_prepend s else m_ret tt) n).
Proof. intros n. destruct (c n); [apply rtc_once, recovered_prepend|apply rtc_refl]. Qed.
Lemma pieces_metaspace r b : pieces_only (m_metaspace_split r b).
Proof.
  unfold m_metaspace_split. cbv zeta. apply pieces_bind; [apply (edits_prepend_if (λ n, b && negb (starts_with (ns_norm n) (encode_rune r))))|intros _].
  apply pieces_bind; [intros n; apply rtc_once, recovered_replace|]. intros [e|]; [|apply pieces_split_by]. intros n. split; [apply rtc_refl|]. done.
Qed.
Lemma pieces_byte_level eng b : pieces_only (m_byte_level_split eng b).
Proof.
  unfold m_byte_level_split. apply pieces_bind; [apply (edits_prepend_if (λ n, b && negb (starts_with_whitespace (ns_norm n))))|intros _; apply pieces_split_by].
Qed.
Lemma m_run_split_step f p : pieces_only f → recovered_step p (m_run_split f p).1.
Proof.
  intros Hf. pose proof (recovered_split p unit (λ _ _ n, (tt, (f n).1, (f n).2)) tt) as H. unfold m_run_split. destruct (m_pts_split _ tt p) as [[u p'] o]. cbn [fst snd] in *. apply H.
  intros st i n st' n' o' _ E. injection E as <- <- <-. apply Hf.
Qed.
Lemma m_run_normalize_step (f : m_normalizer) p : edits_only f → recovered_step p (m_run_normalize f p).1.
Proof.
  intros Hf. pose proof (recovered_normalize p unit (λ _ n, (tt, (f n).1, (f n).2)) tt) as H. unfold m_run_normalize. destruct (m_pts_normalize _ tt p) as [[u p'] o]. cbn [fst snd] in *. apply H.
  intros st n st' n' o' _ E. injection E as <- <- <-. apply Hf.
Qed.
Lemma edits_byte_level : edits_only (m_no_error m_byte_level_normalize).
Proof.
  intros n. unfold m_no_error, m_byte_level_normalize, m_bind, m_read. destruct (byte_changes _ _ _) as [c|]; [|apply rtc_refl].
  pose proof (recovered_transform n c 0) as H. destruct (m_transform c 0 n) as [n' [u|]]; apply rtc_once, H.
Qed.
Lemma m_metaspace_rtc r b p : rtc recovered_step p (m_metaspace r b p).1.
Proof. apply rtc_once, m_run_split_step, pieces_metaspace. Qed.
Lemma m_byte_level_rtc eng b p : rtc recovered_step p (m_byte_level eng b p).1.
Proof.
  unfold m_byte_level, m_bind. pose proof (m_run_split_step (m_byte_level_split eng b) p (pieces_byte_level eng b)) as H. destruct (m_run_split _ p) as [p1 [[e|]|]]; cbn [fst] in H; [by apply rtc_once| |by apply rtc_once].
  eapply rtc_l; [exact H|]. apply rtc_once, m_run_normalize_step, edits_byte_level.
Qed.

(** ** Tokenizing again *)
Lemma m_tokenize_logged {St} (f : m_func St (result (list token))) e st p st' p' o :
  m_pts_tokenize f st p = (st', p', o) → pts_tokenize (panic_as (Err e) f) st p = Ret (st', p', match o with Ret er => er | Panic => Some e end).
Proof. intros H. by rewrite m_pts_tokenize_eq, H. Qed.
