(** Property theorems C110: what a call that panics leaves behind. *)
From Coq Require Import ZifyBool.
From stdpp Require Import relations.
From Verif Require Import GoBase Strutils SplitPattern NormString Normalizers Bpe Encodings PreTokString PreTokenizers SpecText SpecNorm SpecLoose LooseFacts
  Recover SpecRecover RecoverFacts PropsPts Lit.
Import GoBase NormString.
#[local] Open Scope Z_scope.

(** TransformRange and the edits that call it once: all or nothing. *)
Theorem C110_edits :
  (∀ r dest off, all_or_nothing (m_transform_range r dest off) (λ n, n' ← transform_range n r dest off; Ret (n', tt)))
  ∧ (∀ dest off, all_or_nothing (m_transform dest off) (λ n, n' ← transform n dest off; Ret (n', tt)))
  ∧ (∀ s, all_or_nothing (m_prepend s) (λ n, n' ← prepend n s; Ret (n', tt)))
  ∧ (∀ s, all_or_nothing (m_append s) (λ n, n' ← append n s; Ret (n', tt)))
  ∧ (∀ keep, all_or_nothing (m_filter keep) (λ n, n' ← filter_runes n keep; Ret (n', tt)))
  ∧ (∀ f, all_or_nothing (m_map f) (λ n, n' ← map_runes n f; Ret (n', tt)))
  ∧ ∀ l r, all_or_nothing (m_trim l r) (λ n, n' ← trim_left_right n l r; Ret (n', tt)).
Proof.
  split_and!; intros; apply aon_all.
  - apply m_transform_range_eq.
  - apply m_transform_eq.
  - apply m_prepend_eq.
  - apply m_append_eq.
  - apply m_filter_eq.
  - apply m_map_eq.
  - apply m_trim_eq.
Qed.
Print Assumptions C110_edits.

(** Replace: the matches in front of the one that panics are replaced. *)
Theorem C110_replace :
  ∀ p content n,
  (∀ n', m_replace p content n = (n', Ret None) ↔ replace n p content = Ret (Ok n'))
  ∧ (∀ n' e, m_replace p content n = (n', Ret (Some e)) ↔ replace n p content = Ret (Err e) ∧ n' = n)
  ∧ (∀ n', m_replace p content n = (n', Panic) → replace n p content = Panic
       ∧ ((p (ns_norm n) = Panic ∧ n' = n)
          ∨ ∃ cs1 c cs2, p (ns_norm n) = Ret (Ok (cs1 ++ c :: cs2)) ∧ replace n (λ _, Ret (Ok cs1)) content = Ret (Ok n')
              ∧ replace n (λ _, Ret (Ok (cs1 ++ [c]))) content = Panic)).
Proof.
  intros p content n. pose proof (m_replace_eq p content n) as H. destruct (m_replace p content n) as [n1 [[e|]|]].
  - destruct H as [H Hn]. rewrite (Hn ltac:(done)) in *. rewrite H. split_and!; [intros n'; split; done| |done]. intros n' e'. split; [by intros [= -> ->]|by intros [[= ->] ->]].
  - destruct H as [H _]. rewrite H. split_and!; [|intros n' e'; split; [done|by intros [? _]]|done]. intros n'. split; [by intros [= ->]|by intros [= ->]].
  - destruct H as [H H']. split_and!; [intros n'; split; [done|by rewrite H]|intros n' e'; split; [done|rewrite H; by intros [? _]]|]. by intros n' [= <-].
Qed.
Print Assumptions C110_replace.

(** False: that Replace and Normalize do all or nothing. *)
Theorem C110_replace_refuted : ¬ ∀ p content, all_or_nothing (m_replace p content) (λ n, r ← replace n p content; Ret (match r with Ok n' => (n', None) | Err e => (n, Some e) end)).
Proof.
  intros H. specialize (H (λ _, Ret (Ok [Capture 0 1 true; Capture 1 3 true])) [120; 121] (from_string [97; 98])). vm_compute in H. discriminate H.
Qed.
Print Assumptions C110_replace_refuted.
Theorem C110_bert_refuted : ¬ ∀ u o, all_or_nothing (m_bert u o) (bert_normalizer u o).
Proof.
  intros H. specialize (H (Unicode (λ _, false) (λ r, r =? 0x301) (λ _, false) (λ r, r) (λ r, r)) default_bert (from_string (encode [0x301; 9; 97]))). vm_compute in H. discriminate H.
Qed.
Print Assumptions C110_bert_refuted.

(** The steps of the BERT normalizer that come before the one that panics are done. *)
Theorem C110_bert :
  ∀ u o n,
  let steps := (if bo_clean o then [λ n, filter_runes n (λ r, negb ((r =? 0) || (r =? rune_error) || is_control u r)); λ n, map_runes n (λ r, if is_whitespace r then 32 else r)] else [])
    ++ (if bo_chinese o then [handle_chinese] else [])
    ++ (if bo_accents o then [λ n, filter_runes n (λ r, negb (u_mn u r))] else [])
    ++ (if bo_lower o then [λ n, map_runes n (u_lower u)] else []) in
  match m_bert u o n with
  | (n', Ret e) => e = None ∧ bert_normalizer u o n = Ret (n', None) ∧ run_edits steps n = Ret n'
  | (n', Panic) => bert_normalizer u o n = Panic ∧ ∃ l1 f l2, steps = l1 ++ f :: l2 ∧ run_edits l1 n = Ret n' ∧ f n' = Panic
  end.
Proof.
  intros u o n steps.
  assert (Hr : bert_normalizer u o n = (n' ← run_edits steps n; Ret (n', None))).
  { unfold bert_normalizer, no_error, bert_normalize, clean_text, strip_accents, steps. destruct (bo_clean o), (bo_chinese o), (bo_accents o), (bo_lower o); cbn [app run_edits].
    all: cbn [mbind outcome_bind]; try done. all: repeat (match goal with |- context [filter_runes ?a ?b] => destruct (filter_runes a b) | |- context [map_runes ?a ?b] => destruct (map_runes a b) | |- context [handle_chinese ?a] => destruct (handle_chinese a) end; cbn [mbind outcome_bind]; try done). }
  assert (Hf : follows (m_bind (if bo_clean o then m_clean_text u else m_ret tt) (λ _, m_bind (if bo_chinese o then m_handle_chinese else m_ret tt) (λ _,
    m_bind (if bo_accents o then m_filter (λ r, negb (u_mn u r)) else m_ret tt) (λ _, if bo_lower o then m_map (u_lower u) else m_ret tt)))) steps).
  { apply follows_bind; [apply follows_if|apply follows_bind; [apply follows_if|apply follows_bind; apply follows_if]].
    - apply (follows_bind _ [_] _ [_]); apply follows_one; [apply m_filter_eq|apply m_map_eq].
    - apply follows_one, m_chinese_eq.
    - apply follows_one, m_filter_eq.
    - apply follows_one, m_map_eq. }
  specialize (Hf n). unfold m_bert. unfold m_bind in Hf |- *.
  destruct ((if bo_clean o then m_clean_text u else m_ret tt) n) as [n1 [u1|]]; [|by rewrite Hr; destruct Hf as [-> ?]].
  destruct ((if bo_chinese o then m_handle_chinese else m_ret tt) n1) as [n2 [u2|]]; [|by rewrite Hr; destruct Hf as [-> ?]].
  destruct ((if bo_accents o then m_filter (λ r, negb (u_mn u r)) else m_ret tt) n2) as [n3 [u3|]]; [|by rewrite Hr; destruct Hf as [-> ?]].
  destruct ((if bo_lower o then m_map (u_lower u) else m_ret tt) n3) as [n4 [u4|]]; [|by rewrite Hr; destruct Hf as [-> ?]]. cbn [m_ret]. by rewrite Hr, Hf.
Qed.
Print Assumptions C110_bert.

(** So are the normalizers of a sequence that come before the one that panics. *)
Theorem C110_sequence :
  ∀ l l', Forall2 agrees l l' → agrees (m_sequence l) (sequence_normalizer l')
  ∧ ∀ n n', m_sequence l n = (n', Panic) → ∃ k m n1, l !! k = Some m ∧ sequence_normalizer (take k l') n = Ret (n1, None) ∧ m n1 = (n', Panic).
Proof.
  induction 1 as [|m f l l' Hm _ [IH1 IH2]]; [split; [intros n; done|intros n n' H; done]|]. split.
  - intros n. cbn [m_sequence sequence_normalizer]. unfold m_bind. rewrite (Hm n). destruct (m n) as [n1 [[e|]|]]; cbn [fst snd mbind outcome_bind]; [done|apply IH1|done].
  - intros n n' H. cbn [m_sequence] in H. unfold m_bind in H. destruct (m n) as [n1 [[e|]|]] eqn:E.
    + done.
    + apply IH2 in H as (k & m' & n2 & H1 & H2 & H3). exists (S k), m', n2. split; [done|]. split; [|done]. cbn [take sequence_normalizer]. rewrite (Hm n), E. cbn [fst snd mbind outcome_bind]. done.
    + injection H as ->. exists 0%nat, m, n. done.
Qed.
Print Assumptions C110_sequence.

(** The strings that clients reach who recover from panics and go on are those that clients reach whose calls do not panic. *)
Theorem C110_history : ∀ n, recovered n ↔ loosely_reachable n.
Proof. intros n. split; intros (rs & Hs & H); exists rs; (split; [done|]); by apply recovered_rtc. Qed.
Print Assumptions C110_history.
Theorem C110_invariants : ∀ n, recovered n → byte_invariants n.
Proof. intros n H. apply sound_invariants, loosely_sound. by apply C110_history. Qed.
Print Assumptions C110_invariants.

(** A panic in a function given to Split, Normalize or Tokenize leaves the pre-tokenized string as an error would. *)
Theorem C110_split :
  ∀ St (f : St → Z → ns → St * ns * outcome (result (list psplit))) e st p,
  pts_split (λ st i, panic_as (Err e) (λ st, f st i) st) st p
  = Ret ((m_pts_split f st p).1, match (m_pts_split f st p).2 with Ret er => er | Panic => Some e end).
Proof. intros. apply m_pts_split_eq. Qed.
Print Assumptions C110_split.
Theorem C110_normalize :
  ∀ St (f : m_func St (option err)) e st p,
  pts_normalize (panic_as (Some e) f) st p = Ret ((m_pts_normalize f st p).1, match (m_pts_normalize f st p).2 with Ret er => er | Panic => Some e end).
Proof. intros. apply m_pts_normalize_eq. Qed.
Print Assumptions C110_normalize.
Theorem C110_tokenize :
  ∀ St (f : m_func St (result (list token))) e st p,
  pts_tokenize (panic_as (Err e) f) st p = Ret ((m_pts_tokenize f st p).1, match (m_pts_tokenize f st p).2 with Ret er => er | Panic => Some e end).
Proof. intros. apply m_pts_tokenize_eq. Qed.
Print Assumptions C110_tokenize.

Theorem C110_pts_history : ∀ p, recovered_pts p → loosely_reachable_pts p.
Proof.
  intros p (rs & Hs & H). exists rs. split; [done|]. clear Hs. induction H as [|x y z Hxy _ IH]; [apply rtc_refl|]. eapply rtc_l; [by apply recovered_step_loose|done].
Qed.
Print Assumptions C110_pts_history.

(** The two pre-tokenizers that change the strings they split. *)
Theorem C110_pretokenizers :
  ∀ r eng b, agrees (m_metaspace r b) (metaspace r b) ∧ agrees (m_byte_level eng b) (byte_level eng b)
  ∧ ∀ p, recovered_pts p → recovered_pts (m_metaspace r b p).1 ∧ recovered_pts (m_byte_level eng b p).1.
Proof.
  intros r eng b. split; [apply m_run_split_agrees, m_metaspace_split_agrees|]. split; [apply m_byte_level_agrees|]. intros p (rs & Hs & H).
  split; exists rs; (split; [done|]); (etrans; [exact H|]); [apply m_metaspace_rtc|apply m_byte_level_rtc].
Qed.
Print Assumptions C110_pretokenizers.

(** Tokenize, after any number of calls that panicked or failed: the same as at once. *)
Theorem C110_resume :
  ∀ St (f : m_func St (result (list token))),
  (∀ s1 s2 n s1' s2' n1 n2 t1 t2, f s1 n = (s1', n1, Ret (Ok t1)) → f s2 n = (s2', n2, Ret (Ok t2)) → n1 = n2 ∧ t1 = t2) →
  (∀ s n s' n' o, f s n = (s', n', o) → (∀ ts, o ≠ Ret (Ok ts)) → n' = n) →
  ∀ p p1 s1 s1' p2 s3 s3' p3,
  rtc (λ p q, ∃ s s' o, m_pts_tokenize f s p = (s', q, o) ∧ o ≠ Ret None) p p1 →
  m_pts_tokenize f s1 p1 = (s1', p2, Ret None) → m_pts_tokenize f s3 p = (s3', p3, Ret None) → p2 = p3.
Proof.
  intros St f Hf1 Hf2 p p1 s1 s1' p2 s3 s3' p3 H H1 H3. apply (m_tokenize_logged f ENotTokenized) in H1, H3.
  eapply (C50_resume St (panic_as (Err ENotTokenized) f)); [| | |exact H1|exact H3].
  - intros x1 x2 n x1' x2' n1 n2 t1 t2 G1 G2. unfold panic_as in G1, G2. destruct (f x1 n) as [[y1 m1] [[ts1|]|]] eqn:E1; [|done..]. destruct (f x2 n) as [[y2 m2] [[ts2|]|]] eqn:E2; [|done..].
    injection G1 as <- <- <-. injection G2 as <- <- <-. by eapply Hf1.
  - intros s n s' n' e G. unfold panic_as in G. destruct (f s n) as [[y m] o] eqn:E. injection G as <- <- Ho. eapply Hf2; [exact E|]. intros ts ->. done.
  - clear -H. induction H as [|x y z (s & s' & o & Hs & Ho) _ IH]; [apply rtc_refl|]. eapply rtc_l; [|exact IH]. apply (m_tokenize_logged f ENotTokenized) in Hs.
    destruct o as [[e|]|]; [by exists s, s', e|done|by exists s, s', ENotTokenized].
Qed.
Print Assumptions C110_resume.

(** Stripping accents panics on the combining mark in front; by then the tab is a space and the string is otherwise as before.
    Replace with a pattern that goes too far: the first match is replaced. Tokenize with a function that panics on the second of
    three strings, and again with one that does not. *)
Example C110_example :
  let u := Unicode (λ _, false) (λ r, r =? 0x301) (λ _, false) (λ r, if r =? 65 then 97 else r) (λ r, r) in
  m_bert u default_bert (from_string (encode [0x301; 9; 65])) = (NS [0xCC; 0x81; 9; 65] [0xCC; 0x81; 32; 65] [(0, 2); (0, 2); (2, 3); (3, 4)] 0, Panic)
  ∧ m_replace (λ _, Ret (Ok [Capture 0 1 true; Capture 1 3 true])) [120; 121] (from_string [97; 98]) = (NS [97; 98] [120; 121; 98] [(0, 1); (0, 1); (1, 2)] 0, Panic)
  ∧ let f (ok : bool) : m_func unit (result (list token)) := λ st n, (st, n, if (ns_len n =? 2) && negb ok then Panic else Ret (Ok [Token (ns_len n) [] (Offsets 0 (ns_len n))])) in
    let p := Pts [97; 98; 98; 97] [PSplit (from_string [97]) None; PSplit (from_string [98; 98]) None; PSplit (from_string [97]) None] in
    let p1 := (m_pts_tokenize (f false) tt p).1.2 in
    map sp_tokens (p_splits p1) = [Some [Token 1 [] (Offsets 0 1)]; None; None] ∧ (m_pts_tokenize (f false) tt p).2 = Panic
    ∧ (m_pts_tokenize (f true) tt p1).1.2 = (m_pts_tokenize (f true) tt p).1.2 ∧ (m_pts_tokenize (f true) tt p).2 = Ret None.
Proof. vm_compute. auto 12. Qed.
