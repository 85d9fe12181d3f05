(** Property theorems C47-C53 (encodings and pre-tokenized strings). *)
From Coq Require Import ZifyBool.
From stdpp Require Import relations.
From Verif Require Import GoBase Strutils SplitPattern NormString Bpe Encodings PreTokString SpecText SpecNorm SpecHist SpecPts
  Utf8Facts SliceFacts NormFacts NormInv HistFacts RangeFacts PropsRange PtsFacts.
Import GoBase NormString.
#[local] Open Scope Z_scope.

(** * C47 *)
Theorem C47_parallel_arrays :
  ∀ ts, let e := encoding_from_tokens ts in
  enc_len e = zlen ts ∧ (enc_is_empty e = true ↔ ts = []) ∧ e_overflowing e = []
  ∧ length (e_ids e) = length ts ∧ length (e_type_ids e) = length ts ∧ length (e_tokens e) = length ts
  ∧ length (e_words e) = length ts ∧ length (e_offsets e) = length ts ∧ length (e_special e) = length ts
  ∧ length (e_attention e) = length ts
  ∧ ∀ k t, ts !! k = Some t →
      e_ids e !! k = Some (et_id t) ∧ e_type_ids e !! k = Some (et_type t) ∧ e_tokens e !! k = Some (et_token t)
      ∧ e_words e !! k = Some (et_word t) ∧ e_offsets e !! k = Some (et_offsets t)
      ∧ e_special e !! k = Some 0 ∧ e_attention e !! k = Some 1.
Proof.
  intros ts e. unfold e. rewrite encoding_from_tokens_eq. unfold enc_len, enc_is_empty, zlen. cbn [e_ids e_type_ids e_tokens e_words e_offsets e_special e_attention e_overflowing].
  rewrite !map_length. split; [done|]. split; [destruct ts; cbn; split; intros; (done || lia)|]. do 8 (split; [done|]). intros k t Hk.
  split_and!; rewrite list_lookup_fmap, Hk; done.
Qed.
Print Assumptions C47_parallel_arrays.

Example C47_example :
  encoding_from_tokens [EncToken 7 [97] (Offsets 0 1) 0 3; EncToken 9 [98] (Offsets 2 3) 1 3]
  = Encoding [7; 9] [3; 3] [[97]; [98]] [0; 1] [Offsets 0 1; Offsets 2 3] [0; 0] [1; 1] [].
Proof. reflexivity. Qed.

(** * C48 *)
(** Recording the calls changes nothing. *)
Theorem C48_recording_is_faithful :
  ∀ St (f : split_func St) st p,
  pts_split f st p = (x ← pts_split (logged f) (st, []) p; Ret (x.1.1.1, x.1.2, x.2)).
Proof.
  intros St f st p. unfold pts_split. rewrite (split_loop_logged f st []).
  destruct (split_loop (logged f) (st, []) 0 (p_splits p)) as [[[[s lg] old] [l|e]]|]; done.
Qed.
Print Assumptions C48_recording_is_faithful.

Theorem C48_split :
  ∀ St (f : split_func St) st p st' calls p',
  pts_split (logged f) (st, []) p = Ret ((st', calls), p', None) →
  p_original p' = p_original p
  ∧ map (λ c, (sc_index c, sc_input c)) calls = untokenized 0 (p_splits p)
  ∧ ∃ rs, map sc_result calls = map Ok rs ∧ refined (p_splits p) rs (p_splits p').
Proof.
  intros St f st p st' calls p' H. unfold pts_split in H. apply bind_Ret in H as ([[s old] new] & H & E). destruct s as [s lg].
  pose proof (split_loop_spec _ _ _ _ _ _ _ _ _ H) as Hs. destruct new as [l|e]; [|done]; injection E as <- <- <-.
  destruct Hs as (cs & rs & -> & H1 & H2 & H3). split; [done|]. split; [done|]. by exists rs.
Qed.
Print Assumptions C48_split.

(** " a" split into "", "", " ", "a" (the empty pieces are dropped, also the second, which stands for " "), the tokenized "b" stays where it is. *)
Example C48_example :
  let n := from_string [32; 97] in let b := PSplit (from_string [98]) (Some [Token 4 [98] (Offsets 0 1)]) in
  let pieces := splits_from_ns [from_string []; NS [32] [] [] 0; from_string [32]; from_string [97]] in
  let f : split_func unit := λ st i m, Ret (st, m, Ok pieces) in
  pts_split (logged f) (tt, []) (Pts [98; 32; 97; 98] [b; PSplit n None; b])
  = Ret ((tt, [SplitCall 1 n (Ok pieces)]),
         Pts [98; 32; 97; 98] [b; PSplit (from_string [32]) None; PSplit (from_string [97]) None; b], None).
Proof. vm_compute. reflexivity. Qed.

(** * C49 *)
Theorem C49_failed_split :
  ∀ St (f : split_func St) st p st' calls p' e,
  pts_split (logged f) (st, []) p = Ret ((st', calls), p', Some e) →
  p_original p' = p_original p ∧
  ∃ a n b a' n' rs, p_splits p = a ++ PSplit n None :: b ∧ p_splits p' = a' ++ PSplit n' None :: b
    ∧ Forall2 (λ x y, sp_tokens y = sp_tokens x ∧ (sp_tokens x ≠ None → y = x)) a a'
    ∧ map (λ c, (sc_index c, sc_input c)) calls = untokenized 0 (a ++ [PSplit n None])
    ∧ map sc_result calls = map Ok rs ++ [Err e].
Proof.
  intros St f st p st' calls p' e H. unfold pts_split in H. apply bind_Ret in H as ([[s old] new] & H & E). destruct s as [s lg].
  pose proof (split_loop_spec _ _ _ _ _ _ _ _ _ H) as Hs. destruct new as [l|er]; [done|]. injection E as <- <- <- <-.
  destruct Hs as (a & n & b & cs & rs & a' & n' & H1 & H2 & H3 & -> & H4 & H5). split; [done|]. by exists a, n, b, a', n', rs.
Qed.
Print Assumptions C49_failed_split.

(** If the function leaves the strings alone, a failed Split leaves everything alone. *)
Theorem C49_failed_split_unchanged :
  ∀ St (f : split_func St) st p st' p' e,
  (∀ st i n st' n' r, f st i n = Ret (st', n', r) → n' = n) →
  pts_split f st p = Ret (st', p', Some e) → p' = p.
Proof.
  intros St f st p st' p' e Hf H. unfold pts_split in H. apply bind_Ret in H as ([[s old] new] & H & E).
  apply (split_loop_pure f) in H; [|done]. destruct new; [done|]. injection E as <- <- <-. rewrite H. by destruct p.
Qed.
Print Assumptions C49_failed_split_unchanged.

(** Recording the calls of Normalize changes nothing either. *)
Theorem C49_recording_is_faithful :
  ∀ St (f : St → ns → outcome (St * ns * option err)) st p,
  pts_normalize f st p = (x ← pts_normalize (logged_norm f) (st, []) p; Ret (x.1.1.1, x.1.2, x.2)).
Proof.
  intros St f st p. unfold pts_normalize. rewrite (normalize_loop_logged f st []).
  destruct (normalize_loop (logged_norm f) (st, []) (p_splits p)) as [[[[s lg] old] new]|]; done.
Qed.
Print Assumptions C49_recording_is_faithful.
Theorem C49_failed_normalize :
  ∀ St (f : St → ns → outcome (St * ns * option err)) st p st' calls p' e,
  pts_normalize (logged_norm f) (st, []) p = Ret ((st', calls), p', Some e) →
  p_original p' = p_original p ∧
  ∃ a n b a' n', p_splits p = a ++ PSplit n None :: b ∧ p_splits p' = a' ++ PSplit n' None :: b
    ∧ Forall2 (λ x y, sp_tokens y = sp_tokens x ∧ (sp_tokens x ≠ None → y = x)) a a'
    ∧ map nc_input calls = (untokenized 0 (a ++ [PSplit n None])).*2
    ∧ map nc_output calls = (untokenized 0 (a' ++ [PSplit n' None])).*2
    ∧ ∃ k, map nc_result calls = repeat None k ++ [Some e].
Proof.
  intros St f st p st' calls p' e H. unfold pts_normalize in H. apply bind_Ret in H as ([[s l] er] & H & E). destruct s as [s lg].
  injection E as <- <- <- Ee. subst er. destruct (normalize_loop_spec _ _ _ _ _ _ _ _ H) as (a & b & cs & H1 & -> & H3 & H4 & H5 & H6 & (a0 & n & ->) & cs' & H7).
  split; [done|]. cbn [p_splits]. apply Forall2_app_inv_l in H4 as (a0' & l' & G1 & G2 & G3). apply Forall2_cons_inv_l in G2 as (y & l'' & [Hy _] & G2 & ->).
  apply Forall2_nil_inv_l in G2 as ->. destruct y as [n' o]. cbn in Hy. subst o. exists a0, n, b, a0', n'.
  split_and!; [by rewrite H1, <- app_assoc| |done|done| |].
  - rewrite <- (take_drop (length (a0 ++ [PSplit n None])) l), G3, H5. by rewrite <- app_assoc.
  - cbn [app]. by rewrite <- H6, G3.
  - exists (length cs'). cbn [app]. rewrite H7. f_equal. clear. induction cs'; cbn; by f_equal.
Qed.
Print Assumptions C49_failed_normalize.
(** No error means that no call failed, and that all untokenized splits were given to the function, in order. *)
Theorem C49_normalize :
  ∀ St (f : St → ns → outcome (St * ns * option err)) st p st' calls p',
  pts_normalize (logged_norm f) (st, []) p = Ret ((st', calls), p', None) →
  p_original p' = p_original p
  ∧ Forall2 (λ x y, sp_tokens y = sp_tokens x ∧ (sp_tokens x ≠ None → y = x)) (p_splits p) (p_splits p')
  ∧ map nc_input calls = (untokenized 0 (p_splits p)).*2 ∧ map nc_output calls = (untokenized 0 (p_splits p')).*2
  ∧ Forall (λ c, nc_result c = None) calls.
Proof.
  intros St f st p st' calls p' H. unfold pts_normalize in H. apply bind_Ret in H as ([[s l] er] & H & E). destruct s as [s lg].
  injection E as <- <- <- Ee. subst er. destruct (normalize_loop_spec _ _ _ _ _ _ _ _ H) as (a & b & cs & H1 & -> & H3 & H4 & H5 & H6 & -> & H7).
  rewrite app_nil_r in H1. subst a. cbn [p_original p_splits app]. assert (El : take (length (p_splits p)) l = l).
  { rewrite <- (take_drop (length (p_splits p)) l) at 2. by rewrite H5, app_nil_r. }
  rewrite El in H4, H6. split_and!; try done. clear -H7. induction cs as [|c cs IH]; [constructor|]. cbn [map] in H7. injection H7 as H7 H8. constructor; [done|]. by apply IH.
Qed.
Print Assumptions C49_normalize.

Theorem C49_failed_tokenize :
  ∀ St (f : St → ns → outcome (St * ns * result (list token))) st p st' calls p' e,
  pts_tokenize (logged_tok f) (st, []) p = Ret ((st', calls), p', Some e) →
  p_original p' = p_original p ∧
  ∃ a n b a' n' done rs, p_splits p = a ++ PSplit n None :: b ∧ p_splits p' = a' ++ PSplit n' None :: b
    ∧ calls = done ++ [TokCall n n' (Err e)] ∧ map tc_input done = (untokenized 0 a).*2
    ∧ map (λ c, (tc_output c, tc_result c)) done = map (λ r, (r.1, Ok r.2)) rs ∧ tokenized a rs a'.
Proof.
  intros St f st p st' calls p' e H. unfold pts_tokenize in H. apply bind_Ret in H as ([[s l] er] & H & E). destruct s as [s lg].
  injection E as <- <- <- Ee. subst er. destruct (tokenize_loop_spec _ _ _ _ _ _ _ _ H) as (a & n & b & cs & n' & rs & a' & H1 & H2 & H3 & H4 & H5 & H6).
  split; [done|]. by exists a, n, b, a', n', cs, rs.
Qed.
Print Assumptions C49_failed_tokenize.

(** The second of three untokenized splits fails: the first keeps its new tokens, the third is untouched. *)
Example C49_example :
  let f : Z → ns → outcome (Z * ns * result (list token)) := λ k n,
    Ret (k + 1, n, if ns_len n =? 2 then Err ENotTokenized else Ok [Token k (ns_norm n) (Offsets 0 (ns_len n))]) in
  let a := from_string [97] in let bb := from_string [98; 98] in
  pts_tokenize f 5 (Pts [] [PSplit a None; PSplit bb None; PSplit a None])
  = Ret (7, Pts [] [PSplit a (Some [Token 5 [97] (Offsets 0 1)]); PSplit bb None; PSplit a None], Some ENotTokenized)
  ∧ pts_split (λ k i n, Ret (k + 1, n, if ns_len n =? 2 then Err (EExternal i) else Ok [PSplit n None; PSplit n None])) 5 (Pts [97] [PSplit a None; PSplit a (Some []); PSplit bb None; PSplit a None])
  = Ret (7, Pts [97] [PSplit a None; PSplit a (Some []); PSplit bb None; PSplit a None], Some (EExternal 2))
  ∧ pts_normalize (λ k n, Ret (k + 1, bb, if ns_len n =? 2 then Some (EExternal k) else None)) 5 (Pts [97] [PSplit a None; PSplit a (Some []); PSplit bb None; PSplit a None])
  = Ret (7, Pts [97] [PSplit bb None; PSplit a (Some []); PSplit bb None; PSplit a None], Some (EExternal 6)).
Proof. vm_compute. auto. Qed.

(** * C50 *)
Theorem C50_recording_is_faithful :
  ∀ St (f : St → ns → outcome (St * ns * result (list token))) st p,
  pts_tokenize f st p = (x ← pts_tokenize (logged_tok f) (st, []) p; Ret (x.1.1.1, x.1.2, x.2)).
Proof.
  intros St f st p. unfold pts_tokenize. rewrite (tokenize_loop_logged f st []).
  destruct (tokenize_loop (logged_tok f) (st, []) (p_splits p)) as [[[[s lg] l] e]|]; done.
Qed.
Print Assumptions C50_recording_is_faithful.

Lemma tokenized_all l rs out : tokenized l rs out → Forall (λ x, is_Some (sp_tokens x)) out.
Proof. induction 1; constructor; (done || by eexists). Qed.

Theorem C50_tokenize :
  ∀ St (f : St → ns → outcome (St * ns * result (list token))) st p st' calls p',
  pts_tokenize (logged_tok f) (st, []) p = Ret ((st', calls), p', None) →
  p_original p' = p_original p
  ∧ map tc_input calls = (untokenized 0 (p_splits p)).*2
  ∧ Forall (λ x, is_Some (sp_tokens x)) (p_splits p')
  ∧ ∃ rs, map (λ c, (tc_output c, tc_result c)) calls = map (λ r, (r.1, Ok r.2)) rs
        ∧ tokenized (p_splits p) rs (p_splits p').
Proof.
  intros St f st p st' calls p' H. unfold pts_tokenize in H. apply bind_Ret in H as ([[s l] er] & H & E). destruct s as [s lg].
  injection E as <- <- <- Ee. subst er. destruct (tokenize_loop_spec _ _ _ _ _ _ _ _ H) as (cs & rs & -> & H2 & H3 & H4).
  cbn [p_splits p_original]. split; [done|]. split; [done|]. split; [by eapply tokenized_all|]. by exists rs.
Qed.
Print Assumptions C50_tokenize.

(** Any number of failed runs, then a successful one: the same as one successful run. The tokenizer may
    fail as it likes, but its answers depend on the string only, and it leaves the string alone if it fails. *)
Theorem C50_resume :
  ∀ St (f : St → ns → outcome (St * ns * result (list token))),
  (∀ s1 s2 n s1' s2' n1 n2 t1 t2, f s1 n = Ret (s1', n1, Ok t1) → f s2 n = Ret (s2', n2, Ok t2) → n1 = n2 ∧ t1 = t2) →
  (∀ s n s' n' e, f s n = Ret (s', n', Err e) → n' = n) →
  ∀ p p1 s1 s1' p2 s3 s3' p3,
  rtc (λ p q, ∃ s s' e, pts_tokenize f s p = Ret (s', q, Some e)) p p1 →
  pts_tokenize f s1 p1 = Ret (s1', p2, None) → pts_tokenize f s3 p = Ret (s3', p3, None) → p2 = p3.
Proof.
  intros St f Ha Hf p p1 s1 s1' p2 s3 s3' p3 H H1 H3.
  assert (Hr : ∀ s s' p p' e, pts_tokenize f s p = Ret (s', p', e) → tokenize_loop f s (p_splits p) = Ret (s', p_splits p', e) ∧ p_original p' = p_original p).
  { intros s s' q q' e E. unfold pts_tokenize in E. apply bind_Ret in E as ([[x l] er] & E & F). by injection F as <- <- ->. }
  assert (Hd : ∀ s s' p p', pts_tokenize f s p = Ret (s', p', None) → Forall2 (completes f) (p_splits p) (p_splits p')).
  { intros s s' q q' E. eapply (tokenize_loop_completes f Hf); [by apply Hr in E as [E _]|]. apply completes_done.
    rewrite C50_recording_is_faithful in E. apply bind_Ret in E as ([[[x lg] q2] er] & E & F). injection F as <- <- ->.
    by destruct (C50_tokenize _ _ _ _ _ _ _ E) as (_ & _ & H' & _). }
  assert (p_original p1 = p_original p ∧ ∀ o, Forall2 (completes f) (p_splits p1) o → Forall2 (completes f) (p_splits p) o) as [Ho Hc].
  { clear -H Hr Hf. induction H as [|q q1 q2 (s & s' & e & Hq) _ [IH1 IH2]]; [done|]. apply Hr in Hq as [Hq1 Hq2]. split; [congruence|].
    intros o Hc. by eapply (tokenize_loop_completes f Hf), IH2. }
  pose proof (completes_fun f Ha _ _ _ (Hc _ (Hd _ _ _ _ H1)) (Hd _ _ _ _ H3)) as E.
  apply Hr in H1 as [_ E1], H3 as [_ E3]. destruct p2, p3; cbn in *. congruence.
Qed.
Print Assumptions C50_resume.

(** A tokenizer that fails every third time, called until it succeeds. *)
Example C50_example :
  let f : Z → ns → outcome (Z * ns * result (list token)) := λ k n,
    Ret (k + 1, n, if k mod 3 =? 2 then Err ENotTokenized else Ok [Token 1 (ns_norm n) (Offsets 0 (ns_len n))]) in
  let a := from_string [97] in let b := from_string [98; 98] in
  let ta := PSplit a (Some [Token 1 [97] (Offsets 0 1)]) in let tb := PSplit b (Some [Token 1 [98; 98] (Offsets 0 2)]) in
  pts_tokenize f 1 (Pts [] [PSplit a None; PSplit b None; PSplit a None]) = Ret (3, Pts [] [ta; PSplit b None; PSplit a None], Some ENotTokenized)
  ∧ pts_tokenize f 3 (Pts [] [ta; PSplit b None; PSplit a None]) = Ret (5, Pts [] [ta; tb; ta], None).
Proof. vm_compute. auto. Qed.

(** * C51 *)
Lemma encode_tokens_fields n w ty ts l : encode_tokens n w ty ts = Ret l →
  map et_id l = map t_id ts ∧ map et_token l = map t_value ts ∧ map et_word l = map (λ _, w) ts ∧ map et_type l = map (λ _, ty) ts.
Proof.
  revert l. induction ts as [|t ts IH]; intros l H; cbn [encode_tokens] in H; [by injection H as <-|].
  apply bind_Ret in H as ([[s e] ok] & _ & H). apply bind_Ret in H as (rest & H & E). injection E as <-.
  destruct (IH _ H) as (H1 & H2 & H3 & H4). cbn [map et_id et_token et_word et_type]. by rewrite H1, H2, H3, H4.
Qed.
Lemma encode_splits_fields wi ty i l out : encode_splits wi ty i l = Ret out →
  map et_id out = map (λ x, t_id x.2) (all_tokens i l) ∧ map et_token out = map (λ x, t_value x.2) (all_tokens i l)
  ∧ map et_word out = map (λ x, if wi <? 0 then x.1.1 else wi) (all_tokens i l) ∧ map et_type out = map (λ _, ty) (all_tokens i l).
Proof.
  revert i out. induction l as [|sp l IH]; intros i out H; cbn [encode_splits] in H; [by injection H as <-|].
  apply bind_Ret in H as (ts & Ht & H). apply bind_Ret in H as (rest & H & E). injection E as <-.
  destruct (IH _ _ H) as (H1 & H2 & H3 & H4). destruct (encode_tokens_fields _ _ _ _ _ Ht) as (G1 & G2 & G3 & G4).
  cbn [all_tokens]. rewrite !map_app, !map_map. cbn [fst snd]. by rewrite H1, H2, H3, H4, G1, G2, G3, G4.
Qed.

Lemma all_have_tokens_spec l : all_have_tokens l = true ↔ Forall (λ x, is_Some (sp_tokens x)) l.
Proof.
  unfold all_have_tokens. rewrite forallb_forall, Forall_forall. split; intros H x Hx; specialize (H x); rewrite <- elem_of_list_In in *.
  - specialize (H Hx). destruct (sp_tokens x); [by eexists|done].
  - by destruct (H Hx) as [t ->].
Qed.

Theorem C51_fails_iff :
  ∀ p wi ty, (∃ x, x ∈ p_splits p ∧ sp_tokens x = None) ↔ ∃ e, into_encoding p wi ty = Ret (Err e).
Proof.
  intros p wi ty. unfold into_encoding. pose proof (all_have_tokens_spec (p_splits p)) as Ha. rewrite Forall_forall in Ha. split.
  - intros (x & Hx & Hn). destruct (Z.eqb_spec (zlen (p_splits p)) 0) as [Hz|Hz].
    { destruct (p_splits p); [by apply elem_of_nil in Hx|]. unfold zlen in Hz. cbn in Hz. lia. }
    destruct (all_have_tokens (p_splits p)); [|by eexists]. destruct (proj1 Ha eq_refl x Hx) as [t Ht]. congruence.
  - intros (e & H). destruct (_ =? 0); [done|]. destruct (all_have_tokens (p_splits p)) eqn:E; cbn [negb] in H.
    { apply bind_Ret in H as (x & _ & ?). done. }
    clear -E. unfold all_have_tokens in E. induction (p_splits p) as [|y l IH]; [done|]. cbn in E. destruct (sp_tokens y) eqn:Hy.
    + destruct (IH E) as (x & Hx & ?). exists x. split; [by right|done].
    + exists y. split; [by left|done].
Qed.
Print Assumptions C51_fails_iff.

Theorem C51_contents :
  ∀ p wi ty e, into_encoding p wi ty = Ret (Ok e) →
  let ts := all_tokens 0 (p_splits p) in
  e_ids e = map (λ x, t_id x.2) ts ∧ e_tokens e = map (λ x, t_value x.2) ts
  ∧ e_words e = map (λ x, if wi <? 0 then x.1.1 else wi) ts ∧ e_type_ids e = map (λ _, ty) ts
  ∧ length (e_offsets e) = length ts ∧ e_special e = map (λ _, 0) ts ∧ e_attention e = map (λ _, 1) ts ∧ e_overflowing e = [].
Proof.
  intros p wi ty e H. unfold into_encoding in H. destruct (Z.eqb_spec (zlen (p_splits p)) 0) as [Hz|Hz].
  { injection H as <-. destruct (p_splits p); [|unfold zlen in Hz; cbn in Hz; lia]. done. }
  destruct (negb _); [done|]. apply bind_Ret in H as (l & H & E). injection E as <-. rewrite encoding_from_tokens_eq.
  cbn [e_ids e_type_ids e_tokens e_words e_offsets e_special e_attention e_overflowing].
  destruct (encode_splits_fields _ _ _ _ _ H) as (H1 & H2 & H3 & H4).
  assert (length l = length (all_tokens 0 (p_splits p))) as Hl. { by rewrite <- (map_length et_id), H1, map_length. }
  rewrite H1, H2, H3, H4, map_length. split_and!; try done; clear -Hl; revert Hl; generalize (all_tokens 0 (p_splits p));
    induction l as [|x l IH]; intros [|y l'] Hl; try done; cbn; f_equal; apply IH; by injection Hl.
Qed.
Print Assumptions C51_contents.

(** Two splits, three tokens; word numbers are split numbers, or the one given. *)
Example C51_example :
  let p := Pts [97; 98; 32; 99] [PSplit (NS [97; 98] [97; 98] [(0, 1); (1, 2)] 0) (Some [Token 3 [97] (Offsets 0 1); Token 4 [98] (Offsets 1 2)]);
                                 PSplit (NS [99] [99] [(0, 1)] 3) (Some [Token 5 [99] (Offsets 0 1)])] in
  into_encoding p (-1) 7 = Ret (Ok (Encoding [3; 4; 5] [7; 7; 7] [[97]; [98]; [99]] [0; 0; 1] [Offsets 0 1; Offsets 1 2; Offsets 3 4] [0; 0; 0] [1; 1; 1] []))
  ∧ into_encoding p 9 7 = Ret (Ok (Encoding [3; 4; 5] [7; 7; 7] [[97]; [98]; [99]] [9; 9; 9] [Offsets 0 1; Offsets 1 2; Offsets 3 4] [0; 0; 0] [1; 1; 1] []))
  ∧ into_encoding p 0 7 = Ret (Ok (Encoding [3; 4; 5] [7; 7; 7] [[97]; [98]; [99]] [0; 0; 0] [Offsets 0 1; Offsets 1 2; Offsets 3 4] [0; 0; 0] [1; 1; 1] []))
  ∧ into_encoding (Pts [97; 98] [PSplit (NS [97] [97] [(0, 1)] 0) (Some []); PSplit (NS [98] [98] [(0, 1)] 1) (Some [Token 4 [98] (Offsets 0 1)])]) (-1) 7
    = Ret (Ok (Encoding [4] [7] [[98]] [1] [Offsets 1 2] [0] [1] []))
  ∧ into_encoding (Pts [] [PSplit (from_string []) None]) 0 0 = Ret (Err ENotTokenized) ∧ into_encoding (Pts [] []) 0 0 = Ret (Ok empty_encoding).
Proof. vm_compute. auto 10. Qed.

(** * C52 *)
(** The offsets of one token: in the original text, relative to the whole of it; [x] is the original text there. *)
Definition token_place (root : list Z) (n : ns) (t : token) (o : offsets) : Prop :=
  ∃ a b x, o = Offsets (ns_shift n + a) (ns_shift n + b) ∧ least_span n (o_start (t_offsets t)) (o_end (t_offsets t)) a b
    ∧ text_at root (o_start o) (o_end o) x ∧ text_at (ns_orig n) a b x
    ∧ o_start (original_offsets n) <= o_start o ∧ o_start o <= o_end o ∧ o_end o <= o_end (original_offsets n).

Definition token_in (n : ns) (t : token) : Prop :=
  0 <= o_start (t_offsets t) ∧ o_start (t_offsets t) < o_end (t_offsets t) ∧ o_end (t_offsets t) <= zlen (ns_norm n).

Lemma coerce_place root n t : wf n → rooted root n → token_in n t →
  ∃ a b, coerce_to_orig n (NRange (o_start (t_offsets t)) (o_end (t_offsets t))) = Ret ((a, b), true)
       ∧ token_place root n t (Offsets (ns_shift n + a) (ns_shift n + b)).
Proof.
  intros Hwf Hr (H1 & H2 & H3). destruct (C20_to_original n _ _ Hwf H1 H2 H3) as (a & b & Hc & Hl). exists a, b. split; [done|].
  pose proof (wf_invariants n Hwf) as (_ & _ & Hz & Hal & _).
  assert (0 <= a ∧ a <= b ∧ b <= zlen (ns_orig n)) as (B1 & B2 & B3).
  { destruct Hl as [Hl1 Hl2]. set (s := o_start (t_offsets t)) in *. set (e := o_end (t_offsets t)) in *.
    destruct (idx_total (ns_al n) s) as [y Hy]; [lia|]. destruct (Hl1 s y ltac:(lia) Hy). destruct (Hal s y Hy) as (? & ? & _).
    destruct (Hl2 0 (zlen (ns_orig n))); [|lia]. intros k x Hk Hx. destruct (Hal k x Hx) as (? & ? & _). lia. }
  destruct (sub_total (ns_orig n) a b B1 B2 B3) as [x Hx]. apply text_at_sub in Hx.
  exists a, b, x. cbn [o_start o_end]. split; [done|]. split; [done|]. split; [by eapply text_at_trans|]. split; [done|].
  unfold original_offsets, ns_orig_len. cbn [o_start o_end]. lia.
Qed.

Lemma encode_tokens_places root n w ty ts : wf n → rooted root n → Forall (token_in n) ts →
  ∃ l, encode_tokens n w ty ts = Ret l ∧ Forall2 (token_place root n) ts (map et_offsets l).
Proof.
  intros Hwf Hr. induction 1 as [|t ts Ht _ (l & IH1 & IH2)]; cbn [encode_tokens]; [exists []; split; [done|constructor]|].
  destruct (coerce_place root n t Hwf Hr Ht) as (a & b & -> & Hp). cbn [mbind outcome_bind]. rewrite IH1. cbn [mbind outcome_bind].
  eexists. split; [done|]. by constructor.
Qed.

Lemma encode_splits_places root wi ty i l : Forall (λ x, wf (sp_ns x) ∧ rooted root (sp_ns x)) l →
  Forall (λ x, Forall (token_in (sp_ns x)) (default [] (sp_tokens x))) l →
  ∃ out, encode_splits wi ty i l = Ret out ∧ Forall2 (λ x o, token_place root x.1.2 x.2 o) (all_tokens i l) (map et_offsets out).
Proof.
  revert i. induction l as [|sp l IH]; intros i Hg Ht; cbn [encode_splits all_tokens]; [exists []; split; [done|constructor]|].
  apply Forall_cons in Hg as [[H1 H2] Hg], Ht as [Ht1 Ht].
  destruct (encode_tokens_places root (sp_ns sp) (if wi <? 0 then i else wi) ty _ H1 H2 Ht1) as (ts & -> & Hts). cbn [mbind outcome_bind].
  destruct (IH (i + 1) Hg Ht) as (rest & -> & Hrest). cbn [mbind outcome_bind]. eexists. split; [done|].
  rewrite map_app. apply Forall2_app; [|done]. by apply Forall2_fmap_l.
Qed.

Theorem C52_offsets :
  ∀ p wi ty, reachable_pts p →
  Forall (λ x, ∃ ts, sp_tokens x = Some ts ∧ Forall (token_in (sp_ns x)) ts) (p_splits p) →
  ∃ e, into_encoding p wi ty = Ret (Ok e)
     ∧ Forall2 (λ x o, token_place (p_original p) x.1.2 x.2 o) (all_tokens 0 (p_splits p)) (e_offsets e).
Proof.
  intros p wi ty Hr Ht. apply reachable_pts_good in Hr as (rs & _ & Ho & Hg). rewrite Ho. unfold into_encoding.
  destruct (Z.eqb_spec (zlen (p_splits p)) 0) as [Hz|Hz].
  { destruct (p_splits p); [|unfold zlen in Hz; cbn in Hz; lia]. eexists. split; [done|]. constructor. }
  replace (all_have_tokens (p_splits p)) with true; cbn [negb].
  - destruct (encode_splits_places (encode rs) wi ty 0 (p_splits p) Hg) as (out & -> & Hout).
    { eapply Forall_impl; [exact Ht|]. by intros x (ts & -> & Hx). }
    cbn [mbind outcome_bind]. eexists. split; [done|]. by rewrite encoding_from_tokens_eq.
  - symmetry. apply all_have_tokens_spec. eapply Forall_impl; [exact Ht|]. intros x (ts & -> & _). by eexists.
Qed.
Print Assumptions C52_offsets.

(** Whatever the tokens are: one with its end before its start keeps its own numbers, an empty one is moved by the place
    of its split; one that reaches outside the text of its split makes the call panic, and nothing else does. *)
Definition any_place (root : list Z) (n : ns) (t : token) (o : offsets) : Prop :=
  let s := o_start (t_offsets t) in let e := o_end (t_offsets t) in
  (s < e → token_place root n t o) ∧ (s = e → o = Offsets (ns_shift n + s) (ns_shift n + s)) ∧ (e < s → o = t_offsets t).
Definition outside (n : ns) (t : token) : Prop :=
  let s := o_start (t_offsets t) in let e := o_end (t_offsets t) in s < e ∧ (s < 0 ∨ zlen (ns_norm n) < e).

Lemma coerce_any root n t : wf n → rooted root n →
  outside n t ∧ coerce_to_orig n (NRange (o_start (t_offsets t)) (o_end (t_offsets t))) = Panic ∨
  ¬ outside n t ∧ ∃ a b ok, coerce_to_orig n (NRange (o_start (t_offsets t)) (o_end (t_offsets t))) = Ret ((a, b), ok)
    ∧ any_place root n t (if (ok : bool) then Offsets (ns_shift n + a) (ns_shift n + b) else t_offsets t).
Proof.
  intros Hwf Hr. unfold outside, any_place. set (s := o_start _). set (e := o_end _). destruct (Z.lt_trichotomy s e) as [Hse|[Hse|Hse]].
  - destruct (decide (0 <= s ∧ e <= zlen (ns_norm n))) as [[H1 H2]|Hout].
    + right. split; [lia|]. destruct (coerce_place root n t Hwf Hr) as (a & b & Hc & Hp); [by repeat split|]. exists a, b, true. split; [done|].
      split; [done|]. split; lia.
    + left. split; [lia|]. cbn [coerce_to_orig]. unfold r_len. cbn [r_end r_start]. replace (e - s =? 0) with false by lia. replace (e <? s) with false by lia.
      replace ((zlen (ns_norm n) =? 0) && (s =? 0) && (e =? 0)) with false by lia. rewrite sub_panic; [done|]. pose proof (wf_invariants n Hwf) as (_ & _ & Hz & _). lia.
  - right. split; [lia|]. exists s, e, true. cbn [coerce_to_orig]. unfold r_len. cbn [r_end r_start]. replace (e - s =? 0) with true by lia. split; [done|].
    split; [lia|]. split; [|lia]. intros _. by rewrite <- Hse.
  - right. split; [lia|]. exists 0, 0, false. cbn [coerce_to_orig]. unfold r_len. cbn [r_end r_start]. replace (e - s =? 0) with false by lia. replace (e <? s) with true by lia. split; [done|].
    split; [lia|]. split; [lia|]. done.
Qed.

Lemma encode_tokens_any root n w ty ts : wf n → rooted root n →
  Exists (outside n) ts ∧ encode_tokens n w ty ts = Panic ∨
  ¬ Exists (outside n) ts ∧ ∃ l, encode_tokens n w ty ts = Ret l ∧ Forall2 (any_place root n) ts (map et_offsets l).
Proof.
  intros Hwf Hr. induction ts as [|t ts IH]; cbn [encode_tokens]; [right; split; [by intros ?%Exists_nil|]; exists []; split; [done|constructor]|]. rewrite Exists_cons.
  destruct (coerce_any root n t Hwf Hr) as [[H ->]|(H & a & b & ok & -> & Hp)]; cbn [mbind outcome_bind]; [left; split; [by left|done]|].
  destruct IH as [[H' ->]|(H' & l & -> & Hl)]; cbn [mbind outcome_bind]; [left; split; [by right|done]|]. right. split; [tauto|]. eexists. split; [done|]. by constructor.
Qed.

Lemma encode_splits_any root wi ty i l : Forall (λ x, wf (sp_ns x) ∧ rooted root (sp_ns x)) l →
  Exists (λ x, outside x.1.2 x.2) (all_tokens i l) ∧ encode_splits wi ty i l = Panic ∨
  ¬ Exists (λ x, outside x.1.2 x.2) (all_tokens i l) ∧
    ∃ out, encode_splits wi ty i l = Ret out ∧ Forall2 (λ x o, any_place root x.1.2 x.2 o) (all_tokens i l) (map et_offsets out).
Proof.
  revert i. induction l as [|sp l IH]; intros i Hg; cbn [encode_splits all_tokens]; [right; split; [by intros ?%Exists_nil|]; exists []; split; [done|constructor]|].
  apply Forall_cons in Hg as [[H1 H2] Hg]. rewrite Exists_app.
  assert (HE : ∀ ts, Exists (λ x : Z * ns * token, outside x.1.2 x.2) (map (λ t, (i, sp_ns sp, t)) ts) ↔ Exists (outside (sp_ns sp)) ts).
  { induction ts as [|t ts IHt]; cbn [map]; [by rewrite !Exists_nil|]. by rewrite !Exists_cons, IHt. }
  rewrite HE. destruct (encode_tokens_any root (sp_ns sp) (if wi <? 0 then i else wi) ty (default [] (sp_tokens sp)) H1 H2) as [[H ->]|(H & ts & -> & Hts)];
    cbn [mbind outcome_bind]; [left; split; [by left|done]|].
  destruct (IH (i + 1) Hg) as [[H' ->]|(H' & rest & -> & Hrest)]; cbn [mbind outcome_bind]; [left; split; [by right|done]|].
  right. split; [tauto|]. eexists. split; [done|]. rewrite map_app. apply Forall2_app; [|done]. by apply Forall2_fmap_l.
Qed.

Theorem C52_every_token :
  ∀ p wi ty, reachable_pts p → Forall (λ x, is_Some (sp_tokens x)) (p_splits p) →
  Exists (λ x, outside x.1.2 x.2) (all_tokens 0 (p_splits p)) ∧ into_encoding p wi ty = Panic ∨
  ¬ Exists (λ x, outside x.1.2 x.2) (all_tokens 0 (p_splits p)) ∧
    ∃ e, into_encoding p wi ty = Ret (Ok e)
       ∧ Forall2 (λ x o, any_place (p_original p) x.1.2 x.2 o) (all_tokens 0 (p_splits p)) (e_offsets e).
Proof.
  intros p wi ty Hr Ht. apply reachable_pts_good in Hr as (rs & _ & Ho & Hg). rewrite Ho. unfold into_encoding.
  destruct (Z.eqb_spec (zlen (p_splits p)) 0) as [Hz|Hz].
  { right. destruct (p_splits p); [|unfold zlen in Hz; cbn in Hz; lia]. split; [by intros ?%Exists_nil|]. eexists. split; [done|]. constructor. }
  replace (all_have_tokens (p_splits p)) with true; cbn [negb].
  - destruct (encode_splits_any (encode rs) wi ty 0 (p_splits p) Hg) as [[H ->]|(H & out & -> & Hout)]; [by left|right]. split; [done|].
    cbn [mbind outcome_bind]. eexists. split; [done|]. by rewrite encoding_from_tokens_eq.
  - symmetry. by apply all_have_tokens_spec.
Qed.
Print Assumptions C52_every_token.

(** A token of text, an empty one, one with its end before its start; one past the end. *)
Example C52_example :
  let n := NS [32; 195; 137] [195; 169] [(1, 3); (1, 3)] 10 in
  into_encoding (Pts [] [PSplit n (Some [Token 0 [195; 169] (Offsets 0 2); Token 0 [] (Offsets 2 2); Token 0 [] (Offsets 2 1)])]) (-1) 0
  = Ret (Ok (Encoding [0; 0; 0] [0; 0; 0] [[195; 169]; []; []] [0; 0; 0] [Offsets 11 13; Offsets 12 12; Offsets 2 1] [0; 0; 0] [1; 1; 1] []))
  ∧ into_encoding (Pts [] [PSplit n (Some [Token 0 [] (Offsets 0 3)])]) (-1) 0 = Panic.
Proof. vm_compute. auto. Qed.

(** A reachable one: " É!" lower-cased, then split at "!"; all of it tokenized. *)
Example C52_reachable :
  let lower := λ r, if r =? 0xC9 then 0xE9 else r in
  let f : unit → ns → outcome (unit * ns * option err) := λ st n, m ← map_runes n lower; Ret (st, m, None) in
  let g : split_func unit := λ st i n, x ← split n (rune_pattern 33) Isolated;
    Ret (st, n, match x with Ok l => Ok (splits_from_ns l) | Err e => Err e end) in
  (x ← pts_normalize f tt (pts_from_string (encode [32; 0xC9; 33]));
   y ← pts_split g tt x.1.2;
   z ← pts_tokenize (λ st n, Ret (st, n, Ok [Token 0 (ns_norm n) (Offsets 0 (ns_len n))])) tt y.1.2;
   into_encoding z.1.2 (-1) 0)
  = Ret (Ok (Encoding [0; 0] [0; 0] [[32; 195; 169]; [33]] [0; 1] [Offsets 0 3; Offsets 3 4] [0; 0] [1; 1] [])).
Proof. vm_compute. reflexivity. Qed.

(** * C53 *)
Theorem C53_normalized_splits :
  ∀ p, let l := normalized_byte_splits p in
  length l = length (p_splits p)
  ∧ ∀ k x, p_splits p !! k = Some x → ∃ b, l !! k = Some b
      ∧ bs_string b = ns_norm (sp_ns x) ∧ bs_tokens b = sp_tokens x
      ∧ o_start (bs_offsets b) = zlen (concat (map (λ y, ns_norm (sp_ns y)) (take k (p_splits p))))
      ∧ text_at (concat (map (λ y, ns_norm (sp_ns y)) (p_splits p))) (o_start (bs_offsets b)) (o_end (bs_offsets b)) (bs_string b).
Proof.
  intros p l. unfold l, normalized_byte_splits.
  assert (H : ∀ o sps, length (normalized_byte_splits_from o sps) = length sps
    ∧ ∀ k x, sps !! k = Some x → normalized_byte_splits_from o sps !! k
        = Some (ByteSplit (ns_norm (sp_ns x)) (Offsets (o + zlen (concat (map (λ y, ns_norm (sp_ns y)) (take k sps))))
             (o + zlen (concat (map (λ y, ns_norm (sp_ns y)) (take k sps))) + ns_len (sp_ns x))) (sp_tokens x))).
  { intros o sps. revert o. induction sps as [|sp sps IH]; intros o; [done|]. destruct (IH (o + ns_len (sp_ns sp))) as [H1 H2]. split; [cbn; by rewrite H1|].
    intros [|k] x Hx; cbn [normalized_byte_splits_from].
    - injection Hx as ->. cbn [take map concat lookup list_lookup]. by rewrite zlen_nil, Z.add_0_r.
    - change ((sp :: sps) !! S k) with (sps !! k) in Hx. rewrite lookup_cons_ne_0 by done. cbn [Nat.pred]. rewrite (H2 k x Hx). cbn [take map concat]. rewrite zlen_app. unfold ns_len. by rewrite !Z.add_assoc. }
  destruct (H 0 (p_splits p)) as [H1 H2]. split; [done|]. intros k x Hx. rewrite (H2 k x Hx). eexists. split; [done|].
  cbn [bs_string bs_offsets bs_tokens o_start o_end]. split; [done|]. split; [done|]. split; [done|].
  apply elem_of_list_split_length in Hx as (a & b & -> & ->). rewrite take_app. rewrite map_app, concat_app. cbn [map concat].
  exists (concat (map (λ y, ns_norm (sp_ns y)) a)), (concat (map (λ y, ns_norm (sp_ns y)) b)). split; [done|]. unfold ns_len. lia.
Qed.
Print Assumptions C53_normalized_splits.

Theorem C53_original_splits :
  ∀ p, let l := original_byte_splits p in
  length l = length (p_splits p)
  ∧ (∀ k x, p_splits p !! k = Some x → ∃ b, l !! k = Some b
      ∧ bs_string b = ns_norm (sp_ns x) ∧ bs_tokens b = sp_tokens x
      ∧ bs_offsets b = Offsets (ns_shift (sp_ns x)) (ns_shift (sp_ns x) + zlen (ns_orig (sp_ns x))))
  ∧ (reachable_pts p → Forall2 (λ x b, text_at (p_original p) (o_start (bs_offsets b)) (o_end (bs_offsets b)) (ns_orig (sp_ns x))) (p_splits p) l).
Proof.
  intros p l. unfold l, original_byte_splits. split; [apply map_length|]. split.
  - intros k x Hx. rewrite list_lookup_fmap, Hx. by eexists.
  - intros (rs & _ & -> & Hg)%reachable_pts_good. induction Hg as [|x xs [_ Hx] _ IH]; constructor; done.
Qed.
Print Assumptions C53_original_splits.

Example C53_example :
  let p := Pts [32; 97; 98] [PSplit (NS [32; 97] [97] [(1, 2)] 0) None; PSplit (NS [98] [98; 98] [(0, 1); (0, 1)] 2) (Some [])] in
  normalized_byte_splits p = [ByteSplit [97] (Offsets 0 1) None; ByteSplit [98; 98] (Offsets 1 3) (Some [])]
  ∧ original_byte_splits p = [ByteSplit [97] (Offsets 0 2) None; ByteSplit [98; 98] (Offsets 2 3) (Some [])].
Proof. vm_compute. auto. Qed.
