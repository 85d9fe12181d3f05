(** Facts about arrays behind slices (C116, C117). *)
From Coq Require Import ZifyBool.
From Verif Require Import GoBase Strutils SplitPattern NormString Bpe Encodings PreTokString Pointers Arrays SpecArrays.
Import GoBase NormString.
#[local] Open Scope Z_scope.

(** * Captures *)
Lemma making_behaves p : behaves p (a_making p).
Proof.
  intros s κ. unfold a_making. destruct (p s) as [[cs|e]|]; cbn [mbind outcome_bind]; [| |done].
  - exists [cs], (length κ). split; [done|]. split; [lia|]. rewrite lookup_app_r by lia. by replace (length κ - length κ)%nat with 0%nat by lia.
  - exists []. by rewrite app_nil_r.
Qed.
Lemma alter_new {A} (f : A → A) (κ new : list A) l : (length κ <= l)%nat → alter f l (κ ++ new) = κ ++ alter f (l - length κ)%nat new.
Proof. intros H. replace l with (length κ + (l - length κ))%nat at 1 by lia. apply alter_app_r. Qed.
Lemma invert_behaves p ap : behaves p ap → behaves (invert p) (a_invert ap).
Proof.
  intros H s κ. specialize (H s κ). unfold a_invert, invert. destruct (p s) as [[cs|e]|]; cbn [mbind outcome_bind]; [| |by rewrite H].
  - destruct H as (new & l & E & Hl & Hc). rewrite E. cbn [mbind outcome_bind fst snd].
    exists (alter (map flip_capture) (l - length κ)%nat new), l. split; [by rewrite <- alter_new|]. split; [done|].
    rewrite <- alter_new by done. rewrite list_lookup_alter, Hc. done.
  - destruct H as (new & E). rewrite E. by exists new.
Qed.
Lemma lib_behaves p ap : lib_pattern p ap → behaves p ap.
Proof. induction 1; [apply making_behaves|by apply invert_behaves]. Qed.

Lemma find_behaves p ap s κ : behaves p ap → match p s with Panic => a_find ap s κ = Panic | Ret r => ∃ new, a_find ap s κ = Ret (κ ++ new, r) end.
Proof.
  intros H. specialize (H s κ). unfold a_find. destruct (p s) as [[cs|e]|]; [| |by rewrite H].
  - destruct H as (new & l & E & Hl & Hc). rewrite E. cbn [mbind outcome_bind fst snd]. rewrite Hc. by exists new.
  - destruct H as (new & E). rewrite E. by exists new.
Qed.
Lemma split_behaves p ap n b κ : behaves p ap → match split n p b with Panic => a_split n ap b κ = Panic | Ret r => ∃ new, a_split n ap b κ = Ret (κ ++ new, r) end.
Proof.
  intros H. pose proof (find_behaves p ap (ns_norm n) κ H) as G. unfold a_split.
  destruct (p (ns_norm n)) as [r|] eqn:E.
  - destruct G as (new & G). rewrite G. cbn [mbind outcome_bind fst snd].
    replace (split n (λ _, Ret r) b) with (split n p b) by (unfold split; by rewrite E). destruct (split n p b); [|done]. by exists new.
  - rewrite G. unfold split. by rewrite E.
Qed.
Lemma replace_behaves p ap n c κ : behaves p ap → match replace n p c with Panic => a_replace n ap c κ = Panic | Ret r => ∃ new, a_replace n ap c κ = Ret (κ ++ new, r) end.
Proof.
  intros H. pose proof (find_behaves p ap (ns_norm n) κ H) as G. unfold a_replace.
  destruct (p (ns_norm n)) as [r|] eqn:E.
  - destruct G as (new & G). rewrite G. cbn [mbind outcome_bind fst snd].
    replace (replace n (λ _, Ret r) c) with (replace n p c) by (unfold replace; by rewrite E). destruct (replace n p c); [|done]. by exists new.
  - rewrite G. unfold replace. by rewrite E.
Qed.

Lemma flip_flip cs : map flip_capture (map flip_capture cs) = cs.
Proof. induction cs as [|[a b m] cs IH]; [done|]. cbn [map]. rewrite IH. unfold flip_capture. cbn. by rewrite negb_involutive. Qed.
Lemma kept_calls l s k κ cs : κ !! l = Some cs →
  ∃ κ', calls (a_invert (kept l)) s k κ = Ret κ' ∧ κ' !! l = Some (if Nat.odd k then map flip_capture cs else cs) ∧ ∀ l', l' ≠ l → κ' !! l' = κ !! l'.
Proof.
  revert κ cs. induction k as [|k IH]; intros κ cs H; [by exists κ|]. cbn [calls]. unfold a_invert at 1, kept at 1. cbn [mbind outcome_bind fst snd].
  destruct (IH (alter (map flip_capture) l κ) (map flip_capture cs)) as (κ' & E & Hl & Ho); [by rewrite list_lookup_alter, H|].
  exists κ'. split; [done|]. split.
  - rewrite Hl, flip_flip, Nat.odd_succ, <- Nat.negb_odd. by destruct (Nat.odd k).
  - intros l' Hne. rewrite Ho, list_lookup_alter_ne by done. done.
Qed.

(** * Splits *)
Section splits.
Context {St : Type}.
Implicit Types w : world St.

Lemma element_at (σ : list ns) A c (st : St) a front sp rest i : A !! a = Some (front ++ sp :: rest) → length front = i → element (World σ A c st) a i = Some sp.
Proof. intros H <-. unfold element. cbn [w_arrays]. rewrite H, lookup_app_r by lia. by replace (length front - length front)%nat with 0%nat by lia. Qed.

Lemma on_strings_eq {A} (m : St → heap (St * A)) σ B c st : on_strings m (World σ B c st) = (x ← m st σ; Ret (World x.1 B c x.2.1, x.2.2)).
Proof. done. Qed.
Lemma h_bind_eq {A B} (m : heap A) (k : A → heap B) σ : h_bind m k σ = (x ← m σ; k x.2 x.1).
Proof. done. Qed.
Lemma h_ret_eq {A} (x : A) σ : h_ret x σ = Ret (σ, x).
Proof. done. Qed.

(** The function given to Split as Pointers.v has it. *)
Lemma split_loop_agree (hf : h_split_func St) a A c : ∀ rest front i new σ st, A !! a = Some (front ++ rest) → length front = i →
  r_split_loop (λ z l, on_strings (λ st, hf st z l)) a i (length rest) new (World σ A c st)
  = (x ← h_split_loop hf st (Z.of_nat i) rest σ; Ret (World x.1 A c x.2.1, match x.2.2 with Ok l => Ok (new ++ l) | Err e => Err e end)).
Proof.
  induction rest as [|sp rest IH]; intros front i new σ st H Hi; cbn [length r_split_loop h_split_loop].
  - rewrite ?h_ret_eq; cbn [mbind outcome_bind fst snd]; by rewrite app_nil_r.
  - rewrite (element_at σ A c st a front sp rest i H Hi).
    assert (H' : A !! a = Some ((front ++ [sp]) ++ rest)) by (by rewrite <- app_assoc). assert (Hi' : length (front ++ [sp]) = S i) by (rewrite app_length; cbn; lia).
    destruct (hs_tokens sp) as [t|].
    + rewrite (IH (front ++ [sp]) (S i) _ σ st H' Hi'). rewrite h_bind_eq. replace (Z.of_nat (S i)) with (Z.of_nat i + 1) by lia.
      destruct (h_split_loop hf st (Z.of_nat i + 1) rest σ) as [[σ1 [st1 [l|e]]]|]; cbn [mbind outcome_bind fst snd h_ret]; [|done|done].
      rewrite ?h_ret_eq; cbn [mbind outcome_bind fst snd]; by rewrite <- app_assoc.
    + rewrite on_strings_eq, h_bind_eq.
      destruct (hf st (Z.of_nat i) (hs_loc sp) σ) as [[σ1 [st1 [items|e]]]|]; cbn [mbind outcome_bind fst snd]; [|done|done].
      rewrite on_strings_eq, !h_bind_eq.
      destruct (h_keep items σ1) as [[σ2 kept]|]; cbn [mbind outcome_bind fst snd]; [|done].
      change (h_ret (st1, kept) σ2) with (Ret (σ2, (st1, kept))). cbn [mbind outcome_bind fst snd].
      rewrite (IH (front ++ [sp]) (S i) _ σ2 st1 H' Hi'). rewrite h_bind_eq. replace (Z.of_nat (S i)) with (Z.of_nat i + 1) by lia.
      destruct (h_split_loop hf st1 (Z.of_nat i + 1) rest σ2) as [[σ3 [st3 [l|e]]]|]; cbn [mbind outcome_bind fst snd]; [|done|done].
      rewrite ?h_ret_eq; cbn [mbind outcome_bind fst snd]; by rewrite <- app_assoc.
Qed.
Lemma split_agree (hf : h_split_func St) σ A c st L : A !! c = Some L →
  r_split (λ z l, on_strings (λ st, hf st z l)) (World σ A c st)
  = (x ← h_split_loop hf st 0 L σ;
     Ret (match x.2.2 with Ok l => (World x.1 (A ++ [l]) (length A) x.2.1, None) | Err e => (World x.1 A c x.2.1, Some e) end)).
Proof.
  intros H. unfold r_split, array_len. cbn [w_cur w_arrays]. rewrite H. rewrite (split_loop_agree hf c A c L [] 0%nat [] σ st H eq_refl).
  change (Z.of_nat 0) with 0. destruct (h_split_loop hf st 0 L σ) as [[σ1 [st1 [l|e]]]|]; done.
Qed.

Lemma normalize_loop_agree (hf : St → nat → heap (St * option err)) a A c : ∀ rest front i σ st, A !! a = Some (front ++ rest) → length front = i →
  r_normalize_loop (λ l, on_strings (λ st, hf st l)) a i (length rest) (World σ A c st)
  = (x ← h_normalize_loop hf st rest σ; Ret (World x.1 A c x.2.1, x.2.2)).
Proof.
  induction rest as [|sp rest IH]; intros front i σ st H Hi; cbn [length r_normalize_loop h_normalize_loop]; [done|].
  rewrite (element_at σ A c st a front sp rest i H Hi).
  assert (H' : A !! a = Some ((front ++ [sp]) ++ rest)) by (by rewrite <- app_assoc). assert (Hi' : length (front ++ [sp]) = S i) by (rewrite app_length; cbn; lia).
  destruct (hs_tokens sp) as [t|]; [by rewrite (IH (front ++ [sp]) (S i) σ st H' Hi')|].
  rewrite on_strings_eq, h_bind_eq.
  destruct (hf st (hs_loc sp) σ) as [[σ1 [st1 [e|]]]|]; cbn [mbind outcome_bind fst snd]; [done| |done]. by rewrite (IH (front ++ [sp]) (S i) σ1 st1 H' Hi').
Qed.
Lemma normalize_agree (hf : St → nat → heap (St * option err)) σ A c st L : A !! c = Some L →
  r_normalize (λ l, on_strings (λ st, hf st l)) (World σ A c st) = (x ← h_normalize_loop hf st L σ; Ret (World x.1 A c x.2.1, x.2.2)).
Proof. intros H. unfold r_normalize, array_len. cbn [w_cur w_arrays]. rewrite H. by apply (normalize_loop_agree hf c A c L [] 0%nat). Qed.

Lemma set_tokens_at (σ : list ns) A c (st : St) front sp rest ts i : A !! c = Some (front ++ sp :: rest) → length front = i →
  set_tokens i ts (World σ A c st) = Ret (World σ (<[c := front ++ HSplit (hs_loc sp) (Some ts) :: rest]> A) c st).
Proof.
  intros H Hi. unfold set_tokens. cbn [w_cur w_strings w_arrays w_client]. rewrite (element_at σ A c st c front sp rest i H Hi). do 2 f_equal.
  apply list_eq. intros j. destruct (decide (j = c)) as [->|Hne].
  - rewrite list_lookup_alter, H. cbn [fmap option_fmap option_map]. rewrite list_lookup_insert by (by eapply lookup_lt_Some). f_equal.
    rewrite insert_app_r_alt by lia. replace (i - length front)%nat with 0%nat by lia. done.
  - by rewrite list_lookup_alter_ne, list_lookup_insert_ne.
Qed.
Lemma tokenize_loop_agree (hf : St → nat → heap (St * result (list token))) c : ∀ rest front A i σ st, A !! c = Some (front ++ rest) → length front = i →
  r_tokenize_loop (λ l, on_strings (λ st, hf st l)) c i (length rest) (World σ A c st)
  = (x ← h_tokenize_loop hf st rest σ; Ret (World x.1 (<[c := front ++ x.2.1.2]> A) c x.2.1.1, x.2.2)).
Proof.
  induction rest as [|sp rest IH]; intros front A i σ st H Hi; cbn [length r_tokenize_loop h_tokenize_loop].
  - rewrite ?h_ret_eq; cbn [mbind outcome_bind fst snd]; by rewrite list_insert_id.
  - rewrite (element_at σ A c st c front sp rest i H Hi).
    assert (Hi' : ∀ x : hsplit, length (front ++ [x]) = S i) by (intros x; rewrite app_length; cbn; lia).
    destruct (hs_tokens sp) as [t|].
    + rewrite (IH (front ++ [sp]) A (S i) σ st); [|by rewrite <- app_assoc|done]. rewrite h_bind_eq.
      destruct (h_tokenize_loop hf st rest σ) as [[σ1 [[st1 l] e]]|]; cbn [mbind outcome_bind fst snd]; [|done].
      rewrite ?h_ret_eq; cbn [mbind outcome_bind fst snd]; by rewrite <- app_assoc.
    + rewrite on_strings_eq, h_bind_eq.
      destruct (hf st (hs_loc sp) σ) as [[σ1 [st1 [ts|e]]]|]; cbn [mbind outcome_bind fst snd]; [| |done].
      * rewrite (set_tokens_at σ1 A c st1 front sp rest ts i H Hi). cbn [mbind outcome_bind].
        rewrite (IH (front ++ [HSplit (hs_loc sp) (Some ts)]) _ (S i) σ1 st1); [| |done].
        -- rewrite h_bind_eq. destruct (h_tokenize_loop hf st1 rest σ1) as [[σ2 [[st2 l] e]]|]; cbn [mbind outcome_bind fst snd]; [|done].
           rewrite ?h_ret_eq; cbn [mbind outcome_bind fst snd]; by rewrite list_insert_insert, <- app_assoc.
        -- rewrite list_lookup_insert by (by eapply lookup_lt_Some). by rewrite <- app_assoc.
      * rewrite ?h_ret_eq; cbn [mbind outcome_bind fst snd]; by rewrite list_insert_id.
Qed.
Lemma tokenize_agree (hf : St → nat → heap (St * result (list token))) σ A c st L : A !! c = Some L →
  r_tokenize (λ l, on_strings (λ st, hf st l)) (World σ A c st) = (x ← h_tokenize_loop hf st L σ; Ret (World x.1 (<[c := x.2.1.2]> A) c x.2.1.1, x.2.2)).
Proof. intros H. unfold r_tokenize, array_len. cbn [w_cur w_arrays]. rewrite H. by apply (tokenize_loop_agree hf c L [] A 0%nat). Qed.

(** * Functions that change the PreTokenizedString *)
Lemma split_loop_alike a f f' : same_items a f f' → ∀ k i new w w', alike a w w' →
  match r_split_loop f a i k new w, r_split_loop f' a i k new w' with
  | Ret (v, r), Ret (v', r') => r = r' ∧ alike a v v'
  | Panic, Panic => True
  | _, _ => False
  end.
Proof.
  intros Hf. induction k as [|k IH]; intros i new w w' Hw; cbn [r_split_loop]; [done|].
  assert (element w a i = element w' a i) as ->. { unfold element. destruct Hw as (_ & _ & H). by rewrite H. }
  destruct (element w' a i) as [sp|]; [|done]. destruct (hs_tokens sp); [by apply IH|].
  specialize (Hf (Z.of_nat i) (hs_loc sp) w w' Hw).
  destruct (f (Z.of_nat i) (hs_loc sp) w) as [[v r]|], (f' (Z.of_nat i) (hs_loc sp) w') as [[v' r']|]; cbn [mbind outcome_bind fst snd]; try done.
  destruct Hf as [<- Hv]. destruct r as [items|e]; [|done]. unfold on_strings. destruct Hv as (H1 & H2 & H3). rewrite <- H1, <- H2. unfold h_bind.
  destruct (h_keep items (w_strings v)) as [[σ l]|]; cbn [mbind outcome_bind fst snd]; [|done]. unfold h_ret. cbn [mbind outcome_bind fst snd]. by apply IH.
Qed.
Lemma split_alike f f' w : same_items (w_cur w) f f' →
  match r_split f w, r_split f' w with
  | Ret (v, None), Ret (v', None) => contents v = contents v' ∧ is_Some (contents v) ∧ w_strings v = w_strings v' ∧ w_client v = w_client v'
  | Ret (_, Some e), Ret (_, Some e') => e = e'
  | Panic, Panic => True
  | _, _ => False
  end.
Proof.
  intros Hf. unfold r_split. pose proof (split_loop_alike (w_cur w) f f' Hf (array_len w (w_cur w)) 0%nat [] w w ltac:(by split_and!)) as H.
  destruct (r_split_loop f _ _ _ _ w) as [[v r]|], (r_split_loop f' _ _ _ _ w) as [[v' r']|]; cbn [mbind outcome_bind fst snd]; try done.
  destruct H as [<- (H1 & H2 & H3)]. destruct r as [new|e]; [|done]. unfold contents. cbn [w_arrays w_cur w_strings w_client].
  rewrite !lookup_app_r by lia. rewrite !Nat.sub_diag. cbn. split; [done|]. split; [by eexists|]. done.
Qed.

(** Tokenize with functions that never make p.splits shorter than it was. *)
Lemma tokenize_safe f a n : (∀ l w, (n <= array_len w a)%nat → (n <= array_len w (w_cur w))%nat →
    ∃ v r, f l w = Ret (v, r) ∧ (n <= array_len v a)%nat ∧ (n <= array_len v (w_cur v))%nat) →
  ∀ k i w, (i + k <= n)%nat → (n <= array_len w a)%nat → (n <= array_len w (w_cur w))%nat → r_tokenize_loop f a i k w ≠ Panic.
Proof.
  intros Hf. induction k as [|k IH]; intros i w Hik Ha Hc; cbn [r_tokenize_loop]; [done|].
  assert (El : ∀ (v : world St) b, (n <= array_len v b)%nat → ∃ sp, element v b i = Some sp).
  { intros v b H. unfold element, array_len in *. destruct (w_arrays v !! b) as [l|]; [|lia]. apply lookup_lt_is_Some. lia. }
  destruct (El w a Ha) as (sp & ->). destruct (hs_tokens sp); [apply IH; [lia|done..]|].
  destruct (Hf (hs_loc sp) w Ha Hc) as (v & r & E & Ha' & Hc'). rewrite E. cbn [mbind outcome_bind fst snd]. destruct r as [ts|e]; [|done].
  unfold set_tokens. destruct (El v (w_cur v) Hc') as (sp' & ->). cbn [mbind outcome_bind].
  assert (L : ∀ b, array_len (World (w_strings v) (alter (λ l, <[i := HSplit (hs_loc sp') (Some ts)]> l) (w_cur v) (w_arrays v)) (w_cur v) (w_client v)) b = array_len v b).
  { intros b. unfold array_len. cbn [w_arrays]. destruct (decide (b = w_cur v)) as [->|Hne].
    - rewrite list_lookup_alter. destruct (w_arrays v !! w_cur v); cbn; [by rewrite insert_length|done].
    - by rewrite list_lookup_alter_ne. }
  apply IH; [lia|by rewrite L|]. cbn [w_cur]. by rewrite L.
Qed.
Lemma h_tokenize_reading g st : ∀ L σ, Forall (λ sp, is_Some (σ !! hs_loc sp)) L →
  h_tokenize_loop (λ (st : St) l σ, match σ !! l with Some n => Ret (σ, (st, Ok (g n))) | None => Panic end) st L σ = Ret (σ, (st, map (tokenized_by g σ) L, None)).
Proof.
  induction L as [|sp L IH]; intros σ H; [done|]. apply Forall_cons in H as [[n Hn] H]. cbn [h_tokenize_loop map]. unfold tokenized_by at 1. rewrite Hn.
  destruct (hs_tokens sp) as [t|] eqn:Et; unfold h_bind; cbn [mbind outcome_bind fst snd].
  - rewrite (IH σ H). cbn [mbind outcome_bind fst snd]. done.
  - rewrite Hn. cbn [mbind outcome_bind fst snd]. rewrite (IH σ H). done.
Qed.
Lemma tokenize_reading g σ A c (st : St) L : A !! c = Some L → Forall (λ sp, is_Some (σ !! hs_loc sp)) L →
  r_tokenize (reading g) (World σ A c st) = Ret (World σ (<[c := map (tokenized_by g σ) L]> A) c st, None).
Proof.
  intros H Hs. unfold reading. rewrite (tokenize_agree (λ st l σ, match σ !! l with Some n => Ret (σ, (st, Ok (g n))) | None => Panic end) σ A c st L H).
  by rewrite (h_tokenize_reading g st L σ Hs).
Qed.
Lemma tokenize_skip f c : ∀ mid front rest A i (σ : list ns) (st : St), A !! c = Some (front ++ mid ++ rest) → length front = i → Forall (λ sp, is_Some (hs_tokens sp)) mid →
  r_tokenize_loop f c i (length mid + length rest) (World σ A c st) = r_tokenize_loop f c (i + length mid) (length rest) (World σ A c st).
Proof.
  induction mid as [|sp mid IH]; intros front rest A i σ st H Hi Hm; cbn [length]; [by rewrite Nat.add_0_r|].
  apply Forall_cons in Hm as [[t Ht] Hm]. cbn [Nat.add r_tokenize_loop]. rewrite (element_at σ A c st c front sp (mid ++ rest) i H Hi), Ht.
  rewrite (IH (front ++ [sp]) rest A (S i) σ st); [by rewrite <- plus_n_Sm| |rewrite app_length; cbn; lia|done]. by rewrite <- app_assoc.
Qed.
Lemma nested_eq g h l w : nested g h l w = (x ← r_tokenize (reading g) w; match x.2 with Some e => Ret (x.1, Err e) | None => reading h l x.1 end).
Proof. unfold nested, then_do. destruct (r_tokenize (reading g) w) as [[v [e|]]|]; done. Qed.
Lemma reading_eq g l σ A c (st : St) n : σ !! l = Some n → reading g l (World σ A c st) = Ret (World σ A c st, Ok (g n)).
Proof. intros H. unfold reading. rewrite on_strings_eq, H. done. Qed.
Lemma tokenize_nested g h σ A c (st : St) pre sp rest n : A !! c = Some (pre ++ sp :: rest) → Forall (λ sp, is_Some (σ !! hs_loc sp)) (pre ++ sp :: rest) →
  Forall (λ sp, is_Some (hs_tokens sp)) pre → hs_tokens sp = None → σ !! hs_loc sp = Some n →
  r_tokenize (nested g h) (World σ A c st) = Ret (World σ (<[c := pre ++ HSplit (hs_loc sp) (Some (h n)) :: map (tokenized_by g σ) rest]> A) c st, None).
Proof.
  intros H Hs Hp Hsp Hn. unfold r_tokenize, array_len. cbn [w_cur w_arrays]. rewrite H. rewrite app_length.
  rewrite (tokenize_skip (nested g h) c pre [] (sp :: rest) A 0%nat σ st H eq_refl Hp). cbn [length Nat.add r_tokenize_loop].
  rewrite (element_at σ A c st c pre sp rest (length pre) H eq_refl), Hsp, nested_eq.
  rewrite (tokenize_reading g σ A c st _ H Hs). cbn [mbind outcome_bind fst snd]. rewrite (reading_eq h _ _ _ _ _ n Hn).
  cbn [mbind outcome_bind fst snd].
  assert (Hc : (c < length A)%nat) by (by eapply lookup_lt_Some).
  assert (Hpre : map (tokenized_by g σ) pre = pre). { clear -Hp. induction Hp as [|x l [t Ht] Hp IH]; [done|]. cbn [map]. rewrite IH. unfold tokenized_by. by rewrite Ht. }
  assert (Hspt : tokenized_by g σ sp = HSplit (hs_loc sp) (Some (g n))) by (unfold tokenized_by; by rewrite Hsp, Hn).
  rewrite map_app, Hpre. cbn [map]. rewrite Hspt.
  rewrite (set_tokens_at σ _ c st pre (HSplit (hs_loc sp) (Some (g n))) (map (tokenized_by g σ) rest) (h n) (length pre)); [|by rewrite list_lookup_insert|done].
  cbn [mbind outcome_bind hs_loc]. rewrite list_insert_insert.
  set (A' := <[c := _]> A). set (R := map (tokenized_by g σ) rest) in *.
  replace (length rest) with (length R + length ([] : list hsplit))%nat by (unfold R; rewrite map_length; cbn; lia).
  rewrite (tokenize_skip (nested g h) c R (pre ++ [HSplit (hs_loc sp) (Some (h n))]) [] A' (S (length pre)) σ st); [done|..].
  - unfold A'. rewrite list_lookup_insert by done. by rewrite app_nil_r, <- app_assoc.
  - rewrite app_length. cbn. lia.
  - unfold R. apply Forall_map. apply Forall_app in Hs as [_ Hs]. apply Forall_cons in Hs as [_ Hs]. eapply Forall_impl; [exact Hs|]. cbn.
    intros x [m Hm]. unfold tokenized_by. rewrite Hm. destruct (hs_tokens x) eqn:E; [by rewrite E|by eexists].
Qed.
End splits.
