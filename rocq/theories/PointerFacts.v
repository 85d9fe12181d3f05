(** Proofs for C90 and C91: pointers against values. *)
From Coq Require Import ZifyBool.
From stdpp Require Import list_numbers.
From Verif Require Import GoBase Utf8Facts Strutils SplitPattern NormString Bpe Encodings PreTokString Normalizers PreTokenizers SpecText SpecNorm SpecPts SpecEnd SpecCommute SpecStages SpecPretok
  SliceFacts NormFacts NormEdits PtsFacts ByteFacts TwiceFacts SettledFacts Pointers SpecPointers.
Import GoBase NormString.
#[local] Open Scope Z_scope.

Lemma only_at_refl ls σ : only_at ls σ σ.
Proof. by split. Qed.
Lemma only_at_trans a b σ1 σ2 σ3 : only_at a σ1 σ2 → only_at b σ2 σ3 → only_at (a ++ b) σ1 σ3.
Proof.
  intros [H1 H2] [H3 H4]. split; [lia|]. intros l Hl Hn. rewrite elem_of_app in Hn. rewrite H4, H2; [done|done|tauto|lia|tauto].
Qed.
Lemma only_at_weaken a b σ σ' : (∀ l, l ∈ a → l ∈ b ∨ (length σ ≤ l)%nat) → only_at a σ σ' → only_at b σ σ'.
Proof. intros H [H1 H2]. split; [done|]. intros l Hl Hn. apply H2; [done|]. intros Hin. destruct (H l Hin); [done|lia]. Qed.
Lemma only_at_insert l (n : ns) σ : only_at [l] σ (<[l := n]> σ).
Proof. split; [by rewrite insert_length|]. intros l' _ Hn. apply list_lookup_insert_ne. intros ->. apply Hn. by left. Qed.
Lemma only_at_alloc ls σ new : only_at ls σ (σ ++ new).
Proof. split; [rewrite app_length; lia|]. intros l Hl _. by rewrite lookup_app_l. Qed.

Lemma holds_lt σ h s : holds σ h s → (hs_loc h < length σ)%nat.
Proof. intros [H _]. by eapply lookup_lt_Some. Qed.
Lemma holds_keep ls σ σ' h s : holds σ h s → only_at ls σ σ' → hs_loc h ∉ ls → holds σ' h s.
Proof. intros H [_ H2] Hn. pose proof (holds_lt _ _ _ H). destruct H as [H1 H3]. split; [|done]. by rewrite H2. Qed.
Lemma holds_all_keep ls σ σ' hs ss : Forall2 (holds σ) hs ss → only_at ls σ σ' → (∀ l, l ∈ map hs_loc hs → l ∉ ls) → Forall2 (holds σ') hs ss.
Proof.
  intros H Ho. induction H as [|h s hs ss Hh _ IH]; intros Hn; constructor.
  - eapply holds_keep; [done..|]. apply Hn. by left.
  - apply IH. intros l Hl. apply Hn. by right.
Qed.
Lemma holds_locs σ hs ss : Forall2 (holds σ) hs ss → Forall (λ l, (l < length σ)%nat) (map hs_loc hs).
Proof. intros H. induction H as [|h s hs ss Hh _ IH]; constructor; [by eapply holds_lt|done]. Qed.

(** ** The loops *)
Lemma keep_holds σ hs ss : Forall2 (holds σ) hs ss → ∃ kept, h_keep hs σ = Ret (σ, kept)
  ∧ Forall2 (holds σ) kept (filter (λ i, negb (ns_is_empty (sp_ns i))) ss) ∧ sublist kept hs.
Proof.
  intros H. induction H as [|h s hs ss [H1 H2] _ (kept & IH1 & IH2 & IH3)].
  { exists []. split; [done|]. split; [constructor|constructor]. }
  cbn [h_keep]. unfold h_bind, h_read, h_ret. rewrite H1. cbn [mbind outcome_bind fst snd]. rewrite IH1. cbn [mbind outcome_bind fst snd].
  rewrite filter_cons. destruct (ns_is_empty (sp_ns s)) eqn:E; cbn [negb].
  - rewrite decide_False by (by intros []). exists kept. split; [done|]. split; [done|]. by constructor.
  - rewrite decide_True by done. exists (h :: kept). split; [done|]. split; constructor; done.
Qed.

Lemma sublist_in {A} (x : A) l k : sublist l k → x ∈ l → x ∈ k.
Proof. intros H Hx. eapply elem_of_submseteq; [done|]. by apply sublist_submseteq. Qed.
Lemma NoDup_sublist {A} (l k : list A) : sublist l k → NoDup k → NoDup l.
Proof.
  intros H. induction H as [|x l k Hs IH|x l k Hs IH]; intros Hn; [constructor| |].
  - apply NoDup_cons in Hn as [Hx Hn]. constructor; [|by apply IH]. intros Hin. apply Hx. by eapply sublist_in.
  - apply NoDup_cons in Hn as [Hx Hn]. by apply IH.
Qed.
Lemma map_sublist {A B} (f : A → B) l k : sublist l k → sublist (map f l) (map f k).
Proof. intros H. induction H; cbn; by constructor. Qed.

Lemma split_loop_own {St} (f : split_func St) hf : own_split f hf → ∀ hs ss st i σ, Forall2 (holds σ) hs ss → NoDup (map hs_loc hs) →
  match split_loop f st i ss with
  | Panic => h_split_loop hf st i hs σ = Panic
  | Ret (st', old, new) => ∃ σ' new', h_split_loop hf st i hs σ = Ret (σ', (st', new')) ∧ Forall2 (holds σ') hs old ∧ only_at (map hs_loc hs) σ σ'
      ∧ match new, new' with
        | Ok l, Ok l' => Forall2 (holds σ') l' l ∧ from_or_new (map hs_loc hs) σ (map hs_loc l')
        | Err e, Err e' => e = e'
        | _, _ => False
        end
  end.
Proof.
  intros Hf hs. induction hs as [|h hs IH]; intros ss st i σ H Hnd.
  { apply Forall2_nil_inv_l in H as ->. cbn. eexists _, _. split; [done|]. split; [constructor|]. split; [apply only_at_refl|]. split; [constructor|]. split; constructor. }
  apply Forall2_cons_inv_l in H as (s & ss' & Hh & Hss & ->). cbn [map] in Hnd. apply NoDup_cons in Hnd as [Hnh Hnd].
  pose proof (holds_lt _ _ _ Hh) as Hlt. pose proof (holds_locs _ _ _ Hss) as Hlts. rewrite Forall_forall in Hlts.
  cbn [split_loop h_split_loop]. pose proof Hh as [Hh1 Hh2]. rewrite Hh2. destruct (sp_tokens s) as [ts|] eqn:Et.
  - specialize (IH ss' st (i + 1) σ Hss Hnd). destruct (split_loop f st (i + 1) ss') as [[[st' old] new]|]; cbn [mbind outcome_bind]; unfold h_bind.
    2: { by rewrite IH. }
    destruct IH as (σ' & new' & E & Hold & Ho & Hr). rewrite E. cbn [mbind outcome_bind fst snd]. unfold h_ret.
    assert (Hh' : holds σ' h s) by (by eapply holds_keep).
    assert (Ho' : only_at (hs_loc h :: map hs_loc hs) σ σ') by (eapply only_at_weaken; [|exact Ho]; intros l Hl; left; by right).
    destruct new as [l|e], new' as [l'|e']; try done.
    + eexists _, _. split; [reflexivity|]. split; [by constructor|]. split; [done|]. destruct Hr as (Hl & Hnl & Hfl). split; [by constructor|]. cbn [map]. split.
      * constructor; [|done]. intros Hin. rewrite Forall_forall in Hfl. destruct (Hfl _ Hin); [done|lia].
      * constructor; [left; by left|]. eapply Forall_impl; [exact Hfl|]. cbn. intros x [Hx|Hx]; [left; by right|by right].
    + eexists _, _. split; [reflexivity|]. split; [by constructor|]. done.
  - specialize (Hf st i (hs_loc h) σ (sp_ns s) Hh1). destruct (f st i (sp_ns s)) as [[[st1 n'] r]|]; cbn [mbind outcome_bind]; unfold h_bind.
    2: { by rewrite Hf. }
    destruct Hf as (σ1 & r' & E & Hn' & Ho & Hr). rewrite E. cbn [mbind outcome_bind fst snd].
    assert (Hss1 : Forall2 (holds σ1) hs ss'). { eapply holds_all_keep; [done..|]. intros l Hl Hin. apply elem_of_list_singleton in Hin as ->. done. }
    assert (Hh' : holds σ1 h (PSplit n' None)) by (split; [done|]; cbn; congruence).
    destruct r as [items|e], r' as [hitems|e']; try done.
    2: { subst e'. eexists _, _. split; [reflexivity|]. split; [by constructor|]. split; [|done]. eapply only_at_weaken; [|exact Ho]. intros l Hl%elem_of_list_singleton. subst l. left. by left. }
    destruct Hr as (Hi & Hni & Hfi). destruct (keep_holds σ1 hitems items Hi) as (kept & Ek & Hk & Hsub).
    rewrite Ek. cbn [mbind outcome_bind fst snd]. specialize (IH ss' st1 (i + 1) σ1 Hss1 Hnd).
    destruct (split_loop f st1 (i + 1) ss') as [[[st' old] new]|]; cbn [mbind outcome_bind].
    2: { by rewrite IH. }
    destruct IH as (σ' & new' & E' & Hold & Ho2 & Hr). rewrite E'. cbn [mbind outcome_bind fst snd]. unfold h_ret.
    assert (Hlen : (length σ ≤ length σ1)%nat) by apply Ho.
    assert (Ho' : only_at (hs_loc h :: map hs_loc hs) σ σ') by (by apply (only_at_trans [hs_loc h] (map hs_loc hs) σ σ1 σ')).
    assert (Hh'' : holds σ' h (PSplit n' None)) by (by eapply holds_keep).
    destruct new as [l|e], new' as [l'|e']; try done.
    2: { eexists _, _. split; [reflexivity|]. split; [by constructor|]. done. }
    destruct Hr as (Hl & Hnl & Hfl). eexists _, _. split; [reflexivity|]. split; [by constructor|]. split; [done|].
    assert (Hkin : ∀ x, x ∈ map hs_loc kept → x ∈ map hs_loc hitems). { intros x Hx. eapply sublist_in; [by apply map_sublist|done]. }
    rewrite Forall_forall in Hfi. assert (Hklt : ∀ x, x ∈ map hs_loc kept → (x < length σ1)%nat). { pose proof (holds_locs _ _ _ Hk) as Hk'. rewrite Forall_forall in Hk'. done. }
    assert (Hknot : ∀ x, x ∈ map hs_loc kept → x ∉ map hs_loc hs).
    { intros x Hx Hin. destruct (Hfi x (Hkin x Hx)) as [Hx'%elem_of_list_singleton|Hx']; [by subst x|]. apply Hlts in Hin. lia. }
    split.
    + apply Forall2_app; [|done]. by eapply holds_all_keep.
    + rewrite Forall_forall in Hfl. split.
      * rewrite map_app. apply NoDup_app. split; [eapply NoDup_sublist; [by apply map_sublist|done]|]. split; [|done].
        intros x Hx Hin. destruct (Hfl x Hin) as [Hx'|Hx']; [by apply (Hknot x)|]. apply Hklt in Hx. lia.
      * rewrite map_app. apply Forall_app. split; apply Forall_forall; intros x Hx.
        -- destruct (Hfi x (Hkin x Hx)) as [Hx'%elem_of_list_singleton|Hx']; [subst x; left; by left|by right].
        -- destruct (Hfl x Hx) as [Hx'|Hx']; [left; by right|right; lia].
Qed.

Lemma normalize_loop_own {St} (f : St → ns → outcome (St * ns * option err)) hf : own_call f hf → ∀ hs ss st σ, Forall2 (holds σ) hs ss → NoDup (map hs_loc hs) →
  match normalize_loop f st ss with
  | Panic => h_normalize_loop hf st hs σ = Panic
  | Ret (st', ss', e) => ∃ σ', h_normalize_loop hf st hs σ = Ret (σ', (st', e)) ∧ Forall2 (holds σ') hs ss' ∧ only_at (map hs_loc hs) σ σ'
  end.
Proof.
  intros Hf hs. induction hs as [|h hs IH]; intros ss st σ H Hnd.
  { apply Forall2_nil_inv_l in H as ->. cbn. eexists. split; [done|]. split; [constructor|]. apply only_at_refl. }
  apply Forall2_cons_inv_l in H as (s & ss' & Hh & Hss & ->). cbn [map] in Hnd. apply NoDup_cons in Hnd as [Hnh Hnd].
  cbn [normalize_loop h_normalize_loop]. pose proof Hh as [Hh1 Hh2]. rewrite Hh2. destruct (sp_tokens s) as [ts|] eqn:Et.
  - specialize (IH ss' st σ Hss Hnd). destruct (normalize_loop f st ss') as [[[st' l] e]|]; cbn [mbind outcome_bind]; [|done].
    destruct IH as (σ' & E & Hl & Ho). exists σ'. split; [done|]. split; [constructor; [by eapply holds_keep|done]|].
    eapply only_at_weaken; [|exact Ho]; intros x Hx; left; by right.
  - specialize (Hf st (hs_loc h) σ (sp_ns s) Hh1). destruct (f st (sp_ns s)) as [[[st1 n'] r]|]; cbn [mbind outcome_bind]; unfold h_bind.
    2: { by rewrite Hf. }
    destruct Hf as (σ1 & E & Hn' & Ho). rewrite E. cbn [mbind outcome_bind fst snd].
    assert (Hss1 : Forall2 (holds σ1) hs ss'). { eapply holds_all_keep; [done..|]. intros l Hl Hin. apply elem_of_list_singleton in Hin as ->. done. }
    assert (Hh' : holds σ1 h (PSplit n' None)) by (split; [done|]; cbn; congruence).
    destruct r as [e|].
    + eexists. split; [reflexivity|]. split; [by constructor|]. eapply only_at_weaken; [|exact Ho]. intros l Hl%elem_of_list_singleton. subst l. left. by left.
    + specialize (IH ss' st1 σ1 Hss1 Hnd). destruct (normalize_loop f st1 ss') as [[[st' l] e]|]; cbn [mbind outcome_bind]; [|done].
      destruct IH as (σ' & E' & Hl & Ho2). exists σ'. split; [done|]. split; [constructor; [by eapply holds_keep|done]|].
      by apply (only_at_trans [hs_loc h] (map hs_loc hs) σ σ1 σ').
Qed.

Lemma tokenize_loop_own {St} (f : St → ns → outcome (St * ns * result (list token))) hf : own_call f hf → ∀ hs ss st σ, Forall2 (holds σ) hs ss → NoDup (map hs_loc hs) →
  match tokenize_loop f st ss with
  | Panic => h_tokenize_loop hf st hs σ = Panic
  | Ret (st', ss', e) => ∃ σ' hs', h_tokenize_loop hf st hs σ = Ret (σ', (st', hs', e)) ∧ Forall2 (holds σ') hs' ss' ∧ map hs_loc hs' = map hs_loc hs ∧ only_at (map hs_loc hs) σ σ'
  end.
Proof.
  intros Hf hs. induction hs as [|h hs IH]; intros ss st σ H Hnd.
  { apply Forall2_nil_inv_l in H as ->. cbn. eexists _, _. split; [done|]. split; [constructor|]. split; [done|]. apply only_at_refl. }
  apply Forall2_cons_inv_l in H as (s & ss' & Hh & Hss & ->). cbn [map] in Hnd. apply NoDup_cons in Hnd as [Hnh Hnd].
  cbn [tokenize_loop h_tokenize_loop]. pose proof Hh as [Hh1 Hh2]. rewrite Hh2. destruct (sp_tokens s) as [ts|] eqn:Et.
  - specialize (IH ss' st σ Hss Hnd). unfold h_bind. destruct (tokenize_loop f st ss') as [[[st' l] e]|]; cbn [mbind outcome_bind].
    2: { by rewrite IH. }
    destruct IH as (σ' & hs' & E & Hl & El & Ho). rewrite E. eexists _, _. split; [reflexivity|]. split; [constructor; [by eapply holds_keep|done]|]. split; [cbn; by rewrite El|].
    eapply only_at_weaken; [|exact Ho]; intros x Hx; left; by right.
  - specialize (Hf st (hs_loc h) σ (sp_ns s) Hh1). destruct (f st (sp_ns s)) as [[[st1 n'] r]|]; cbn [mbind outcome_bind]; unfold h_bind.
    2: { by rewrite Hf. }
    destruct Hf as (σ1 & E & Hn' & Ho). rewrite E. cbn [mbind outcome_bind fst snd].
    assert (Hss1 : Forall2 (holds σ1) hs ss'). { eapply holds_all_keep; [done..|]. intros l Hl Hin. apply elem_of_list_singleton in Hin as ->. done. }
    destruct r as [ts|e].
    + specialize (IH ss' st1 σ1 Hss1 Hnd). unfold h_bind. destruct (tokenize_loop f st1 ss') as [[[st' l] e]|]; cbn [mbind outcome_bind].
      2: { by rewrite IH. }
      destruct IH as (σ' & hs' & E' & Hl & El & Ho2). rewrite E'. eexists _, _. split; [reflexivity|]. split; [|split; [cbn; by rewrite El|by apply (only_at_trans [hs_loc h] (map hs_loc hs) σ σ1 σ')]].
      constructor; [|done]. apply (holds_keep (map hs_loc hs) σ1); [by split|done|done].
    + eexists _, _. split; [reflexivity|]. split; [constructor; [|done]; split; [done|cbn; congruence]|]. split; [done|].
      eapply only_at_weaken; [|exact Ho]. intros l Hl%elem_of_list_singleton. subst l. left. by left.
Qed.

(** ** The three methods *)
Lemma from_or_new_same σ ls : NoDup ls → from_or_new ls σ ls.
Proof. intros H. split; [done|]. apply Forall_forall. by left. Qed.

Lemma pts_split_own {St} (f : split_func St) hf p v σ st : own_split f hf → seen σ p v → NoDup (locs p) →
  same_call p σ (with_state (pts_split f st v)) (with_state_h (h_pts_split hf st p σ)).
Proof.
  intros Hf [Ho Hs] Hnd. pose proof (split_loop_own f hf Hf _ _ st 0 σ Hs Hnd) as H. unfold same_call, with_state, with_state_h, pts_split, h_pts_split, h_bind, h_ret.
  destruct (split_loop f st 0 (p_splits v)) as [[[st' old] new]|]; cbn [mbind outcome_bind].
  2: { by rewrite H. }
  destruct H as (σ' & new' & E & Hold & Hat & Hr). rewrite E. cbn [mbind outcome_bind fst snd]. destruct new as [l|e], new' as [l'|e']; try done; cbn [fst snd].
  - destruct Hr as [Hl Hn]. eexists _, _. split; [reflexivity|]. by split.
  - subst e'. eexists _, _. split; [reflexivity|]. split; [by split|]. split; [done|]. by apply from_or_new_same.
Qed.
Lemma pts_normalize_own {St} (f : St → ns → outcome (St * ns * option err)) hf p v σ st : own_call f hf → seen σ p v → NoDup (locs p) →
  same_call p σ (with_state (pts_normalize f st v)) (with_state_h (h_pts_normalize hf st p σ)).
Proof.
  intros Hf [Ho Hs] Hnd. pose proof (normalize_loop_own f hf Hf _ _ st σ Hs Hnd) as H. unfold same_call, with_state, with_state_h, pts_normalize, h_pts_normalize, h_bind, h_ret.
  destruct (normalize_loop f st (p_splits v)) as [[[st' l] e]|]; cbn [mbind outcome_bind].
  2: { by rewrite H. }
  destruct H as (σ' & E & Hl & Hat). rewrite E. cbn [mbind outcome_bind fst snd]. eexists _, _. split; [reflexivity|]. split; [by split|]. split; [done|]. by apply from_or_new_same.
Qed.
Lemma pts_tokenize_own {St} (f : St → ns → outcome (St * ns * result (list token))) hf p v σ st : own_call f hf → seen σ p v → NoDup (locs p) →
  same_call p σ (with_state (pts_tokenize f st v)) (with_state_h (h_pts_tokenize hf st p σ)).
Proof.
  intros Hf [Ho Hs] Hnd. pose proof (tokenize_loop_own f hf Hf _ _ st σ Hs Hnd) as H. unfold same_call, with_state, with_state_h, pts_tokenize, h_pts_tokenize, h_bind, h_ret.
  destruct (tokenize_loop f st (p_splits v)) as [[[st' l] e]|]; cbn [mbind outcome_bind].
  2: { by rewrite H. }
  destruct H as (σ' & hs' & E & Hl & El & Hat). rewrite E. cbn [mbind outcome_bind fst snd]. eexists _, _. split; [reflexivity|]. split; [by split|]. split; [done|].
  unfold locs. cbn [hp_splits]. rewrite El. by apply from_or_new_same.
Qed.

(** ** The functions of the library *)
Lemma alloc_lookup (σ : list ns) new i : σ !! i = None → (σ ++ new) !! i = new !! (i - length σ)%nat.
Proof. intros H. apply lookup_app_r. by apply lookup_ge_None. Qed.
Lemma alloc_holds ns : ∀ σ rest, Forall2 (holds (σ ++ ns ++ rest)) (h_splits_from_ns (seq (length σ) (length ns))) (splits_from_ns ns).
Proof.
  induction ns as [|n ns IH]; intros σ rest; cbn; [constructor|]. constructor.
  - split; [|done]. cbn. rewrite lookup_app_r by done. by rewrite Nat.sub_diag.
  - specialize (IH (σ ++ [n]) rest). rewrite app_length in IH. cbn in IH. rewrite Nat.add_1_r, <- app_assoc in IH. done.
Qed.
Lemma splits_locs ls : map hs_loc (h_splits_from_ns ls) = ls.
Proof. unfold h_splits_from_ns. induction ls as [|l ls IH]; [done|]. cbn. by f_equal. Qed.
Lemma seq_new ls (σ : list ns) k : from_or_new ls σ (seq (length σ) k).
Proof. split; [apply NoDup_seq|]. apply Forall_forall. intros l Hl%elem_of_seq. right. lia. Qed.

(** A function that edits what it is given as [g] does and then cuts. *)
Lemma split_by_own p b l σ0 σ n r : σ !! l = Some n → only_at [l] σ0 σ → length σ = length σ0 → split_by p b n = Ret (n, r) → ∃ σ' r', h_split_by p b l σ = Ret (σ', r') ∧ σ' !! l = Some n ∧ only_at [l] σ0 σ'
  ∧ match r, r' with
    | Ok items, Ok hitems => Forall2 (holds σ') hitems items ∧ from_or_new [l] σ0 (map hs_loc hitems)
    | Err e, Err e' => e = e'
    | _, _ => False
    end.
Proof.
  intros Hl Hat Hlen H. unfold split_by in H. apply bind_Ret in H as (x & Hx & H). injection H as <-. unfold h_split_by, h_bind, h_read, h_new, h_ret. rewrite Hl. cbn [mbind outcome_bind fst snd].
  rewrite Hx. cbn [mbind outcome_bind fst snd]. destruct x as [nss|e].
  - eexists _, _. split; [reflexivity|]. split; [rewrite lookup_app_l; [done|by eapply lookup_lt_Some]|]. split.
    + apply (only_at_trans [l] [] σ0 σ); [done|]. apply only_at_alloc.
    + split; [|rewrite splits_locs, Hlen; apply seq_new]. pose proof (alloc_holds nss σ []) as H. by rewrite app_nil_r in H.
  - eexists _, _. split; [reflexivity|]. done.
Qed.
Lemma split_by_panic p b l σ n : σ !! l = Some n → split_by p b n = Panic → h_split_by p b l σ = Panic.
Proof.
  intros Hl H. unfold split_by in H. unfold h_split_by, h_bind, h_read. rewrite Hl. cbn [mbind outcome_bind fst snd]. destruct (split n p b); [done|]. done.
Qed.
Lemma split_by_same p b n n' r : split_by p b n = Ret (n', r) → n' = n.
Proof. intros H. unfold split_by in H. apply bind_Ret in H as (x & _ & H). by injection H as <- <-. Qed.

Lemma read_bind {A} l σ n (k : ns → heap A) : σ !! l = Some n → h_bind (h_read l) k σ = k n σ.
Proof. intros H. unfold h_bind, h_read. by rewrite H. Qed.

(** The shape of all the split functions of the library. *)
Definition own_cut (f : ns → outcome (ns * result (list psplit))) (hf : nat → heap (result (list hsplit))) : Prop := own_split (stateless f) (h_stateless hf).

Lemma own_cut_from f hf : (∀ l σ n, σ !! l = Some n → match f n with
    | Panic => hf l σ = Panic
    | Ret (n', r) => ∃ σ' r', hf l σ = Ret (σ', r') ∧ σ' !! l = Some n' ∧ only_at [l] σ σ' ∧ match r, r' with
        | Ok items, Ok hitems => Forall2 (holds σ') hitems items ∧ from_or_new [l] σ (map hs_loc hitems)
        | Err e, Err e' => e = e'
        | _, _ => False
        end
    end) → own_cut f hf.
Proof.
  intros H st i l σ n Hl. specialize (H l σ n Hl). unfold stateless, h_stateless, h_bind, h_ret. destruct (f n) as [[n' r]|]; cbn [mbind outcome_bind fst snd].
  2: { by rewrite H. }
  destruct H as (σ' & r' & E & H1 & H2 & H3). rewrite E. destruct st. eexists _, _. split; [reflexivity|]. done.
Qed.

Lemma split_by_cut p b : own_cut (split_by p b) (h_split_by p b).
Proof.
  apply own_cut_from. intros l σ n Hl. destruct (split_by p b n) as [[n' r]|] eqn:E; [|by eapply split_by_panic].
  pose proof (split_by_same _ _ _ _ _ E) as ->. eapply split_by_own; [done|apply only_at_refl|done|done].
Qed.

(** Editing in place. *)
Lemma edit_if (b : bool) (g : ns → outcome ns) l σ n : σ !! l = Some n →
  match (if b then g n else Ret n) with
  | Panic => (if b then h_method l (λ n, n' ← g n; Ret (n', tt)) else h_ret tt) σ = Panic
  | Ret n' => ∃ σ', (if b then h_method l (λ n, n' ← g n; Ret (n', tt)) else h_ret tt) σ = Ret (σ', tt) ∧ σ' !! l = Some n' ∧ only_at [l] σ σ' ∧ length σ' = length σ
  end.
Proof.
  intros Hl. destruct b.
  - unfold h_method, h_bind, h_read. rewrite Hl. cbn [mbind outcome_bind fst snd]. destruct (g n) as [n'|]; [|done]. cbn [mbind outcome_bind fst snd].
    eexists. split; [done|]. split; [apply list_lookup_insert; by eapply lookup_lt_Some|]. split; [apply only_at_insert|]. apply insert_length.
  - exists σ. split; [done|]. split; [done|]. split; [apply only_at_refl|done].
Qed.

Lemma byte_level_cut engine b : own_cut (byte_level_split engine b) (h_byte_level_split engine b).
Proof.
  apply own_cut_from. intros l σ n Hl. unfold byte_level_split, h_byte_level_split. rewrite !(read_bind l σ n) by done. unfold h_bind.
  pose proof (edit_if (b && negb (starts_with_whitespace (ns_norm n))) (λ n, prepend n [32]) l σ n Hl) as H.
  destruct (if b && _ then prepend n [32] else Ret n) as [n1|]; cbn [mbind outcome_bind].
  2: { by rewrite H. }
  destruct H as (σ1 & E & H1 & H2 & H3). rewrite E. cbn [mbind outcome_bind fst snd].
  destruct (split_by (regexp2_pattern engine) Isolated n1) as [[n' r]|] eqn:Es; [|by eapply split_by_panic].
  pose proof (split_by_same _ _ _ _ _ Es) as ->. by eapply split_by_own.
Qed.

Lemma metaspace_cut c b : own_cut (metaspace_split c b) (h_metaspace_split c b).
Proof.
  apply own_cut_from. intros l σ n Hl. unfold metaspace_split, h_metaspace_split. cbv zeta. rewrite !(read_bind l σ n) by done. unfold h_bind.
  pose proof (edit_if (b && negb (starts_with (ns_norm n) (encode_rune c))) (λ n, prepend n (encode_rune c)) l σ n Hl) as H.
  destruct (if b && _ then prepend n (encode_rune c) else Ret n) as [n1|]; cbn [mbind outcome_bind].
  2: { by rewrite H. }
  destruct H as (σ1 & E & H1 & H2 & H3). rewrite E. cbn [mbind outcome_bind fst snd].
  unfold h_method. rewrite !(read_bind l σ1 n1) by done.
  destruct (replace n1 (rune_pattern 32) (encode_rune c)) as [[n2|e]|]; cbn [mbind outcome_bind fst snd]; [| |done].
  - assert (H4 : <[l:=n2]> σ1 !! l = Some n2) by (apply list_lookup_insert; by eapply lookup_lt_Some).
    destruct (split_by (rune_pattern c) MergedWithNext n2) as [[n' r]|] eqn:Es; [|by eapply split_by_panic].
    pose proof (split_by_same _ _ _ _ _ Es) as ->. eapply split_by_own; [done| |by rewrite insert_length|done].
    eapply only_at_weaken; [|by eapply only_at_trans; [|apply only_at_insert]]. intros x [Hx|Hx]%elem_of_app; by left.
  - eexists _, _. split; [done|]. rewrite list_insert_id by done. done.
Qed.

Lemma run_split_own f hf : own_cut f hf → own_pretokenizer (run_split f) (h_run_split hf).
Proof.
  intros Hf p v σ Hs Hnd. pose proof (pts_split_own _ _ p v σ tt Hf Hs Hnd) as H. unfold same_call, with_state, with_state_h in H. unfold same_call, run_split, h_run_split, h_bind, h_ret.
  destruct (pts_split (stateless f) tt v) as [[[st' v'] e]|]; cbn [mbind outcome_bind fst snd] in *.
  - destruct H as (σ' & p' & E & H). apply bind_Ret in E as (y & E & E'). rewrite E. cbn [mbind outcome_bind fst snd]. injection E' as <- <- _ <-. eexists _, _. split; [done|]. done.
  - destruct (h_pts_split (h_stateless hf) tt p σ) as [y|]; [done|]. done.
Qed.

Lemma from_or_new_trans ls σ σ' ls' ls'' : (length σ ≤ length σ')%nat → from_or_new ls σ ls' → from_or_new ls' σ' ls'' → from_or_new ls σ ls''.
Proof.
  intros Hlen [_ H1] [Hn H2]. split; [done|]. rewrite Forall_forall in *. intros l Hl. destruct (H2 l Hl) as [H|H]; [by apply H1|right; lia].
Qed.
Lemma then_own (f g : pretokenizer) hf hg : own_pretokenizer f hf → own_pretokenizer g hg →
  own_pretokenizer (λ p, x ← f p; match x.2 with Some e => Ret (x.1, Some e) | None => g x.1 end) (h_then hf hg).
Proof.
  intros Hf Hg p v σ Hs Hnd. specialize (Hf p v σ Hs Hnd). unfold same_call, h_then, h_bind, h_ret in *. destruct (f v) as [[v1 e]|]; cbn [mbind outcome_bind fst snd] in *.
  2: { by rewrite Hf. }
  destruct Hf as (σ1 & p1 & E & Hs1 & Hat & Hn1). rewrite E. cbn [mbind outcome_bind fst snd]. destruct e as [e|]; [eexists _, _; split; [done|]; done|].
  specialize (Hg p1 v1 σ1 Hs1 (proj1 Hn1)). unfold same_call in Hg. destruct (g v1) as [[v2 e2]|]; [|done].
  destruct Hg as (σ2 & p2 & E2 & Hs2 & Hat2 & Hn2). eexists _, _. split; [done|]. split; [done|]. split.
  - eapply only_at_weaken; [|by eapply only_at_trans]. intros l [Hl|Hl]%elem_of_app; [by left|]. destruct Hn1 as [_ Hn1]. rewrite Forall_forall in Hn1. by apply Hn1.
  - eapply from_or_new_trans; [|done|done]. apply Hat.
Qed.

Lemma method_own {R} (g : ns → outcome (ns * R)) : own_call (λ (_ : unit) n, x ← g n; Ret (tt, x.1, x.2)) (λ (_ : unit) l, h_method l (λ n, x ← g n; Ret (x.1, (tt, x.2)))).
Proof.
  intros st l σ n Hl. unfold h_method, h_bind, h_read. rewrite Hl. cbn [mbind outcome_bind fst snd]. destruct (g n) as [[n' r]|]; [|done]. cbn [mbind outcome_bind fst snd].
  eexists. split; [done|]. split; [apply list_lookup_insert; by eapply lookup_lt_Some|]. apply only_at_insert.
Qed.
Lemma reading_own model : own_call (calling model) (λ k l, h_bind (h_read l) (λ n σ, r ← model k (ns_norm n); Ret (σ, (S k, r)))).
Proof.
  intros k l σ n Hl. unfold calling, h_bind, h_read. rewrite Hl. cbn [mbind outcome_bind fst snd]. destruct (model k (ns_norm n)) as [r|]; [|done]. cbn [mbind outcome_bind fst snd].
  eexists. split; [done|]. split; [done|]. apply only_at_refl.
Qed.

Lemma normalizing_own f hf : own_call f hf → own_pretokenizer (λ p, x ← pts_normalize f tt p; Ret (x.1.2, x.2)) (λ p, h_bind (h_pts_normalize hf tt p) (λ x, h_ret (x.1.2, x.2))).
Proof.
  intros Hf p v σ Hs Hnd. pose proof (pts_normalize_own _ _ p v σ tt Hf Hs Hnd) as H. unfold same_call, with_state, with_state_h in H. unfold same_call, h_bind, h_ret.
  destruct (pts_normalize f tt v) as [[[st' v'] e]|]; cbn [mbind outcome_bind fst snd] in *.
  - destruct H as (σ' & p' & E & H). apply bind_Ret in E as (y & E & E'). rewrite E. cbn [mbind outcome_bind fst snd]. injection E' as <- <- _ <-. eexists _, _. split; [done|]. done.
  - destruct (h_pts_normalize hf tt p σ) as [y|]; [done|]. done.
Qed.

(** A pre-tokenizer with the same results is as good. *)
Lemma own_ext f g hf : (∀ p, f p = g p) → own_pretokenizer f hf → own_pretokenizer g hf.
Proof. intros H Hf p v σ Hs Hn. rewrite <- H. by apply Hf. Qed.

Lemma lib_tool_own t : lib_tool t → own_pretokenizer (t_value t) (t_pointer t).
Proof.
  intros [ |c|engine|u|c b|engine b|nz|model k]; cbn [t_value t_pointer].
  - apply run_split_own, split_by_cut.
  - apply run_split_own, split_by_cut.
  - apply run_split_own, split_by_cut.
  - eapply own_ext; [|apply then_own; apply run_split_own, split_by_cut]. intros p. unfold bert_pretokenizer. destruct (run_split _ p) as [[p1 [e|]]|]; done.
  - apply run_split_own, metaspace_cut.
  - eapply own_ext; [|apply then_own; [apply run_split_own, byte_level_cut|apply (normalizing_own (λ (_ : unit) n, n' ← byte_level_normalize n; Ret (tt, n', None)))]].
    + intros p. unfold byte_level. destruct (run_split _ p) as [[p1 [e|]]|]; try done. cbn [mbind outcome_bind fst snd]. destruct (pts_normalize _ tt p1) as [[[]]|]; done.
    + intros st l σ n Hl. unfold h_method, h_bind, h_read. rewrite Hl. cbn [mbind outcome_bind fst snd]. destruct (byte_level_normalize n) as [n'|]; [|done]. cbn [mbind outcome_bind fst snd].
      eexists. split; [done|]. split; [apply list_lookup_insert; by eapply lookup_lt_Some|]. apply only_at_insert.
  - apply normalizing_own, method_own.
  - intros p v σ Hs Hnd. pose proof (pts_tokenize_own _ _ p v σ k (reading_own model) Hs Hnd) as H. unfold same_call, with_state, with_state_h in H. unfold same_call, h_tokenize_with, h_ret. unfold h_bind at 1 3.
    destruct (pts_tokenize (calling model) k v) as [[[st' v'] e]|]; cbn [mbind outcome_bind fst snd] in *.
    + destruct H as (σ' & p' & E & H). apply bind_Ret in E as (y & E & E'). rewrite E. cbn [mbind outcome_bind fst snd]. injection E' as <- <- _ <-. eexists _, _. split; [done|]. done.
    + destruct (h_pts_tokenize _ k p σ) as [y|]; [done|]. done.
Qed.

(** ** Programs *)
Lemma seen_keep ls σ σ' p v : seen σ p v → only_at ls σ σ' → (∀ l, l ∈ locs p → l ∉ ls) → seen σ' p v.
Proof. intros [H1 H2] Ho Hn. split; [done|]. by eapply holds_all_keep. Qed.
Lemma seen_lt σ p v l : seen σ p v → l ∈ locs p → (l < length σ)%nat.
Proof. intros [_ H] Hl. apply holds_locs in H. rewrite Forall_forall in H. by apply H. Qed.
Lemma seen_all_lt σ ps vs l : Forall2 (seen σ) ps vs → l ∈ concat (map locs ps) → (l < length σ)%nat.
Proof.
  intros H. induction H as [|p v ps vs Hp _ IH]; cbn; [by intros ?%elem_of_nil|]. intros [Hl|Hl]%elem_of_app; [by eapply seen_lt|by apply IH].
Qed.
Lemma seen_all_keep ls σ σ' ps vs : Forall2 (seen σ) ps vs → only_at ls σ σ' → (∀ l, l ∈ concat (map locs ps) → l ∉ ls) → Forall2 (seen σ') ps vs.
Proof.
  intros H Ho. induction H as [|p v ps vs Hp _ IH]; intros Hn; constructor; cbn in Hn.
  - eapply seen_keep; [done..|]. intros l Hl. apply Hn. apply elem_of_app. by left.
  - apply IH. intros l Hl. apply Hn. apply elem_of_app. by right.
Qed.

Lemma call_own c ps vs σ : lib_call c → Forall2 (seen σ) ps vs → apart ps →
  match call_value vs c with
  | Panic => call_pointer ps c σ = Panic
  | Ret (vs', e) => ∃ σ' ps', call_pointer ps c σ = Ret (σ', (ps', e)) ∧ Forall2 (seen σ') ps' vs' ∧ apart ps'
  end.
Proof.
  intros Hc Hs Ha. destruct c as [s|k t]; cbn [call_value call_pointer].
  - unfold h_bind, h_new, h_from_ns, h_ret, h_bind. cbn [mbind outcome_bind fst snd length seq head default].
    unfold h_read. rewrite lookup_app_r by done. rewrite Nat.sub_diag. cbn [lookup list_lookup mbind outcome_bind fst snd].
    eexists _, _. split; [done|]. split.
    + apply Forall2_app; [eapply seen_all_keep; [done|apply (only_at_alloc [])|]; intros ? _; apply not_elem_of_nil|]. constructor; [|constructor].
      split; [done|]. constructor; [|constructor]. split; [|done]. cbn. rewrite lookup_app_r by done. by rewrite Nat.sub_diag.
    + unfold apart. rewrite map_app, concat_app. cbn. apply NoDup_app. split; [done|]. split; [|apply NoDup_singleton].
      intros l Hl Hin%elem_of_list_singleton. subst l. apply (seen_all_lt σ _ vs) in Hl; [lia|done].
  - destruct (vs !! k) as [v|] eqn:Ev.
    2: { destruct (ps !! k) as [p|] eqn:Ep; [|done]. apply lookup_lt_Some in Ep. apply lookup_ge_None in Ev. apply Forall2_length in Hs. lia. }
    destruct (Forall2_lookup_r _ _ _ _ _ Hs Ev) as (p & Ep & Hp). rewrite Ep.
    apply elem_of_list_split_length in Ep as (ps1 & ps2 & -> & ->). apply Forall2_app_inv_l in Hs as (vs1 & vs2' & Hs1 & Hs2 & ->).
    apply Forall2_cons_inv_l in Hs2 as (v' & vs2 & Hp' & Hs2 & ->). pose proof (Forall2_length _ _ _ Hs1) as Hlen. rewrite lookup_app_r, Hlen, Nat.sub_diag in Ev by lia. injection Ev as ->.
    unfold apart in *. rewrite map_app, concat_app in Ha. cbn [map concat] in Ha. apply NoDup_app in Ha as (Ha1 & Ha12 & Ha2). apply NoDup_app in Ha2 as (Hap & Hap2 & Ha2).
    pose proof (lib_tool_own t Hc p v σ Hp Hap) as H. unfold same_call in H. unfold h_bind, h_ret. destruct (t_value t v) as [[v1 e]|]; cbn [mbind outcome_bind fst snd].
    2: { by rewrite H. }
    destruct H as (σ' & p' & E & Hp1 & Hat & Hnd & Hnew). rewrite E. cbn [mbind outcome_bind fst snd]. eexists _, _. split; [done|].
    rewrite Hlen at 2. rewrite !insert_app_r_alt by lia. rewrite Hlen, !Nat.sub_diag. cbn [insert list_insert]. rewrite Forall_forall in Hnew. split.
    + apply Forall2_app; [|constructor].
      * eapply seen_all_keep; [done..|]. intros l Hl Hin. apply (Ha12 l Hl). apply elem_of_app. by left.
      * done.
      * eapply seen_all_keep; [done..|]. intros l Hl Hin. by apply (Hap2 l).
    + rewrite map_app, concat_app. cbn [map concat]. apply NoDup_app. split; [done|]. split.
      * intros l Hl [Hin|Hin]%elem_of_app; [|apply (Ha12 l Hl), elem_of_app; by right]. destruct (Hnew l Hin) as [H|H]; [apply (Ha12 l Hl), elem_of_app; by left|].
        apply (seen_all_lt _ _ _ _ Hs1) in Hl. lia.
      * apply NoDup_app. split; [done|]. split; [|done]. intros l Hl Hin. destruct (Hnew l Hl) as [H|H]; [by apply (Hap2 l)|]. apply (seen_all_lt _ _ _ _ Hs2) in Hin. lia.
Qed.

Lemma run_own prog : Forall lib_call prog → ∀ ps vs σ, Forall2 (seen σ) ps vs → apart ps →
  match run_values prog vs with
  | Panic => run_pointers prog ps σ = Panic
  | Ret (vs', es) => ∃ σ' ps', run_pointers prog ps σ = Ret (σ', (ps', es)) ∧ Forall2 (seen σ') ps' vs' ∧ apart ps'
  end.
Proof.
  intros H. induction H as [|c prog Hc _ IH]; intros ps vs σ Hs Ha; cbn [run_values run_pointers]; [by exists σ, ps|].
  pose proof (call_own c ps vs σ Hc Hs Ha) as H. unfold h_bind, h_ret. destruct (call_value vs c) as [[vs1 e]|]; cbn [mbind outcome_bind fst snd].
  2: { by rewrite H. }
  destruct H as (σ1 & ps1 & E & Hs1 & Ha1). rewrite E. cbn [mbind outcome_bind fst snd]. specialize (IH ps1 vs1 σ1 Hs1 Ha1).
  destruct (run_values prog vs1) as [[vs2 es]|]; cbn [mbind outcome_bind fst snd].
  2: { by rewrite IH. }
  destruct IH as (σ2 & ps2 & E2 & Hs2 & Ha2). rewrite E2. eexists _, _. split; [done|]. done.
Qed.

Lemma deref_holds σ hs ss : Forall2 (holds σ) hs ss → h_deref hs σ = Ret (σ, ss).
Proof.
  intros H. induction H as [|h s hs ss [H1 H2] _ IH]; [done|]. cbn [h_deref]. rewrite (read_bind _ _ _ _ H1). unfold h_bind. rewrite IH. cbn. rewrite H2. by destruct s.
Qed.
Lemma get_seen σ p v : seen σ p v → h_get p σ = Ret (σ, v).
Proof. intros [H1 H2]. unfold h_get, h_bind. rewrite (deref_holds _ _ _ H2). cbn. rewrite H1. by destruct v. Qed.

(** ** The same string again *)
(** What the function leaves behind it leaves as it is. *)
Definition settles (f : ns → outcome (ns * result (list psplit))) (n : ns) : Prop := ∀ n' r, f n = Ret (n', r) → f n' = Ret (n', r) ∧ ns_orig n' = ns_orig n.
Definition makes_new (hf : nat → heap (result (list hsplit))) : Prop := ∀ l σ σ' items, hf l σ = Ret (σ', Ok items) → Forall (λ x, (length σ ≤ x)%nat) (map hs_loc items).

Lemma split_by_settles p b n : settles (split_by p b) n.
Proof. intros n' r H. pose proof (split_by_same _ _ _ _ _ H) as ->. done. Qed.
Lemma split_by_new p b : makes_new (h_split_by p b).
Proof.
  intros l σ σ' items H. unfold h_split_by, h_bind, h_read, h_new, h_ret in H. destruct (σ !! l) as [n|]; [|done]. cbn [mbind outcome_bind fst snd] in H.
  apply bind_Ret in H as (r & _ & H). destruct r as [nss|e]; [|done]. injection H as <- <-. rewrite splits_locs. apply Forall_forall. intros x Hx%elem_of_seq. lia.
Qed.

Lemma method_len {A} l (m : ns → outcome (ns * A)) σ σ' a : h_method l m σ = Ret (σ', a) → length σ' = length σ.
Proof.
  unfold h_method, h_bind, h_read. destruct (σ !! l) as [n|]; [|done]. cbn [mbind outcome_bind fst snd]. intros H. apply bind_Ret in H as (x & _ & H). injection H as <- _. apply insert_length.
Qed.
Lemma byte_level_new engine b : makes_new (h_byte_level_split engine b).
Proof.
  intros l σ σ' items H. unfold h_byte_level_split, h_bind in H. apply bind_Ret in H as ([σ0 n] & H0 & H). unfold h_read in H0. destruct (σ !! l); [|done]. injection H0 as <- <-.
  cbn [fst snd] in H. apply bind_Ret in H as ([σ1 []] & H1 & H). cbn [fst snd] in H. apply split_by_new in H. destruct (_ && _); [|by injection H1 as <-]. apply method_len in H1. by rewrite H1 in H.
Qed.
Lemma metaspace_new c b : makes_new (h_metaspace_split c b).
Proof.
  intros l σ σ' items H. unfold h_metaspace_split, h_bind in H. apply bind_Ret in H as ([σ0 n] & H0 & H). unfold h_read in H0. destruct (σ !! l); [|done]. injection H0 as <- <-.
  cbn [fst snd] in H. apply bind_Ret in H as ([σ1 []] & H1 & H). cbn [fst snd] in H. apply bind_Ret in H as ([σ2 e] & H2 & H). cbn [fst snd] in H. destruct e as [e|]; [done|]. apply split_by_new in H.
  apply method_len in H2. rewrite H2 in H. destruct (_ && _); [|by injection H1 as <-]. apply method_len in H1. by rewrite H1 in H.
Qed.

Lemma byte_level_settles engine b n : wf n → settles (byte_level_split engine b) n.
Proof.
  intros (v & Hwf) n' r H. unfold byte_level_split in H.
  destruct (prefix_step _ _ white_space 32 b starts_with_whitespace Hwf eq_refl) as (n1 & H1 & Hwf1 & Ho1).
  { intros x a w E. pose proof Hwf as ((Hsc & Hn & _) & _). rewrite Hn, E. rewrite E in Hsc. apply starts_with_whitespace_char. by apply Forall_cons in Hsc as [? _]. }
  change (encode_rune 32) with [32] in H1. rewrite H1 in H. cbn [mbind outcome_bind] in H. pose proof (split_by_same _ _ _ _ _ H) as ->. split; [|apply Ho1].
  destruct (prefix_step _ _ white_space 32 b starts_with_whitespace Hwf1 eq_refl) as (n2 & H2 & Hwf2 & Ho2).
  { intros x a w E. pose proof Hwf1 as ((Hsc & Hn & _) & _). rewrite Hn, E. rewrite E in Hsc. apply starts_with_whitespace_char. by apply Forall_cons in Hsc as [? _]. }
  change (encode_rune 32) with [32] in H2. unfold byte_level_split. rewrite H2. cbn [mbind outcome_bind]. assert (n2 = n1) as ->; [|done].
  eapply same_ns; [apply Hwf1| |done]. destruct b; [|apply Hwf2]. destruct v as [|[x a] v]; [apply Hwf2|]. cbn [prefixed] in *. destruct (white_space x) eqn:Ew; cbn [prefixed] in *.
  - rewrite Ew in Hwf2. apply Hwf2.
  - apply Hwf2.
Qed.

Lemma metaspace_settles c b n : wf n → settles (metaspace_split c b) n.
Proof.
  intros (v & Hwf) n' r H. pose proof Hwf as ((Hs & Hn & _) & _).
  set (c' := sanitize c) in *. assert (Hc : scalar c' = true) by apply sanitize_scalar. assert (Ec : encode_rune c = encode_rune c') by (symmetry; apply encode_rune_sanitize).
  destruct (prefix_step _ _ (λ x, x =? c') c' b (λ s, starts_with s (encode_rune c')) Hwf Hc) as (n1 & H1 & Hwf1 & Ho1).
  { intros y a w E. rewrite Hn, E. rewrite E in Hs. apply starts_with_char; [|done]. by apply Forall_cons in Hs as [? _]. }
  destruct (replace_spaces n1 _ c' Hwf1 Hc) as (n2 & H2 & Hwf2 & Ho2).
  unfold metaspace_split in *. cbv zeta in *. rewrite Ec, H1 in H. cbn [mbind outcome_bind] in H. rewrite H2 in H. cbn [mbind outcome_bind] in H.
  pose proof (split_by_same _ _ _ _ _ H) as ->. split; [|by rewrite (proj1 Ho2), (proj1 Ho1)]. set (v2 := spaces_to c' _) in *. pose proof Hwf2 as ((Hs2 & Hn2 & _) & _).
  assert (Hall : 32 ∉ v2.*1 ∨ c' = 32).
  { destruct (decide (c' = 32)) as [|Hc']; [by right|left]. unfold v2. rewrite spaces_to_fst. intros (x & Hx & _)%elem_of_list_fmap. destruct (Z.eqb_spec x 32); congruence. }
  destruct (prefix_step _ _ (λ x, x =? c') c' b (λ s, starts_with s (encode_rune c')) Hwf2 Hc) as (n3 & H3 & Hwf3 & Ho3).
  { intros y a w E. rewrite Hn2, E. rewrite E in Hs2. apply starts_with_char; [|done]. by apply Forall_cons in Hs2 as [? _]. }
  assert (n3 = n2) as ->.
  { eapply same_ns; [apply Hwf2| |done]. assert (E : (if b then prefixed (λ x, x =? c') c' v2 else v2) = v2); [|rewrite E in Hwf3; apply Hwf3]. destruct b; [|done].
    destruct v as [|[x a] v]; [done|]. unfold v2. cbn [prefixed]. destruct (Z.eqb_spec x c') as [->|Hx]; unfold spaces_to; cbn [map fst snd prefixed]; destruct (Z.eqb_spec c' 32) as [->|]; rewrite Z.eqb_refl; done. }
  destruct (replace_spaces n2 _ c' Hwf2 Hc) as (n4 & H4 & Hwf4 & Ho4). rewrite spaces_to_none in Hwf4 by done. assert (n4 = n2) as -> by (eapply same_ns; [apply Hwf2|apply Hwf4|done]).
  rewrite Ec, H3. cbn [mbind outcome_bind]. rewrite H4. cbn [mbind outcome_bind]. done.
Qed.

(** The first function on a single piece. *)
Definition whole (n : ns) (l : nat) : hpts := HPts (ns_orig n) [HSplit l None].
Lemma whole_seen σ l n : σ !! l = Some n → seen σ (whole n l) (pts_from_ns n) ∧ NoDup (locs (whole n l)).
Proof. intros H. split; [|apply NoDup_singleton]. split; [done|]. constructor; [by split|constructor]. Qed.

Lemma run_split_settles f n n' r : settles f n → f n = Ret (n', r) → run_split f (pts_from_ns n') = run_split f (pts_from_ns n).
Proof.
  intros Hs H. destruct (Hs n' r H) as [H' Ho]. unfold run_split, pts_split, pts_from_ns, stateless. cbn [p_splits split_loop sp_tokens sp_ns p_original]. rewrite H, H'. cbn [mbind outcome_bind fst snd]. rewrite Ho. done.
Qed.
Lemma run_split_panics f n : f n = Panic → run_split f (pts_from_ns n) = Panic.
Proof. intros H. unfold run_split, pts_split, pts_from_ns, stateless. cbn [p_splits split_loop sp_tokens sp_ns p_original]. by rewrite H. Qed.

Lemma first_cut f hf σ l n σ1 p1 e : own_cut f hf → makes_new hf → σ !! l = Some n → h_run_split hf (whole n l) σ = Ret (σ1, (p1, e)) →
  ∃ n1 r, f n = Ret (n1, r) ∧ σ1 !! l = Some n1 ∧ match e with Some _ => p1 = whole n l | None => l ∉ locs p1 end.
Proof.
  intros Hf Hnew Hl H. specialize (Hf tt 0 l σ n Hl). unfold h_run_split, h_pts_split, h_split_loop, whole in H. cbn [hp_splits hs_tokens hs_loc] in H.
  unfold h_bind at 1 2 3 in H. unfold stateless, h_stateless in *. destruct (f n) as [[n1 r]|] eqn:Ef; cbn [mbind outcome_bind fst snd] in Hf.
  2: { rewrite Hf in H. done. }
  destruct Hf as (σ' & r' & E & H1 & _ & H3). rewrite E in H. cbn [mbind outcome_bind fst snd] in H. exists n1, r. split; [done|].
  unfold h_bind in E. apply bind_Ret in E as ([σ'' r''] & E & E'). injection E' as -> ->. destruct r as [items|er], r' as [hitems|er']; try done.
  - destruct H3 as [H3 _]. destruct (keep_holds _ _ _ H3) as (kept & Ek & _ & Hsub). apply Hnew in E. unfold h_bind, h_ret in H. rewrite Ek in H. cbn [mbind outcome_bind fst snd] in H. injection H as <- <- <-.
    split; [done|]. unfold locs. cbn [hp_splits]. rewrite app_nil_r. intros Hin. eapply sublist_in in Hin; [|by apply map_sublist]. rewrite Forall_forall in E. apply E in Hin. apply lookup_lt_Some in Hl. lia.
  - unfold h_ret in H. cbn [mbind outcome_bind fst snd] in H. injection H as <- <- <-. done.
Qed.

Lemma again_then f hf (g : pretokenizer) hg σ l n σ1 p1 e : own_cut f hf → makes_new hf → own_pretokenizer g hg → settles f n → σ !! l = Some n →
  h_then (h_run_split hf) hg (whole n l) σ = Ret (σ1, (p1, e)) →
  let pre := λ p, x ← run_split f p; match x.2 with Some e => Ret (x.1, Some e) | None => g x.1 end in
  ∃ v n1 r σ2 p2, pre (pts_from_ns n) = Ret (v, e) ∧ seen σ1 p1 v ∧ f n = Ret (n1, r) ∧ σ1 !! l = Some n1
    ∧ h_then (h_run_split hf) hg (whole n1 l) σ1 = Ret (σ2, (p2, e)) ∧ seen σ2 p2 v ∧ seen σ2 p1 v.
Proof.
  intros Hf Hnew Hg Hset Hl H pre. pose proof (run_split_own f hf Hf) as Hrun. pose proof (then_own _ _ _ _ Hrun Hg) as Hthen. fold pre in Hthen.
  destruct (whole_seen σ l n Hl) as [Hw1 Hw2]. pose proof (Hthen _ _ σ Hw1 Hw2) as Hv. pose proof (Hrun _ _ σ Hw1 Hw2) as Hr. unfold same_call in Hv, Hr.
  destruct (pre (pts_from_ns n)) as [[v e']|] eqn:Epre.
  2: { rewrite Hv in H. done. }
  destruct Hv as (σ1' & p1' & E & Hseen1 & _ & _). rewrite E in H. injection H as -> -> ->.
  unfold h_then, h_bind in E. apply bind_Ret in E as ([σa [pa ea]] & Ea & E). cbn [fst snd] in E.
  destruct (first_cut f hf σ l n σa pa ea Hf Hnew Hl Ea) as (n1 & r & Hfn & Hla & Hcase). destruct (Hset n1 r Hfn) as [Hfn1 Ho].
  destruct (run_split f (pts_from_ns n)) as [[va ea']|] eqn:Erun.
  2: { rewrite Ea in Hr. done. }
  destruct Hr as (σa' & pa' & Ea' & Hseena & Hata & Hnewa). rewrite Ea in Ea'. injection Ea' as <- <- <-.
  assert (Hl1 : σ1 !! l = Some n1 ∧ (ea = None → l ∉ locs p1)).
  { destruct ea as [ea|]; [injection E as -> -> <-; split; [exact Hla|intros [=]]|]. specialize (Hg pa va σa Hseena (proj1 Hnewa)). unfold same_call in Hg. destruct (g va) as [[vb eb]|].
    2: { rewrite Hg in E. done. }
    destruct Hg as (σb & pb & Eb & _ & [_ Hatb] & _ & Hnewb). rewrite Eb in E. injection E as -> -> ->. pose proof (lookup_lt_Some _ _ _ Hla). split; [by rewrite Hatb|].
    intros _ Hin. rewrite Forall_forall in Hnewb. destruct (Hnewb l Hin); [done|lia]. }
  destruct Hl1 as [Hl1 Hnot]. destruct (whole_seen σ1 l n1 Hl1) as [Hx1 Hx2]. pose proof (Hthen _ _ σ1 Hx1 Hx2) as Hv2. unfold same_call in Hv2.
  assert (Epre1 : pre (pts_from_ns n1) = Ret (v, e)). { unfold pre. rewrite (run_split_settles f n n1 r Hset Hfn). exact Epre. }
  rewrite Epre1 in Hv2. destruct Hv2 as (σ2 & p2 & E2 & Hseen2 & Hat2 & _). exists v, n1, r, σ2, p2. repeat (split; [done|]).
  destruct ea as [ea|].
  - injection E as -> -> <-. subst p1. unfold h_then, h_bind in E2. apply bind_Ret in E2 as ([σc [pc ec]] & Ec & E2). cbn [fst snd] in E2.
    pose proof (Hrun _ _ σ1 Hx1 Hx2) as Hr2. unfold same_call in Hr2. rewrite (run_split_settles f n n1 r Hset Hfn), Erun in Hr2. destruct Hr2 as (σc' & pc' & Ec' & _). rewrite Ec in Ec'. injection Ec' as <- <- ->.
    destruct (first_cut f hf σ1 l n1 _ _ _ Hf Hnew Hl1 Ec) as (_ & _ & _ & _ & ->). injection E2 as -> <-. unfold whole in *. by rewrite Ho in Hseen2.
  - eapply seen_keep; [exact Hseen1|exact Hat2|]. intros x Hx Hin%elem_of_list_singleton. subst x. by apply Hnot.
Qed.

(** A pre-tokenizer of one stage as one of two stages. *)
Lemma nothing_own : own_pretokenizer (λ p, Ret (p, None)) (λ p, h_ret (p, None)).
Proof. intros p v σ Hs Hn. unfold same_call. eexists _, _. split; [done|]. split; [done|]. split; [apply only_at_refl|by apply from_or_new_same]. Qed.
Lemma again_one f hf σ l n σ1 p1 e : own_cut f hf → makes_new hf → settles f n → σ !! l = Some n → h_run_split hf (whole n l) σ = Ret (σ1, (p1, e)) →
  ∃ v n1 r σ2 p2, run_split f (pts_from_ns n) = Ret (v, e) ∧ seen σ1 p1 v ∧ f n = Ret (n1, r) ∧ σ1 !! l = Some n1
    ∧ h_run_split hf (whole n1 l) σ1 = Ret (σ2, (p2, e)) ∧ seen σ2 p2 v ∧ seen σ2 p1 v.
Proof.
  intros Hf Hnew Hset Hl H. assert (Hid : ∀ p σ, h_then (h_run_split hf) (λ p, h_ret (p, None)) p σ = h_run_split hf p σ).
  { intros p σ'. unfold h_then, h_bind, h_ret. destruct (h_run_split hf p σ') as [[? [? [?|]]]|]; done. }
  rewrite <- Hid in H. destruct (again_then f hf _ _ σ l n σ1 p1 e Hf Hnew nothing_own Hset Hl H) as (v & n1 & r & σ2 & p2 & H1 & H2 & H3 & H4 & H5 & H6). exists v, n1, r, σ2, p2. rewrite Hid in H5.
  split; [|done]. rewrite <- H1. destruct (run_split f (pts_from_ns n)) as [[? [?|]]|]; done.
Qed.

(** The function that the pre-tokenizer starts with. *)
Inductive first_function : pretokenizer → h_pretokenizer → (ns → outcome (ns * result (list psplit))) → Prop :=
| first_whitespace_split : first_function whitespace_split h_whitespace_split (split_by (func_pattern white_space) Removed)
| first_rune_delimiter c : first_function (rune_delimiter c) (h_rune_delimiter c) (split_by (rune_pattern c) Removed)
| first_whitespace engine : first_function (whitespace_pretokenizer engine) (h_whitespace_pretokenizer engine) (split_by (invert (regexp2_pattern engine)) Removed)
| first_bert u : first_function (bert_pretokenizer u) (h_bert_pretokenizer u) (split_by (func_pattern white_space) Removed)
| first_metaspace c b : first_function (metaspace c b) (h_metaspace c b) (metaspace_split c b)
| first_byte_level engine b : first_function (byte_level engine b) (h_byte_level engine b) (byte_level_split engine b).

Lemma byte_level_second_own : own_pretokenizer (λ p, y ← pts_normalize (λ (_ : unit) n, n' ← byte_level_normalize n; Ret (tt, n', None)) tt p; Ret (y.1.2, y.2))
    (λ p, h_bind (h_pts_normalize (λ (_ : unit) l, h_method l (λ n, n' ← byte_level_normalize n; Ret (n', (tt, None)))) tt p) (λ x, h_ret (x.1.2, x.2))).
Proof.
  apply normalizing_own. intros st l σ n Hl. unfold h_method, h_bind, h_read. rewrite Hl. cbn [mbind outcome_bind fst snd]. destruct (byte_level_normalize n) as [n'|]; [|done]. cbn [mbind outcome_bind fst snd].
  eexists. split; [done|]. split; [apply list_lookup_insert; by eapply lookup_lt_Some|]. apply only_at_insert.
Qed.

Lemma from_ns_whole hpre σ l n : σ !! l = Some n → h_pretokenize hpre l σ = hpre (whole n l) σ.
Proof. intros H. unfold h_pretokenize, h_from_ns, h_bind, h_read, h_ret. by rewrite H. Qed.

Lemma lib_pre_first pre hpre : lib_pre pre hpre → ∃ f, first_function pre hpre f.
Proof. intros []; eexists; constructor. Qed.

Lemma again pre hpre f σ l n σ1 p1 e : first_function pre hpre f → σ !! l = Some n → wf n → h_pretokenize hpre l σ = Ret (σ1, (p1, e)) →
  ∃ v n1 r σ2 p2, pre (pts_from_ns n) = Ret (v, e) ∧ seen σ1 p1 v ∧ f n = Ret (n1, r) ∧ σ1 !! l = Some n1
    ∧ h_pretokenize hpre l σ1 = Ret (σ2, (p2, e)) ∧ seen σ2 p2 v ∧ seen σ2 p1 v.
Proof.
  intros Hlib Hl Hwf H. rewrite (from_ns_whole _ _ _ _ Hl) in H. destruct Hlib as [ |c|engine|u|c b|engine b].
  - destruct (again_one _ _ _ _ _ _ _ _ (split_by_cut _ _) (split_by_new _ _) (split_by_settles _ _ _) Hl H) as (v & n1 & r & σ2 & p2 & H1 & H2 & H3 & H4 & H5 & H6).
    exists v, n1, r, σ2, p2. split; [done|]. split; [done|]. split; [done|]. split; [done|]. split; [by rewrite (from_ns_whole _ _ _ _ H4)|done].
  - destruct (again_one _ _ _ _ _ _ _ _ (split_by_cut _ _) (split_by_new _ _) (split_by_settles _ _ _) Hl H) as (v & n1 & r & σ2 & p2 & H1 & H2 & H3 & H4 & H5 & H6).
    exists v, n1, r, σ2, p2. split; [done|]. split; [done|]. split; [done|]. split; [done|]. split; [by rewrite (from_ns_whole _ _ _ _ H4)|done].
  - destruct (again_one _ _ _ _ _ _ _ _ (split_by_cut _ _) (split_by_new _ _) (split_by_settles _ _ _) Hl H) as (v & n1 & r & σ2 & p2 & H1 & H2 & H3 & H4 & H5 & H6).
    exists v, n1, r, σ2, p2. split; [done|]. split; [done|]. split; [done|]. split; [done|]. split; [by rewrite (from_ns_whole _ _ _ _ H4)|done].
  - destruct (again_then _ _ _ _ _ _ _ _ _ _ (split_by_cut _ _) (split_by_new _ _) (run_split_own _ _ (split_by_cut _ _)) (split_by_settles _ _ _) Hl H) as (v & n1 & r & σ2 & p2 & H1 & H2 & H3 & H4 & H5 & H6).
    exists v, n1, r, σ2, p2. split; [|split; [done|]; split; [done|]; split; [done|]; split; [by rewrite (from_ns_whole _ _ _ _ H4)|done]].
    rewrite <- H1. unfold bert_pretokenizer. destruct (run_split _ (pts_from_ns n)) as [[? [?|]]|]; done.
  - destruct (again_one _ _ _ _ _ _ _ _ (metaspace_cut _ _) (metaspace_new _ _) (metaspace_settles _ _ _ Hwf) Hl H) as (v & n1 & r & σ2 & p2 & H1 & H2 & H3 & H4 & H5 & H6).
    exists v, n1, r, σ2, p2. split; [done|]. split; [done|]. split; [done|]. split; [done|]. split; [by rewrite (from_ns_whole _ _ _ _ H4)|done].
  - destruct (again_then _ _ _ _ _ _ _ _ _ _ (byte_level_cut _ _) (byte_level_new _ _) byte_level_second_own (byte_level_settles _ _ _ Hwf) Hl H) as (v & n1 & r & σ2 & p2 & H1 & H2 & H3 & H4 & H5 & H6).
    exists v, n1, r, σ2, p2. split; [|split; [done|]; split; [done|]; split; [done|]; split; [by rewrite (from_ns_whole _ _ _ _ H4)|done]].
    rewrite <- H1. unfold byte_level. destruct (run_split _ (pts_from_ns n)) as [[? [?|]]|]; try done. cbn [mbind outcome_bind fst snd]. destruct (pts_normalize _ tt _) as [[[]]|]; done.
Qed.

(** What the first function leaves, by pre-tokenizer. *)
Lemma byte_level_leaves engine b n v n1 r : wf_as n v → byte_level_split engine b n = Ret (n1, r) → wf_as n1 (if b then prefixed white_space 32 v else v) ∧ same_origin n n1.
Proof.
  intros Hwf H. unfold byte_level_split in H.
  destruct (prefix_step _ _ white_space 32 b starts_with_whitespace Hwf eq_refl) as (n2 & H1 & Hwf1 & Ho1).
  { intros x a w E. pose proof Hwf as ((Hsc & Hn & _) & _). rewrite Hn, E. rewrite E in Hsc. apply starts_with_whitespace_char. by apply Forall_cons in Hsc as [? _]. }
  change (encode_rune 32) with [32] in H1. rewrite H1 in H. cbn [mbind outcome_bind] in H. by pose proof (split_by_same _ _ _ _ _ H) as ->.
Qed.
Lemma metaspace_leaves c b n v n1 r : wf_as n v → metaspace_split c b n = Ret (n1, r) →
  let c' := sanitize c in wf_as n1 (spaces_to c' (if b then prefixed (λ x, x =? c') c' v else v)) ∧ same_origin n n1.
Proof.
  intros Hwf H c'. pose proof Hwf as ((Hs & Hn & _) & _).
  assert (Hc : scalar c' = true) by apply sanitize_scalar. assert (Ec : encode_rune c = encode_rune c') by (symmetry; apply encode_rune_sanitize).
  destruct (prefix_step _ _ (λ x, x =? c') c' b (λ s, starts_with s (encode_rune c')) Hwf Hc) as (n2 & H1 & Hwf1 & Ho1).
  { intros y a w E. rewrite Hn, E. rewrite E in Hs. apply starts_with_char; [|done]. by apply Forall_cons in Hs as [? _]. }
  destruct (replace_spaces n2 _ c' Hwf1 Hc) as (n3 & H2 & Hwf2 & Ho2).
  unfold metaspace_split in *. cbv zeta in *. rewrite Ec, H1 in H. cbn [mbind outcome_bind] in H. rewrite H2 in H. cbn [mbind outcome_bind] in H.
  pose proof (split_by_same _ _ _ _ _ H) as ->. split; [done|]. destruct Ho1, Ho2. split; congruence.
Qed.
