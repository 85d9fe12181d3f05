(** Proofs about the linked symbols of Bpe.v. *)
From Coq Require Import ZifyBool ZifyNat.
From stdpp Require Import relations.
From Verif Require Import GoBase Vocab MergeMap Heap Bpe HeapFacts SpecBpe SliceFacts.

(** The live symbols of a word with their places. *)
Notation placed := (nat * (Z * Z))%type (only parsing).

Definition pz (v : list (nat * (Z * Z))) (k : nat) : Z := match v !! k with Some x => Z.of_nat x.1 | None => -1 end.
Definition prevz (v : list (nat * (Z * Z))) (k : nat) : Z := match k with O => -1 | S k' => pz v k' end.

Record rep (w : word) (v : list (nat * (Z * Z))) : Prop := {
  rep_at : ∀ k p a la, v !! k = Some (p, (a, la)) → 0 < la ∧ w !! p = Some (WSym a la (prevz v k) (pz v (S k)));
  rep_sorted : ∀ j k x y, (j < k)%nat → v !! j = Some x → v !! k = Some y → (x.1 < y.1)%nat;
  rep_all : ∀ i s, w !! i = Some s → ws_len s ≠ 0 → i ∈ v.*1;
}.

Lemma rep_inj w v j k x y : rep w v → v !! j = Some x → v !! k = Some y → x.1 = y.1 → j = k.
Proof.
  intros R Hj Hk E. destruct (lt_eq_lt_dec j k) as [[H|H]|H]; [|done|].
  - pose proof (rep_sorted _ _ R j k x y H Hj Hk). lia.
  - pose proof (rep_sorted _ _ R k j y x H Hk Hj). lia.
Qed.

Lemma pz_nonneg v k x : v !! k = Some x → pz v k = Z.of_nat x.1.
Proof. intros H. unfold pz. by rewrite H. Qed.

Lemma idx_nat {A} (l : list A) i x : l !! i = Some x → idx l (Z.of_nat i) = Ret x.
Proof.
  intros H. unfold idx. rewrite Nat2Z.id, H. destruct (Z.leb_spec 0 (Z.of_nat i)); [done|lia].
Qed.
Lemma upd_nat (w : word) i s f : w !! i = Some s → upd w (Z.of_nat i) f = Ret (<[i := f s]> w).
Proof.
  intros H. unfold upd. rewrite (idx_nat _ _ _ H). cbn [mbind outcome_bind]. rewrite Nat2Z.id. f_equal.
  apply list_eq. intros j. destruct (decide (j = i)) as [->|Hj].
  - rewrite list_lookup_alter, H. cbn. rewrite list_lookup_insert; [done|]. by eapply lookup_lt_Some.
  - by rewrite list_lookup_alter_ne, list_lookup_insert_ne.
Qed.

(** Lookup in the word after a merge. *)
Lemma do_merge_lookup w p n a la pr b lb pr' nn c :
  w !! p = Some (WSym a la pr (Z.of_nat n)) → w !! n = Some (WSym b lb pr' nn) → p ≠ n →
  (nn = -1 ∨ ∃ i, nn = Z.of_nat i ∧ (i < length w)%nat ∧ i ≠ p ∧ i ≠ n) →
  ∃ w', do_merge w (Z.of_nat p) (Z.of_nat n) (WSym b lb pr' nn) c = Ret w' ∧ length w' = length w
    ∧ ∀ i, w' !! i = if decide (i = p) then Some (WSym c (la + lb) pr nn)
                     else if decide (i = n) then Some (WSym b 0 pr' nn)
                     else if decide (Z.of_nat i = nn) then (λ s, WSym (ws_id s) (ws_len s) (Z.of_nat p) (ws_next s)) <$> w !! i
                     else w !! i.
Proof.
  intros Hp Hn Hpn Hnn. unfold do_merge. rewrite (upd_nat _ _ _ _ Hp). cbn [mbind outcome_bind ws_id ws_len ws_prev ws_next].
  erewrite upd_nat; [|rewrite list_lookup_insert_ne by done; exact Hn]. cbn [mbind outcome_bind ws_id ws_len ws_prev ws_next].
  pose proof (lookup_lt_Some _ _ _ Hp) as Hlp. pose proof (lookup_lt_Some _ _ _ Hn) as Hln.
  destruct Hnn as [->|(i0 & -> & Hi & Hip & Hin)].
  - cbn [negb Z.eqb andb]. eexists. split; [done|]. split; [by rewrite !insert_length|]. intros i.
    destruct (decide (i = p)) as [->|H1].
    { rewrite list_lookup_insert_ne by done. by rewrite list_lookup_insert. }
    destruct (decide (i = n)) as [->|H2].
    { rewrite list_lookup_insert; [done|]. by rewrite insert_length. }
    rewrite !list_lookup_insert_ne by done. by rewrite decide_False by lia.
  - unfold zlen. rewrite !insert_length. destruct (Z.eqb_spec (Z.of_nat i0) (-1)) as [?|_]; [lia|].
    destruct (Z.ltb_spec (Z.of_nat i0) (Z.of_nat (length w))) as [_|?]; [|lia]. cbn [negb andb].
    destruct (lookup_lt_is_Some_2 w i0 Hi) as [s Hs].
    erewrite upd_nat; [|rewrite !list_lookup_insert_ne by done; exact Hs].
    eexists. split; [done|]. split; [by rewrite !insert_length|]. intros i.
    destruct (decide (i = p)) as [->|H1].
    { rewrite !list_lookup_insert_ne by done. by rewrite list_lookup_insert. }
    destruct (decide (i = n)) as [->|H2].
    { rewrite list_lookup_insert_ne by done. rewrite list_lookup_insert; [done|]. by rewrite insert_length. }
    destruct (decide (Z.of_nat i = Z.of_nat i0)) as [H3|H3].
    { assert (i = i0) as -> by lia. rewrite Hs. rewrite list_lookup_insert; [done|]. by rewrite !insert_length. }
    rewrite !list_lookup_insert_ne; [done|lia..].
Qed.

Section merge.
  Context (l r : list (nat * (Z * Z))) (p n : nat) (a la b lb c : Z).
  Let v := l ++ (p, (a, la)) :: (n, (b, lb)) :: r.
  Let v' := l ++ (p, (c, la + lb)) :: r.
  Lemma v_p : v !! length l = Some (p, (a, la)).
  Proof. unfold v. rewrite lookup_app_r, Nat.sub_diag by lia. done. Qed.
  Lemma v_n : v !! S (length l) = Some (n, (b, lb)).
  Proof. unfold v. rewrite lookup_app_r by lia. by replace (S (length l) - length l)%nat with 1%nat by lia. Qed.
  Lemma v'_lt j : (j < length l)%nat → v' !! j = v !! j.
  Proof. intros. unfold v, v'. by rewrite !lookup_app_l. Qed.
  Lemma v'_p : v' !! length l = Some (p, (c, la + lb)).
  Proof. unfold v'. rewrite lookup_app_r, Nat.sub_diag by lia. done. Qed.
  Lemma v'_gt j : (length l < j)%nat → v' !! j = v !! S j.
  Proof.
    intros. unfold v, v'. rewrite !lookup_app_r by lia. replace (S j - length l)%nat with (S (j - length l)) by lia.
    destruct (j - length l)%nat as [|m] eqn:E; [lia|done].
  Qed.
  Lemma pz_v' j : pz v' j = if decide (j <= length l)%nat then pz v j else pz v (S j).
  Proof.
    unfold pz. destruct (decide (j <= length l)%nat) as [H|H].
    - destruct (decide (j = length l)) as [->|]; [by rewrite v'_p, v_p|]. by rewrite v'_lt by lia.
    - by rewrite v'_gt by lia.
  Qed.

  Lemma rep_merge w : rep w v →
    ∃ w', do_merge w (Z.of_nat p) (Z.of_nat n) (WSym b lb (Z.of_nat p) (pz v (S (S (length l))))) c = Ret w'
      ∧ length w' = length w ∧ rep w' v'.
  Proof.
    intros R. destruct (rep_at _ _ R _ _ _ _ v_p) as [Hla Hp]. destruct (rep_at _ _ R _ _ _ _ v_n) as [Hlb Hn].
    cbn [prevz] in Hn. rewrite (pz_nonneg _ _ _ v_p) in Hn. rewrite (pz_nonneg _ _ _ v_n) in Hp. cbn [fst] in Hn, Hp.
    pose proof (rep_sorted _ _ R _ _ _ _ (Nat.lt_succ_diag_r _) v_p v_n) as Hpn. cbn in Hpn.
    destruct (do_merge_lookup w p n a la (prevz v (length l)) b lb (Z.of_nat p) (pz v (S (S (length l)))) c Hp Hn) as (w' & E & Hlen & Hw').
    { lia. }
    { unfold pz. destruct (v !! S (S (length l))) as [[i x]|] eqn:Hi; [|by left]. right. exists i. split; [done|].
      destruct x as [xa xl]. destruct (rep_at _ _ R _ _ _ _ Hi) as [_ Hwi]. split; [by eapply lookup_lt_Some|].
      pose proof (rep_sorted _ _ R (length l) (S (S (length l))) _ _ ltac:(lia) v_p Hi) as H1.
      pose proof (rep_sorted _ _ R (S (length l)) (S (S (length l))) _ _ ltac:(lia) v_n Hi) as H2. cbn in H1, H2. lia. }
    exists w'. split; [done|]. split; [done|]. split.
    - intros k q d ld Hk. destruct (lt_eq_lt_dec k (length l)) as [[Hlt|Heq]|Hgt]; [|subst|].
      + rewrite v'_lt in Hk by done. destruct (rep_at _ _ R _ _ _ _ Hk) as [Hld Hq]. split; [done|].
        pose proof (rep_sorted _ _ R _ _ _ _ Hlt Hk v_p) as H1. cbn in H1. rewrite Hw'.
        rewrite (decide_False (P := q = p)), (decide_False (P := q = n)) by lia.
        rewrite (decide_False (P := Z.of_nat q = _)).
        2:{ unfold pz. destruct (v !! S (S (length l))) as [y|] eqn:Hy; [|lia].
            pose proof (rep_sorted _ _ R k (S (S (length l))) _ _ ltac:(lia) Hk Hy) as H2. cbn in H2. lia. }
        rewrite Hq. f_equal. f_equal.
        * destruct k as [|k]; [done|]. cbn [prevz]. rewrite pz_v'. by rewrite decide_True by lia.
        * rewrite pz_v'. by rewrite decide_True by lia.
      + rewrite v'_p in Hk. injection Hk as <- <- <-. split; [lia|]. rewrite Hw', decide_True by done. f_equal. f_equal.
        * destruct (length l) as [|k] eqn:El; [done|]. cbn [prevz]. rewrite pz_v'. by rewrite decide_True by lia.
        * rewrite pz_v'. by rewrite decide_False by lia.
      + rewrite v'_gt in Hk by done. destruct (rep_at _ _ R _ _ _ _ Hk) as [Hld Hq]. split; [done|].
        pose proof (rep_sorted _ _ R (length l) (S k) _ _ ltac:(lia) v_p Hk) as H1. cbn in H1.
        pose proof (rep_sorted _ _ R (S (length l)) (S k) _ _ ltac:(lia) v_n Hk) as H2. cbn in H2. rewrite Hw'.
        rewrite (decide_False (P := q = p)), (decide_False (P := q = n)) by lia.
        destruct k as [|k]; [lia|]. cbn [prevz] in Hq |- *. rewrite !pz_v'. rewrite (decide_False (P := (S (S k) <= _)%nat)) by lia.
        destruct (decide (k = length l)) as [->|Hk'].
        * rewrite decide_True by (rewrite (pz_nonneg _ _ _ Hk); done). rewrite Hq. cbn. rewrite decide_True by lia.
          by rewrite (pz_nonneg _ _ _ v_p).
        * rewrite (decide_False (P := (k <= _)%nat)) by lia. rewrite decide_False; [done|].
          unfold pz. destruct (v !! S (S (length l))) as [y|] eqn:Hy; [|lia].
          pose proof (rep_sorted _ _ R (S (S (length l))) (S (S k)) _ _ ltac:(lia) Hy Hk) as H3. cbn in H3. lia.
    - intros j k x y Hjk Hx Hy.
      assert (Hold : ∀ i z, v' !! i = Some z → ∃ z', v !! (if decide (i <= length l)%nat then i else S i) = Some z' ∧ z'.1 = z.1).
      { intros i z Hz. destruct (lt_eq_lt_dec i (length l)) as [[Hlt|Heq]|Hgt]; [|subst|].
        - rewrite v'_lt in Hz by done. rewrite decide_True by lia. eauto.
        - rewrite v'_p in Hz. injection Hz as <-. rewrite decide_True by lia. rewrite v_p. eauto.
        - rewrite v'_gt in Hz by done. rewrite decide_False by lia. eauto. }
      destruct (Hold _ _ Hx) as (x' & Hx' & <-). destruct (Hold _ _ Hy) as (y' & Hy' & <-).
      eapply (rep_sorted _ _ R); [|exact Hx'|exact Hy']. repeat case_decide; lia.
    - intros i s Hi Hs. rewrite Hw' in Hi. unfold v'. rewrite fmap_app, fmap_cons. cbn [fst].
      rewrite elem_of_app, elem_of_cons. destruct (decide (i = p)) as [->|Hip]; [by right; left|].
      destruct (decide (i = n)) as [->|Hin]; [by injection Hi as <-|].
      assert (Hold : i ∈ v.*1).
      { destruct (decide (Z.of_nat i = _)) as [E'|E'].
        - destruct (w !! i) as [s0|] eqn:Hs0; [|done]. cbn in Hi. injection Hi as <-. by apply (rep_all _ _ R i s0).
        - by apply (rep_all _ _ R i s). }
      unfold v in Hold. rewrite fmap_app, !fmap_cons in Hold. cbn [fst] in Hold.
      rewrite elem_of_app, !elem_of_cons in Hold. tauto.
  Qed.
End merge.
