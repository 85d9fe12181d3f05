(** From the bytes of a JSON file to the vocabulary; the writer of [SpecJson.v]. *)
From Coq Require Import ZifyBool.
From stdpp Require Import relations.
From Verif Require Import GoBase Utf8Facts Vocab Json SpecVocab SpecJson VocabFacts JsonFacts.
Import GoBase SpecJson.
#[local] Open Scope Z_scope.

(** ** Terms are text *)
Lemma string_scalars t u : string_of t u → scalars t → scalars u.
Proof.
  unfold scalars. induction 1 as [|c t s H1 H2 H3 Ht IH|e c t s He Ht IH|h k t s Hh Hk1 Hk2 Ht IH|h k h' k' t s Hh Hh' Hk Hk' Ht IH|h k t s Hh Hk Hn Ht IH]; intros Hs.
  - constructor.
  - apply Forall_cons in Hs as [Hc Hs]. constructor; [done|by apply IH].
  - apply Forall_cons in Hs as [_ Hs]. apply Forall_cons in Hs as [_ Hs]. constructor; [|by apply IH]. apply short_spec in He as (_ & _ & _ & _ & He). apply scalar_spec. lia.
  - apply Forall_app in Hs as [_ Hs]. constructor; [|by apply IH]. apply escaped_shape in Hh as (_ & _ & _ & _ & _ & _ & _ & Hk). apply scalar_spec. unfold high_surrogate, low_surrogate in *. lia.
  - apply Forall_app in Hs as [_ Hs]. apply Forall_app in Hs as [_ Hs]. constructor; [|by apply IH]. apply scalar_spec. unfold high_surrogate, low_surrogate in *. lia.
  - apply Forall_app in Hs as [_ Hs]. constructor; [done|by apply IH].
Qed.

Lemma members_scalars m ms : members_of m ms → scalars m → Forall (λ kv, scalars kv.1) ms.
Proof.
  assert (Hm : ∀ t kv, member_of t kv → scalars t → scalars kv.1).
  { intros t kv (w1 & q & w2 & w3 & v & w4 & -> & _ & _ & _ & _ & Hq & _) Hs. eapply string_scalars; [done|].
    apply Forall_app in Hs as [_ Hs]. apply Forall_app in Hs as [_ Hs]. by apply Forall_app in Hs as [Hs _]. }
  induction 1 as [t kv H|t kv t' ms H Hms IH]; intros Hs.
  - constructor; [by eapply Hm|constructor].
  - apply Forall_app in Hs as [H1 H2]. apply Forall_app in H2 as [_ H2]. constructor; [by eapply Hm|by apply IH].
Qed.

Lemma document_scalars t ms : document_of t (Some ms) → scalars t → Forall (λ kv, scalars kv.1) ms.
Proof.
  intros (w1 & w2 & _ & _ & H) Hs. destruct ms as [|kv ms]; [constructor|]. destruct H as (m & Hm & ->). eapply members_scalars; [done|].
  apply Forall_app in Hs as [_ Hs]. apply Forall_app in Hs as [_ Hs]. by apply Forall_app in Hs as [Hs _].
Qed.

Lemma enc_inj a b : Forall (λ kv, scalars kv.1) a → Forall (λ kv, scalars kv.1) b → enc a = enc b → a = b.
Proof.
  intros Ha. revert b. induction Ha as [|[k z] a Hk Ha IH]; intros [|[k' z'] b] Hb E; try done.
  apply Forall_cons in Hb as [Hk' Hb]. injection E as E1 -> E2. cbn [fst] in *. apply encode_inj_scalars in E1 as ->; [|done|done]. f_equal. by apply IH.
Qed.

Lemma document_unique t d d' : scalars t → document_of t d → document_of t d' → d = d'.
Proof.
  intros Hs H H'. assert (runes (encode t) = t) as E by (by apply runes_encode_scalars).
  pose proof (unmarshal_complete (encode t) d (encode_bytes t) ltac:(by rewrite E)) as U.
  pose proof (unmarshal_complete (encode t) d' (encode_bytes t) ltac:(by rewrite E)) as U'.
  rewrite U in U'. injection U' as U'. destruct d as [ms|], d' as [ms'|]; try done. cbn in U'. injection U' as U'. f_equal.
  apply enc_inj; [by eapply document_scalars|by eapply document_scalars|done].
Qed.

(** ** The map *)
Lemma enc_says ms t z : Forall (λ kv, scalars kv.1) ms →
  (json_map (Some (enc ms)) !! t = Some z ↔ ∃ k, scalars k ∧ t = encode k ∧ says (Some ms) k z).
Proof.
  intros Hs. rewrite json_map_last. split.
  - intros (e1 & e2 & E & Hn). unfold enc in E. change (map _ ms) with ((λ kv : list Z * Z, (encode kv.1, kv.2)) <$> ms) in E.
    apply fmap_app_inv in E as (ms1 & ms2 & E1 & E2 & ->). destruct ms2 as [|[k y] ms2]; [done|]. rewrite fmap_cons in E2. injection E2 as -> -> ->.
    apply Forall_app in Hs as [_ Hs]. apply Forall_cons in Hs as [Hk Hs]. exists k. split; [done|]. split; [done|]. exists ms1, ms2. split; [done|].
    intros (p & -> & Hp)%elem_of_list_fmap. apply Hn. apply elem_of_list_fmap. exists (encode p.1, p.2). split; [done|]. apply elem_of_list_fmap. by exists p.
  - intros (k & Hk & -> & ms1 & ms2 & [= ->] & Hn). exists (enc ms1), (enc ms2). split; [unfold enc; by rewrite map_app|].
    intros (p & E & Hp)%elem_of_list_fmap. unfold enc in Hp. change (map _ ms2) with ((λ kv : list Z * Z, (encode kv.1, kv.2)) <$> ms2) in Hp. apply elem_of_list_fmap in Hp as (q & -> & Hq). cbn [fst] in E.
    apply Forall_app in Hs as [_ Hs]. apply Forall_cons in Hs as [_ Hs]. rewrite Forall_forall in Hs. apply encode_inj_scalars in E; [|done|by apply Hs].
    apply Hn. apply elem_of_list_fmap. exists q. done.
Qed.

Lemma document_map s d t z : document_of (runes s) d → (json_map (in_bytes d) !! t = Some z ↔ ∃ k, scalars k ∧ t = encode k ∧ says d k z).
Proof.
  intros Hd. destruct d as [ms|].
  - apply enc_says. eapply document_scalars; [done|]. apply runes_scalars.
  - cbn. rewrite lookup_empty. split; [done|]. by intros (k & _ & _ & ms1 & ms2 & ? & _).
Qed.

(** ** The writer *)
Lemma decimal_snoc ds d : decimal_value (ds ++ [d]) = 10 * decimal_value ds + (d - 48).
Proof.
  induction ds as [|x ds IH]; cbn [app decimal_value length]; [change (10 ^ Z.of_nat 0) with 1; lia|]. rewrite IH, app_length. cbn [length].
  replace (Z.of_nat (length ds + 1)) with (Z.succ (Z.of_nat (length ds))) by lia. rewrite Z.pow_succ_r by lia. lia.
Qed.

Lemma write_digits_natural fuel n : 0 <= n → (Z.to_nat n < fuel)%nat → natural_of (write_digits fuel n) n.
Proof.
  revert n. induction fuel as [|fuel IH]; intros n Hn Hf; [lia|]. cbn [write_digits]. destruct (n <? 10) eqn:E.
  - split; [done|]. split; [repeat constructor; unfold digit; lia|]. split; [cbn; intros [= H]; f_equal; lia|]. cbn [decimal_value length]. change (10 ^ Z.of_nat 0) with 1. lia.
  - assert (1 <= n / 10) by (apply Z.div_le_lower_bound; lia). assert (n / 10 < n) by (apply Z.div_lt; lia).
    pose proof (Z.mod_pos_bound n 10 ltac:(lia)). pose proof (Z.div_mod n 10 ltac:(lia)).
    destruct (IH (n / 10)) as (Ha & Hb & Hc & Hd); [lia|lia|]. split; [by destruct (write_digits fuel (n / 10))|].
    split; [apply Forall_app; split; [done|]; repeat constructor; unfold digit; lia|]. split; [|rewrite decimal_snoc, <- Hd; lia].
    destruct (write_digits fuel (n / 10)) as [|x ds]; [done|]. cbn [app head]. intros [= ->]. specialize (Hc eq_refl). injection Hc as ->.
    cbn [decimal_value length] in Hd. change (10 ^ Z.of_nat 0) with 1 in Hd. lia.
Qed.

Lemma write_int_id z : - 2 ^ 63 <= z < 2 ^ 63 → id_of (write_int z) z.
Proof.
  intros Hz. right. split; [|done]. unfold write_int. destruct (z <? 0) eqn:E.
  - right. exists (write_digits (Z.to_nat (- z) + 1) (- z)), (- z). split; [done|]. split; [|lia]. apply write_digits_natural; lia.
  - left. apply write_digits_natural; lia.
Qed.

Lemma hexchar_digit n : 0 <= n < 16 → hexdigit (hexchar n) n.
Proof. unfold hexdigit, hexchar. intros H. destruct (n <? 10) eqn:E; lia. Qed.

Lemma write_char_of c t s : 0 <= c → string_of t s → string_of (write_char c ++ t) (c :: s).
Proof.
  intros Hc H. unfold write_char. destruct ((c =? 34) || (c =? 92)) eqn:E1.
  - apply so_short; [|done]. unfold short_escape. lia.
  - destruct (c <? 32) eqn:E2.
    + apply so_unit; [|unfold high_surrogate; lia|unfold low_surrogate; lia|done]. exists 48, 48, (hexchar (c / 16)), (hexchar (c mod 16)), 0, 0, (c / 16), (c mod 16).
      pose proof (Z.mod_pos_bound c 16 ltac:(lia)). pose proof (Z.div_mod c 16 ltac:(lia)). assert (0 <= c / 16 < 16) by (split; [apply Z.div_pos; lia|apply Z.div_lt_upper_bound; lia]).
      split; [done|]. split; [left; lia|]. split; [left; lia|]. split; [by apply hexchar_digit|]. split; [by apply hexchar_digit|lia].
    + apply so_plain; [lia|lia|lia|done].
Qed.

Lemma write_text_of k : scalars k → string_of (flat_map write_char k) k.
Proof. induction 1 as [|c k Hc Hk IH]; [constructor|]. cbn [flat_map]. apply write_char_of; [|done]. apply scalar_spec in Hc. lia. Qed.

Lemma write_member_of kv : scalars kv.1 → - 2 ^ 63 <= kv.2 < 2 ^ 63 → member_of (write_member kv) kv.
Proof.
  intros H1 H2. exists [], (flat_map write_char kv.1), [], [], (write_int kv.2), []. rewrite !app_nil_r. split; [done|].
  repeat (split; [constructor|]). split; [by apply write_text_of|by apply write_int_id].
Qed.

Lemma write_members_of kv ms : writable (kv :: ms) → members_of (write_members (kv :: ms)) (kv :: ms).
Proof.
  revert kv. induction ms as [|kv' ms IH]; intros kv [[H1 H2] H]%Forall_cons.
  - apply mo_last. by apply write_member_of.
  - apply (mo_more (write_member kv)); [by apply write_member_of|by apply IH].
Qed.

Lemma write_document_of ms : writable ms → document_of (write_document ms) (Some ms).
Proof.
  intros H. exists [], []. split; [constructor|]. split; [constructor|]. destruct ms as [|kv ms].
  - exists []. split; [constructor|done].
  - exists (write_members (kv :: ms)). split; [by apply write_members_of|]. done.
Qed.

Lemma ascii_scalars l : Forall (λ c, 0 <= c < 128) l → scalars l.
Proof. intros H. eapply Forall_impl; [exact H|]. intros c Hc. apply scalar_spec. cbn in Hc. lia. Qed.

Lemma write_member_scalars kv : scalars kv.1 → - 2 ^ 63 <= kv.2 < 2 ^ 63 → scalars (write_member kv).
Proof.
  intros Hk Hz. unfold write_member. apply Forall_app. split; [by repeat constructor|]. apply Forall_app. split.
  - induction Hk as [|c k Hc Hk IH]; [constructor|]. cbn [flat_map]. apply Forall_app. split; [|done]. unfold write_char. destruct (_ || _); [by repeat constructor|].
    destruct (c <? 32) eqn:E; [|by repeat constructor]. apply ascii_scalars. apply scalar_spec in Hc.
    pose proof (Z.mod_pos_bound c 16 ltac:(lia)). assert (0 <= c / 16 < 16) by (split; [apply Z.div_pos; lia|apply Z.div_lt_upper_bound; lia]).
    repeat constructor; try lia; unfold hexchar; destruct (_ <? 10); lia.
  - apply Forall_app. split; [by repeat constructor|]. apply ascii_scalars. by eapply id_ascii, write_int_id.
Qed.

Lemma write_document_scalars ms : writable ms → scalars (write_document ms).
Proof.
  intros H. unfold write_document. apply Forall_app. split; [by repeat constructor|]. apply Forall_app. split; [|by repeat constructor].
  induction H as [|kv ms [H1 H2] H IH]; [constructor|]. cbn [write_members]. destruct ms as [|kv' ms]; [by apply write_member_scalars|].
  apply Forall_app. split; [by apply write_member_scalars|]. apply Forall_app. split; [by repeat constructor|done].
Qed.

Lemma written_read ms : writable ms → unmarshal (encode (write_document ms)) = Some (Some (enc ms)).
Proof.
  intros H. apply (unmarshal_complete _ (Some ms)); [apply encode_bytes|]. rewrite runes_encode_scalars by (by apply write_document_scalars). by apply write_document_of.
Qed.

Lemma enc_ids ms : (enc ms).*2 = ms.*2.
Proof. induction ms as [|kv ms IH]; [done|]. unfold enc in *. cbn [map]. rewrite !(fmap_cons snd), IH. done. Qed.

Lemma written_vocab :
  ∀ ms order, writable ms → NoDup ms.*1 → NoDup ms.*2 → (∀ m, map_order m (order m)) →
  ∃ v, from_json_bytes (encode (write_document ms)) order = Ok v ∧ consistent v ∧ v_size v = zlen ms
  ∧ ∀ t z, get_id v t = Some z ↔ ∃ k, t = encode k ∧ (k, z) ∈ ms.
Proof.
  intros ms order Hw Hk Hz Ho.
  assert (Hs : Forall (λ kv : list Z * Z, scalars kv.1) ms) by (eapply Forall_impl; [exact Hw|]; by intros kv [? _]).
  assert (Hm : ∀ t z, json_map (Some (enc ms)) !! t = Some z ↔ ∃ k, t = encode k ∧ (k, z) ∈ ms).
  { intros t z. rewrite enc_says by done. split.
    - intros (k & _ & -> & ms1 & ms2 & [= ->] & _). exists k. split; [done|]. apply elem_of_app. right. by left.
    - intros (k & -> & Hin). exists k. split; [rewrite Forall_forall in Hs; by apply Hs in Hin|]. split; [done|].
      apply elem_of_list_split in Hin as (ms1 & ms2 & ->). exists ms1, ms2. split; [done|]. rewrite fmap_app, (fmap_cons fst) in Hk. cbn [fst] in Hk.
      apply NoDup_app in Hk as (_ & _ & Hk). by apply NoDup_cons in Hk as [Hk _]. }
  exists (from_json (Some (enc ms)) (order (json_map (Some (enc ms))))). split; [unfold from_json_bytes; by rewrite written_read|]. split; [|split].
  - apply from_json_consistent; [apply Ho|]. intros t u i (k & -> & H1)%Hm (k' & -> & H2)%Hm. f_equal.
    apply elem_of_list_lookup in H1 as [a H1]. apply elem_of_list_lookup in H2 as [b H2].
    assert (a = b) as <-; [|congruence]. eapply NoDup_lookup; [exact Hz| |]; rewrite list_lookup_fmap; [by rewrite H1|by rewrite H2].
  - unfold v_size, zlen. f_equal. cbn [from_json v_ids]. rewrite <- (map_length (λ kv : list Z * Z, (encode kv.1, kv.2)) ms). fold (enc ms).
    change (size (json_map (Some (enc ms)))) with (length (map_to_list (json_map (Some (enc ms))))). apply Permutation_length, NoDup_Permutation.
    + apply NoDup_map_to_list.
    + apply (NoDup_fmap_1 snd). by rewrite enc_ids.
    + intros [t z]. rewrite elem_of_map_to_list, Hm. unfold enc. change (map _ ms) with ((λ kv : list Z * Z, (encode kv.1, kv.2)) <$> ms). rewrite elem_of_list_fmap. split.
      * intros (k & -> & Hin). by exists (k, z).
      * intros ([k y] & [= -> ->] & Hin). by exists k.
  - exact Hm.
Qed.

Lemma layout_free :
  ∀ raw raw' order order' d d', bytes raw → bytes raw' → (∀ m, map_order m (order m)) → (∀ m, map_order m (order' m)) →
  document_of (runes raw) d → document_of (runes raw') d' → (d = None ↔ d' = None) →
  (∀ k z, says d k z ↔ says d' k z) → (∀ k k' z, says d k z → says d k' z → k = k') →
  ∃ v, from_json_bytes raw order = Ok v ∧ from_json_bytes raw' order' = Ok v.
Proof.
  intros raw raw' order order' d d' Hb Hb' Ho Ho' Hd Hd' Hn Hs Hi. unfold from_json_bytes.
  rewrite (unmarshal_complete raw d), (unmarshal_complete raw' d') by done. eexists. split; [done|]. f_equal.
  assert (Em : json_map (in_bytes d) = json_map (in_bytes d')).
  { apply map_eq. intros t. apply option_eq. intros z. rewrite (document_map raw), (document_map raw') by done.
    split; intros (k & H1 & H2 & H3); exists k; (split; [done|]; split; [done|]); by apply Hs. }
  assert (Hinj : ∀ t u i, json_map (in_bytes d) !! t = Some i → json_map (in_bytes d) !! u = Some i → t = u).
  { intros t u i. rewrite !(document_map raw) by done. intros (k & _ & -> & H1) (k' & _ & -> & H2). f_equal. by eapply Hi. }
  pose proof (from_json_consistent (in_bytes d) (order (json_map (in_bytes d))) (Ho _) Hinj) as C1.
  pose proof (from_json_consistent (in_bytes d') (order' (json_map (in_bytes d'))) (Ho' _) ltac:(by rewrite <- Em)) as C2.
  unfold from_json. f_equal; [|by symmetry|].
  - destruct d as [ms|], d' as [ms'|]; cbn; try done; exfalso; destruct Hn as [Hn Hn']; [by specialize (Hn' eq_refl)|by specialize (Hn eq_refl)].
  - apply map_eq. intros i. apply option_eq. intros t. unfold consistent, get_string, get_id in C1, C2. cbn [from_json v_ids v_terms] in C1, C2. by rewrite <- C1, <- C2, Em.
Qed.

(** ** What is written in the file *)
Lemma members_in m ms kv : members_of m ms → kv ∈ ms → ∃ a t b, m = a ++ t ++ b ∧ member_of t kv.
Proof.
  induction 1 as [t kv' H|t kv' t' ms H Hms IH]; intros Hin.
  - apply elem_of_list_singleton in Hin as ->. exists [], t, []. by rewrite app_nil_r.
  - apply elem_of_cons in Hin as [->|Hin].
    + by exists [], t, ([44] ++ t').
    + destruct (IH Hin) as (a & u & b & -> & Hu). exists (t ++ [44] ++ a), u, b. split; [by rewrite <- !app_assoc|done].
Qed.

Lemma document_in t d k z : document_of t d → says d k z → ∃ a u b, t = a ++ u ++ b ∧ member_of u (k, z).
Proof.
  intros (w1 & w2 & _ & _ & H) (ms1 & ms2 & -> & _). destruct (ms1 ++ (k, z) :: ms2) as [|kv ms] eqn:E; [by destruct ms1|].
  destruct H as (m & Hm & ->). destruct (members_in _ _ (k, z) Hm) as (a & u & b & -> & Hu).
  - rewrite <- E. apply elem_of_app. right. by left.
  - exists (w1 ++ [123] ++ a), u, (b ++ [125] ++ w2). split; [by rewrite <- !app_assoc|done].
Qed.

Lemma runes_infix_ascii s a l b : bytes s → runes s = a ++ l ++ b → Forall (λ c, 0 <= c < 128) l → l ≠ [] → ∃ a' b', s = a' ++ l ++ b'.
Proof.
  intros Hb E Hl Hne. destruct l as [|c l]; [done|]. apply Forall_cons in Hl as [Hc Hl]. cbn [app] in E.
  apply runes_at_ascii in E as (a' & s' & -> & _ & E & _ & Hb'); [|done|done].
  apply runes_prefix_ascii in E as (s2 & -> & _); [|done|eapply Forall_impl; [exact Hl|cbn; lia]]. by exists a', s2.
Qed.

Lemma id_written raw d k z : bytes raw → document_of (runes raw) d → says d k z →
  ∃ a l b, raw = a ++ l ++ b ∧ (l = null ∨ integer_of l z).
Proof.
  intros Hb Hd Hs. destruct (document_in _ _ _ _ Hd Hs) as (a & u & b & E & w1 & q & w2 & w3 & v & w4 & -> & _ & _ & _ & _ & _ & Hv). cbn [snd] in Hv.
  destruct (runes_infix_ascii raw (a ++ w1 ++ [34] ++ q ++ [34] ++ w2 ++ [58] ++ w3) v (w4 ++ b)) as (a' & b' & ->).
  - done.
  - rewrite E, <- !app_assoc. done.
  - by eapply id_ascii.
  - destruct (id_head _ _ Hv) as (c & v' & -> & _). done.
  - exists a', v, b'. split; [done|]. destruct Hv as [[-> _]|[Hv _]]; [by left|by right].
Qed.

Lemma string_plain q k : string_of q k → 92 ∉ q → k = q.
Proof.
  induction 1 as [|c t s H1 H2 H3 Ht IH|e c t s He Ht IH|h k t s Hh Hk1 Hk2 Ht IH|h k h' k' t s Hh Hh' Hk Hk' Ht IH|h k t s Hh Hk Hn Ht IH]; intros Hn92.
  - done.
  - f_equal. apply IH. set_solver.
  - set_solver.
  - apply escaped_shape in Hh as (? & ? & ? & ? & -> & _). set_solver.
  - apply escaped_shape in Hh as (? & ? & ? & ? & -> & _). set_solver.
  - apply escaped_shape in Hh as (? & ? & ? & ? & -> & _). set_solver.
Qed.

Lemma runes_no_backslash s : bytes s → 92 ∉ s → 92 ∉ runes s.
Proof. intros Hb Hn (a & b & E)%elem_of_list_split. apply runes_at_ascii in E as (a' & b' & -> & _); [|done|lia]. apply Hn. apply elem_of_app. right. by left. Qed.

Lemma term_written raw d k z : bytes raw → valid_utf8 raw = true → 92 ∉ raw → document_of (runes raw) d → says d k z →
  ∃ a b, raw = a ++ [34] ++ encode k ++ [34] ++ b.
Proof.
  intros Hb Hu Hn Hd Hs. destruct (document_in _ _ _ _ Hd Hs) as (a & u & b & E & w1 & q & w2 & w3 & v & w4 & -> & _ & _ & _ & _ & Hq & _). cbn [fst] in Hq.
  assert (k = q) as ->.
  { eapply string_plain; [done|]. pose proof (runes_no_backslash raw Hb Hn) as Hn'. rewrite E in Hn'. set_solver. }
  rewrite <- (valid_encode_runes raw Hu), E, !encode_app. exists (encode a ++ encode w1), (encode w2 ++ encode [58] ++ encode w3 ++ encode v ++ encode w4 ++ encode b).
  change (encode [34]) with [34]. by rewrite <- !app_assoc.
Qed.
