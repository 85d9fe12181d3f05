(** Facts about reading encodings back. *)
From Coq Require Import ZifyBool Sorted QArith.
From stdpp Require Import relations.
From Verif Require Import GoBase Utf8Facts Strutils SplitPattern NormString Vocab MergeMap Bpe WordPiece Encodings PreTokString Normalizers PreTokenizers Regex SpecText SpecNorm SpecVocab SpecBpe SpecWordPiece SpecPts SpecPretok SpecEnd SpecPipe SpecDecode
  SliceFacts NormFacts NormInv NormEdits TileFacts WordPieceFacts BpeTok PretokFacts NormSlice EndFacts PipeFacts PropsWordPiece PropsBpe PropsPretok PropsEnd PropsPipe PropsMeta PropsVocab.
Import GoBase NormString SpecNorm.
#[local] Open Scope Z_scope.

Lemma consistent_distinct v : consistent v → distinct_ids v.
Proof. intros H t t' i H1 H2. apply H in H1. apply H in H2. congruence. Qed.

(** Lists of terms with the same IDs are the same. *)
Lemma same_ids {A} (f : A → list Z) (g : A → Z) v l l' : distinct_ids v →
  Forall (λ t, get_id v (f t) = Some (g t)) l → Forall (λ t, get_id v (f t) = Some (g t)) l' → map g l = map g l' → map f l = map f l'.
Proof.
  intros Hd H. revert l'. induction H as [|t l Ht H IH]; intros [|t' l'] H' E; try done. cbn [map] in *.
  apply Forall_cons in H' as [Ht' H']. injection E as E1 E2. f_equal; [|by apply IH]. apply (Hd _ _ (g t)); [done|]. by rewrite E1.
Qed.

(** * WordPiece *)
Section wp.
  Context (v : vocab) (pre : list Z).
  Lemma tried_later s o l : 0 < o → tried_toks v pre s o l → ∃ xs, map t_value l = map (app pre) xs ∧ concat xs = drop (Z.to_nat o) s.
  Proof.
    intros Ho H. revert Ho. induction H as [|o e x i ts H1 H2 (p & q & E & E1 & E2) H4 H5 H6 IH]; intros Ho.
    - exists []. split; [done|]. symmetry. apply drop_ge. unfold zlen. lia.
    - destruct IH as (xs & X1 & X2); [lia|]. exists (x :: xs). cbn [map concat t_value]. unfold piece_term. replace (o =? 0) with false by lia.
      split; [by rewrite X1|]. rewrite X2. rewrite E, (drop_app_alt p (x ++ q) (Z.to_nat o)) by (unfold zlen in *; lia).
      rewrite (app_assoc p x q), drop_app_alt; [done|]. rewrite app_length. unfold zlen in *. lia.
  Qed.
  Lemma tried_first s l : tried_toks v pre s 0 l → (l = [] ∧ s = []) ∨ ∃ x xs, map t_value l = x :: map (app pre) xs ∧ x ++ concat xs = s.
  Proof.
    intros H. inversion H as [E|o e x i ts H1 H2 (p & q & E & E1 & E2) H4 H5 H6]; subst.
    - left. split; [done|]. destruct s as [|b s]; [done|]. rewrite zlen_cons in E. pose proof (zlen_nonneg s). lia.
    - right. destruct (tried_later (p ++ x ++ q) (zlen x) ts) as (xs & X1 & X2).
      + destruct p; [|rewrite zlen_cons in E1; pose proof (zlen_nonneg p); lia]. lia.
      + by replace (zlen x) with (0 + zlen x) by lia.
      + exists x, xs. split; [cbn [map t_value]; by rewrite X1|]. rewrite X2. destruct p; [|rewrite zlen_cons in E1; pose proof (zlen_nonneg p); lia].
        cbn [app]. rewrite drop_app_alt; [done|]. unfold zlen. lia.
  Qed.
End wp.
Lemma app_map_inj (pre : list Z) xs ys : map (app pre) xs = map (app pre) ys → xs = ys.
Proof. revert ys. induction xs as [|x xs IH]; intros [|y ys] E; try done. cbn [map] in E. injection E as E1 E2. apply app_inv_head in E1 as ->. f_equal. by apply IH. Qed.

Lemma wp_text_of_ids m s s' toks toks' : distinct_ids (w_vocab m) → Forall (λ c, 0 <= c <= 255) s → Forall (λ c, 0 <= c <= 255) s' →
  wp_tokenize m s = Some (Ret (Ok toks)) → wp_tokenize m s' = Some (Ret (Ok toks')) →
  (∀ u, get_id (w_vocab m) (w_unk m) = Some u → map t_id toks ≠ [u]) → map t_id toks = map t_id toks' → s = s'.
Proof.
  intros Hd Hs Hs' H H' Hu E.
  assert (Ht : ∀ s toks, Forall (λ c, 0 <= c <= 255) s → wp_tokenize m s = Some (Ret (Ok toks)) → (∀ u, get_id (w_vocab m) (w_unk m) = Some u → map t_id toks ≠ [u]) →
    tried_toks (w_vocab m) (w_prefix m) s 0 toks).
  { clear. intros s toks Hs H Hu. destruct (wp_tokenize_spec m s Hs) as [(l & _ & E & Hl)|(_ & E)]; rewrite H in E; injection E as E.
    - by rewrite E.
    - symmetry in E. apply unknown_spec in E as [(i & Hi & [= ->])|[_ [=]]]. by destruct (Hu i Hi). }
  pose proof (Ht s toks Hs H Hu) as H1. assert (H2 : tried_toks (w_vocab m) (w_prefix m) s' 0 toks') by (apply Ht; [done..|by rewrite <- E]).
  assert (Ev : map t_value toks = map t_value toks').
  { apply (same_ids t_value t_id (w_vocab m)); [done|..|done]; [apply tried_toks_tile in H1 as [_ G]|apply tried_toks_tile in H2 as [_ G]]; (eapply Forall_impl; [exact G|]); by intros t (x & _ & _ & ?). }
  destruct (tried_first _ _ _ _ H1) as [[-> ->]|(x & xs & V1 & <-)], (tried_first _ _ _ _ H2) as [[-> ->]|(x' & xs' & V2 & <-)]; [done|by rewrite V2 in Ev|by rewrite V1 in Ev|].
  rewrite V1, V2 in Ev. injection Ev as -> Ev. apply app_map_inj in Ev as ->. done.
Qed.

(** The IDs of an encoding, piece by piece. *)
Lemma encoded_ids wi ty i ts tss es : encoded wi ty i ts tss es → map et_id es = concat (map (map t_id) tss).
Proof.
  induction 1 as [|i t ts toks toks' es es' He H IH]; [done|]. cbn [map concat]. rewrite map_app, IH. f_equal.
  clear -He. induction He as [|tok en l l' (H & _) He IH]; [done|]. cbn [map]. by rewrite H, IH.
Qed.
Lemma plain_ids pre (model : a_model) rs fs wi ty e :
  scalars rs → pre (pts_from_string (encode rs)) = Ret (Pts (encode rs) (map plain_split fs), None) →
  (∀ x, x ∈ fs → ∃ l r, occurs rs l r x) →
  (∀ j x, x ∈ fs → ∃ r, model j (encode x.2) = Ret r ∧ ∀ toks, r = Ok toks → toks_tile 0 toks (zlen (encode x.2))
     ∧ Forall (λ t, boundary (encode x.2) (o_start (t_offsets t)) ∧ boundary (encode x.2) (o_end (t_offsets t))) toks) →
  encode_text pre model (encode rs) wi ty = Ret (Ok e) →
  ∃ tss, Forall2 (λ x toks, ∃ j, model j (encode x.2) = Ret (Ok toks)) fs tss ∧ e_ids e = concat (map (map t_id) tss).
Proof.
  intros Hs Hp Hoc Hm Henc. rewrite plain_splits in Hp.
  assert (Hh : Forall2 holds_at (atexts fs) (map (λ x, plain x.1 x.2) fs)).
  { unfold atexts. clear -Hs Hoc. induction fs as [|x fs IH]; constructor.
    - destruct (Hoc x) as (l & r & Hx); [by left|]. apply plain_holds. by eapply occurs_scalars.
    - apply IH. intros y Hy. apply Hoc. by right. }
  destruct (encode_pipeline _ model _ wi ty _ _ _ Hp Hh) as [(tss & e' & es & H1 & H2 & H3 & H4)|(e' & l1 & n & l2 & tss & H1 & H2 & H3 & H4)].
  { intros j t (x & Hx & ->)%atexts_in. rewrite fresh_chars. destruct (Hm j x Hx) as (r & Hr & Hr'). exists r. split; [done|].
    intros toks Htoks. destruct (Hr' toks Htoks) as [Ht Hb]. destruct (Hoc x Hx) as (l & r' & Hxo). apply (occurs_scalars _ _ _ _ Hs) in Hxo.
    apply Forall_forall. intros t Hin. rewrite Forall_forall in Hb. destruct (Hb t Hin). apply on_chars_boundary; rewrite ?fresh_chars; try done. by apply (toks_tile_in _ _ _ _ Ht). }
  - rewrite Henc in H1. injection H1 as <-. exists tss. split.
    + clear -H2. generalize dependent 0%nat. revert tss. induction fs as [|x fs IH]; intros tss k H2; inversion H2; subst; constructor; [by exists k|]. by eapply IH.
    + rewrite H3. cbn. by eapply encoded_ids.
  - by rewrite Henc in H1.
Qed.

Lemma wp_ids pre shown m rs fs wi ty e : cuts pre rs shown fs → scalars rs → valid_terms (w_vocab m) → valid_utf8 (w_prefix m) = true →
  encode_text pre (wp_model m) (encode rs) wi ty = Ret (Ok e) →
  ∃ tss, Forall2 (λ x toks, wp_tokenize m (encode x.2) = Some (Ret (Ok toks))) fs tss ∧ e_ids e = concat (map (map t_id) tss).
Proof.
  intros Hc Hs Hv Hpv Henc. destruct (cuts_spec _ _ _ _ Hs Hc) as (Hp & Ho & Hoc & Hcov).
  assert (Hsc : ∀ x, x ∈ fs → scalars x.2). { intros x Hx. destruct (Hoc x Hx) as (_ & l & r & H). by eapply occurs_scalars. }
  assert (Ht : ∀ x, ∃ res, wp_tokenize m (encode x) = Some (Ret res)). { intros x. destruct (C43_tokens_tile m (encode x) (encode_bytes _)) as (res & E & _). eauto. }
  destruct (plain_ids pre (wp_model m) rs fs wi ty e Hs Hp) as (tss & H1 & H2); [by intros x Hx; apply Hoc| |done|].
  { intros j x Hx. unfold wp_model. destruct (C43_tokens_tile m (encode x.2) (encode_bytes _)) as (res & E & Hres). rewrite E.
    eexists. split; [done|]. intros toks ->. split; [|by eapply C46_boundaries; [apply Hsc|..]].
    destruct Hres as [[(i & _ & [= ->])|[_ [=]]]|(toks' & [= ->] & Ht' & _)]; [|done]. cbn. split; [done|]. split; [|done].
    destruct (Hoc x Hx) as [Hne _]. destruct x as [k [|c w]]; [done|]. apply encode_pos. }
  exists tss. split; [|done]. eapply Forall2_impl; [exact H1|]. intros x toks (j & Hj). unfold wp_model in Hj. destruct (Ht x.2) as (res & E). rewrite E in Hj |- *. cbn in Hj. congruence.
Qed.

(** Groups that each start with the only element that is not in [P]. *)
Lemma groups_unique {A} (P : A → Prop) (gs gs' : list (list A)) :
  Forall (λ g, ∃ x r, g = x :: r ∧ ¬ P x ∧ Forall P r) gs → Forall (λ g, ∃ x r, g = x :: r ∧ ¬ P x ∧ Forall P r) gs' → concat gs = concat gs' → gs = gs'.
Proof.
  intros H. revert gs'. induction H as [|g gs (x & r & -> & Hx & Hr) H IH]; intros gs' H' E.
  - destruct H' as [|g' gs' (x' & r' & -> & _) _]; [done|]. cbn in E. done.
  - destruct H' as [|g' gs' (x' & r' & -> & Hx' & Hr') H']; [done|]. cbn [concat app] in E. injection E as -> E.
    assert (r = r' ∧ concat gs = concat gs') as [-> E'].
    { assert (Hh : ∀ l : list (list A), Forall (λ g, ∃ x r, g = x :: r ∧ ¬ P x ∧ Forall P r) l → concat l = [] ∨ ∃ y t, concat l = y :: t ∧ ¬ P y).
      { intros l [|g l' (y & t & -> & Hy & _) _]; [by left|right]. exists y, (t ++ concat l'). done. }
      pose proof (Hh _ H) as G. pose proof (Hh _ H') as G'. clear -E Hr Hr' G G'. revert r' Hr' E. induction Hr as [|y r Hy Hr IH]; intros r' Hr' E; cbn [app] in E.
      - destruct Hr' as [|y' r' Hy' _]; [done|]. cbn [app] in E. destruct G as [G|(z & t & G & Hz)]; rewrite G in E; [done|]. injection E as -> _. done.
      - destruct Hr' as [|y' r' Hy' Hr'].
        + cbn [app] in E. destruct G' as [G'|(z & t & G' & Hz)]; rewrite G' in E; [done|]. injection E as -> _. done.
        + cbn [app] in E. injection E as -> E. destruct (IH r' Hr' E) as [-> ?]. done. }
    f_equal. by apply IH.
Qed.

Lemma wp_words_of_ids pre pre' shown shown' m rs rs' fs fs' wi ty wi' ty' e e' :
  cuts pre rs shown fs → cuts pre' rs' shown' fs' → scalars rs → scalars rs' → valid_terms (w_vocab m) → valid_utf8 (w_prefix m) = true → distinct_ids (w_vocab m) →
  Forall (λ x, ¬ w_prefix m `prefix_of` encode x.2) fs → Forall (λ x, ¬ w_prefix m `prefix_of` encode x.2) fs' →
  encode_text pre (wp_model m) (encode rs) wi ty = Ret (Ok e) → encode_text pre' (wp_model m) (encode rs') wi' ty' = Ret (Ok e') →
  (∀ u, get_id (w_vocab m) (w_unk m) = Some u → u ∉ e_ids e) → e_ids e = e_ids e' → fs.*2 = fs'.*2.
Proof.
  intros Hc Hc' Hs Hs' Hv Hpv Hd Hf Hf' He He' Hu E.
  assert (G : ∀ pre shown rs fs wi ty e, cuts pre rs shown fs → scalars rs → Forall (λ x, ¬ w_prefix m `prefix_of` encode x.2) fs → encode_text pre (wp_model m) (encode rs) wi ty = Ret (Ok e) →
    (∀ u, get_id (w_vocab m) (w_unk m) = Some u → u ∉ e_ids e) →
    ∃ tss, e_ids e = concat (map (map t_id) tss) ∧ Forall (λ t, get_id (w_vocab m) (t_value t) = Some (t_id t)) (concat tss)
      ∧ Forall (λ g, ∃ x r, g = x :: r ∧ ¬ w_prefix m `prefix_of` x ∧ Forall (prefix (w_prefix m)) r) (map (map t_value) tss)
      ∧ Forall2 (λ w g, ∃ x xs, g = x :: map (app (w_prefix m)) xs ∧ encode w = x ++ concat xs) fs.*2 (map (map t_value) tss) ∧ Forall scalars fs.*2).
  { clear -Hv Hpv. intros pre shown rs fs wi ty e Hc Hs Hf He Hu. destruct (wp_ids _ _ _ _ _ _ _ _ Hc Hs Hv Hpv He) as (tss & H1 & H2). exists tss. split; [done|].
    destruct (cuts_spec _ _ _ _ Hs Hc) as (_ & _ & Hoc & _).
    assert (Hq : Forall2 (λ x toks, x.2 ≠ [] ∧ scalars x.2 ∧ ¬ w_prefix m `prefix_of` encode x.2 ∧ tried_toks (w_vocab m) (w_prefix m) (encode x.2) 0 toks) fs tss).
    { apply Forall2_same_length_lookup. split; [by eapply Forall2_length|]. intros i x toks Hx Htk. pose proof (Forall2_lookup_lr _ _ _ _ _ _ H1 Hx Htk) as H. cbn in H.
      assert (Hin : x ∈ fs) by (by eapply elem_of_list_lookup_2). destruct (Hoc x Hin) as (Hne & l & r & Hocc). split; [done|]. split; [by eapply occurs_scalars|].
      rewrite Forall_forall in Hf. split; [by apply Hf|]. destruct (wp_tokenize_spec m (encode x.2) (encode_bytes _)) as [(l' & _ & E & Hl)|(_ & E)]; rewrite H in E; injection E as E; [by rewrite E|].
      symmetry in E. apply unknown_spec in E as [(u & Hi & [= ->])|[_ [=]]]. destruct (Hu u Hi). rewrite H2. apply elem_of_list_lookup_2 in Htk.
      apply elem_of_list_In, in_concat. eexists. split; [apply in_map_iff; eexists; split; [|by apply elem_of_list_In]; done|]. by left. }
    clear -Hq. split_and!.
    - induction Hq as [|x toks fs tss (_ & _ & _ & H) Hq IH]; [constructor|]. cbn [concat]. apply Forall_app. split; [|done].
      apply tried_toks_tile in H as [_ H]. eapply Forall_impl; [exact H|]. by intros t (y & _ & _ & ?).
    - induction Hq as [|x toks fs tss (Hne & _ & Hp & H) Hq IH]; [constructor|]. cbn [map]. constructor; [|done].
      apply tried_first in H as [[_ H]|(y & ys & H1 & H2)]; [destruct x as [k [|c w]]; [done|]; pose proof (encode_pos c w) as Hpos; cbn [snd] in H; rewrite H in Hpos; done|].
      exists y, (map (app (w_prefix m)) ys). split; [done|]. split.
      + intros [z Hz]. apply Hp. rewrite <- H2, Hz, <- app_assoc. by eexists.
      + apply Forall_map, Forall_true. intros z. by eexists.
    - induction Hq as [|x toks fs tss (Hne & _ & Hp & H) Hq IH]; [constructor|]. cbn [map]. rewrite fmap_cons. constructor; [|done].
      apply tried_first in H as [[_ H]|(y & ys & H1 & H2)]; [destruct x as [k [|c w]]; [done|]; pose proof (encode_pos c w) as Hpos; cbn [snd] in H; rewrite H in Hpos; done|].
      by exists y, ys.
    - induction Hq as [|x toks fs tss (Hne & ? & Hp & H) Hq IH]; [constructor|]. rewrite fmap_cons. by constructor. }
  destruct (G _ _ _ _ _ _ _ Hc Hs Hf He Hu) as (tss & I1 & I2 & I3 & I4 & I5).
  destruct (G _ _ _ _ _ _ _ Hc' Hs' Hf' He') as (tss' & J1 & J2 & J3 & J4 & J5); [by rewrite <- E|]. clear G.
  rewrite I1, J1, <- !concat_map in E. apply (same_ids t_value t_id (w_vocab m)) in E; [|done..]. rewrite !concat_map in E.
  apply (groups_unique _ _ _ I3 J3) in E. rewrite <- E in J4. clear -I4 I5 J4 J5.
  revert I4 I5 J4 J5. generalize (map (map t_value) tss), (fs.*2), (fs'.*2). clear.
  intros gs ws ws' H. revert ws'. induction H as [|w g ws gs (x & xs & -> & Hw) H IH]; intros ws' Hs H' Hs'.
  - by inversion H'.
  - inversion H' as [|w' g' ws1 gs' (x' & xs' & Eg & Hw') H'' E1 E2]; subst. injection Eg as -> Eg. apply app_map_inj in Eg as ->.
    apply Forall_cons in Hs as [Hsw Hs]. apply Forall_cons in Hs' as [Hsw' Hs']. f_equal; [|by apply IH].
    apply encode_inj_scalars; [done..|]. by rewrite Hw, Hw'.
Qed.

(** * BPE *)
Lemma bpe_text_of_ids m m' file file' s s' draws draws' toks toks' : b_vocab m = b_vocab m' → consistent (b_vocab m) →
  merge_map_from_file file (b_vocab m) 0 = Ret (Ok (b_merges m)) → merge_map_from_file file' (b_vocab m') 0 = Ret (Ok (b_merges m')) →
  b_prefix m = [] → b_suffix m = [] → b_prefix m' = [] → b_suffix m' = [] →
  (b_unk m ≠ [] → is_Some (get_id (b_vocab m) (b_unk m))) → (b_unk m' ≠ [] → is_Some (get_id (b_vocab m') (b_unk m'))) →
  valid_utf8 s = true → valid_utf8 s' = true →
  Forall (λ r, is_Some (get_id (b_vocab m) (encode_rune r))) (runes s) → Forall (λ r, is_Some (get_id (b_vocab m) (encode_rune r))) (runes s') →
  bpe_tokenize m s draws = Some (Ret (Ok toks)) → bpe_tokenize m' s' draws' = Some (Ret (Ok toks')) → map t_id toks = map t_id toks' → s = s'.
Proof.
  intros Ev Hcons Hf Hf' Hp Hx Hp' Hx' Hu Hu' Hs Hs' Hk Hk' H H' E.
  destruct (C39_faithful m file s draws Hcons Hf Hp Hx Hu Hs Hk) as (l & El & Ec & Hl). rewrite H in El. injection El as <-.
  destruct (C39_faithful m' file' s' draws') as (l' & El' & Ec' & Hl'); try done; [by rewrite <- Ev..|]. rewrite H' in El'. injection El' as <-.
  rewrite <- Ec, <- Ec'. f_equal. apply (same_ids t_value t_id (b_vocab m)); [by apply consistent_distinct|..|done].
  - eapply Forall_impl; [exact Hl|]. by intros t (_ & ? & _).
  - rewrite Ev. eapply Forall_impl; [exact Hl'|]. by intros t (_ & ? & _).
Qed.

Lemma entries_ids e es : entries e es → e_ids e = map et_id es.
Proof. by intros ->. Qed.

Lemma spaced_text (prefix : bool) rs : match rs with x :: _ => if prefix && negb (white_space x) then 32 :: rs else rs | [] => [] end = if prefix then spaced rs else rs.
Proof. destruct rs as [|x rs], prefix; cbn; try done. by destruct (white_space x). Qed.
Lemma spaced_scalars rs : scalars rs → scalars (spaced rs).
Proof. intros H. destruct rs as [|x rs]; [done|]. cbn [spaced]. destruct (white_space x); [done|]. by constructor. Qed.

Lemma byte_text_of_ids fold letter number space (prefix : bool) m file draws draws' rs rs' wi ty wi' ty' e e' : scalars rs → scalars rs' → has_bytes (b_vocab m) →
  consistent (b_vocab m) → merge_map_from_file file (b_vocab m) 0 = Ret (Ok (b_merges m)) →
  b_prefix m = [] → b_suffix m = [] → (b_unk m ≠ [] → is_Some (get_id (b_vocab m) (b_unk m))) →
  let pre := byte_level (engine_of (splitting_re fold letter number space)) prefix in
  encode_text pre (bpe_model m draws) (encode rs) wi ty = Ret (Ok e) → encode_text pre (bpe_model m draws') (encode rs') wi' ty' = Ret (Ok e') →
  e_ids e = e_ids e' → (if prefix then spaced rs else rs) = (if prefix then spaced rs' else rs').
Proof.
  intros Hs Hs' Hb Hcons Hf Hp Hx Hu pre He He' E.
  destruct (C67_spells fold letter number space rs prefix m file draws wi ty Hs Hb Hcons Hf Hp Hx Hu) as (e1 & es & H1 & H2 & H3 & H4).
  destruct (C67_spells fold letter number space rs' prefix m file draws' wi' ty' Hs' Hb Hcons Hf Hp Hx Hu) as (e1' & es' & H1' & H2' & H3' & H4').
  fold pre in H1, H1'. rewrite He in H1. rewrite He' in H1'. injection H1 as <-. injection H1' as <-. rewrite spaced_text in H3, H3'.
  rewrite (entries_ids _ _ H2), (entries_ids _ _ H2') in E. apply (same_ids et_token et_id (b_vocab m)) in E; [|by apply consistent_distinct|done..].
  apply encode_inj_scalars; [destruct prefix; by try apply spaced_scalars..|].
  eapply C67_decodable; [exact H3|exact H3'|..|by rewrite E]; (eapply Forall_impl; [apply encode_bytes|]); cbn; lia.
Qed.
Lemma spaced_eq rs rs' : spaced rs = spaced rs' ↔ rs = rs' ∨ (rs = 32 :: rs' ∧ rs' ≠ [] ∧ ∀ c, head rs' = Some c → white_space c = false) ∨ (rs' = 32 :: rs ∧ rs ≠ [] ∧ ∀ c, head rs = Some c → white_space c = false).
Proof.
  assert (W : white_space 32 = true) by done. split.
  - destruct rs as [|x rs], rs' as [|x' rs']; cbn [spaced]; [by left|destruct (white_space x'); done|destruct (white_space x); done|].
    destruct (white_space x) eqn:H, (white_space x') eqn:H'; intros E; [by left| | |injection E as -> ->; by left].
    + right. left. split; [done|]. split; [done|]. by intros c [= <-].
    + right. right. split; [done|]. split; [done|]. by intros c [= <-].
  - assert (G : ∀ l, l ≠ [] → (∀ c, head l = Some c → white_space c = false) → spaced (32 :: l) = spaced l).
    { intros l Hne Hc. cbn [spaced]. rewrite W. destruct l as [|c l]; [done|]. cbn [spaced]. by rewrite (Hc c). }
    intros [->|[(-> & Hne & Hc)|(-> & Hne & Hc)]]; [done|..]; [|symmetry]; by apply G.
Qed.

Lemma meta_text_of_ids c (prefix : bool) m file draws draws' rs rs' wi ty wi' ty' e e' : scalars rs → scalars rs' → scalar c = true → c ∉ rs → c ∉ rs' →
  Forall (λ x, is_Some (get_id (b_vocab m) (encode_rune x))) (meta_text c prefix rs) → Forall (λ x, is_Some (get_id (b_vocab m) (encode_rune x))) (meta_text c prefix rs') →
  consistent (b_vocab m) → merge_map_from_file file (b_vocab m) 0 = Ret (Ok (b_merges m)) →
  b_prefix m = [] → b_suffix m = [] → (b_unk m ≠ [] → is_Some (get_id (b_vocab m) (b_unk m))) →
  encode_text (metaspace c prefix) (bpe_model m draws) (encode rs) wi ty = Ret (Ok e) → encode_text (metaspace c prefix) (bpe_model m draws') (encode rs') wi' ty' = Ret (Ok e') →
  e_ids e = e_ids e' → rs = rs'.
Proof.
  intros Hs Hs' Hc Hn Hn' Hk Hk' Hcons Hf Hp Hx Hu He He' E.
  destruct (C72_spells rs c prefix m file draws wi ty Hs Hc Hk Hcons Hf Hp Hx Hu) as (e1 & es & H1 & H2 & H3 & H4 & _).
  destruct (C72_spells rs' c prefix m file draws' wi' ty' Hs' Hc Hk' Hcons Hf Hp Hx Hu) as (e1' & es' & H1' & H2' & H3' & H4' & _).
  rewrite He in H1. rewrite He' in H1'. injection H1 as <-. injection H1' as <-.
  rewrite (entries_ids _ _ H2), (entries_ids _ _ H2') in E. apply (same_ids et_token et_id (b_vocab m)) in E; [|by apply consistent_distinct|done..].
  rewrite E, H3' in H3.
  assert (M : ∀ l, scalars l → scalars (meta_text c prefix l)).
  { clear -Hc. intros l Hl. unfold meta_text. apply Forall_map. destruct l as [|x l]; [done|].
    assert (Hl' : Forall (λ x, scalar (if x =? 32 then c else x) = true) (x :: l)). { eapply Forall_impl; [exact Hl|]. intros y Hy. cbn. by destruct (y =? 32). }
    destruct (_ && _); [|done]. constructor; [by destruct (c =? 32)|done]. }
  apply encode_inj_scalars in H3; [|by apply M..].
  pose proof (C72_decodable rs c prefix Hn) as D. pose proof (C72_decodable rs' c prefix Hn') as D'. rewrite H3, D in D'. clear -D'.
  destruct prefix; cbn [andb app] in D'; [|done]. destruct rs as [|x rs], rs' as [|x' rs']; cbn in D'; try done. by injection D' as -> ->.
Qed.

(** * Examples of vocabularies, and BERT pieces *)
Lemma grown_consistent ts : consistent (match add_terms new_vocab ts with Ret v => v | Panic => new_vocab end).
Proof. destruct (PropsVocab.C28_add_terms ts) as (v & -> & _ & _ & _ & H & _). exact H. Qed.
Lemma bert_no_prefix u rs fs c d r : bert_pieces_of white_space (u_punct u) rs fs → scalars rs → u_punct u c = true → scalars (c :: d :: r) →
  Forall (λ x, ¬ encode (c :: d :: r) `prefix_of` encode x.2) fs.
Proof.
  intros [_ Hf] Hs Hc Hp. apply Forall_forall. intros x Hx [z Hz]. apply Hf in Hx.
  assert (Hsx : scalars x.2). { destruct Hx as [(l & y & q & Ho & _)|(l & q & Ho & _)]; exact (occurs_scalars _ _ _ _ Hs Ho). }
  assert (∃ q, x.2 = c :: d :: q) as (q & Eq).
  { apply (f_equal runes) in Hz. rewrite runes_encode_scalars in Hz by done. rewrite runes_encode_app in Hz. cbn [map app] in Hz.
    apply Forall_cons in Hp as [H1 Hp]. apply Forall_cons in Hp as [H2 _]. rewrite !sanitize_id in Hz by done. eauto. }
  destruct Hx as [(l & y & q' & _ & E & _)|(l & q' & _ & _ & E & _)]; rewrite Eq in E; [done|].
  apply Forall_cons in E as [E _]. rewrite Hc in E. by rewrite orb_true_r in E.
Qed.
