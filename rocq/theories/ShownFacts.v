(** The text shown by an encoding over pieces (C89). *)
From Coq Require Import ZifyBool Sorted QArith.
From stdpp Require Import relations.
From Verif Require Import GoBase Utf8Facts Strutils SplitPattern NormString Vocab MergeMap Bpe WordPiece Encodings PreTokString Normalizers PreTokenizers Regex SpecText SpecNorm SpecVocab SpecBpe SpecWordPiece SpecPts SpecPretok SpecEnd SpecPipe SpecDecode
  SliceFacts NormFacts NormInv NormEdits TileFacts WordPieceFacts BpeTok PretokFacts NormSlice EndFacts PipeFacts PropsWordPiece PropsBpe PropsPretok PropsEnd PropsPipe PropsMeta PropsVocab NormOA DecodeFacts.
Import GoBase NormString SpecNorm.
#[local] Open Scope Z_scope.

(** The pieces together are the characters shown, in order. *)
Lemma pieces_shown shown rs fs : in_order fs → (∀ x, x ∈ fs → x.2 ≠ [] ∧ ∃ l r, occurs rs l r x) →
  (∀ a c b i, rs = a ++ c :: b → zlen (encode a) <= i < zlen (encode (a ++ [c])) → (shown c = true ↔ ∃ x, x ∈ fs ∧ x.1 <= i < x.1 + zlen (encode x.2))) →
  concat fs.*2 = base.filter (λ c, shown c = true) rs.
Proof.
  intros Ho Hoc Hcov.
  assert (G : ∀ p rest, rs = p ++ rest → Forall (λ x, zlen (encode p) <= x.1) fs →
    (∀ a c b i, rest = a ++ c :: b → zlen (encode (p ++ a)) <= i < zlen (encode (p ++ a ++ [c])) → (shown c = true ↔ ∃ x, x ∈ fs ∧ x.1 <= i < x.1 + zlen (encode x.2))) →
    concat fs.*2 = base.filter (λ c, shown c = true) rest).
  { clear Hcov. induction Ho as [|x fs Ho IH Hx]; intros p rest E Hp Hcov.
    - cbn. symmetry. clear -Hcov. induction rest as [|c rest IH] using rev_ind; [done|]. rewrite filter_app, IH.
      + rewrite filter_cons_False; [done|]. intros H. apply (Hcov rest c [] (zlen (encode (p ++ rest)))) in H as (x & Hx & _); [by apply not_elem_of_nil in Hx|done|].
        rewrite app_assoc, (encode_app (p ++ rest)), zlen_app. pose proof (encode_pos c []). lia.
      + intros a d b i Ed Hi. apply (Hcov a d (b ++ [c]) i); [|done]. by rewrite Ed, <- app_assoc.
    - destruct (Hoc x) as (Hne & l & r & Er & El); [by left|]. apply Forall_cons in Hp as [Hp0 Hp].
      assert (∃ g, l = p ++ g) as (g & ->).
      { assert (H : p `prefix_of` l ∨ l `prefix_of` p). { apply (prefix_weak_total _ _ rs); [by exists rest|by exists (x.2 ++ r)]. }
        destruct H as [[g ->]|[g ->]]; [by exists g|]. destruct g as [|c g]; [exists []; by rewrite !app_nil_r|].
        rewrite El, encode_app, zlen_app in Hp0. pose proof (encode_pos c g). lia. }
      rewrite E, <- app_assoc in Er. apply app_inv_head in Er.
      assert (Hg : base.filter (λ c, shown c = true) g = []).
      { apply NormOA.filter_none. apply Forall_forall. intros c Hc Hs. apply elem_of_list_split in Hc as (g1 & g2 & ->).
        apply (Hcov g1 c (g2 ++ x.2 ++ r) (zlen (encode (p ++ g1)))) in Hs as (y & Hy & Hy').
        - assert (x.1 <= y.1). { apply elem_of_cons in Hy as [->|Hy]; [lia|]. rewrite Forall_forall in Hx. specialize (Hx y Hy). pose proof (zlen_nonneg (encode x.2)). lia. }
          rewrite El, !encode_app, !zlen_app in *. pose proof (encode_pos c g2). lia.
        - by rewrite Er, <- !app_assoc.
        - rewrite app_assoc, (encode_app (p ++ g1)), zlen_app. pose proof (encode_pos c []). lia. }
      rewrite Er, !filter_app, Hg. cbn [fmap list_fmap concat app]. fold (fs.*2). f_equal.
      + symmetry. clear IH. assert (F : Forall (λ c, shown c = true) x.2).
        { apply Forall_forall. intros c Hc. apply elem_of_list_split in Hc as (w1 & w2 & Ew).
          apply (Hcov (g ++ w1) c (w2 ++ r) (zlen (encode (p ++ g ++ w1)))).
          - by rewrite Er, Ew, <- !app_assoc.
          - rewrite !encode_app, !zlen_app. pose proof (encode_pos c []). lia.
          - exists x. split; [by left|]. rewrite El, Ew, !encode_app, !zlen_app. pose proof (encode_pos c w2). pose proof (zlen_nonneg (encode w1)). lia. }
        clear -F. induction F as [|c w Hc F IHw]; [done|]. by rewrite filter_cons_True, IHw.
      + apply (IH (λ y Hy, Hoc y (elem_of_list_further _ _ _ Hy)) (p ++ g ++ x.2)).
        * by rewrite E, Er, <- !app_assoc.
        * eapply Forall_impl; [exact Hx|]. cbn. intros y Hy. rewrite app_assoc, encode_app, zlen_app. lia.
        * intros a c b i Ea Hi. rewrite (Hcov (g ++ x.2 ++ a) c b i).
          -- split; [|intros (y & ? & ?); exists y; split; [by right|done]]. intros (y & Hy & Hy'). exists y. split; [|done]. apply elem_of_cons in Hy as [->|Hy]; [|done].
             rewrite El, !encode_app, !zlen_app in *. pose proof (zlen_nonneg (encode a)). lia.
          -- by rewrite Er, Ea, <- !app_assoc.
          -- rewrite <- !app_assoc in Hi. by rewrite <- !app_assoc. }
  apply (G []); [done| |].
  - apply Forall_forall. intros x Hx. destruct (Hoc x Hx) as (_ & l & r & _ & ->). cbn. apply zlen_nonneg.
  - intros a c b i E Hi. by apply (Hcov a c b i).
Qed.

Lemma bpe_shown pre shown m file draws rs fs wi ty e : cuts pre rs shown fs → scalars rs → consistent (b_vocab m) →
  merge_map_from_file file (b_vocab m) 0 = Ret (Ok (b_merges m)) → b_prefix m = [] → b_suffix m = [] → (b_unk m ≠ [] → is_Some (get_id (b_vocab m) (b_unk m))) →
  Forall (λ c, shown c = true → is_Some (get_id (b_vocab m) (encode_rune c))) rs →
  encode_text pre (bpe_model m draws) (encode rs) wi ty = Ret (Ok e) →
  ∃ ts : list token, e_ids e = map t_id ts ∧ Forall (λ t, get_id (b_vocab m) (t_value t) = Some (t_id t)) ts
    ∧ concat (map t_value ts) = encode (base.filter (λ c, shown c = true) rs).
Proof.
  intros Hc Hs Hcons Hfile Hpre Hsuf Hunk Hk He. destruct (cuts_spec _ _ _ _ Hs Hc) as (Hp & Ho & Hoc & Hcov).
  pose proof (pieces_shown shown rs fs Ho Hoc Hcov) as Hsh.
  assert (Hsc : ∀ x, x ∈ fs → scalars x.2). { intros x Hx. destruct (Hoc x Hx) as (_ & l & r & H). by eapply occurs_scalars. }
  assert (Hkx : ∀ x, x ∈ fs → Forall (λ r, is_Some (get_id (b_vocab m) (encode_rune r))) (runes (encode x.2))).
  { intros x Hx. rewrite runes_encode_scalars by (by apply Hsc). apply Forall_forall. intros c Hin.
    assert (Hc' : c ∈ base.filter (λ c, shown c = true) rs). { rewrite <- Hsh. apply elem_of_list_In, in_concat. exists x.2. rewrite <- !elem_of_list_In. split; [|done]. apply elem_of_list_fmap. by exists x. }
    apply elem_of_list_filter in Hc' as [H1 H2]. rewrite Forall_forall in Hk. by apply Hk. }
  assert (Hf : ∀ j x, x ∈ fs → ∃ toks, bpe_model m draws j (encode x.2) = Ret (Ok toks) ∧ concat (map t_value toks) = encode x.2
     ∧ Forall (λ t, get_id (b_vocab m) (t_value t) = Some (t_id t)) toks ∧ toks_tile 0 toks (zlen (encode x.2))
     ∧ Forall (λ t, boundary (encode x.2) (o_start (t_offsets t)) ∧ boundary (encode x.2) (o_end (t_offsets t))) toks).
  { intros j x Hx. destruct (C39_faithful m file (encode x.2) (draws j) Hcons Hfile Hpre Hsuf Hunk (valid_utf8_encode _) (Hkx x Hx)) as (toks & E & Ec & Hq).
    exists toks. unfold bpe_model. rewrite E. split; [done|]. split; [done|]. split; [eapply Forall_impl; [exact Hq|]; cbn; by intros t (_ & ? & _)|].
    destruct (C38_offsets_partial m (encode x.2) (draws j) toks (valid_utf8_encode _)) as [T1 T2]; [|done|done].
    right. clear -Hkx Hx Hpre Hsuf. specialize (Hkx x Hx). revert Hkx. generalize (runes (encode x.2)). intros l Hl. unfold char_classes, char_terms.
    rewrite Hpre, Hsuf. apply Forall_forall. intros c Hc. apply elem_of_lookup_zip_with in Hc as (i & t & r & -> & Ht & Hr). cbn [fst].
    rewrite list_lookup_imap, Hr in Ht. injection Ht as <-.
    replace ((if decide (i = 0%nat) then [] else []) ++ encode_rune r ++ (if decide (S i = length l) then [] else [])) with (encode_rune r)
      by (destruct (decide (i = 0%nat)), (decide (S i = length l)); by rewrite app_nil_r).
    rewrite Forall_forall in Hl. destruct (Hl r) as [y ->]; [by eapply elem_of_list_lookup_2|]. done. }
  destruct (plain_ids pre (bpe_model m draws) rs fs wi ty e Hs Hp) as (tss & H1 & H2); [by intros x Hx; apply Hoc| |done|].
  { intros j x Hx. destruct (Hf j x Hx) as (toks & E & _ & _ & T1 & T2). eexists. split; [done|]. by intros ? [= <-]. }
  exists (concat tss). rewrite <- Hsh, H2. split; [symmetry; apply concat_map|].
  assert (A : Forall2 (λ x toks, Forall (λ t, get_id (b_vocab m) (t_value t) = Some (t_id t)) toks ∧ concat (map t_value toks) = encode x.2) fs tss).
  { clear -H1 Hf. induction H1 as [|x toks fs tss (j & Hj) H1 IH]; constructor.
    - destruct (Hf j x) as (toks' & E & E1 & E2 & _); [by left|]. rewrite Hj in E. by injection E as <-.
    - apply IH. intros j' y Hy. apply Hf. by right. }
  clear -A. induction A as [|x toks fs tss [A1 A2] A [IH1 IH2]]; [cbn; split; [by constructor|done]|]. cbn [concat fmap list_fmap]. split; [by apply Forall_app|].
  rewrite map_app, concat_app, encode_app, A2, IH2. done.
Qed.

Lemma bpe_shown_of_ids pre pre' shown shown' m m' file file' draws draws' rs rs' fs fs' wi ty wi' ty' e e' :
  cuts pre rs shown fs → cuts pre' rs' shown' fs' → scalars rs → scalars rs' → b_vocab m = b_vocab m' → consistent (b_vocab m) →
  merge_map_from_file file (b_vocab m) 0 = Ret (Ok (b_merges m)) → merge_map_from_file file' (b_vocab m') 0 = Ret (Ok (b_merges m')) →
  b_prefix m = [] → b_suffix m = [] → b_prefix m' = [] → b_suffix m' = [] →
  (b_unk m ≠ [] → is_Some (get_id (b_vocab m) (b_unk m))) → (b_unk m' ≠ [] → is_Some (get_id (b_vocab m') (b_unk m'))) →
  Forall (λ c, shown c = true → is_Some (get_id (b_vocab m) (encode_rune c))) rs → Forall (λ c, shown' c = true → is_Some (get_id (b_vocab m) (encode_rune c))) rs' →
  encode_text pre (bpe_model m draws) (encode rs) wi ty = Ret (Ok e) → encode_text pre' (bpe_model m' draws') (encode rs') wi' ty' = Ret (Ok e') →
  e_ids e = e_ids e' → base.filter (λ c, shown c = true) rs = base.filter (λ c, shown' c = true) rs'.
Proof.
  intros Hc Hc' Hs Hs' Ev Hcons Hf Hf' Hp Hx Hp' Hx' Hu Hu' Hk Hk' He He' E.
  destruct (bpe_shown pre shown m file draws rs fs wi ty e) as (ts & A1 & A2 & A3); try done.
  destruct (bpe_shown pre' shown' m' file' draws' rs' fs' wi' ty' e') as (ts' & B1 & B2 & B3); try done; [by rewrite <- Ev..|].
  rewrite A1, B1 in E. rewrite <- Ev in B2. apply (same_ids t_value t_id (b_vocab m)) in E; [|by apply consistent_distinct|done..].
  assert (F : ∀ (f : Z → bool) l, scalars l → scalars (base.filter (λ c, f c = true) l)).
  { intros f l Hl. apply Forall_forall. intros c [_ Hin]%elem_of_list_filter. unfold scalars in Hl. rewrite Forall_forall in Hl. by apply Hl. }
  apply encode_inj_scalars; [by apply F..|]. by rewrite <- A3, <- B3, E.
Qed.
