(** The pieces of the BERT pre-tokenizer as the reference computes them (C112). *)
From Coq Require Import ZifyBool ZifyNat Sorted.
From Verif Require Import GoBase Utf8Facts Strutils SplitPattern NormString Vocab Bpe WordPiece PreTokString Normalizers PreTokenizers SpecText SpecNorm SpecVocab SpecBpe SpecWordPiece SpecPretok SpecNormalizers SpecRef
  SliceFacts NormFacts PretokFacts PropsPretok.
Import GoBase NormString SpecNorm.
#[local] Open Scope Z_scope.

Section cut.
  Context (white punct : Z → bool).
  Notation stop := (λ c, white c || punct c).

  (** Both loops in one. *)
  Definition flush (part : list Z) : list (list Z) := if decide (part = []) then [] else [part].
  Fixpoint cut (part t : list Z) : list (list Z) :=
    match t with
    | [] => flush part
    | c :: t' => if white c then flush part ++ cut [] t' else if punct c then flush part ++ [c] :: cut [] t' else cut (part ++ [c]) t'
    end.
  Lemma cut_words t : ∀ w dn part, (w = [] → dn = [] ∧ part = []) → (∀ t, split_on_punc punct [] (w ++ t) = dn ++ split_on_punc punct part t) →
    flat_map (split_on_punc punct []) (words white w t) = dn ++ cut part t.
  Proof.
    induction t as [|c t IH]; intros w dn part Hw Hs; cbn [words cut].
    - destruct (decide (w = [])) as [E|E]; [by destruct (Hw E) as [-> ->]|]. cbn [flat_map]. rewrite app_nil_r. specialize (Hs []). rewrite app_nil_r in Hs. done.
    - destruct (white c) eqn:Ec.
      + rewrite flat_map_app, (IH [] [] []); [|done|done]. cbn [app]. rewrite (assoc_L (++)). f_equal.
        destruct (decide (w = [])) as [E|E]; [by destruct (Hw E) as [-> ->]|]. cbn [flat_map]. rewrite app_nil_r. specialize (Hs []). rewrite app_nil_r in Hs. done.
      + destruct (punct c) eqn:Ep.
        * rewrite (IH _ (dn ++ flush part ++ [[c]]) []); [by rewrite <- !(assoc_L (++))|by destruct w|]. intros t'. rewrite <- (assoc_L (++)). cbn [app]. rewrite Hs. cbn [split_on_punc]. rewrite Ep.
          by rewrite <- !(assoc_L (++)).
        * rewrite (IH _ dn (part ++ [c])); [done|by destruct w|]. intros t'. rewrite <- (assoc_L (++)). cbn [app]. rewrite Hs. cbn [split_on_punc]. by rewrite Ep.
  Qed.

  (** With positions. *)
  Definition flush_at (before part : list Z) : list (Z * list Z) := if decide (part = []) then [] else [(zlen (encode before), part)].
  Fixpoint cut_at (before part t : list Z) : list (Z * list Z) :=
    match t with
    | [] => flush_at before part
    | c :: t' =>
      if white c then flush_at before part ++ cut_at (before ++ part ++ [c]) [] t'
      else if punct c then flush_at before part ++ (zlen (encode (before ++ part)), [c]) :: cut_at (before ++ part ++ [c]) [] t'
      else cut_at before (part ++ [c]) t'
    end.
  Lemma cut_at_snd t : ∀ before part, (cut_at before part t).*2 = cut part t.
  Proof.
    assert (Hf : ∀ before part, (flush_at before part).*2 = flush part) by (intros; unfold flush_at, flush; by destruct (decide _)).
    induction t as [|c t IH]; intros before part; cbn [cut_at cut]; [apply Hf|]. destruct (white c); [by rewrite fmap_app, Hf, IH|].
    destruct (punct c); [rewrite fmap_app, Hf, (fmap_cons snd), IH; done|]. apply IH.
  Qed.
  Lemma flush_in before part x : x ∈ flush_at before part ↔ part ≠ [] ∧ x = (zlen (encode before), part).
  Proof. unfold flush_at. destruct (decide _); [rewrite elem_of_nil|rewrite elem_of_list_singleton]; tauto. Qed.
  Lemma cut_at_range t : ∀ before part x, x ∈ cut_at before part t → zlen (encode before) <= x.1.
  Proof.
    assert (Hf : ∀ before part x, x ∈ flush_at before part → zlen (encode before) <= x.1) by (intros ??? [_ ->]%flush_in; cbn; lia).
    assert (Ha : ∀ b part, zlen (encode b) <= zlen (encode (b ++ part))) by (intros b p; rewrite encode_app, zlen_app; pose proof (zlen_nonneg (encode p)); lia).
    induction t as [|c t IH]; intros before part x; cbn [cut_at]; [apply Hf|]. destruct (white c); [|destruct (punct c)].
    - intros [H|H]%elem_of_app; [by eapply Hf|]. apply IH in H. pose proof (Ha before (part ++ [c])). lia.
    - intros [H|[->|H]%elem_of_cons]%elem_of_app; [by eapply Hf|apply Ha|]. apply IH in H. pose proof (Ha before (part ++ [c])). lia.
    - apply IH.
  Qed.
  Lemma cut_at_in_order t : ∀ before part, in_order (cut_at before part t).
  Proof.
    assert (Hf : ∀ before part, in_order (flush_at before part)) by (intros; unfold flush_at; destruct (decide _); repeat constructor).
    assert (Hl : ∀ before part c x y, x ∈ flush_at before part → zlen (encode (before ++ part ++ [c])) <= y → x.1 + zlen (encode x.2) <= y).
    { intros before part c x y [_ ->]%flush_in. cbn [fst snd]. rewrite !encode_app, !zlen_app. pose proof (zlen_nonneg (encode [c])). lia. }
    induction t as [|c t IH]; intros before part; cbn [cut_at]; [apply Hf|]. destruct (white c); [|destruct (punct c)].
    - apply in_order_app. split; [apply Hf|]. split; [apply IH|]. intros x y Hx Hy. eapply Hl; [done|]. by eapply cut_at_range.
    - apply in_order_app. split; [apply Hf|]. split.
      + apply in_order_cons. split; [apply IH|]. intros y Hy%cut_at_range. cbn [fst snd]. rewrite !encode_app, !zlen_app in *. lia.
      + intros x y Hx [->|Hy]%elem_of_cons.
        * apply flush_in in Hx as [_ ->]. cbn [fst snd]. rewrite encode_app, zlen_app. lia.
        * eapply Hl; [done|]. by eapply cut_at_range.
    - apply IH.
  Qed.

  Lemma cut_at_sound rs t : ∀ before part x, rs = before ++ part ++ t → Forall (λ c, stop c = false) part → (∀ c, last before = Some c → stop c = true) →
    x ∈ cut_at before part t → bert_piece white punct rs x.
  Proof.
    assert (Hf : ∀ before part t x, rs = before ++ part ++ t → Forall (λ c, stop c = false) part → (∀ c, last before = Some c → stop c = true) →
      (∀ c, head t = Some c → stop c = true) → x ∈ flush_at before part → bert_piece white punct rs x).
    { intros before part t' x -> Hp Hb Ht [Hne ->]%flush_in. right. exists before, t'. split; [done|]. done. }
    assert (Hlast : ∀ (a b : list Z) c d, last (a ++ b ++ [c]) = Some d → d = c). { intros a b c d. rewrite (assoc_L (++)), last_snoc. congruence. }
    induction t as [|c t IH]; intros before part x E Hp Hb; cbn [cut_at]; [intros Hx; by apply (Hf before part [])|].
    assert (E' : rs = (before ++ part ++ [c]) ++ [] ++ t) by (rewrite E, <- !(assoc_L (++)); done).
    destruct (white c) eqn:Ew; [|destruct (punct c) eqn:Ep].
    - intros [H|H]%elem_of_app.
      + apply (Hf before part (c :: t)); try done. intros d [= <-]. by rewrite Ew.
      + apply (IH _ [] x E'); [constructor| |done]. intros d ->%Hlast. by rewrite Ew.
    - intros [H|[->|H]%elem_of_cons]%elem_of_app.
      + apply (Hf before part (c :: t)); try done. intros d [= <-]. by rewrite Ep, orb_true_r.
      + left. exists (before ++ part), c, t. split; [split; [by rewrite E, <- (assoc_L (++))|done]|]. done.
      + apply (IH _ [] x E'); [constructor| |done]. intros d ->%Hlast. by rewrite Ep, orb_true_r.
    - apply IH; [by rewrite E, <- !(assoc_L (++))| |done]. apply Forall_app. split; [done|]. constructor; [by rewrite Ew, Ep|done].
  Qed.
  (** A piece that starts in [part]. *)
  Lemma piece_in_part rs before part t l r x : rs = before ++ part ++ t → Forall (λ c, stop c = false) part →
    (∀ c, head t = Some c → stop c = true) → rs = l ++ x ++ r → (length before <= length l < length before + length part)%nat →
    x ≠ [] → Forall (λ c, stop c = false) x → (∀ c, last l = Some c → stop c = true) → (∀ c, head r = Some c → stop c = true) →
    l = before ∧ x = part.
  Proof.
    intros E Hp Ht El Hl Hne Hx Hll Hr. assert (l = before) as ->.
    { rewrite E in El. apply app_eq_inv in El as [(k & -> & El)|(k & -> & El)].
      - rewrite app_length in Hl. assert (k = []) as -> by (destruct k; [done|cbn in Hl; lia]). by rewrite app_nil_r.
      - destruct k as [|d k _] using rev_ind; [by rewrite app_nil_r|]. exfalso. specialize (Hll d). rewrite (assoc_L (++)), last_snoc in Hll.
        apply app_eq_inv in El as [(k' & -> & _)|(k' & E2 & El)].
        + rewrite Forall_app in Hp. destruct Hp as [Hp _]. rewrite Forall_app, Forall_singleton in Hp. destruct Hp as [_ Hp]. specialize (Hll eq_refl). congruence.
        + rewrite app_length in Hl. apply (f_equal length) in E2. rewrite !app_length in E2. rewrite app_length in Hl. assert (k' = []) as -> by (destruct k'; [done|cbn in *; lia]).
          rewrite ?app_nil_r in *. cbn in *. lia. }
    split; [done|]. rewrite E in El. apply app_inv_head in El. apply app_eq_inv in El as [(k & -> & El)|(k & -> & El)].
    - destruct k as [|d k]; [by rewrite app_nil_r|]. exfalso. cbn in El. destruct r as [|d' r]; [done|]. injection El as -> _. specialize (Hr d eq_refl).
      rewrite Forall_app, Forall_cons in Hp. destruct Hp as (_ & Hp & _). congruence.
    - destruct k as [|d k]; [by rewrite app_nil_r|]. exfalso. destruct t as [|d' t]; [done|]. injection El as -> _. specialize (Ht d eq_refl).
      rewrite Forall_app, Forall_cons in Hx. destruct Hx as (_ & Hx & _). congruence.
  Qed.
  Lemma cut_at_complete rs t : ∀ before part l r x, rs = before ++ part ++ t → Forall (λ c, stop c = false) part →
    occurs rs l r x → (length before <= length l)%nat →
    (∃ c, x.2 = [c] ∧ white c = false ∧ punct c = true)
    ∨ (x.2 ≠ [] ∧ Forall (λ c, stop c = false) x.2 ∧ (∀ c, last l = Some c → stop c = true) ∧ (∀ c, head r = Some c → stop c = true)) →
    x ∈ cut_at before part t.
  Proof.
    assert (Hpart : ∀ before part t l r x, rs = before ++ part ++ t → Forall (λ c, stop c = false) part → (∀ c, head t = Some c → stop c = true) →
      occurs rs l r x → (length before <= length l < length before + length part)%nat →
      (∃ c, x.2 = [c] ∧ white c = false ∧ punct c = true)
      ∨ (x.2 ≠ [] ∧ Forall (λ c, stop c = false) x.2 ∧ (∀ c, last l = Some c → stop c = true) ∧ (∀ c, head r = Some c → stop c = true)) →
      x ∈ flush_at before part).
    { intros before part t' l r x E Hp Ht [Eo Ex] Hl Hx. apply flush_in. split; [destruct part; [cbn in Hl; lia|done]|]. destruct Hx as [(c & Ec & _ & Hpc)|(H1 & H2 & H3 & H4)].
      - exfalso. assert (part !! (length l - length before)%nat = Some c) as G.
        { assert (rs !! length l = Some c) as G. { rewrite Eo, Ec. cbn [app]. by rewrite list_lookup_middle. }
          rewrite E, lookup_app_r in G by lia. rewrite lookup_app_l in G by lia. done. }
        apply elem_of_list_lookup_2 in G. rewrite Forall_forall in Hp. specialize (Hp c G). cbn in Hp. rewrite Hpc, orb_true_r in Hp. done.
      - destruct (piece_in_part rs before part t' l r x.2 E Hp Ht Eo Hl H1 H2 H3 H4) as [-> E2]. destruct x. cbn in *. by subst. }
    induction t as [|c t IH]; intros before part l r x E Hp Ho Hl Hx; cbn [cut_at].
    - apply (Hpart before part [] l r x); try done. split; [done|]. destruct Ho as [Ho _]. assert (Hne : x.2 ≠ []) by (destruct Hx as [(c & -> & _)|[? _]]; done).
      rewrite E in Ho. apply (f_equal length) in Ho. rewrite !app_length in Ho. destruct (x.2); [done|]. cbn in Ho. lia.
    - assert (E' : rs = (before ++ part ++ [c]) ++ [] ++ t) by (rewrite E, <- !(assoc_L (++)); done).
      assert (Hlp : length (before ++ part ++ [c]) = (length before + length part + 1)%nat) by (rewrite !app_length; cbn; lia).
      assert (Hat : length l = (length before + length part)%nat → head x.2 = Some c).
      { intros El. destruct Ho as [Ho _]. assert (G : rs !! length l = Some c). { rewrite E', El, <- (assoc_L (++)), lookup_app_r, <- (assoc_L (++)), lookup_app_r by lia. by replace (_ - _ - _)%nat with 0%nat by lia. }
        rewrite Ho, lookup_app_r, Nat.sub_diag in G by lia. destruct Hx as [(d & Ed & _)|[Hne _]]; [rewrite Ed in G |- *; done|]. by destruct (x.2). }
      destruct (white c) eqn:Ew; [|destruct (punct c) eqn:Ep].
      + apply elem_of_app. destruct (decide (length (before ++ part ++ [c]) <= length l)%nat) as [Hge|Hlt]; [right; by apply (IH _ [] l r)|]. left.
        apply (Hpart before part (c :: t) l r x); try done; [intros d [= <-]; by rewrite Ew|]. split; [done|].
        assert (length l ≠ length before + length part)%nat as Hn; [|lia]. intros El. specialize (Hat El).
        destruct Hx as [(d & Ed & Hw & _)|(_ & Hx & _)]; [rewrite Ed in Hat; injection Hat as ->; congruence|]. destruct (x.2) as [|d y]; [done|]. injection Hat as ->. apply Forall_cons in Hx as [Hx _]. by rewrite Ew in Hx.
      + apply elem_of_app. destruct (decide (length (before ++ part ++ [c]) <= length l)%nat) as [Hge|Hlt]; [right; right; by apply (IH _ [] l r)|].
        destruct (decide (length l = (length before + length part)%nat)) as [El|Hn].
        * right. apply elem_of_cons. left. specialize (Hat El). assert (x.2 = [c]) as E2.
          { destruct Hx as [(d & Ed & _)|(_ & Hx & _)]; [rewrite Ed in Hat |- *; by injection Hat as ->|]. destruct (x.2) as [|d y]; [done|]. injection Hat as ->. apply Forall_cons in Hx as [Hx _]. by rewrite Ep, orb_true_r in Hx. }
          destruct Ho as [Ho Ho']. assert (l = before ++ part) as ->. { rewrite E, (assoc_L (++)) in Ho. apply app_inj_1 in Ho as [? _]; [done|]. rewrite app_length. lia. }
          destruct x as [k y]. cbn [fst snd] in *. by subst.
        * left. apply (Hpart before part (c :: t) l r x); try done; [intros d [= <-]; by rewrite Ep, orb_true_r|]. lia.
      + apply (IH before (part ++ [c]) l r); try done; [by rewrite E, <- !(assoc_L (++))|]. apply Forall_app. split; [done|]. constructor; [by rewrite Ew, Ep|done].
  Qed.

  Lemma cut_pieces rs fs : in_order fs → (∀ x, x ∈ fs ↔ bert_piece white punct rs x) → fs = cut_at [] [] rs.
  Proof.
    intros Ho Hf. apply (C54_unique fs _ (bert_piece white punct rs)); [done|apply cut_at_in_order|done| |].
    - intros x. split; [by apply (cut_at_sound rs rs [] [] x)|]. intros [(l & c & r & Hx & Ex & Hw & Hp)|(l & r & Hx & H)].
      + apply (cut_at_complete rs rs [] [] l r x); [done|constructor|done|cbn; lia|]. left. by exists c.
      + apply (cut_at_complete rs rs [] [] l r x); [done|constructor|done|cbn; lia|]. by right.
    - intros x [(l & c & r & _ & -> & _)|(l & r & _ & ? & _)]; done.
  Qed.
  Lemma pieces_words rs fs : in_order fs → (∀ x, x ∈ fs ↔ bert_piece white punct rs x) →
    fs.*2 = flat_map (split_on_punc punct []) (words white [] rs).
  Proof. intros Ho Hf. rewrite (cut_pieces rs fs Ho Hf), cut_at_snd, (cut_words rs [] [] []); done. Qed.
End cut.

(** * Folding the words *)
Section fold.
  Context (white punct : Z → bool) (f : Z → list Z).
  Lemma words_fold T : Forall (λ c, if white c then ∃ c', f c = [c'] ∧ white c' = true else f c = [] ∨ ∃ c', f c = [c'] ∧ white c' = false) T →
    ∀ w, base.filter (λ w, w ≠ []) (map (flat_map f) (words white w T)) = words white (flat_map f w) (flat_map f T).
  Proof.
    assert (Hfl : ∀ w : list Z, base.filter (λ w, w ≠ []) (map (flat_map f) (if decide (w = []) then [] else [w])) = if decide (flat_map f w = []) then [] else [flat_map f w]).
    { intros w. destruct (decide (w = [])) as [->|Hw]; [done|]. cbn [map]. rewrite filter_cons. destruct (decide (flat_map f w = [])) as [E|E]; [by rewrite decide_False by (by intros G)|by rewrite decide_True]. }
    induction 1 as [|c T Hc _ IH]; intros w.
    - cbn [words flat_map]. apply Hfl.
    - cbn [words flat_map]. destruct (white c).
      + destruct Hc as (c' & -> & Hc). cbn [app words]. rewrite Hc, map_app, filter_app, Hfl. f_equal. apply (IH []).
      + rewrite IH, flat_map_app. cbn [flat_map]. rewrite app_nil_r. destruct Hc as [->|(c' & -> & Hc)]; [by rewrite app_nil_r|]. cbn [app words]. by rewrite Hc.
  Qed.
  Lemma split_nonempty (ws : list (list Z)) : flat_map (split_on_punc punct []) (base.filter (λ w, w ≠ []) ws) = flat_map (split_on_punc punct []) ws.
  Proof. induction ws as [|w ws IH]; [done|]. rewrite filter_cons. destruct (decide (w ≠ [])) as [H|H]; cbn [flat_map]; [by rewrite IH|]. destruct w; [exact IH|by destruct H]. Qed.
End fold.

Lemma clean_text_spec u rs : clean_text white_space (control_char u) rs = cleaned u rs.
Proof.
  unfold cleaned. induction rs as [|c rs IH]; [done|]. cbn [clean_text]. rewrite filter_cons.
  destruct (decide (¬ cleaned_away u c)) as [H|H]; unfold cleaned_away, control_char in *; destruct (u_other u c).
  all: destruct ((c =? 0) || (c =? 0xFFFD) || _) eqn:E; cbn [map]; rewrite ?IH; try done; exfalso.
  all: lia || (apply H; lia).
Qed.
Lemma chinese_chars_spec f g rs : Forall (λ c, f c = g c) rs → chinese_chars f rs = spaced_out g rs.
Proof. induction 1 as [|c rs H _ IH]; [done|]. cbn [chinese_chars]. rewrite IH, H. done. Qed.
Lemma split_ext p q part w : Forall (λ c, p c = q c) w → split_on_punc p part w = split_on_punc q part w.
Proof. intros H. revert part. induction H as [|c w H _ IH]; intros part; [done|]. cbn [split_on_punc]. by rewrite H, !IH. Qed.
Lemma words_chars white w t x : x ∈ words white w t → ∀ c, c ∈ x → c ∈ w ∨ c ∈ t.
Proof.
  revert w. induction t as [|d t IH]; intros w; cbn [words].
  - destruct (decide _); [by intros ?%elem_of_nil|]. intros ->%elem_of_list_singleton c Hc. by left.
  - destruct (white d); [intros [H|H]%elem_of_app c Hc|intros H c Hc].
    + destruct (decide _); [by apply elem_of_nil in H|]. apply elem_of_list_singleton in H as ->. by left.
    + destruct (IH [] H c Hc) as [G|G]; [by apply elem_of_nil in G|]. right. by right.
    + destruct (IH _ H c Hc) as [[G|G%elem_of_list_singleton]%elem_of_app|G]; [by left|right; subst; by left|right; by right].
Qed.
Lemma chinese_agree c : ¬ (0x2B820 <= c <= 0x2B91F) → chinese_char c = is_chinese c.
Proof. intros H. unfold chinese_char, is_chinese, chinese_table, byte_in. cbn [existsb]. lia. Qed.

Lemma fold_word_spec mark lower decomposed w : fold_word mark lower decomposed w = flat_map (λ c, base.filter (λ c, mark c = false) (decomposed (lower c))) w.
Proof.
  unfold fold_word. induction w as [|c w IH]; [done|]. cbn [map flat_map]. rewrite filter_app, IH. done.
Qed.

(** The characters after cleaning and spacing. *)
Lemma spaced_chars u rs c : c ∈ spaced_out is_chinese (cleaned u rs) → c ∈ 32 :: rs.
Proof.
  intros H. apply elem_of_list_In, in_flat_map in H as (d & Hd & Hc). apply elem_of_list_In in Hc, Hd.
  apply elem_of_list_fmap in Hd as (x & -> & Hx). apply elem_of_list_filter in Hx as [_ Hx].
  destruct (white_space x), (is_chinese _); rewrite ?elem_of_cons in *; rewrite ?elem_of_nil in Hc; naive_solver.
Qed.
Lemma cleaned_chars u rs c : c ∈ cleaned u rs → c ∈ 32 :: rs.
Proof. intros (x & -> & Hx)%elem_of_list_fmap. apply elem_of_list_filter in Hx as [_ Hx]. destruct (white_space x); [by left|by right]. Qed.
Lemma flat_map_ext_in' {A B} (f g : A → list B) l : Forall (λ x, f x = g x) l → flat_map f l = flat_map g l.
Proof. induction 1 as [|x l H _ IH]; [done|]. cbn. by rewrite H, IH. Qed.
Lemma bert_words u decomposed rs : scalars rs → case_tables u → Forall (agreed_char u decomposed) (32 :: rs) →
  flat_map (split_on_punc (u_punct u) []) (words white_space [] (bert_text u default_bert rs))
  = basic_tokens white_space (bert_punct u) (control_char u) (u_mn u) (u_lower u) decomposed chinese_char rs.
Proof.
  intros Hs Hu Ha. rewrite Forall_forall in Ha. unfold basic_tokens, bert_text, default_bert. cbn [bo_clean bo_chinese bo_accents bo_lower when].
  rewrite clean_text_spec. rewrite (chinese_chars_spec chinese_char is_chinese).
  2:{ apply Forall_forall. intros c Hc%cleaned_chars. apply chinese_agree. by apply Ha. }
  set (T := spaced_out is_chinese (cleaned u rs)). set (f := λ c, base.filter (λ c, u_mn u c = false) (decomposed (u_lower u c))).
  assert (Hf : ∀ c, c ∈ T → f c = if u_mn u c then [] else [u_lower u c]).
  { intros c Hc. unfold f. destruct (Ha c) as [E _]; [by eapply spaced_chars|]. rewrite E, filter_cons, (ct_mark u Hu). destruct (u_mn u c); done. }
  assert (Hsc : ∀ c, c ∈ T → scalar c = true).
  { intros c [->|Hc]%spaced_chars%elem_of_cons; [done|]. unfold scalars in Hs. rewrite Forall_forall in Hs. by apply Hs. }
  assert (E : lowered u (unmarked u T) = flat_map f T).
  { clear -Hf Hsc Hu. induction T as [|c T IH]; [done|]. cbn [flat_map]. rewrite Hf by (by left). rewrite <- IH; [|intros d Hd; apply Hf; by right|intros d Hd; apply Hsc; by right].
    unfold unmarked. rewrite filter_cons. destruct (u_mn u c) eqn:Em; [by rewrite decide_False by (intros G; by apply G)|]. rewrite decide_True by done.
    unfold lowered. cbn [map]. rewrite sanitize_id; [done|]. apply (ct_scalar u Hu), Hsc. by left. }
  rewrite E. change [] with (flat_map f []) at 2. rewrite <- words_fold.
  2:{ apply Forall_forall. intros c Hc. rewrite (Hf c Hc). destruct (white_space c) eqn:Ew.
      - rewrite (ct_apart u Hu c Ew). exists (u_lower u c). by rewrite (ct_white u Hu).
      - destruct (u_mn u c); [by left|]. right. exists (u_lower u c). by rewrite (ct_white u Hu). }
  rewrite split_nonempty. assert (Hw : ∀ w, w ∈ words white_space [] T → split_on_punc (u_punct u) [] (flat_map f w) = split_on_punc (bert_punct u) [] (fold_word (u_mn u) (u_lower u) decomposed w)).
  { intros w Hw. rewrite fold_word_spec. symmetry. apply split_ext. apply Forall_forall. intros c Hc. apply elem_of_list_In, in_flat_map in Hc as (d & Hd & Hc). apply elem_of_list_In in Hd.
    assert (Hd' : d ∈ T). { destruct (words_chars _ _ _ _ Hw d Hd) as [G|G]; [by apply elem_of_nil in G|done]. }
    change (In c (f d)) in Hc. rewrite (Hf d Hd') in Hc. destruct (u_mn u d); [done|]. destruct Hc as [<-|[]]. apply Ha. by eapply spaced_chars. }
  clear -Hw. induction (words white_space [] T) as [|w ws IH]; [done|]. cbn [map flat_map]. rewrite Hw by (by left). f_equal. apply IH. intros w' Hw'. apply Hw. by right.
Qed.
Lemma bert_cased_words u o rs : bo_clean o = true → bo_chinese o = true → bo_accents o = false → bo_lower o = false →
  Forall (λ c, bert_punct u c = u_punct u c ∧ ¬ (0x2B820 <= c <= 0x2B91F)) (32 :: rs) →
  flat_map (split_on_punc (u_punct u) []) (words white_space [] (bert_text u o rs))
  = basic_tokens white_space (bert_punct u) (control_char u) (λ _, false) (λ c, c) (λ c, [c]) chinese_char rs.
Proof.
  intros O1 O2 O3 O4 Ha. rewrite Forall_forall in Ha. unfold basic_tokens, bert_text. rewrite O1, O2, O3, O4. cbn [when].
  rewrite clean_text_spec. rewrite (chinese_chars_spec chinese_char is_chinese).
  2:{ apply Forall_forall. intros c Hc%cleaned_chars. apply chinese_agree. by apply Ha. }
  set (T := spaced_out is_chinese (cleaned u rs)).
  assert (Hw : ∀ w, w ∈ words white_space [] T → split_on_punc (u_punct u) [] w = split_on_punc (bert_punct u) [] (fold_word (λ _, false) (λ c, c) (λ c, [c]) w)).
  { intros w Hw. assert (fold_word (λ _, false) (λ c, c) (λ c, [c]) w = w) as ->. { rewrite fold_word_spec. clear. induction w as [|c w IH]; [done|]. cbn [flat_map]. rewrite IH. done. }
    symmetry. apply split_ext. apply Forall_forall. intros c Hc. destruct (words_chars _ _ _ _ Hw c Hc) as [G|G]; [by apply elem_of_nil in G|]. apply Ha. by eapply spaced_chars. }
  clear -Hw. induction (words white_space [] T) as [|w ws IH]; [done|]. cbn [map flat_map]. rewrite Hw by (by left). f_equal. apply IH. intros w' Hw'. apply Hw. by right.
Qed.
