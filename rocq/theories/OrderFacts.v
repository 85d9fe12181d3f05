(** Proofs for C78: the order of what library histories make. *)
From Coq Require Import ZifyBool Sorted.
From stdpp Require Import relations list_numbers.
From Verif Require Import GoBase Utf8Facts Strutils SplitPattern NormString Vocab Bpe WordPiece Encodings Normalizers PreTokString PreTokenizers SpecText SpecBpe SpecWordPiece SpecExact SpecNorm SpecSplit SpecHist SpecPts SpecPretok SpecNormalizers SpecEnd SpecCommute SpecStages
  SliceFacts StrutilsFacts PatternFacts NormFacts NormInv NormReplace NormSlice NormSplit SplitExact RangeFacts NormEdits HistFacts PtsFacts PretokFacts ByteFacts EndFacts NormalizersFacts BpeFacts WordPieceFacts PropsPts PropsPretok PropsBpe PropsExact PropsWordPiece LibFacts.
Import GoBase NormString SpecNorm.
#[local] Open Scope Z_scope.

(** ** Edits that take their alignments from those there are *)
Definition no_lead_insert (dest : list (Z * Z)) : Prop := match dest with (_, c) :: _ => c <= 0 | [] => True end.
Lemma idx_elem {A} (l : list A) i x : idx l i = Ret x → x ∈ l.
Proof. unfold idx. destruct (_ <=? _); [|done]. destruct (l !! _) eqn:E; [|done]. intros [= <-]. by eapply elem_of_list_lookup_2. Qed.
Lemma sub_elem {A} (l : list A) i j y x : sub l i j = Ret y → x ∈ y → x ∈ l.
Proof. intros (a & b & -> & _)%sub_Ret H. set_solver. Qed.

Lemma tr_loop_tame al dest off rs x : 1 <= off ∨ 0 <= off ∧ no_lead_insert dest → tr_loop al dest off rs = Ret x → ∀ a, a ∈ x.1 → a ∈ al.
Proof.
  revert off rs x. induction dest as [|[r c] dest IH]; intros off rs x Ho H a Ha; cbn [tr_loop] in H.
  { injection H as <-. by apply elem_of_nil in Ha. }
  apply bind_Ret in H as (b & Hb & H). apply bind_Ret in H as ([size rs1] & Hx & H).
  apply bind_Ret in H as ([total rs2] & Hy & H). apply bind_Ret in H as (z & Hz & H). injection H as <-. cbn [fst] in Ha.
  assert (0 <= total). { destruct (c <=? -1); [|injection Hy as <- <-; lia]. apply bind_Ret in Hy as (rm & _ & Hy). apply bind_Ret in Hy as (rest & _ & Hy). injection Hy as <- <-. apply zlen_nonneg. }
  apply elem_of_app in Ha as [Ha|Ha].
  - apply elem_of_list_In, repeat_spec in Ha as ->. destruct (Z.leb_spec 1 c); [|by eapply idx_elem].
    destruct (Z.ltb_spec off 1); [|by eapply idx_elem]. destruct Ho as [?|[_ Ho]]; [lia|]. cbn in Ho. lia.
  - eapply IH; [|exact Hz|exact Ha]. left. destruct (Z.leb_spec c 0).
    + destruct rs as [|y rs]; [done|]. injection Hx as <- <-. pose proof (rune_len_bounds y). destruct Ho as [?|[? _]]; lia.
    + injection Hx as <- <-. destruct Ho as [?|[_ Ho]]; [lia|]. cbn in Ho. lia.
Qed.
Lemma transform_range_tame n r dest off n' : 0 <= off → 1 <= off ∨ no_lead_insert dest → transform_range n r dest off = Ret n' → ∀ a, a ∈ ns_al n' → a ∈ ns_al n.
Proof.
  intros Hoff Hd H a Ha. unfold transform_range in H. destruct (coerce_to_norm n r) as [[s e] ok]. destruct ok; cbn [negb] in H; [|injection H as <-; done].
  apply bind_Ret in H as (rep & Hrep & H). apply bind_Ret in H as (rem & Hrem & H). apply bind_Ret in H as (rest & _ & H). apply bind_Ret in H as (x & Hx & H).
  apply bind_Ret in H as (ab & Hab & H). apply bind_Ret in H as (aa & Haa & H). apply bind_Ret in H as (nb & _ & H). apply bind_Ret in H as (na & _ & H). injection H as <-.
  cbn [ns_al] in Ha. pose proof (sub_bounds _ _ _ _ Hrep) as (Hs & _). apply sub_zlen in Hrem.
  apply elem_of_app in Ha as [Ha|[Ha|Ha]%elem_of_app]; [eapply sub_elem; [exact Hab|exact Ha]| |eapply sub_elem; [exact Haa|exact Ha]].
  eapply tr_loop_tame; [|exact Hx|exact Ha]. destruct Hd as [Hd|Hd]; [left; lia|right; split; [lia|done]].
Qed.

(** [n'] has the origin of [n] and no other alignments. *)
Definition tame (n n' : ns) : Prop := wf n' ∧ same_origin n n' ∧ ∀ a, a ∈ ns_al n' → a ∈ ns_al n.
Lemma tame_refl n : wf n → tame n n.
Proof. intros H. split; [done|]. by split. Qed.
Lemma tame_trans a b c : tame a b → tame b c → tame a c.
Proof. intros (_ & H1 & H2) (H3 & H4 & H5). split; [done|]. split; [by eapply same_origin_trans|]. auto. Qed.
Lemma transform_tame n dest off n' : wf n → 0 <= off → 1 <= off ∨ no_lead_insert dest → transform n dest off = Ret n' → tame n n'.
Proof.
  intros Hw H0 Hd H. destruct (transform_wf n dest off n' Hw H) as [H1 H2]. split; [done|]. split; [done|].
  by eapply transform_range_tame.
Qed.
Lemma map_tame n f n' : wf n → map_runes n f = Ret n' → tame n n'.
Proof. intros Hw. apply transform_tame; [done|lia|]. right. destruct (runes _); cbn; [done|lia]. Qed.
Lemma filter_loop_start keep rs last removed rst : 0 <= removed → 0 <= rst → let x := filter_loop keep rs last removed rst in 0 <= x.2 ∧ no_lead_insert x.1.
Proof.
  revert last removed rst. induction rs as [|r rs IH]; intros last removed rst H1 H2; cbn [filter_loop].
  - destruct last; cbn; [split; lia|done].
  - destruct (keep r); cbn [negb]; [|apply IH; lia]. destruct last as [l|]; [|apply IH; lia].
    destruct (IH (Some r) 0 rst) as [H3 _]; [lia|lia|]. cbn. split; lia.
Qed.
Lemma filter_tame n keep n' : wf n → filter_runes n keep = Ret n' → tame n n'.
Proof. intros Hw H. destruct (filter_loop_start keep (runes (ns_norm n)) None 0 0) as [H1 H2]; [lia|lia|]. eapply transform_tame; [done| | |exact H]; auto. Qed.
Lemma count_leading_nonneg rs : 0 <= count_leading rs.
Proof. induction rs as [|r rs IH]; cbn; [lia|]. destruct (white_space r); lia. Qed.
Lemma trim_changes_start rs i l li t : 0 <= t → Forall (λ c : Z * Z, c.2 <= 0) (trim_changes rs i l li t).
Proof.
  intros Ht. revert i. induction rs as [|r rs IH]; intros i; cbn [trim_changes]; [constructor|]. apply Forall_app. split; [|apply IH].
  destruct (_ && _); [|constructor]. constructor; [|constructor]. cbn. destruct (i =? li); lia.
Qed.
Lemma trim_tame n left right n' : wf n → trim_left_right n left right = Ret n' → tame n n'.
Proof.
  intros Hw H. unfold trim_left_right in H. pose proof (count_leading_nonneg (runes (ns_norm n))). pose proof (count_leading_nonneg (rev (runes (ns_norm n)))).
  destruct (_ && _) in H; [injection H as <-; by apply tame_refl|]. eapply transform_tame; [done| | |exact H].
  - destruct left; lia.
  - right. match goal with |- no_lead_insert ?d => assert (Hc : Forall (λ c : Z * Z, c.2 <= 0) d) end.
    { apply trim_changes_start. unfold count_trailing. destruct (_ && _); lia. }
    destruct Hc as [|[r c] d Hc _]; [done|exact Hc].
Qed.
Lemma chinese_tame n n' : wf n → handle_chinese n = Ret n' → tame n n'.
Proof.
  intros Hw. apply transform_tame; [done|lia|]. right. destruct (runes _) as [|r rs]; [done|]. cbn [chinese_changes flat_map]. destruct (is_chinese r); apply Z.le_refl.
Qed.
Lemma bert_tame u o n n' : wf n → bert_normalize u o n = Ret n' → tame n n'.
Proof.
  intros Hw H. unfold bert_normalize in H. apply bind_Ret in H as (n1 & H1 & H). apply bind_Ret in H as (n2 & H2 & H). apply bind_Ret in H as (n3 & H3 & H).
  assert (T1 : tame n n1).
  { destruct (bo_clean o); [|injection H1 as <-; by apply tame_refl]. unfold clean_text in H1. apply bind_Ret in H1 as (m & H0 & H1).
    apply (filter_tame _ _ _ Hw) in H0. eapply tame_trans; [exact H0|]. eapply map_tame; [apply H0|exact H1]. }
  assert (T2 : tame n1 n2). { destruct (bo_chinese o); [|injection H2 as <-; by apply tame_refl, T1]. by apply chinese_tame; [apply T1|]. }
  assert (T3 : tame n2 n3). { destruct (bo_accents o); [|injection H3 as <-; by apply tame_refl, T2]. by eapply filter_tame; [apply T2|]. }
  assert (T4 : tame n3 n'). { destruct (bo_lower o); [|injection H as <-; by apply tame_refl, T3]. by eapply map_tame; [apply T3|]. }
  eapply tame_trans; [exact T1|]. eapply tame_trans; [exact T2|]. by eapply tame_trans.
Qed.
Fixpoint lib_tame nz (H : lib_normalizer nz) {struct H} : ∀ n n' e, wf n → nz n = Ret (n', e) → tame n n'.
Proof.
  destruct H as [u|left right|u o|l Hl]; intros n n' e Hw E.
  - unfold lowercase_normalizer, no_error in E. apply bind_Ret in E as (m & E & Em). injection Em as <- <-. by eapply map_tame.
  - unfold strip_normalizer, no_error in E. apply bind_Ret in E as (m & E & Em). injection Em as <- <-. by eapply trim_tame.
  - unfold bert_normalizer, no_error in E. apply bind_Ret in E as (m & E & Em). injection Em as <- <-. by eapply bert_tame.
  - revert n Hw E. induction Hl as [|nz l Hnz Hl IH]; intros n Hw E; cbn [sequence_normalizer] in E; [injection E as <- <-; by apply tame_refl|].
    apply bind_Ret in E as ([m em] & E1 & E2). pose proof (lib_tame nz Hnz _ _ _ Hw E1) as T. apply (tame_trans _ m); [done|].
    destruct em; [injection E2 as <- <-; apply tame_refl, T|]. apply IH; [apply T|done].
Qed.

Lemma prepend_tame n p n' : wf n → p ≠ [] → prepend n p = Ret n' → tame n n'.
Proof.
  intros Hw Hp H. destruct (prepend_wf n p n' Hw H) as [H1 H2]. split; [done|]. split; [done|].
  unfold prepend in H. destruct (zlen (ns_norm n) =? 0); [by injection H as <-|]. apply bind_Ret in H as (fr & Hf & H).
  eapply transform_range_tame; [| |exact H]; [lia|]. right. destruct (runes p) as [|r rs] eqn:E.
  - exfalso. apply Hp. pose proof (decode_widths p) as Hd. unfold runes in E. destruct (decode p); [|done].
    cbn in Hd. destruct p; [done|]. rewrite zlen_cons in Hd. pose proof (zlen_nonneg p). lia.
  - rewrite (prepend_changes_spec p r rs E). apply Z.le_refl.
Qed.
Lemma spans_of_chars v w : v.*2 = w.*2 → ∀ a, a ∈ spans_of v → a ∈ spans_of w.
Proof.
  intros E a (pre & Ha)%elem_of_list_lookup. assert (a ∈ v.*2) as Hv.
  { clear E. revert pre Ha. induction v as [|[r b] v IH]; intros i Ha; [done|]. rewrite spans_of_cons in Ha. rewrite fmap_cons. cbn [snd].
    apply lookup_app_Some in Ha as [Ha|[_ Ha]]; [|right; by eapply IH]. apply elem_of_list_lookup_2, elem_of_list_In, repeat_spec in Ha as ->. by left. }
  rewrite E in Hv. destruct (spans_in_idx w a Hv) as (j & _ & Hj). by eapply idx_elem.
Qed.
Lemma replace_spaces_tame n c n' : wf n → replace n (rune_pattern 32) (encode_rune c) = Ret (Ok n') → tame n n'.
Proof.
  intros (v & Hv) H. rewrite <- encode_rune_sanitize in H. destruct (replace_spaces n v (sanitize c) Hv (sanitize_scalar c)) as (n1 & E & Hw & Ho).
  rewrite E in H. injection H as ->. split; [by eexists|]. split; [done|]. destruct Hv as ((_ & _ & Hv) & _), Hw as ((_ & _ & Hw) & _).
  rewrite Hv, Hw. apply spans_of_chars. unfold spaces_to. clear. induction v as [|p v IH]; [done|]. cbn [map]. rewrite !fmap_cons, IH. by destruct (p.1 =? 32).
Qed.
Lemma byte_level_normalize_tame n n' : wf n → byte_level_normalize n = Ret n' → tame n n'.
Proof.
  intros Hw H. unfold byte_level_normalize in H. apply bind_Ret in H as (ch & Hc & H). eapply transform_tame; [done| | |exact H]; [lia|]. right.
  destruct Hw as (v & Hr & _). rewrite (repr_runes _ _ Hr) in Hc. destruct Hr as (_ & Hn & _). rewrite Hn in Hc. pose proof (byte_changes_spec [] v.*1) as E. cbn [app] in E. change (zlen (encode [])) with 0 in E. rewrite E in Hc. injection Hc as <-.
  destruct v.*1 as [|r rs]; [done|]. cbn [flat_map]. unfold rune_changes. pose proof (rune_len_bounds r) as Hb. unfold rune_len, zlen in Hb. destruct (encode_rune r) eqn:E1; [cbn in Hb; lia|]. cbn. done.
Qed.

(** ** Pieces in order *)
Definition abs_al (n : ns) : list (Z * Z) := map (λ a, (a.1 + ns_shift n, a.2 + ns_shift n)) (ns_al n).
Definition range_of (n : ns) : Z * Z := (ns_shift n, ns_shift n + zlen (ns_orig n)).
Definition fits (rs : list Z) (n : ns) : Prop :=
  boundary (encode rs) (range_of n).1 ∧ boundary (encode rs) (range_of n).2 ∧ (rs = [] ∨ (range_of n).1 < (range_of n).2).
Definition sits (rs : list Z) (n : ns) : Prop := wf n ∧ (∀ a, a ∈ abs_al n → one_char rs a) ∧ fits rs n.
Definition ahead (rs : list Z) (n m : ns) : Prop :=
  (∀ a b, a ∈ abs_al n → b ∈ abs_al m → before a b) ∧ in_turn_but_one rs (range_of n) (range_of m).
Definition inside (rs : list Z) (n' n : ns) : Prop :=
  wf n' ∧ (∀ a, a ∈ abs_al n' → a ∈ abs_al n) ∧ fits rs n' ∧ (range_of n).1 <= (range_of n').1 ∧ (range_of n').2 <= (range_of n).2.
Lemma inside_trans rs a b c : inside rs a b → inside rs b c → inside rs a c.
Proof. intros (H1 & H2 & H3 & H4 & H5) (H6 & H7 & H8 & H9 & H10). split; [done|]. split; [auto|]. split; [done|]. lia. Qed.
Lemma inside_sits rs a b : inside rs a b → sits rs b → sits rs a.
Proof. intros (H1 & H2 & H3 & _) (_ & H5 & _). split; [done|]. split; [auto|done]. Qed.
Lemma tame_inside rs n n' : fits rs n → tame n n' → inside rs n' n.
Proof.
  intros Hf (H1 & [H0 H2] & H3). split; [done|]. assert (range_of n' = range_of n) as E by (unfold range_of; by rewrite H0, H2). unfold fits. rewrite E. split; [|done].
  unfold abs_al. rewrite H2. intros a (b & -> & Hb)%elem_of_list_fmap. apply elem_of_list_fmap. eauto.
Qed.
Lemma one_char_bounds rs a : scalars rs → one_char rs a → a.1 < a.2 ∧ boundary (encode rs) a.1 ∧ boundary (encode rs) a.2.
Proof.
  intros Hs (l & c & r & -> & ->). cbn [fst snd]. pose proof (rune_len_bounds c). split; [lia|]. apply Forall_app in Hs as [Hl Hr]. apply Forall_cons in Hr as [Hc Hr]. split.
  - exists l, (c :: r). split_and!; [done|by constructor| |done]. by rewrite encode_app.
  - exists (l ++ [c]), r. split_and!; [apply Forall_app; split; [done|by constructor]|done| |].
    + rewrite !encode_app. unfold encode at 2 4. cbn [flat_map]. rewrite app_nil_r. by rewrite <- app_assoc.
    + rewrite encode_app, zlen_app. unfold encode at 3. cbn [flat_map]. by rewrite app_nil_r.
Qed.
Lemma one_char_between rs a i : scalars rs → one_char rs a → boundary (encode rs) i → i <= a.1 ∨ a.2 <= i.
Proof.
  intros Hs (l & c & r & -> & ->) (x & y & Hx & Hy & E & ->). cbn [fst snd]. rewrite <- encode_app in E. apply encode_inj_scalars in E; [|done|by apply Forall_app].
  destruct (decide (length x <= length l)%nat) as [Hl|Hl].
  - left. assert (∃ l', l = x ++ l') as (l' & ->).
    { exists (drop (length x) l). assert (take (length x) (l ++ c :: r) = take (length x) (x ++ y)) as H by (by rewrite E). rewrite take_app, take_app_le in H by lia. rewrite <- H at 1. by rewrite take_drop. }
    rewrite encode_app, zlen_app. pose proof (zlen_nonneg (encode l')). lia.
  - right. assert (∃ x', x = (l ++ [c]) ++ x') as (x' & ->).
    { exists (drop (length (l ++ [c])) x). assert (take (length (l ++ [c])) ((l ++ [c]) ++ r) = take (length (l ++ [c])) (x ++ y)) as H by (rewrite <- app_assoc; cbn [app]; by rewrite E).
      rewrite take_app, take_app_le in H by (rewrite app_length; cbn; lia). rewrite H at 1. by rewrite take_drop. }
    assert (zlen (encode [c]) = rune_len c) as Ec by (unfold encode; cbn [flat_map]; by rewrite app_nil_r). rewrite !encode_app, !zlen_app, Ec. pose proof (zlen_nonneg (encode x')). lia.
Qed.
(** Parts of ranges that come in turn come in turn. *)
Lemma in_turn_parts rs n m n' m' : scalars rs → in_turn_but_one rs (range_of n) (range_of m) → inside rs n' n → inside rs m' m →
  in_turn_but_one rs (range_of n') (range_of m').
Proof.
  intros Hs H (_ & _ & (A1 & A2 & A3) & A4 & A5) (_ & _ & (B1 & B2 & B3) & B4 & B5). unfold in_turn_but_one in *.
  destruct (decide (rs = [])) as [->|Hne]. { left. apply boundary_range in A2, B1. change (zlen (encode [])) with 0 in *. lia. }
  destruct A3 as [?|A3]; [done|]. destruct B3 as [?|B3]; [done|].
  destruct H as [H|(H1 & H2 & H3)]; [left; lia|]. destruct (one_char_between rs _ _ Hs H3 A2) as [C|C]; cbn [fst snd] in C; [left; lia|].
  destruct (one_char_between rs _ _ Hs H3 B1) as [D|D]; cbn [fst snd] in D; [|left; lia]. right.
  replace (range_of m').1 with (range_of m).1 by lia. replace (range_of n').2 with (range_of n).2 by lia.
  destruct (one_char_between rs _ _ Hs H3 A1) as [C'|C']; cbn [fst snd] in C'; [|lia]. destruct (one_char_between rs _ _ Hs H3 B2) as [D'|D']; cbn [fst snd] in D'; [lia|]. split; [lia|]. split; [lia|done].
Qed.
Lemma abs_in n v a : repr n v → a ∈ abs_al n ↔ ∃ b, b ∈ v.*2 ∧ a = (b.1 + ns_shift n, b.2 + ns_shift n).
Proof.
  intros (_ & _ & Hv). unfold abs_al. rewrite Hv. split.
  - intros (b & -> & Hb)%elem_of_list_fmap. exists b. split; [|done]. apply elem_of_list_lookup in Hb as (i & Hi). clear Hv.
    revert i Hi. induction v as [|[r c] v IH]; intros i Hi; [done|]. rewrite spans_of_cons in Hi. rewrite fmap_cons. cbn [snd].
    apply lookup_app_Some in Hi as [Hi|[_ Hi]]; [|right; by eapply IH]. apply elem_of_list_lookup_2, elem_of_list_In, repeat_spec in Hi as ->. by left.
  - intros (b & Hb & ->). apply elem_of_list_fmap. exists b. split; [done|]. destruct (spans_in_idx v b Hb) as (j & _ & Hj). by eapply idx_elem.
Qed.
Lemma piece_abs n w p a : piece_of n w p → a ∈ abs_al p → ∃ b, b ∈ w.*2 ∧ a = (b.1 + ns_shift n, b.2 + ns_shift n).
Proof.
  intros (H1 & H2 & H3) Ha. apply (abs_in _ _ _ H1) in Ha as (b & Hb & ->). unfold shift_spans in Hb. apply elem_of_list_fmap in Hb as (q & -> & Hq). apply elem_of_list_fmap in Hq as (q' & -> & Hq).
  cbn [fst snd]. exists q'.2. split; [by apply elem_of_list_fmap_1|]. destruct (decide (w = [])) as [->|Hne]; [by apply elem_of_nil in Hq|]. destruct (H2 Hne) as [_ E]. rewrite E. f_equal; lia.
Qed.

Lemma last_elem {A} (l : list A) x : last l = Some x → x ∈ l.
Proof. intros (l' & ->)%last_Some. set_solver. Qed.
(** The range of a piece that is not empty. *)
Lemma piece_range n w q : piece_of n w q → ns_norm q ≠ [] → w ≠ [] ∧ ∃ f l, w.*2 !! O = Some f ∧ last w.*2 = Some l
  ∧ range_of q = (f.1 + ns_shift n, l.2 + ns_shift n).
Proof.
  intros (H1 & H2 & _) Hne. destruct (decide (w = [])) as [->|Hw]. { exfalso. apply Hne. destruct H1 as (_ & -> & _). done. }
  split; [done|]. destruct (H2 Hw) as [H3 H4]. destruct w as [|[c f] w]; [done|]. destruct (last ((c, f) :: w).*2) as [l|] eqn:El; [|by apply last_None in El]. exists f, l. split; [done|]. split; [done|].
  unfold range_of. rewrite H4. destruct H3 as (x & y & _ & E1 & E2). cbn [first_start] in *. unfold last_end, last_span in E2. rewrite El in E2. change (default (0, 0) (Some l)) with l in E2. f_equal; lia.
Qed.

Lemma split_ordered rs n p b cs ps : scalars rs → sits rs n → p (ns_norm n) = Ret (Ok cs) → boundary_cover (ns_norm n) cs → split n p b = Ret (Ok ps) →
  StronglySorted (λ x y, ns_norm x ≠ [] → ns_norm y ≠ [] → ahead rs x y) ps ∧ Forall (λ q, ns_norm q ≠ [] → inside rs q n) ps.
Proof.
  intros Hrs ((v & Hwf) & Hone & Hfits) Hp Hc Hs. destruct (split_exact n v p b cs Hwf Hp Hc) as (segs & gs & H1 & _ & [H3 _] & [[H4 _]|[_ (ps' & H4 & H5)]]); [congruence|].
  rewrite H4 in Hs. injection Hs as ->. clear H4.
  assert (Hws : Forall (λ q, wf q) ps).
  { assert (Hg : Forall (λ g, ∃ v1 v3, v = v1 ++ group_text g ++ v3) (kept_groups b gs)).
    { apply Forall_forall. intros g [_ (l1 & l2 & ->)%elem_of_list_split]%elem_of_list_filter. subst segs. rewrite <- H1. rewrite <- concat_group_text, map_app, concat_app. cbn [map concat]. eauto. }
    revert H5 Hg Hwf. clear. generalize (kept_groups b gs). clear. intros gs H5 Hg Hwf. induction H5 as [|g q gs ps Hq H5 IH]; [constructor|]. apply Forall_cons in Hg as [(v1 & v3 & E) Hg]. constructor; [|by apply IH]. eexists. eapply piece_wf; [|done]. by rewrite <- E. }
  assert (∃ d, v.*2 ≡ₚ (concat (map group_text (kept_groups b gs))).*2 ++ d ∧ StronglySorted before (concat (map group_text (kept_groups b gs))).*2) as (d & Hperm & Hsort).
  { destruct Hwf as (Hr & _ & _ & Hss). clear -Hss H1 H3. rewrite <- H1, <- H3, <- concat_group_text in Hss |- *. clear H1 H3.
    unfold kept_groups. induction gs as [|g gs IH]; [by exists []|]. rewrite filter_cons. cbn [map concat] in *. rewrite fmap_app in Hss |- *.
    apply SS_app in Hss as (S1 & S2 & S3). destruct (IH S2) as (d & Hd & Hs). destruct (decide _).
    - exists d. cbn [map concat]. rewrite fmap_app. split; [rewrite <- app_assoc; by f_equiv|]. apply SS_app. split; [done|]. split; [done|]. intros x y Hx Hy. apply S3; [done|]. rewrite Hd. set_solver.
    - exists ((group_text g).*2 ++ d). split; [|done]. rewrite Hd. rewrite !app_assoc. f_equiv. apply Permutation_app_comm. }
  assert (Hin : ∀ b0, b0 ∈ (concat (map group_text (kept_groups b gs))).*2 → b0 ∈ v.*2). { intros b0 Hb. rewrite Hperm. set_solver. }
  pose proof Hwf as (Hr & _ & Hok & _). clear Hperm. revert Hws Hsort Hin H5 Hr Hok Hrs Hone Hfits. clear. generalize (kept_groups b gs). clear. intros gs Hws Hsort Hin H5 Hr Hok Hrs Hone Hfits.
  assert (Hchar : ∀ c, c ∈ v.*2 → one_char rs (c.1 + ns_shift n, c.2 + ns_shift n)). { intros c Hc. apply Hone, (abs_in _ _ _ Hr). eauto. }
  assert (Hends : ∀ w : atext, StronglySorted before w.*2 → (∀ c, c ∈ w.*2 → c ∈ v.*2) → ∀ f l, w.*2 !! O = Some f → last w.*2 = Some l → f ∈ v.*2 ∧ l ∈ v.*2 ∧ f.1 <= l.1 ∧ f.2 <= l.2).
  { intros w Hw Hwv f l Hf Hl. assert (f ∈ w.*2) as F1 by (by eapply elem_of_list_lookup_2). assert (l ∈ w.*2) as L1 by (by apply last_elem).
    split; [auto|]. split; [auto|]. destruct (w.*2) as [|x t]; [done|]. injection Hf as ->. apply StronglySorted_inv in Hw as [_ Hw]. apply elem_of_cons in L1 as [->|L1]; [lia|].
    rewrite Forall_forall in Hw. specialize (Hw l L1). pose proof Hwv as Hwv0. specialize (Hwv l ltac:(by right)). destruct (one_char_bounds rs _ Hrs (Hchar _ Hwv)) as [? _]. destruct (one_char_bounds rs _ Hrs (Hchar _ (Hwv0 f ltac:(by left)))) as [? _]. cbn [fst snd] in *. destruct Hw as [->|?]; lia. }
  induction H5 as [|g q gs ps Hq H5 IH]; [by split; constructor|].
  cbn [map concat] in *. rewrite fmap_app in Hsort, Hin. apply SS_app in Hsort as (S1 & S2 & S3). apply Forall_cons in Hws as [Hwq Hws].
  destruct IH as [IH1 IH2]; [done|done|set_solver|]. split.
  - constructor; [done|]. apply Forall_forall. intros q' Hq' Hne Hne'.
    assert (∃ w', piece_of n w' q' ∧ (∀ c, c ∈ w'.*2 → c ∈ (concat (map group_text gs)).*2) ∧ StronglySorted before w'.*2) as (w' & Hw' & Hin' & Sw').
    { clear -H5 Hq' S2. induction H5 as [|g' q gs ps Hq H5 IH]; [by apply elem_of_nil in Hq'|]. cbn [map concat] in *. rewrite fmap_app in *. apply SS_app in S2 as (S1 & S2 & _). apply elem_of_cons in Hq' as [->|Hq'].
      - exists (group_text g'). set_solver.
      - destruct (IH S2 Hq') as (c' & ? & ? & ?). exists c'. set_solver. }
    split.
    + intros a a' Ha Ha'. apply (piece_abs _ _ _ _ Hq) in Ha as (c & Hc & ->). apply (piece_abs _ _ _ _ Hw') in Ha' as (c' & Hc' & ->).
      destruct (S3 c c' Hc (Hin' c' Hc')) as [->|Hl]; [by left|right; cbn; lia].
    + destruct (piece_range _ _ _ Hq Hne) as (_ & f & l & Ef & El & ->). destruct (piece_range _ _ _ Hw' Hne') as (_ & f' & l' & Ef' & El' & ->).
      destruct (Hends _ S1 ltac:(set_solver) _ _ Ef El) as (_ & Lv & F1 & F2). destruct (Hends _ Sw' ltac:(set_solver) _ _ Ef' El') as (_ & _ & G1 & G2).
      unfold in_turn_but_one. cbn [fst snd]. destruct (S3 l f') as [->|Hlt]; [by apply last_elem|apply Hin'; by eapply elem_of_list_lookup_2| |left; lia].
      right. split; [lia|]. split; [lia|]. by apply Hchar.
  - constructor; [|done]. intros Hne. split; [done|]. split; [|].
    + intros a Ha. apply (piece_abs _ _ _ _ Hq) in Ha as (c & Hc & ->). apply (abs_in _ _ _ Hr). exists c. split; [|done]. apply Hin. set_solver.
    + destruct (piece_range _ _ _ Hq Hne) as (_ & f & l & Ef & El & E). destruct (Hends _ S1 ltac:(set_solver) _ _ Ef El) as (Fv & Lv & F1 & F2). unfold fits. rewrite E. cbn [fst snd].
      destruct (one_char_bounds rs _ Hrs (Hchar _ Fv)) as (? & ? & _). destruct (one_char_bounds rs _ Hrs (Hchar _ Lv)) as (? & _ & ?). cbn [fst snd] in *.
      split; [split; [done|]; split; [done|right; lia]|]. rewrite Forall_forall in Hok. destruct (Hok f Fv) as (_ & Hb & _). destruct (Hok l Lv) as (_ & _ & Hb'). apply boundary_range in Hb, Hb'. unfold range_of. cbn [fst snd]. lia.
Qed.

(** ** Patterns *)
Definition covering (p : pattern) : Prop := ∀ rs cs, scalars rs → p (encode rs) = Ret (Ok cs) → boundary_cover (encode rs) cs.
Lemma func_covering f : covering (func_pattern f).
Proof. intros rs cs Hs H. destruct (func_pattern_cover f rs Hs) as (cs' & H1 & H2). rewrite H in H1. by injection H1 as <-. Qed.
Lemma rune_covering c : covering (rune_pattern c).
Proof. apply func_covering. Qed.
Lemma regexp2_covering engine : sound_engine engine → covering (regexp2_pattern engine).
Proof.
  intros He rs cs Hs H. destruct (decide (rs = [])) as [->|Hne].
  - unfold regexp2_pattern in H. cbn in H. injection H as <-. split; [done|]. repeat constructor; by exists [], [].
  - specialize (He rs Hs). destruct (engine (encode rs)) as [ms [e|]] eqn:E; cbn [fst] in He.
    + rewrite (regexp2_pattern_err engine rs ms e) in H by done. done.
    + destruct (regexp2_pattern_spec engine rs ms Hs Hne E He) as (cs' & H1 & H2 & _). rewrite H in H1. by injection H1 as <-.
Qed.
Lemma invert_covering p : covering p → covering (invert p).
Proof.
  intros Hp rs cs Hs H. rewrite invert_spec in H. destruct (p (encode rs)) as [[cs'|]|] eqn:E; [|done..]. injection H as <-. destruct (Hp rs cs' Hs E) as [H1 H2]. split.
  - clear -H1. revert H1. generalize 0. induction cs' as [|c cs IH]; intros i H; [done|]. destruct H as (? & ? & ?). split; [done|]. split; [done|]. by apply IH.
  - apply Forall_fmap. eapply Forall_impl; [exact H2|]. done.
Qed.

(** ** States in order *)
Definition ok_tokens (x : psplit) : Prop := ∀ ts, sp_tokens x = Some ts → in_turn (ns_norm (sp_ns x)) ts.
Lemma encode_rune_ne c : encode_rune c ≠ [].
Proof. intros E. pose proof (rune_len_bounds c) as H. unfold rune_len, zlen in H. rewrite E in H. destruct H as [H _]. by vm_compute in H. Qed.
Lemma fresh_one_char l rs a : a ∈ (fresh (zlen (encode l)) rs).*2 → one_char (l ++ rs) a.
Proof.
  revert l. induction rs as [|c rs IH]; intros l Ha; cbn [fresh] in Ha; [by apply elem_of_nil in Ha|]. rewrite fmap_cons in Ha. apply elem_of_cons in Ha as [->|Ha].
  - by exists l, c, rs.
  - replace (l ++ c :: rs) with ((l ++ [c]) ++ rs) by (by rewrite <- app_assoc). apply IH. rewrite encode_app, zlen_app. unfold rune_len in Ha. cbn [encode flat_map]. by rewrite app_nil_r.
Qed.
Section order.
Context (rs : list Z) (Hrs : scalars rs).
Definition placed (x : psplit) : Prop := sits rs (sp_ns x) ∧ ok_tokens x.
Definition ordered (l : list psplit) : Prop := Forall placed l ∧ StronglySorted (ahead rs) (map sp_ns l).
Definition block (x : psplit) (xs : list psplit) : Prop :=
  StronglySorted (ahead rs) (map sp_ns xs) ∧ Forall (λ y, inside rs (sp_ns y) (sp_ns x) ∧ ok_tokens y) xs.
Definition refines (l l' : list psplit) : Prop := ∃ bs, Forall2 block l bs ∧ l' = concat bs.

Lemma refines_nil : refines [] [].
Proof. by exists []. Qed.
Lemma refines_app x xs l l' : block x xs → refines l l' → refines (x :: l) (xs ++ l').
Proof. intros H (bs & H1 & ->). exists (xs :: bs). split; [by constructor|done]. Qed.
Lemma block_one x y : inside rs (sp_ns y) (sp_ns x) → ok_tokens y → block x [y].
Proof. intros H1 H2. split; [repeat constructor|]. by constructor. Qed.
Lemma inside_refl n : sits rs n → inside rs n n.
Proof. intros (H1 & _ & H2). split; [done|]. split; [done|]. split; [done|]. lia. Qed.
Lemma refines_ordered l l' : ordered l → refines l l' → ordered l'.
Proof using Hrs.
  intros [H1 H2] (bs & Hb & ->).
  assert (Hin : ∀ l bs, Forall2 block l bs → ∀ y, y ∈ concat bs → ∃ x, x ∈ l ∧ inside rs (sp_ns y) (sp_ns x) ∧ ok_tokens y).
  { clear. induction 1 as [|x xs l bs [_ Hx] _ IH]; intros y Hy; [by apply elem_of_nil in Hy|]. cbn [concat] in Hy. apply elem_of_app in Hy as [Hy|Hy].
    - rewrite Forall_forall in Hx. exists x. split; [left|by apply Hx].
    - destruct (IH y Hy) as (z & Hz & ?). exists z. split; [by right|done]. }
  split.
  - apply Forall_forall. intros y Hy. destruct (Hin l bs Hb y Hy) as (x & Hx & Hi & Ht). rewrite Forall_forall in H1. destruct (H1 x Hx) as (H3 & _).
    split; [|done]. by eapply inside_sits.
  - clear H1. induction Hb as [|x xs l bs [Hs Hx] Hb IH]; [constructor|]. cbn [concat map] in *. rewrite map_app. apply StronglySorted_inv in H2 as [H2 H3].
    apply SS_app. split; [done|]. split; [by apply IH|]. intros n m (y & -> & Hy)%elem_of_list_fmap (z & -> & Hz)%elem_of_list_fmap.
    rewrite Forall_forall in Hx. destruct (Hx y Hy) as [Iy _]. destruct (Hin _ _ Hb z Hz) as (w & Hw & Iz & _).
    rewrite Forall_forall in H3. destruct (H3 (sp_ns w)) as [B1 B2]; [by apply elem_of_list_fmap_1|]. split.
    + intros a b Ha Hb'. apply B1; [by apply Iy|by apply Iz].
    + by eapply in_turn_parts.
Qed.
Lemma refines_same l : Forall placed l → refines l l.
Proof. induction 1 as [|x l [H1 H2] _ IH]; [apply refines_nil|]. apply (refines_app x [x]); [|done]. apply block_one; [by apply inside_refl|done]. Qed.
Lemma ok_untokenized n : ok_tokens (PSplit n None).
Proof. intros ts. done. Qed.

Definition tame_split (n n' : ns) (r : result (list psplit)) : Prop :=
  inside rs n' n ∧ ∀ items, r = Ok items → StronglySorted (λ x y, ns_norm x ≠ [] → ns_norm y ≠ [] → ahead rs x y) (map sp_ns items)
    ∧ Forall (λ y, (ns_norm (sp_ns y) ≠ [] → inside rs (sp_ns y) n) ∧ sp_tokens y = None) items.
Lemma nonempty_norm n : negb (ns_is_empty n) → ns_norm n ≠ [].
Proof. unfold ns_is_empty. intros H E. by rewrite E in H. Qed.

Section loops.
  Context {St : Type}.
  Lemma split_loop_refines (f : split_func St) st i l st' old new :
    (∀ st i n st' n' r, sits rs n → f st i n = Ret (st', n', r) → tame_split n n' r) →
    split_loop f st i l = Ret (st', old, new) → Forall placed l →
    refines l old ∧ ∀ out, new = Ok out → refines l out.
  Proof.
    intros Hf. revert st i st' old new. induction l as [|[n [ts|]] l IH]; intros st i st' old new H Hl; cbn [split_loop sp_tokens sp_ns] in H.
    - injection H as <- <- <-. split; [apply refines_nil|]. intros out [= <-]. apply refines_nil.
    - apply Forall_cons in Hl as [[Hn Ht] Hl]. apply bind_Ret in H as ([[s old1] new1] & E & H). injection H as <- <- <-. destruct (IH _ _ _ _ _ E Hl) as [H1 H2].
      assert (block (PSplit n (Some ts)) [PSplit n (Some ts)]) by (apply block_one; [by apply inside_refl|done]).
      split; [by apply (refines_app _ [_])|]. destruct new1 as [out|]; [|done]. intros ? [= <-]. apply (refines_app _ [_]); auto.
    - apply Forall_cons in Hl as [[Hn Ht] Hl]. cbn [sp_ns] in Hn. apply bind_Ret in H as ([[st1 n1] r] & Ef & H). destruct (Hf _ _ _ _ _ _ Hn Ef) as [H1 H2].
      assert (block (PSplit n None) [PSplit n1 None]) by (apply block_one; [done|apply ok_untokenized]).
      destruct r as [items|er].
      + apply bind_Ret in H as ([[s old1] new1] & E & H). injection H as <- <- <-. destruct (IH _ _ _ _ _ E Hl) as [H3 H4]. split; [by apply (refines_app _ [_])|].
        destruct new1 as [out|]; [|done]. intros ? [= <-]. apply refines_app; [|auto]. destruct (H2 items eq_refl) as [H5 H6]. clear -H5 H6. split.
        * clear H6. induction items as [|x items IH]; [constructor|]. cbn [map] in H5. apply StronglySorted_inv in H5 as [H5 H6]. rewrite filter_cons.
          destruct (decide _) as [Hx|]; [|by apply IH]. cbn [map]. constructor; [by apply IH|]. rewrite Forall_forall in H6 |- *. intros m (y & -> & Hy)%elem_of_list_fmap. apply elem_of_list_filter in Hy as [Hy1 Hy].
          apply H6; [by apply elem_of_list_fmap_1|by apply nonempty_norm..].
        * rewrite Forall_forall in H6 |- *. intros y Hy. apply elem_of_list_filter in Hy as [Hy1 Hy]. destruct (H6 y Hy) as [H7 H8]. split; [by apply H7, nonempty_norm|]. intros ts. by rewrite H8.
      + injection H as <- <- <-. split; [|done]. apply (refines_app _ [_]); [done|by apply refines_same].
  Qed.
  Lemma normalize_loop_refines (f : St → ns → outcome (St * ns * option err)) st l st' out e :
    (∀ st n st' n' r, sits rs n → f st n = Ret (st', n', r) → inside rs n' n) →
    normalize_loop f st l = Ret (st', out, e) → Forall placed l → refines l out.
  Proof.
    intros Hf. revert st st' out e. induction l as [|[n [ts|]] l IH]; intros st st' out e H Hl; cbn [normalize_loop sp_tokens sp_ns] in H.
    - injection H as <- <- <-. apply refines_nil.
    - apply Forall_cons in Hl as [[Hn Ht] Hl]. apply bind_Ret in H as ([[s old1] new1] & E & H). injection H as <- <- <-.
      apply (refines_app _ [_]); [|by eapply IH]. apply block_one; [by apply inside_refl|done].
    - apply Forall_cons in Hl as [[Hn Ht] Hl]. cbn [sp_ns] in Hn. apply bind_Ret in H as ([[st1 n1] r] & Ef & H). pose proof (Hf _ _ _ _ _ Hn Ef) as H1.
      assert (block (PSplit n None) [PSplit n1 None]) by (apply block_one; [done|apply ok_untokenized]).
      destruct r as [er|].
      + injection H as <- <- <-. apply (refines_app _ [_]); [done|by apply refines_same].
      + apply bind_Ret in H as ([[s old1] new1] & E & H). injection H as <- <- <-. apply (refines_app _ [_]); [done|by eapply IH].
  Qed.
  Lemma tokenize_loop_refines (f : St → ns → outcome (St * ns * result (list token))) st l st' out e :
    (∀ st n st' n' r, sits rs n → f st n = Ret (st', n', r) → inside rs n' n ∧ ∀ ts, r = Ok ts → in_turn (ns_norm n') ts) →
    tokenize_loop f st l = Ret (st', out, e) → Forall placed l → refines l out.
  Proof.
    intros Hf. revert st st' out e. induction l as [|[n [ts|]] l IH]; intros st st' out e H Hl; cbn [tokenize_loop sp_tokens sp_ns] in H.
    - injection H as <- <- <-. apply refines_nil.
    - apply Forall_cons in Hl as [[Hn Ht] Hl]. apply bind_Ret in H as ([[s old1] new1] & E & H). injection H as <- <- <-.
      apply (refines_app _ [_]); [|by eapply IH]. apply block_one; [by apply inside_refl|done].
    - apply Forall_cons in Hl as [[Hn Ht] Hl]. cbn [sp_ns] in Hn. apply bind_Ret in H as ([[st1 n1] r] & Ef & H). destruct (Hf _ _ _ _ _ Hn Ef) as [H1 H2].
      destruct r as [ts|er].
      + apply bind_Ret in H as ([[s old1] new1] & E & H). injection H as <- <- <-. apply (refines_app _ [_]); [|by eapply IH].
        apply block_one; [done|]. intros ts' [= <-]. by apply H2.
      + injection H as <- <- <-. apply (refines_app _ [_]); [|by apply refines_same]. apply block_one; [done|apply ok_untokenized].
  Qed.
End loops.

Lemma ordered_loops l : ordered l → Forall placed l.
Proof. by intros [H _]. Qed.
Lemma run_split_ordered f p p' e : (∀ n n' r, sits rs n → f n = Ret (n', r) → tame_split n n' r) →
  ordered (p_splits p) → run_split f p = Ret (p', e) → ordered (p_splits p').
Proof using Hrs.
  intros Hf Ho H. unfold run_split in H. apply bind_Ret in H as ([[u p1] e1] & H & E). injection E as <- <-. unfold pts_split in H.
  apply bind_Ret in H as ([[s old] new] & H & E).
  destruct (split_loop_refines (stateless f) tt 0 _ _ _ _ ltac:(intros ? ? n ? n' r Hn Hx; unfold stateless in Hx; apply bind_Ret in Hx as ([n1 r1] & Hx & Hy); injection Hy as _ <- <-; by eapply Hf) H (ordered_loops _ Ho)) as [H1 H2].
  destruct new as [out|er]; injection E as <- <- <-; cbn [p_splits]; (eapply refines_ordered; [exact Ho|]); auto.
Qed.

(** ** Pre-tokenizers *)
Lemma sits_tame n n' : sits rs n → tame n n' → inside rs n' n.
Proof. intros (_ & _ & H). by apply tame_inside. Qed.
Lemma split_by_tame p b n n' r : covering p → sits rs n → split_by p b n = Ret (n', r) → tame_split n n' r.
Proof using Hrs.
  intros Hp Hw H. unfold split_by in H. apply bind_Ret in H as (x & Hx & H). injection H as <- <-. split; [by apply inside_refl|]. intros items E. pose proof Hw as Hsit. destruct Hw as [Hw _].
  destruct x as [ps|]; [|done]. injection E as <-. pose proof Hw as (v & (Hs & Hn & _) & _).
  destruct (p (ns_norm n)) as [[cs|er]|] eqn:Ep; [|unfold split in Hx; by rewrite Ep in Hx..].
  destruct (split_ordered rs n p b cs ps Hrs Hsit Ep) as [H1 H2]; [rewrite Hn in Ep |- *; by apply Hp|done|].
  unfold splits_from_ns. rewrite map_map. cbn [sp_ns]. rewrite map_id. split; [done|]. apply Forall_fmap. eapply Forall_impl; [exact H2|]. done.
Qed.
Lemma tame_split_after n m n' r : inside rs m n → tame_split m n' r → tame_split n n' r.
Proof using Hrs.
  intros H1 [H2 H3]. split; [by eapply inside_trans|]. intros items E. destruct (H3 items E) as [H4 H5]. split; [done|].
  eapply Forall_impl; [exact H5|]. intros y [Hy ?]. split; [|done]. intros Hne. eapply inside_trans; [by apply Hy|done].
Qed.
Lemma metaspace_split_tame c prefix n n' r : sits rs n → metaspace_split c prefix n = Ret (n', r) → tame_split n n' r.
Proof using Hrs.
  intros Hw H. unfold metaspace_split in H. apply bind_Ret in H as (n1 & H1 & H). apply bind_Ret in H as (x & Hx & H).
  assert (tame n n1) as T1. { destruct (_ && _); [|injection H1 as <-; by apply tame_refl, Hw]. eapply prepend_tame; [apply Hw| |exact H1]. apply encode_rune_ne. }
  destruct x as [n2|er].
  - eapply tame_split_after; [|eapply split_by_tame; [apply rune_covering| |exact H]].
    + apply sits_tame; [done|]. eapply tame_trans; [exact T1|]. by eapply replace_spaces_tame; [apply T1|].
    + eapply inside_sits; [|exact Hw]. apply sits_tame; [done|]. eapply tame_trans; [exact T1|]. by eapply replace_spaces_tame; [apply T1|].
  - injection H as <- <-. split; [by apply sits_tame|done].
Qed.
Lemma byte_level_split_tame engine prefix n n' r : sound_engine engine → sits rs n → byte_level_split engine prefix n = Ret (n', r) → tame_split n n' r.
Proof using Hrs.
  intros He Hw H. unfold byte_level_split in H. apply bind_Ret in H as (n1 & H1 & H).
  assert (tame n n1) as T1. { destruct (_ && _); [|injection H1 as <-; by apply tame_refl, Hw]. by eapply prepend_tame; [apply Hw| |exact H1]. }
  eapply tame_split_after; [by apply sits_tame|]. eapply split_by_tame; [by apply regexp2_covering| |exact H]. eapply inside_sits; [|exact Hw]. by apply sits_tame.
Qed.
Lemma lib_pre_ordered pre p p' e : lib_pretokenizer sound_engine pre → ordered (p_splits p) → pre p = Ret (p', e) → ordered (p_splits p').
Proof using Hrs.
  intros Hp Ho H. destruct Hp as [|c|engine He|u|c prefix|engine prefix He].
  - eapply run_split_ordered; [|exact Ho|exact H]. intros. by eapply split_by_tame; [apply func_covering|..].
  - eapply run_split_ordered; [|exact Ho|exact H]. intros. by eapply split_by_tame; [apply rune_covering|..].
  - eapply run_split_ordered; [|exact Ho|exact H]. intros. by eapply split_by_tame; [apply invert_covering, regexp2_covering|..].
  - unfold bert_pretokenizer in H. apply bind_Ret in H as ([p1 e1] & H1 & H).
    assert (ordered (p_splits p1)) as Ho1. { eapply run_split_ordered; [|exact Ho|exact H1]. intros. by eapply split_by_tame; [apply func_covering|..]. }
    destruct e1; [by injection H as <- <-|]. eapply run_split_ordered; [|exact Ho1|exact H]. intros. by eapply split_by_tame; [apply func_covering|..].
  - eapply run_split_ordered; [|exact Ho|exact H]. intros. by eapply metaspace_split_tame.
  - unfold byte_level in H. apply bind_Ret in H as ([p1 e1] & H1 & H).
    assert (ordered (p_splits p1)) as Ho1. { eapply run_split_ordered; [|exact Ho|exact H1]. intros. by eapply byte_level_split_tame. }
    destruct e1; [by injection H as <- <-|]. apply bind_Ret in H as ([[u p2] e2] & H & E). injection E as <- <-. unfold pts_normalize in H.
    apply bind_Ret in H as ([[st l] er] & H & E). injection E as <- <- <-. cbn [p_splits]. eapply refines_ordered; [exact Ho1|].
    eapply normalize_loop_refines; [|exact H|by eapply ordered_loops]. intros ? n ? n' ? Hn Hx. apply bind_Ret in Hx as (m & Hm & Hx). injection Hx as _ <- _. apply sits_tame; [done|]. eapply byte_level_normalize_tame; [apply Hn|done].
Qed.

(** ** Histories *)
Lemma lib_step_ordered p p' : ordered (p_splits p) → lib_step sound_engine orderly p p' → ordered (p_splits p').
Proof using Hrs.
  intros Ho [pre p1 e Hp H|nz p1 e Hn H|model k k' p1 e Hm H].
  - by eapply lib_pre_ordered.
  - unfold normalize_with in H. apply bind_Ret in H as ([[u p2] e2] & H & E). injection E as <- <-. unfold pts_normalize in H.
    apply bind_Ret in H as ([[st l] er] & H & E). injection E as <- <- <-. cbn [p_splits fst snd]. eapply refines_ordered; [exact Ho|].
    eapply normalize_loop_refines; [|exact H|by eapply ordered_loops]. intros ? n ? n' ? Hw Hx. apply bind_Ret in Hx as ([m em] & Hx & E). injection E as _ <- _. apply sits_tame; [done|]. eapply lib_tame; [done|apply Hw|done].
  - unfold pts_tokenize in H. apply bind_Ret in H as ([[st l] er] & H & E). injection E as <- <- <-. cbn [p_splits]. eapply refines_ordered; [exact Ho|].
    eapply tokenize_loop_refines; [|exact H|by eapply ordered_loops]. intros k0 n ? n' ? Hw Hx. unfold calling in Hx. apply bind_Ret in Hx as (r1 & Hx & E). injection E as _ <- <-.
    split; [by apply inside_refl|]. intros ts ->. destruct Hw as ((v & (Hs & Hn & _) & _) & _). rewrite Hn in Hx |- *. by eapply Hm.
Qed.
Lemma start_ordered : ordered (p_splits (pts_from_string (encode rs))).
Proof using Hrs.
  split; [|repeat constructor]. constructor; [|done]. split; [|apply ok_untokenized]. cbn [sp_ns]. split; [eexists; by apply from_string_wf|]. split.
  2:{ unfold fits, range_of. cbn [from_string ns_shift ns_orig fst snd]. rewrite Z.add_0_l. split; [exists [], rs; split_and!; [constructor|done..]|]. split; [by apply boundary_len|].
      clear. destruct rs as [|r l]; [by left|right]. cbn [encode flat_map]. rewrite zlen_app. fold (rune_len r). pose proof (rune_len_bounds r). pose proof (zlen_nonneg (flat_map encode_rune l)). lia. }
  intros a Ha. apply (abs_in _ _ _ (from_string_repr rs Hrs)) in Ha as (b & Hb & ->). cbn [from_string ns_shift]. rewrite !Z.add_0_r. rewrite <- surjective_pairing. by apply (fresh_one_char []).
Qed.
Lemma lib_made_ordered p : lib_made sound_engine orderly rs p → ordered (p_splits p).
Proof using Hrs.
  intros H. apply lib_made_first in H; [|done]. remember (pts_from_string (encode rs)) as p0 eqn:E0.
  assert (ordered (p_splits p0)) as Ho by (subst; by apply start_ordered). clear E0. induction H as [|a b c Hab _ IH]; [done|]. apply IH. by eapply lib_step_ordered.
Qed.

End order.

(** ** The offsets of the tokens *)
Definition follows (x y : Z * ns * token) : Prop := ∀ l f,
  idx (ns_al x.1.2) (o_end (t_offsets x.2) - 1) = Ret l → idx (ns_al y.1.2) (o_start (t_offsets y.2)) = Ret f →
  before (l.1 + ns_shift x.1.2, l.2 + ns_shift x.1.2) (f.1 + ns_shift y.1.2, f.2 + ns_shift y.1.2).
Lemma all_tokens_in i l x : x ∈ all_tokens i l → ∃ sp ts, sp ∈ l ∧ sp_tokens sp = Some ts ∧ x.1.2 = sp_ns sp ∧ x.2 ∈ ts.
Proof.
  revert i. induction l as [|sp l IH]; intros i H; cbn [all_tokens] in H; [by apply elem_of_nil in H|]. apply elem_of_app in H as [H|H].
  - apply elem_of_list_fmap in H as (t & -> & Ht). destruct (sp_tokens sp) as [ts|] eqn:E; [|by apply elem_of_nil in Ht]. exists sp, ts. split; [left|]. done.
  - destruct (IH _ H) as (sp' & ts & ? & ?). exists sp', ts. split; [by right|done].
Qed.
Lemma before_shift a b d : before a b → before (a.1 + d, a.2 + d) (b.1 + d, b.2 + d).
Proof. intros [->|H]; [by left|right; cbn; lia]. Qed.
Lemma all_tokens_follow rs i l : ordered rs l → StronglySorted follows (all_tokens i l).
Proof.
  revert i. induction l as [|sp l IH]; intros i [H1 H2]; cbn [all_tokens]; [constructor|]. apply Forall_cons in H1 as [((Hw & _) & Ht) H1].
  cbn [map] in H2. apply StronglySorted_inv in H2 as [H2 H3]. apply SS_app. split; [|split; [by apply IH|]].
  - destruct (sp_tokens sp) as [ts|] eqn:E; [|constructor]. cbn [default]. destruct (Ht ts E) as [Hr Hs]. apply wf_invariants in Hw as (_ & _ & _ & _ & Hm & _).
    clear -Hr Hs Hm. induction ts as [|t ts IH]; [constructor|]. apply StronglySorted_inv in Hs as [Hs Hf]. apply Forall_cons in Hr as [Hr0 Hr]. cbn [map]. constructor; [by apply IH|].
    rewrite Forall_forall in Hf. apply Forall_forall. intros y (u & -> & Hu)%elem_of_list_fmap. intros a b Ha Hb. cbn [fst snd] in *. apply before_shift.
    eapply (Hm (o_end (t_offsets t) - 1) (o_start (t_offsets u)) a b); [|exact Ha|exact Hb]. specialize (Hf u Hu). lia.
  - intros x y (t & -> & Htk)%elem_of_list_fmap Hy. intros a b Ha Hb. cbn [fst snd] in *. apply all_tokens_in in Hy as (sp' & ts & Hsp & _ & Ey & _). rewrite Ey in *.
    rewrite Forall_forall in H3. eapply (proj1 (H3 (sp_ns sp') ltac:(by apply elem_of_list_fmap_1))); unfold abs_al.
    + apply elem_of_list_fmap. exists a. split; [done|]. by eapply idx_elem.
    + apply elem_of_list_fmap. exists b. split; [done|]. by eapply idx_elem.
Qed.
Lemma least_ends n s e a b : wf n → 0 <= s → s < e → e <= zlen (ns_norm n) → least_span n s e a b →
  ∃ f l, idx (ns_al n) s = Ret f ∧ idx (ns_al n) (e - 1) = Ret l ∧ a = f.1 ∧ b = l.2 ∧ f.1 <= l.1 ∧ f.2 <= l.2.
Proof.
  intros Hw H1 H2 H3 [L1 L2]. apply wf_invariants in Hw as (_ & _ & Hz & Hin & Hm & _).
  destruct (idx_total (ns_al n) s) as [f Hf]; [lia|]. destruct (idx_total (ns_al n) (e - 1)) as [l Hl]; [lia|]. exists f, l. split; [done|]. split; [done|].
  destruct (L1 s f ltac:(lia) Hf) as [A1 _]. destruct (L1 (e - 1) l ltac:(lia) Hl) as [_ A2].
  destruct (Hin _ _ Hf) as (F1 & _). destruct (Hin _ _ Hl) as (F2 & _).
  destruct (L2 f.1 l.2) as [B1 B2].
  { intros k x Hk Hx. destruct (Hin _ _ Hx) as (F3 & _). destruct (Hm s k f x) as [->|?]; [lia|done..| |]; (destruct (Hm k (e - 1) x l) as [E|?]; [lia|done..| |]); try subst; lia. }
  split; [lia|]. split; [lia|]. destruct (Hm s (e - 1) f l) as [->|?]; [lia|done..|lia|lia].
Qed.
Lemma places_in_turn rs root xs os : Forall2 (λ x o, token_place root x.1.2 x.2 o) xs os →
  Forall (λ x, wf x.1.2 ∧ token_in x.1.2 x.2 ∧ ∀ a, a ∈ abs_al x.1.2 → one_char rs a) xs → StronglySorted follows xs →
  StronglySorted (λ o o', in_turn_but_one rs (o_start o, o_end o) (o_start o', o_end o')) os.
Proof.
  intros H. induction H as [|x o xs os Hx H IH]; intros Hall Hs; [constructor|]. apply Forall_cons in Hall as [(Hw & (T1 & T2 & T3) & Hone) Hall]. apply StronglySorted_inv in Hs as [Hs Hf].
  constructor; [by apply IH|]. clear IH Hs. destruct Hx as (a & b & _ & -> & Hl & _). destruct (least_ends _ _ _ _ _ Hw T1 T2 T3 Hl) as (f & l & Ef & El & -> & -> & F1 & F2).
  induction H as [|y o ys os Hy H IH]; [constructor|]. apply Forall_cons in Hall as [(Hw' & (U1 & U2 & U3) & _) Hall]. apply Forall_cons in Hf as [Hf0 Hf]. constructor; [|by apply IH].
  destruct Hy as (a' & b' & _ & -> & Hl' & _). destruct (least_ends _ _ _ _ _ Hw' U1 U2 U3 Hl') as (f' & l' & Ef' & El' & -> & -> & G1 & G2). unfold in_turn_but_one. cbn [o_start o_end fst snd].
  destruct (Hf0 l f' El Ef') as [E|E]; cbn [fst snd] in E; [|left; lia]. injection E as E1 E2. right. split; [lia|]. split; [lia|].
  replace (ns_shift y.1.2 + f'.1) with (l.1 + ns_shift x.1.2) by lia. replace (ns_shift x.1.2 + l.2) with (l.2 + ns_shift x.1.2) by lia.
  apply Hone. unfold abs_al. apply elem_of_list_fmap. exists l. split; [done|]. by eapply idx_elem.
Qed.

Lemma place_bounds rs root n t o : scalars rs → wf n → token_in n t → (∀ a, a ∈ abs_al n → one_char rs a) → token_place root n t o →
  o_start o < o_end o ∧ boundary (encode rs) (o_start o) ∧ boundary (encode rs) (o_end o).
Proof.
  intros Hs Hw (T1 & T2 & T3) Hone (a & b & _ & -> & Hl & _). destruct (least_ends _ _ _ _ _ Hw T1 T2 T3 Hl) as (f & l & Ef & El & -> & -> & F1 & F2). cbn [o_start o_end].
  assert (∀ k x, idx (ns_al n) k = Ret x → one_char rs (x.1 + ns_shift n, x.2 + ns_shift n)) as H.
  { intros k x Hx. apply Hone. unfold abs_al. apply elem_of_list_fmap. exists x. split; [done|]. by eapply idx_elem. }
  apply H, one_char_bounds in Ef as (G1 & G2 & G3); [|done]. apply H, one_char_bounds in El as (L1 & L2 & L3); [|done]. cbn [fst snd] in *.
  rewrite !(Z.add_comm (ns_shift n)). split; [lia|done].
Qed.
Lemma made_in_turn rs p wi ty : scalars rs → lib_made sound_engine orderly rs p →
  (Exists (λ x, sp_tokens x = None) (p_splits p) ∧ into_encoding p wi ty = Ret (Err ENotTokenized))
  ∨ ∃ e, into_encoding p wi ty = Ret (Ok e)
       ∧ StronglySorted (λ o o', in_turn_but_one rs (o_start o, o_end o) (o_start o', o_end o')) (e_offsets e)
       ∧ Forall (λ o, o_start o < o_end o ∧ boundary (encode rs) (o_start o) ∧ boundary (encode rs) (o_end o)) (e_offsets e).
Proof.
  intros Hs Hm. pose proof (lib_made_ordered rs Hs p Hm) as Ho. apply lib_made_reachable in Hm; [|done].
  destruct (decide (Forall (λ x, is_Some (sp_tokens x)) (p_splits p))) as [Ht|Ht].
  - right. destruct (C52_offsets p wi ty) as (e & He & Hp); [by exists rs|..].
    { destruct Ho as [Ho _]. rewrite Forall_forall in Ht, Ho |- *. intros x Hx. destruct (Ht x Hx) as [ts Hts]. exists ts. split; [done|].
      destruct (Ho x Hx) as (_ & Hok). apply (Hok ts Hts). }
    assert (Forall (λ x, wf x.1.2 ∧ token_in x.1.2 x.2 ∧ ∀ a, a ∈ abs_al x.1.2 → one_char rs a) (all_tokens 0 (p_splits p))) as Hall.
    { apply Forall_forall. intros x Hx. apply all_tokens_in in Hx as (sp & ts & Hsp & Hts & -> & Hin). destruct Ho as [Ho _]. rewrite Forall_forall in Ho.
      destruct (Ho sp Hsp) as ((H1 & H2 & _) & H3). split; [done|]. split; [|done]. destruct (H3 ts Hts) as [H4 _]. rewrite Forall_forall in H4. by apply H4. }
    exists e. split; [done|]. split; [by eapply places_in_turn, all_tokens_follow|].
    apply Forall_forall. intros o (k & Hk)%elem_of_list_lookup. destruct (Forall2_lookup_r _ _ _ _ _ Hp Hk) as (x & Hx & Hpl). rewrite Forall_forall in Hall.
    destruct (Hall x) as (H1 & H2 & H3); [by eapply elem_of_list_lookup_2|]. by eapply place_bounds.
  - left. assert (Exists (λ x, sp_tokens x = None) (p_splits p)) as Hex.
    { apply not_Forall_Exists in Ht; [|apply _]. eapply Exists_impl; [exact Ht|]. intros x Hx. cbn in Hx. by apply eq_None_not_Some. }
    split; [done|]. unfold into_encoding. destruct (Z.eqb_spec (zlen (p_splits p)) 0) as [Hz|Hz].
    { destruct (p_splits p); [by apply Exists_nil in Hex|]. unfold zlen in Hz; cbn in Hz; lia. }
    destruct (all_have_tokens (p_splits p)) eqn:E; [|done]. apply all_have_tokens_spec in E. by destruct Ht.
Qed.

(** ** The models *)
Lemma tile_sorted i toks len : toks_tile i toks len → i <= len ∧ Forall (λ t, i <= o_start (t_offsets t) ∧ o_start (t_offsets t) < o_end (t_offsets t) ∧ o_end (t_offsets t) <= len) toks
  ∧ StronglySorted (λ t u, o_end (t_offsets t) <= o_start (t_offsets u)) toks.
Proof.
  revert i. induction toks as [|t toks IH]; intros i H; cbn [toks_tile] in H; [split; [lia|split; constructor]|]. destruct H as (H1 & H2 & H3).
  destruct (IH _ H3) as (H4 & H5 & H6). split; [lia|]. split.
  - constructor; [lia|]. eapply Forall_impl; [exact H5|]. cbn. lia.
  - constructor; [done|]. eapply Forall_impl; [exact H5|]. cbn. lia.
Qed.
Lemma tile_in_turn s toks len : toks_tile 0 toks len → len <= zlen s → in_turn s toks.
Proof. intros H Hl. apply tile_sorted in H as (_ & H1 & H2). split; [|done]. eapply Forall_impl; [exact H1|]. cbn. lia. Qed.
Lemma known_bytes_le m rs : known_bytes (char_classes m rs) <= zlen (encode rs).
Proof.
  unfold char_classes. generalize (char_terms (b_prefix m) (b_suffix m) rs). induction rs as [|r rs IH]; intros ts; [by destruct ts|].
  cbn [encode flat_map]. rewrite zlen_app. fold (rune_len r). pose proof (rune_len_bounds r). destruct ts as [|t ts]; cbn [zip_with known_bytes foldr fst snd].
  - pose proof (zlen_nonneg (flat_map encode_rune rs)). lia.
  - specialize (IH ts). unfold known_bytes, encode in IH. destruct (get_id _ _); lia.
Qed.
Lemma bpe_orderly m draws : orderly (bpe_model m draws).
Proof.
  intros k rs toks Hs H. unfold bpe_model, finished in H. destruct (bpe_tokenize m (encode rs) (draws k)) as [o|] eqn:E; [|done]. subst o.
  destruct (decide (b_unk m = [])) as [Hu|Hu].
  - eapply tile_in_turn; [by eapply C38_known_exact|]. rewrite runes_encode_scalars by done. apply known_bytes_le.
  - eapply tile_in_turn; [|apply Z.le_refl]. eapply C38_offsets_partial; [apply valid_utf8_encode|by left|exact E].
Qed.
Lemma wp_orderly m : orderly (wp_model m) ↔ 0 <= w_max m ∨ get_id (w_vocab m) (w_unk m) = None.
Proof.
  split.
  - intros H. destruct (decide (0 <= w_max m)) as [|Hm]; [by left|]. right. destruct (get_id (w_vocab m) (w_unk m)) as [i|] eqn:E; [|done]. exfalso.
    destruct (C45_too_long m []) as (res & E1 & [(i' & E2 & ->)|[E2 _]]); [by apply Forall_nil|by change (w_max m < 0); lia| |congruence].
    specialize (H O [] [Token i' (w_unk m) (Offsets 0 0)] ltac:(constructor)). cbn [encode flat_map] in H. unfold wp_model, finished in H. rewrite E1 in H.
    destruct (H eq_refl) as [H1 _]. apply Forall_cons in H1 as [H1 _]. cbn in H1. lia.
  - intros Hm k rs toks Hs H. unfold wp_model, finished in H. destruct (C43_tokens_tile m (encode rs) (encode_bytes rs)) as (res & E & Hr). rewrite E in H. injection H as ->.
    destruct Hr as [[(i & Hi & [= ->])|[_ ?]]|(toks' & [= <-] & Ht & _)]; [|done|by eapply tile_in_turn, Z.le_refl].
    destruct Hm as [Hm|?]; [|congruence]. destruct (decide (rs = [])) as [->|Hne].
    + exfalso. cbn [encode flat_map] in E. unfold wp_tokenize in E. change (zlen (runes [])) with 0 in E. destruct (Z.ltb_spec (w_max m) 0); [lia|]. by vm_compute in E.
    + assert (0 < zlen (encode rs)). { destruct rs as [|r rs]; [done|]. cbn [encode flat_map]. rewrite zlen_app. fold (rune_len r). pose proof (rune_len_bounds r). pose proof (zlen_nonneg (flat_map encode_rune rs)). lia. }
      split; [|repeat constructor]. constructor; [|done]. cbn. lia.
Qed.
Lemma pieces_in_turn rs p : scalars rs → lib_made sound_engine orderly rs p →
  StronglySorted (λ o o', in_turn_but_one rs (o_start o, o_end o) (o_start o', o_end o')) (map bs_offsets (original_byte_splits p))
  ∧ Forall (λ o, boundary (encode rs) (o_start o) ∧ boundary (encode rs) (o_end o) ∧ (rs = [] ∨ o_start o < o_end o)) (map bs_offsets (original_byte_splits p)).
Proof.
  intros Hs Hm. destruct (lib_made_ordered rs Hs p Hm) as [H1 H2]. unfold original_byte_splits. rewrite map_map. cbn [bs_offsets]. split.
  - clear H1. induction (p_splits p) as [|x l IH]; [constructor|]. cbn [map] in *. apply StronglySorted_inv in H2 as [H2 H3]. constructor; [by apply IH|].
    rewrite Forall_forall in H3. apply Forall_forall. intros o (y & -> & Hy)%elem_of_list_fmap. apply (H3 (sp_ns y)). by apply elem_of_list_fmap_1.
  - apply Forall_fmap. eapply Forall_impl; [exact H1|]. intros x ((_ & _ & Hf) & _). exact Hf.
Qed.
