(** Proofs for C74: pre-tokenizing twice. *)
From Coq Require Import ZifyBool Sorted.
From stdpp Require Import relations list_numbers.
From Verif Require Import GoBase Utf8Facts Strutils SplitPattern NormString Bpe Encodings Normalizers PreTokString PreTokenizers Regex SpecText SpecNorm SpecSplit SpecHist SpecPts SpecPretok SpecNormalizers
  SliceFacts StrutilsFacts PatternFacts NormFacts NormInv NormReplace NormSlice NormSplit SplitExact RangeFacts NormEdits HistFacts PtsFacts PretokFacts ByteFacts EndFacts RegexFacts TwiceFacts PropsPretok.
Import GoBase NormString SpecNorm.
#[local] Open Scope Z_scope.

(** ** Pieces that fill their original text *)
Definition tight (n : ns) (v : atext) : Prop := wf_as n v ∧ v ≠ [] ∧ first_start v = 0 ∧ last_end v = zlen (ns_orig n).

Lemma shift_nil d v : shift_spans d v = [] → v = [].
Proof. by destruct v. Qed.
Lemma shift_fst d v : (shift_spans d v).*1 = v.*1.
Proof. induction v as [|x v IH]; [done|]. cbn. by f_equal. Qed.
Lemma shift_zero v : shift_spans 0 v = v.
Proof. induction v as [|[x [a b]] v IH]; [done|]. unfold shift_spans in *. cbn [map fst snd]. rewrite IH, !Z.add_0_r. done. Qed.

Lemma text_at_all s x : text_at s 0 (zlen s) x → x = s.
Proof.
  intros (a & b & -> & Ha & Hx). rewrite !zlen_app in Hx. pose proof (zlen_nonneg a). pose proof (zlen_nonneg b).
  destruct a as [|y a]; [|rewrite zlen_cons in *; pose proof (zlen_nonneg a); lia].
  destruct b as [|y b]; [by rewrite app_nil_r|]. rewrite zlen_cons in *. pose proof (zlen_nonneg b). lia.
Qed.

Lemma piece_tight n v1 t v2 n' : wf_as n (v1 ++ t ++ v2) → t ≠ [] → piece_of n t n' → tight n' (shift_spans (- first_start t) t).
Proof.
  intros Hwf Ht Hp. split; [by eapply piece_wf|]. split; [by intros ?%shift_nil|]. destruct Hp as (_ & Hp & _). destruct (Hp Ht) as [(a & b & _ & Ha & Hl) _].
  rewrite first_start_shift, last_end_shift by done. lia.
Qed.

Lemma tight_whole n v n' : tight n v → piece_of n v n' → n' = n.
Proof.
  intros (Hwf & Hne & Hf & Hl) (Hr & Hp & _). destruct (Hp Hne) as [Ht Hs]. rewrite Hf in *. rewrite Hl in Ht. apply text_at_all in Ht.
  cbn in Hr. rewrite shift_zero in Hr. eapply same_ns; [apply Hwf|done|]. split; [done|lia].
Qed.

(** ** Splitting them *)
Lemma split_whole n v (p : pattern) b m : tight n v → p (ns_norm n) = Ret (Ok [Capture 0 (zlen (ns_norm n)) m]) → kept b [m] →
  split n p b = Ret (Ok [n]).
Proof.
  intros Ht Hp Hk. pose proof Ht as (Hwf & Hne & _). pose proof Hwf as ((Hs & Hn & _) & _).
  set (segs := [(v, m)] : asegments). assert (E : place 0 (texts_of segs) = [Capture 0 (zlen (ns_norm n)) m]) by (cbn; by rewrite Hn).
  rewrite <- E in Hp. assert (Hcov : boundary_cover (ns_norm n) (place 0 (texts_of segs))).
  { apply (cover_segments n v); [apply Hwf|]. exists segs. split; [|done]. cbn. by rewrite app_nil_r. }
  destruct (split_exact _ _ _ b _ Hwf Hp Hcov) as (segs' & gs & H1 & H2 & [H3 H4] & H5).
  apply segs_unique in H2; [|cbn; by rewrite app_nil_r]. subst segs'.
  assert (gs = [segs]) as ->.
  { assert (Hg : ∀ g, g ∈ gs → g ≠ []).
    { intros g Hin ->. eapply (grouping_nonempty b _ []); [exact H4| |done]. apply elem_of_list_fmap. by exists []. }
    destruct gs as [|g gs]; [done|]. cbn [concat] in H3. destruct g as [|x g]; [by destruct (Hg []); [left|]|]. injection H3 as -> H3.
    apply app_nil in H3 as [-> H3]. destruct gs as [|[|y g'] gs]; [done| |done]. by destruct (Hg []); [right; left|]. }
  assert (Hkg : kept_groups b [segs] = [segs]).
  { unfold kept_groups. rewrite filter_cons, decide_True; [by rewrite filter_nil|]. done. }
  destruct H5 as [[_ H5]|[_ (ps & H5 & H6)]].
  - exfalso. destruct H5 as (g1 & g & g2 & E' & _ & Hg & _). destruct g1 as [|h g1]; [|by destruct g1]. injection E' as <- _. unfold group_text in Hg.
    cbn in Hg. by rewrite app_nil_r in Hg.
  - rewrite Hkg in H6. apply Forall2_cons_inv_l in H6 as (q & ps' & Hq & H6 & ->). apply Forall2_nil_inv_l in H6 as ->.
    rewrite H5. do 3 f_equal. unfold group_text in Hq. cbn in Hq. rewrite app_nil_r in Hq. by eapply tight_whole.
Qed.

(** What the pieces with text of a split are. *)
Lemma split_pieces n v (p : pattern) b cs items : wf_as n v → p (ns_norm n) = Ret (Ok cs) → boundary_cover (ns_norm n) cs →
  split n p b = Ret (Ok items) →
  ∃ segs gs, concat segs.*1 = v ∧ cs = place 0 (texts_of segs) ∧ grouped b segs gs
  ∧ Forall (λ q, ∃ g v', g ∈ kept_groups b gs ∧ v'.*1 = (group_text g).*1 ∧ tight q v') (base.filter (λ q, ns_norm q ≠ []) items).
Proof.
  intros Hwf Hp Hcov H. destruct (split_exact _ _ _ b _ Hwf Hp Hcov) as (segs & gs & H1 & H2 & H3 & H4). exists segs, gs. split_and!; [done..|].
  destruct H4 as [[H4 _]|[_ (ps & H4 & H5)]]; rewrite H4 in H; [done|]. injection H as ->.
  assert (Hsub : ∀ g, g ∈ kept_groups b gs → ∃ v1 v2, v = v1 ++ group_text g ++ v2).
  { intros g [_ (l & r & ->)%elem_of_list_split]%elem_of_list_filter. destruct H3 as [<- _]. exists (concat (concat l).*1), (concat (concat r).*1). rewrite <- H1.
    unfold group_text. rewrite concat_app. cbn [concat]. rewrite !fmap_app, !concat_app. done. }
  apply Forall_forall. intros q [Hq Hin]%elem_of_list_filter.
  apply elem_of_list_lookup in Hin as [i Hi]. destruct (Forall2_lookup_r _ _ _ _ _ H5 Hi) as (g & Hg & Hpc). apply elem_of_list_lookup_2 in Hg.
  exists g, (shift_spans (- first_start (group_text g)) (group_text g)). split; [done|]. split; [apply shift_fst|]. destruct (Hsub g Hg) as (v1 & v2 & Hv). rewrite Hv in Hwf.
  eapply piece_tight; [done| |done]. intros Hn. by apply Hq, (piece_norm_nil _ _ _ Hpc).
Qed.

(** ** Running a split function on the pieces it made *)
Lemma run_split_settled f p : Forall (λ x, sp_tokens x = None → ∃ n' items, f (sp_ns x) = Ret (n', Ok items) ∧ non_empty items = [PSplit (sp_ns x) None]) (p_splits p) →
  run_split f p = Ret (p, None).
Proof.
  intros H. unfold run_split, pts_split.
  assert (∀ i, ∃ old, split_loop (stateless f) tt i (p_splits p) = Ret (tt, old, Ok (p_splits p))) as Hl.
  { induction H as [|[n [ts|]] l Hx H IH]; intros i; [by exists []|..]; destruct (IH (i + 1)) as (old & E); cbn [split_loop sp_tokens sp_ns].
    - rewrite E. by eexists.
    - destruct (Hx eq_refl) as (n' & items & Hf & Hr). rewrite stateless_eq. cbn [sp_ns] in Hf. rewrite Hf. cbn [mbind outcome_bind fst snd].
      rewrite E. cbn [mbind outcome_bind]. rewrite non_empty_filter, Hr. by eexists. }
  destruct (Hl 0) as (old & E). rewrite E. by destruct p.
Qed.

Lemma run_split_gives f (P Q : ns → Prop) p p' :
  (∀ n n' items, P n → f n = Ret (n', Ok items) → Forall (λ x, sp_tokens x = None → Q (sp_ns x)) (non_empty items)) →
  Forall (λ x, sp_tokens x = None → P (sp_ns x)) (p_splits p) → run_split f p = Ret (p', None) →
  Forall (λ x, sp_tokens x = None → Q (sp_ns x)) (p_splits p').
Proof.
  intros Hf Hp H. unfold run_split, pts_split in H. apply bind_Ret in H as ([[st q] e] & H & E). injection E as -> ->.
  apply bind_Ret in H as ([[st' old] new] & H & E). destruct new as [l|e']; [|done]. injection E as _ <-. cbn [p_splits].
  revert H. generalize 0 at 1. intros i. revert i st' old l. induction Hp as [|[n [ts|]] sps Hx Hp IH]; intros i st' old l H; cbn [split_loop sp_tokens sp_ns] in H.
  - injection H as _ <- <-. constructor.
  - apply bind_Ret in H as ([[st1 old1] [l1|]] & H & E); [|done]. injection E as _ _ <-. constructor; [done|]. by eapply IH.
  - rewrite stateless_eq in H. apply bind_Ret in H as ([[st1 n1] r] & H & E). apply bind_Ret in H as ([n2 r2] & Hn & E2). injection E2 as <- <- <-. cbn [fst snd] in *. destruct r2 as [items|]; [|done].
    apply bind_Ret in E as ([[st3 old3] [l3|]] & H & E); [|done]. injection E as _ _ <-. rewrite non_empty_filter. apply Forall_app. split; [|by eapply IH].
    eapply Hf; [|exact Hn]. by apply Hx.
Qed.

(** ** Single characters and runs *)
Lemma func_pattern_run f rs : scalars rs → rs ≠ [] → Forall (λ r, f r = false) rs → func_pattern f (encode rs) = Ret (Ok [Capture 0 (zlen (encode rs)) false]).
Proof.
  intros Hs Hn Hf. destruct (func_pattern_spec f rs Hs) as (segs & H1 & H2 & H3). rewrite decide_False in H3 by done. rewrite H1.
  rewrite (rune_segmented_unique f segs [(rs, false)]); [done|done| |by rewrite H2; cbn; rewrite app_nil_r]. cbn. auto.
Qed.
Lemma func_pattern_one f c : scalar c = true → f c = true → func_pattern f (encode [c]) = Ret (Ok [Capture 0 (zlen (encode [c])) true]).
Proof.
  intros Hs Hf. assert (scalars [c]) as Hsc by (by constructor). destruct (func_pattern_spec f [c] Hsc) as (segs & H1 & H2 & H3). rewrite decide_False in H3 by done. rewrite H1.
  rewrite (rune_segmented_unique f segs [([c], true)]); [done|done| |by rewrite H2]. cbn. eauto.
Qed.

(** What a function pattern leaves: a single accepted character, unless they are removed, or a run of others. *)
Definition settled_by (f : Z → bool) (b : behaviour) (rs : list Z) : Prop :=
  Forall (λ r, f r = false) rs ∨ b = Isolated ∧ ∃ c, rs = [c] ∧ f c = true.

Lemma split_by_settled f b n v : tight n v → settled_by f b v.*1 →
  ∃ n' items, split_by (func_pattern f) b n = Ret (n', Ok items) ∧ non_empty items = [PSplit n None].
Proof.
  intros Ht Hset. pose proof Ht as (Hwf & Hne & _). pose proof Hwf as ((Hs & Hn & _) & _).
  assert (Hv : v.*1 ≠ []) by (by intros ?%fmap_nil_inv).
  assert (∃ m, func_pattern f (ns_norm n) = Ret (Ok [Capture 0 (zlen (ns_norm n)) m]) ∧ kept b [m]) as (m & Hp & Hk).
  { rewrite Hn. destruct Hset as [Hf|(-> & c & E & Hc)].
    - exists false. split; [by apply func_pattern_run|]. by destruct b.
    - exists true. rewrite E in *. split; [|done]. apply func_pattern_one; [|done]. by apply Forall_cons in Hs as [? _]. }
  exists n, (splits_from_ns [n]). unfold split_by. rewrite (split_whole n v _ b m Ht Hp Hk). split; [done|]. unfold splits_from_ns. cbn [map]. rewrite non_empty_cons.
  rewrite decide_True; [done|]. cbn [sp_ns]. rewrite Hn. destruct v as [|x v]; [done|]. cbn. pose proof (encode_pos x.1 v.*1) as He. intros E. cbn in He. by rewrite E in He.
Qed.

Lemma split_by_gives f b n n' items (R : list Z → Prop) : b = Removed ∨ b = Isolated → (∃ v, wf_as n v ∧ R v.*1) → (∀ x y z, R (x ++ y ++ z) → R y) →
  split_by (func_pattern f) b n = Ret (n', Ok items) →
  Forall (λ x, sp_tokens x = None → ∃ v, tight (sp_ns x) v ∧ settled_by f b v.*1 ∧ R v.*1) (non_empty items).
Proof.
  intros Hb (v & Hwf & HR) Hsub H. unfold split_by in H. apply bind_Ret in H as (r & H & E). destruct r as [l|e]; [|done]. injection E as _ <-.
  pose proof Hwf as ((Hs & Hn & _) & _). destruct (func_pattern_spec f v.*1 Hs) as (ss & H1 & H2 & H3).
  destruct (texts_of_inv v ss H2) as (segs & Hc & <-).
  assert (Hp : func_pattern f (ns_norm n) = Ret (Ok (place 0 (texts_of segs)))) by (by rewrite Hn).
  assert (Hcov : boundary_cover (ns_norm n) (place 0 (texts_of segs))) by (apply (cover_segments n v); [apply Hwf|by exists segs]).
  destruct (split_pieces _ _ _ b _ _ Hwf Hp Hcov H) as (segs' & gs & H4 & H5 & H6 & H7).
  apply segs_unique in H5; [|congruence]. subst segs'.
  unfold non_empty, splits_from_ns. rewrite Forall_forall. intros x [Hx Hin]%elem_of_list_filter _. apply elem_of_list_fmap in Hin as (q & -> & Hin). cbn [sp_ns] in *.
  rewrite Forall_forall in H7. destruct (H7 q) as (g & v' & Hg & Hv' & Ht); [by apply elem_of_list_filter|]. exists v'. split; [done|]. rewrite Hv'.
  unfold kept_groups in Hg. apply elem_of_list_filter in Hg as [Hk Hg]. destruct H6 as [H6 Hgr].
  assert (Hg1 : g.*2 = [true] ∨ g.*2 = [false]).
  { assert (Forall (λ g, g = [true] ∨ g = [false]) (map (λ g : asegments, g.*2) gs)) as Hgr' by (by destruct Hb as [->| ->]). rewrite Forall_map, Forall_forall in Hgr'. by apply Hgr'. }
  destruct g as [|[t m] [|]]; [by destruct Hg1| |by destruct Hg1]. unfold group_text. cbn [fmap list_fmap concat fst] in *. rewrite app_nil_r.
  apply elem_of_list_split in Hg as (g1 & g2 & ->). rewrite concat_app in H6. cbn [concat app] in H6. subst segs.
  split.
  - destruct (decide (v.*1 = [])) as [Hv|Hv].
    { exfalso. apply fmap_nil_inv in Hv. rewrite Hv in *. destruct Ht as (_ & Hne & _). apply Hne. unfold group_text in Hv'. cbn in Hv'. rewrite app_nil_r in Hv'.
      rewrite fmap_app, concat_app in Hc. apply app_nil in Hc as [_ Hc]. cbn in Hc. apply app_nil in Hc as [Hc _]. rewrite Hc in Hv'. by apply fmap_nil_inv in Hv'. }
    assert (match m with true => ∃ r, t.*1 = [r] ∧ f r = true | false => Forall (λ r, f r = false) t.*1 end) as Hm.
    { clear -H3. induction (concat g1) as [|[t' m'] l IH]; cbn in H3; [|by apply IH, H3]. destruct m; naive_solver. }
    destruct m; [|by left]. right. destruct Hb as [->| ->]; [done|]. split; [done|]. destruct Hm as (c & ? & ?). by exists c.
  - rewrite <- Hc in HR. rewrite fmap_app, concat_app in HR. cbn in HR. rewrite !fmap_app in HR. by eapply Hsub.
Qed.

Lemma tight_non_empty n v : tight n v → non_empty (splits_from_ns [n]) = [PSplit n None].
Proof.
  intros (Hwf & Hne & _). pose proof Hwf as ((_ & Hn & _) & _). unfold splits_from_ns. cbn [map]. rewrite non_empty_cons.
  rewrite decide_True; [done|]. cbn [sp_ns]. rewrite Hn. destruct v as [|x v]; [done|]. cbn. pose proof (encode_pos x.1 v.*1) as He. intros E. cbn in He. by rewrite E in He.
Qed.

(** ** The word regexp *)
Lemma covers_one len cs : 0 < len → covers 0 cs len → ranges_of true cs = [(0, len)] → Forall (λ c, c_match c = false → c_start c < c_end c) cs →
  cs = [Capture 0 len true].
Proof.
  intros Hl Hc Hr Hn. assert (Hge : ∀ i cs, covers i cs len → i <= len ∧ Forall (λ c, i <= c_start c) cs).
  { clear. intros i cs. revert i. induction cs as [|c cs IH]; intros i; cbn [covers]; [intros ->; split; [lia|constructor]|]. intros (H1 & H2 & H3).
    apply IH in H3 as [H3 H4]. split; [lia|]. constructor; [lia|]. eapply Forall_impl; [exact H4|]. cbn. lia. }
  destruct cs as [|[s e m] cs]; [done|]. cbn [covers c_start c_end] in Hc. destruct Hc as (-> & He & Hc). apply Forall_cons in Hn as [Hm Hn]. cbn in Hm.
  unfold ranges_of in Hr. rewrite filter_cons in Hr. cbn [c_match] in Hr. destruct m.
  - rewrite decide_True in Hr by done. cbn [map c_start c_end] in Hr. injection Hr as -> Hr. f_equal.
    destruct cs as [|[s' e' m'] cs]; [done|]. exfalso. rewrite filter_cons in Hr. cbn [c_match] in Hr. destruct m'; [done|]. apply Forall_cons in Hn as [Hm' _]. cbn in Hm'.
    cbn [covers c_start c_end] in Hc. destruct Hc as (-> & H2 & H3). apply Hge in H3 as [H3 _]. specialize (Hm' eq_refl). lia.
  - exfalso. rewrite decide_False in Hr by done. apply Hge in Hc as [_ Hc]. specialize (Hm eq_refl).
    assert ((0, len) ∈ map (λ c, (c_start c, c_end c)) (base.filter (λ c, c_match c = true) cs)) as Hin by (rewrite Hr; left).
    apply elem_of_list_fmap in Hin as (c & Hc1 & [_ Hin]%elem_of_list_filter). rewrite Forall_forall in Hc. specialize (Hc _ Hin). injection Hc1. lia.
Qed.

Section word.
  Context (word space : Z → bool).
  #[local] Notation r := (word_re word space).
  #[local] Notation p := (invert (regexp2_pattern (engine_of r))).

  Definition one_kind (rs : list Z) : Prop := ∃ k, Forall (λ c, kind_of word space c = Some k) rs.

  Lemma scan_nothing i ms : scan r i [] ms → ms = [].
  Proof.
    intros H. remember [] as s eqn:Hs. destruct H as [|i x t ts ms Hx _ _|]; [done| |done]. by apply app_nil in Hs as [? _].
  Qed.
  Lemma scan_one_kind rs ms : rs ≠ [] → one_kind rs → scan r 0 rs ms → ms = [(0, rs)].
  Proof.
    intros Hne (k & Hk) H. inversion H as [i E|i x t ts ms' Hx E Hsc|i c s ms' E Hsc]; subst.
    - done.
    - pose proof (word_rests word space (x ++ t)) as Hw. rewrite E in Hw. destruct Hw as (x' & k' & Ex & _ & Hk' & Ht). apply app_inv_tail in Ex as <-.
      apply Forall_app in Hk as [Hkx Hkt]. assert (k' = k) as ->.
      { destruct x as [|c x]; [done|]. apply Forall_cons in Hkx as [Hkx _], Hk' as [Hk' _]. congruence. }
      destruct t as [|c t]; [|apply Forall_cons in Hkt as [Hkt _]; by destruct (Ht c)].
      apply scan_nothing in Hsc as ->. by rewrite app_nil_r.
    - pose proof (word_rests word space (c :: s)) as Hw. rewrite E in Hw. apply Forall_cons in Hk as [Hk _]. by rewrite (Hw c eq_refl) in Hk.
  Qed.

  Lemma word_settled n v : tight n v → one_kind v.*1 → ∃ n' items, split_by p Removed n = Ret (n', Ok items) ∧ non_empty items = [PSplit n None].
  Proof.
    intros Ht Hk. pose proof Ht as (Hwf & Hne & _). pose proof Hwf as ((Hs & Hn & _) & _). assert (Hv : v.*1 ≠ []) by (by intros ?%fmap_nil_inv).
    destruct (engine_of_ok r v.*1 (word_never_empty _ _) Hs) as (ms & E & Hsc & Hok). apply scan_one_kind in Hsc; [|done..]. subst ms.
    destruct (regexp2_pattern_spec _ _ _ Hs Hv E Hok) as (cs & H1 & [H2 _] & H3 & H4). cbn [map] in H3. unfold match2_range in H3. cbn [fst snd] in H3.
    change (zlen (encode (take (Z.to_nat 0) v.*1))) with 0 in H3.
    apply covers_one in H3; [|destruct v.*1 as [|x l]; [done|apply encode_pos]|done|done]. subst cs.
    exists n, (splits_from_ns [n]). split; [|by eapply tight_non_empty]. unfold split_by. rewrite (split_whole n v _ Removed false Ht); [done| |done].
    rewrite Hn. unfold invert. rewrite H1. done.
  Qed.

  Lemma word_gives n n' items : wf n → split_by p Removed n = Ret (n', Ok items) →
    Forall (λ x, sp_tokens x = None → ∃ v, tight (sp_ns x) v ∧ one_kind v.*1) (non_empty items).
  Proof.
    intros (v & Hwf) H. unfold split_by in H. apply bind_Ret in H as (res & H & E). destruct res as [l|e]; [|done]. injection E as _ <-.
    pose proof Hwf as ((Hs & Hn & _) & _).
    assert (∃ cs, p (ns_norm n) = Ret (Ok cs) ∧ boundary_cover (ns_norm n) cs ∧ (∀ a t b, v.*1 = a ++ t ++ b → t ≠ [] →
      Capture (zlen (encode a)) (zlen (encode a) + zlen (encode t)) false ∈ cs → one_kind t)) as (cs & Hp & Hcov & Hcs).
    { rewrite Hn. destruct (decide (v.*1 = [])) as [Hv|Hv].
      - rewrite Hv. exists [Capture 0 0 true]. split; [done|]. split.
        + split; [done|]. constructor; [|constructor]. split; apply (boundary_0 []); constructor.
        + intros a t b E Hne. symmetry in E. apply app_nil in E as [_ E]. by apply app_nil in E as [E _].
      - destruct (engine_of_ok r v.*1 (word_never_empty _ _) Hs) as (ms & E & Hsc & Hok).
        destruct (regexp2_pattern_spec _ _ _ Hs Hv E Hok) as (cs & H1 & [H2 H2'] & H3 & H4).
        set (cs' := map (λ c, Capture (c_start c) (c_end c) (negb (c_match c))) cs). exists cs'. split; [unfold invert; by rewrite H1|]. split.
        + split; [|unfold cs'; by apply Forall_map]. clear -H2. subst cs'. revert H2. generalize 0. induction cs as [|c cs IH]; intros i; [done|]. cbn. naive_solver.
        + intros a t b Ev Hne Hin. unfold cs' in Hin. apply elem_of_list_fmap in Hin as ([s e m] & Hc & Hin). cbn in Hc. injection Hc as <- <- Hm. destruct m; [|done].
          assert ((zlen (encode a), zlen (encode a) + zlen (encode t)) ∈ ranges_of true cs) as Hr.
          { unfold ranges_of. apply elem_of_list_fmap. eexists. split; [|apply elem_of_list_filter; split; [|exact Hin]; done]. done. }
          rewrite H3, map_map in Hr. apply elem_of_list_fmap in Hr as ([i x] & Hr & Hm'). unfold match2_range in Hr. cbn [fst snd] in Hr.
          pose proof (word_scan word space [] _ _ Hsc ltac:(done) (placed_match v.*1 (i, x))) as [Hw _]. destruct Hw as [Hw _].
          { cbn [app]. apply elem_of_list_fmap. by exists (i, x). }
          destruct Hw as (l0 & r0 & k & Ho & _ & Hk & _). cbn [placed_match snd] in Hk.
          assert ([(zlen (encode a), t)] = [placed_match v.*1 (i, x)]) as Heq.
          { apply (same_fields v.*1); [by repeat constructor; exists a, b|by repeat constructor; exists l0, r0|]. cbn [map fst snd placed_match]. f_equal. done. }
          injection Heq as _ ->. by exists k. }
    destruct (split_pieces _ _ _ Removed _ _ Hwf Hp Hcov H) as (segs & gs & H4 & -> & [H6 Hgr] & H7).
    unfold non_empty, splits_from_ns. rewrite Forall_forall. intros x [Hx Hin]%elem_of_list_filter _. apply elem_of_list_fmap in Hin as (q & -> & Hin). cbn [sp_ns] in *.
    rewrite Forall_forall in H7. destruct (H7 q) as (g & v' & Hg & Hv' & Ht); [by apply elem_of_list_filter|]. exists v'. split; [done|]. rewrite Hv'.
    unfold kept_groups in Hg. apply elem_of_list_filter in Hg as [Hk Hg]. cbn [kept] in Hk.
    destruct g as [|[t m] [|]]; [done| |done]. injection Hk as ->. unfold group_text in *. cbn [fmap list_fmap concat fst] in *. rewrite app_nil_r in *.
    apply elem_of_list_split in Hg as (g1 & g2 & ->). rewrite concat_app in H6. cbn [concat app] in H6. subst segs.
    rewrite fmap_app, concat_app in H4. cbn in H4. apply (Hcs (concat (concat g1).*1).*1 t.*1 (concat (concat g2).*1).*1).
    - by rewrite <- H4, !fmap_app.
    - intros Hnil. rewrite Hnil in Hv'. apply fmap_nil_inv in Hv' as ->. by destruct Ht as (_ & [] & _).
    - unfold texts_of. rewrite map_app, place_app. apply elem_of_app. right. cbn [map place fst snd]. replace (zlen (encode (concat (concat g1).*1).*1)) with (0 + zlen (encode (concat (texts_of (concat g1)).*1))) by (by rewrite texts_of_concat). left.
  Qed.
End word.

(** ** Metaspace *)
Definition meta_settled (c : Z) (b : bool) (rs : list Z) : Prop :=
  (∃ x r, rs = x :: r ∧ c ∉ r) ∧ (32 ∉ rs ∨ sanitize c = 32) ∧ (b = true → head rs = Some (sanitize c)).

Lemma spaces_to_none c v : 32 ∉ v.*1 ∨ c = 32 → spaces_to c v = v.
Proof.
  intros H. unfold spaces_to. induction v as [|[x a] v IH]; [done|]. cbn [map fst snd]. rewrite IH; [|destruct H as [H|H]; [left|by right]; intros Hin; apply H; by right].
  destruct (Z.eqb_spec x 32) as [->|Hx]; [|done]. destruct H as [H|H]; [destruct H; by left|]. by rewrite H.
Qed.
Lemma spaces_to_fst c v : (spaces_to c v).*1 = map (λ x, if x =? 32 then c else x) v.*1.
Proof. induction v as [|x v IH]; [done|]. cbn. by f_equal. Qed.

Lemma meta_settled_split c b n v : tight n v → meta_settled c b v.*1 → ∃ n' items, metaspace_split c b n = Ret (n', Ok items) ∧ non_empty items = [PSplit n None].
Proof.
  intros Ht ((x & r & Hx & Hr) & Hsp & Hb). pose proof Ht as (Hwf & Hne & _). pose proof Hwf as ((Hs & Hn & _) & _).
  set (c' := sanitize c) in *. assert (Hc : scalar c' = true) by apply sanitize_scalar. assert (Ec : encode_rune c = encode_rune c') by (symmetry; apply encode_rune_sanitize).
  destruct (prefix_step _ _ (λ x, x =? c') c' b (λ s, starts_with s (encode_rune c')) Hwf Hc) as (n1 & H1 & Hwf1 & Ho1).
  { intros y a w E. rewrite Hn, E. rewrite E in Hs. apply starts_with_char; [|done]. by apply Forall_cons in Hs as [? _]. }
  assert ((if b then prefixed (λ x, x =? c') c' v else v) = v) as E1.
  { destruct b; [|done]. specialize (Hb eq_refl). destruct v as [|[y a] v]; [done|]. cbn in Hb |- *. injection Hb as ->. by rewrite Z.eqb_refl. }
  rewrite E1 in Hwf1. assert (n1 = n) as -> by (eapply same_ns; [apply Hwf|apply Hwf1|done]).
  destruct (replace_spaces n _ c' Hwf Hc) as (n2 & H2 & Hwf2 & Ho2). rewrite spaces_to_none in Hwf2 by done.
  assert (n2 = n) as -> by (eapply same_ns; [apply Hwf|apply Hwf2|done]).
  destruct (split_before n v c Hwf Hne) as (ts & ps & E & Hts & Hcut & Hps).
  assert (map (λ t : atext, t.*1) ts = [v.*1]) as Hm.
  { apply (C56_unique c); [done|split; [|constructor]|].
    - constructor; [|constructor]. eauto.
    - cbn. rewrite app_nil_r, <- Hts. clear. induction ts as [|t ts IH]; [done|]. cbn. by rewrite fmap_app, IH. }
  assert (ts = [v]) as ->. { destruct ts as [|t [|]]; try done. cbn in Hts. rewrite app_nil_r in Hts. by subst. }
  apply Forall2_cons_inv_l in Hps as (q & ps' & Hq & Hps & ->). apply Forall2_nil_inv_l in Hps as ->. apply (tight_whole _ _ _ Ht) in Hq as ->.
  exists n, (splits_from_ns [n]). split; [|by eapply tight_non_empty]. unfold metaspace_split. cbv zeta. rewrite Ec, H1. cbn [mbind outcome_bind]. rewrite H2. cbn [mbind outcome_bind].
  unfold split_by. rewrite E. done.
Qed.

Lemma meta_gives c b n n' items : wf n → metaspace_split c b n = Ret (n', Ok items) →
  Forall (λ x, sp_tokens x = None → ∃ v, tight (sp_ns x) v ∧ meta_settled c b v.*1) (non_empty items).
Proof.
  intros (v & Hwf) H. pose proof Hwf as ((Hs & Hn & _) & _).
  set (c' := sanitize c) in *. assert (Hc : scalar c' = true) by apply sanitize_scalar. assert (Ec : encode_rune c = encode_rune c') by (symmetry; apply encode_rune_sanitize).
  destruct (prefix_step _ _ (λ x, x =? c') c' b (λ s, starts_with s (encode_rune c')) Hwf Hc) as (n1 & H1 & Hwf1 & Ho1).
  { intros y a w E. rewrite Hn, E. rewrite E in Hs. apply starts_with_char; [|done]. by apply Forall_cons in Hs as [? _]. }
  destruct (replace_spaces n1 _ c' Hwf1 Hc) as (n2 & H2 & Hwf2 & Ho2).
  unfold metaspace_split in H. cbv zeta in H. rewrite Ec, H1 in H. cbn [mbind outcome_bind] in H. rewrite H2 in H. cbn [mbind outcome_bind] in H. unfold split_by in H.
  apply bind_Ret in H as (res & H & E). destruct res as [l|e]; [|done]. injection E as _ <-. pose proof Hwf2 as ((Hs2 & Hn2 & _) & _).
  set (v2 := spaces_to c' _) in *. destruct (decide (v2 = [])) as [Hv|Hv].
  { rewrite Hv in *. destruct (func_pattern_cover (λ x, x =? c) [] Hs2) as (cs & Hcs & Hcov).
    destruct (split_nothing n2 (rune_pattern c) cs MergedWithNext Hwf2) as (ps & E & Ee); [by rewrite Hn2|by rewrite Hn2|]. rewrite E in H. injection H as <-. rewrite Ee. constructor. }
  destruct (split_before n2 v2 c Hwf2 Hv) as (ts & ps & E & Hts & Hcut & Hps). rewrite E in H. injection H as <-.
  assert (Hall : 32 ∉ v2.*1 ∨ c' = 32).
  { destruct (decide (c' = 32)) as [|Hc']; [by right|left]. unfold v2. rewrite spaces_to_fst. intros (x & Hx & _)%elem_of_list_fmap. destruct (Z.eqb_spec x 32); congruence. }
  assert (Hhead : b = true → head v2.*1 = Some c').
  { intros ->. unfold v2. rewrite spaces_to_fst. unfold v2 in Hv. destruct v as [|[x a] v]; [done|]. cbn [prefixed]. destruct (Z.eqb_spec x c') as [->|Hx]; cbn; by destruct (c' =? 32). }
  unfold non_empty, splits_from_ns. rewrite Forall_forall. intros x [Hx Hin]%elem_of_list_filter _. apply elem_of_list_fmap in Hin as (q & -> & Hin). cbn [sp_ns] in *.
  apply elem_of_list_lookup in Hin as [i Hi]. destruct (Forall2_lookup_r _ _ _ _ _ Hps Hi) as (t & Ht & Hpc).
  pose proof Ht as Hsplit. apply elem_of_list_split_length in Hsplit as (l1 & l2 & El & Hlen).
  exists (shift_spans (- first_start t) t). assert (Hv2 : v2 = concat l1 ++ t ++ concat l2) by (by rewrite <- Hts, El, concat_app).
  split; [|rewrite shift_fst].
  - eapply piece_tight; [by rewrite <- Hv2| |done]. intros Htn. by apply Hx, (piece_norm_nil _ _ _ Hpc).
  - destruct Hcut as [Hc1 Hc2]. rewrite Forall_map, Forall_forall in Hc1. split; [apply Hc1; by eapply elem_of_list_lookup_2|]. split.
    + destruct Hall as [Hall|Hall]; [left|by right]. intros Hin. apply Hall. rewrite Hv2, !fmap_app. apply elem_of_app. right. apply elem_of_app. by left.
    + intros Hbt. destruct l1 as [|t1 l1].
      * cbn [concat app] in Hv2. destruct (Hc1 t) as (y & r & Hy & _); [by eapply elem_of_list_lookup_2|]. change (sanitize c) with c'. rewrite <- (Hhead Hbt), Hv2, fmap_app, Hy. done.
      * rewrite El in Hc2. cbn [map tail app] in Hc2. rewrite map_app in Hc2. apply Forall_app in Hc2 as [_ Hc2]. cbn [map] in Hc2. apply Forall_cons in Hc2 as [Hc2 _].
        rewrite Hc2. f_equal. symmetry. apply sanitize_id. rewrite Hv2, !fmap_app in Hs2. apply scalars_app in Hs2 as [_ Hs2]. apply scalars_app in Hs2 as [Hs2 _].
        destruct (t.*1) as [|y r]; [done|]. cbn in Hc2. injection Hc2 as ->. by apply Forall_cons in Hs2 as [? _].
Qed.
