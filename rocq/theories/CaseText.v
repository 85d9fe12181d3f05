(** For which texts the byte-level pipeline gives the tokens of GPT-2, over all merges (C111). *)
From Coq Require Import ZifyBool QArith.
From stdpp Require Import sets list_numbers.
From Verif Require Import GoBase Utf8Facts Vocab MergeMap Bpe PreTokenizers SpecText SpecVocab SpecBpe SpecPretok SpecTrain SpecRead SpecGpt2 SpecPipe SpecRef SliceFacts VocabFacts ByteFacts Gpt2Facts TrainFacts RefFacts CaseFacts PropsGpt2.
Import GoBase.
#[local] Open Scope Z_scope.

(** * Where both cut *)
Section cut.
  Context (fold : Z → Z) (letter number space : Z → bool).
  Hypothesis Hl : letter_case fold letter.
  Hypothesis Ha : endings_apart fold.
  Hypothesis Hk : disjoint_kinds letter number space.
  Notation same := (λ c : Z, c).
  Notation first_piece f := (first_piece f letter number space).
  Notation pieces f := (pieces f letter number space).
  Notation kind_at := (kind_at letter number space).
  Notation letters := (all_of letter number space KLetter).

  Lemma letter_kind c : letter c = true → kind_at c = KLetter.
  Proof. intros H. unfold SpecGpt2.kind_at. by rewrite H. Qed.
  Lemma kind_letter c : kind_at c = KLetter → letter c = true.
  Proof. unfold SpecGpt2.kind_at. destruct (letter c); [done|]. by repeat case_match. Qed.
  Lemma letter_not_39 c : letter c = true → c ≠ 39.
  Proof. intros H ->. destruct Hl as (_ & H39 & _). congruence. Qed.
  Lemma letter_not_32 c : letter c = true → c ≠ 32.
  Proof. intros H ->. destruct Hk as [H32 Hd]. destruct (Hd 32) as [Hd' _]. destruct (Hd' H). congruence. Qed.

  (** An apostrophe, then letters only. *)
  Lemma capitalised_letters x : capitalised fold x → ∃ c y, x = 39 :: c :: y ∧ letters (c :: y).
  Proof.
    intros Hc. destruct (capitalised_shape fold letter number space x Hl Hc) as (c & y & -> & Hlc). exists c, y. split; [done|].
    destruct Hl as (H1 & _ & H3). destruct Hc as ((w & Hin & E) & _). cbn [map] in E. injection E as E.
    assert (G : ∀ z w', map fold z = map fold w' → (∀ d, d ∈ w' → d ∈ w) → letters z).
    { induction z as [|a z IH]; intros w' Ez Hw; [constructor|]. destruct w' as [|d w']; [done|]. cbn [map] in Ez. injection Ez as E1 E2. constructor.
      - apply letter_kind. eapply (H3 w a d); [done| |done]. apply Hw. by left.
      - apply (IH w'); [done|]. intros e He. apply Hw. by right. }
    apply (G _ w); [done|done].
  Qed.

  (** What is capitalised is no contraction of GPT-2. *)
  Lemma not_contracted x t w z t' : capitalised fold x → w ∈ endings → ¬ contracts same (x ++ t) w z t'.
  Proof.
    intros Hc Hin. rewrite contracts_same. intros [E ->]. destruct Hc as ((w0 & Hin0 & E0) & Hno).
    destruct x as [|a x]; [done|]. cbn [map] in E0. injection E0 as Ea E0. cbn [app] in E. injection E as -> E.
    assert (Hh : ∃ d w0' w', w0 = d :: w0' ∧ w = d :: w').
    { destruct w0 as [|d w0']; [exfalso; unfold endings in Hin0; set_solver|]. destruct w as [|d' w']; [exfalso; unfold endings in Hin; set_solver|].
      destruct x as [|c x]; [done|]. cbn [app map] in E, E0. injection E as -> E. injection E0 as Ed E0.
      assert (d' = d) as -> by (eapply (Ha (d' :: w') (d :: w0')); try done; by left). by exists d, w0', w'. }
    destruct Hh as (d & w0' & w' & -> & ->).
    assert (d :: w0' = d :: w') as Ew.
    { clear -Hin Hin0. unfold endings in Hin, Hin0. rewrite !elem_of_cons in Hin, Hin0. rewrite elem_of_nil in Hin, Hin0. destruct_or!; simplify_eq; done. }
    injection Ew as ->. apply (Hno _ Hin). f_equal. apply (app_inj_1 x (d :: w') t t'); [|done].
    apply (f_equal length) in E0. by rewrite !map_length in E0.
  Qed.

  Lemma ref_apostrophe c y t x' t' : letters (c :: y) → (∀ w z r, w ∈ endings → ¬ contracts same (39 :: c :: y ++ t) w z r) →
    first_piece same (39 :: c :: y ++ t) x' t' → x' = [39] ∧ t' = c :: y ++ t.
  Proof.
    intros Hlc Hn H. apply Forall_cons in Hlc as [Hkc _].
    assert (Hk39 : kind_at 39 ≠ KLetter). { destruct Hl as (_ & H39 & _). unfold SpecGpt2.kind_at. rewrite H39. by repeat case_match. }
    remember (39 :: c :: y ++ t) as s eqn:Es. destruct H as [s before w after x t0 E Hc Hb|s k sp z t0 _ E Hsp Hks Hy Hal Hst|s _ Hne Hal|s x w t0 _ E Hne Hal Ht Hst|s w t0 _ E Hw32 Hks Ht Hst].
    - exfalso. eapply (Hn w); [rewrite E; set_solver|exact Hc].
    - subst s. destruct Hsp as [->| ->]; [|done]. cbn [app] in *. destruct z as [|a z]; [done|]. cbn [app] in E. injection E as <- E.
      destruct z as [|b z]; [by cbn [app] in E; rewrite E|]. exfalso. cbn [app] in E. injection E as <- _.
      apply Forall_cons in Hal as [H1 Hal]. apply Forall_cons in Hal as [H2 _]. congruence.
    - exfalso. subst s. apply Forall_cons in Hal as [H1 Hal]. apply Forall_cons in Hal as [H2 _]. congruence.
    - exfalso. subst s. destruct x as [|a x]; [done|]. cbn [app] in E, Hal. injection E as <- E. apply Forall_cons in Hal as [H1 Hal].
      destruct x as [|b x]; cbn [app] in E, Hal; injection E as <- _; apply Forall_cons in Hal as [H2 _]; congruence.
    - subst s. by injection E as <- <-.
  Qed.

  (** A run of letters. *)
  Lemma letter_run f z t x' t' : (∀ c, f c = f 39 → c = 39) → z ≠ [] → letters z → stops letter number space KLetter t → first_piece f (z ++ t) x' t' → x' = z ∧ t' = t.
  Proof.
    intros Hf Hz Hlz Hst H. destruct z as [|c z]; [done|]. apply Forall_cons in Hlz as [Hkc Hlz]. pose proof (kind_letter _ Hkc) as Hlc.
    remember ((c :: z) ++ t) as s eqn:Es. destruct H as [s before w after x t0 E Hc Hb|s k sp u t0 _ E Hsp Hks Hy Hal Hst'|s _ Hne Hal|s x w t0 _ E Hne Hal Ht Hst'|s w t0 _ E Hw32 Hks Ht Hst'].
    - exfalso. destruct Hc as [E1 E2]. destruct x as [|a x]; [done|]. cbn [map] in E2. injection E2 as E2 _. apply Hf in E2 as ->. rewrite Es in E1. cbn [app] in E1. injection E1 as -> _. by apply letter_not_39 in Hlc.
    - subst s. destruct Hsp as [->| ->]; [|exfalso; cbn [app] in E; injection E as -> _; by apply letter_not_32 in Hlc]. cbn [app] in *.
      destruct u as [|a u]; [done|]. cbn [app] in E. injection E as <- E. apply Forall_cons in Hal as [H1 Hal]. assert (k = KLetter) as -> by congruence.
      clear -E Hlz Hal Hst Hst'. revert u E Hal. induction z as [|a z IH]; intros u E Hal.
      + destruct u as [|b u]; [done|]. exfalso. cbn [app] in E. subst t. apply Forall_cons in Hal as [H2 _]. by apply (Hst b).
      + apply Forall_cons in Hlz as [H1 Hlz]. destruct u as [|b u]; cbn [app] in E.
        * exfalso. subst t0. by apply (Hst' a).
        * injection E as <- E. apply Forall_cons in Hal as [_ Hal]. destruct (IH Hlz u E Hal) as [E1 E2]. split; congruence.
    - exfalso. subst s. apply Forall_cons in Hal as [H1 _]. congruence.
    - exfalso. subst s. destruct x as [|a x]; [done|]. cbn [app] in E, Hal. injection E as <- _. apply Forall_cons in Hal as [H1 _]. congruence.
    - exfalso. subst s. cbn [app] in E. injection E as <- _. congruence.
  Qed.
  Lemma letters_ahead t : ∃ z t', t = z ++ t' ∧ letters z ∧ stops letter number space KLetter t'.
  Proof.
    induction t as [|c t IH]; [exists [], []; repeat split; [constructor|by intros c]|]. destruct (letter c) eqn:E.
    - destruct IH as (z & t' & -> & H1 & H2). exists (c :: z), t'. split; [done|]. split; [|done]. constructor; [by apply letter_kind|done].
    - exists [], (c :: t). split; [done|]. split; [constructor|]. intros a [= <-] Hc. apply kind_letter in Hc. congruence.
  Qed.

  Lemma capitalised_dec x : {capitalised fold x} + {¬ capitalised fold x}.
  Proof.
    destruct (decide (Exists (λ w, map fold x = map fold (39 :: w)) endings)) as [H1|H1].
    - destruct (decide (Forall (λ w, x ≠ 39 :: w) endings)) as [H2|H2].
      + left. split; [by apply Exists_exists in H1|by apply Forall_forall].
      + right. intros [_ H]. apply H2. by apply Forall_forall.
    - right. intros [H _]. apply H1. by apply Exists_exists.
  Qed.
  Lemma first_split f s x t : first_piece f s x t → s = x ++ t ∧ x ≠ [].
  Proof.
    intros [s' before w after x' t' E [Hc Hc'] Hb|s' k sp y t' Hn E Hsp Hks Hy Hal Hst|s' Hn Hne Hal|s' x' w t' Hn E Hne Hal Ht Hst|s' w t' Hn E Hw32 Hks Ht Hst].
    - split; [done|]. by intros ->.
    - rewrite <- app_assoc. split; [done|]. by destruct sp.
    - by rewrite app_nil_r.
    - done.
    - done.
  Qed.

  (** Weights of pieces: if a capitalised contraction and the letters after it weigh no more than an apostrophe and all the letters, the
      pieces of the library weigh no more than those of GPT-2. *)
  Context (W : list Z → nat).
  Definition after (z : list Z) : nat := if decide (z = []) then 0%nat else W z.
  Definition lighter (R : nat → nat → Prop) (x : list Z) : Prop :=
    ∀ c y z, x = 39 :: c :: y → letters (c :: y) → letters z → R (W x + after z)%nat (W [39%Z] + W (c :: y ++ z))%nat.
  Hypothesis HW : ∀ x, lighter le x.
  Definition weight (ps : list (list Z)) : nat := foldr (λ x k, (W x + k)%nat) 0%nat ps.
  Lemma weight_cons x ps : weight (x :: ps) = (W x + weight ps)%nat.
  Proof. done. Qed.
  Lemma weights n : ∀ s ps ps', length s = n → pieces fold s ps → pieces same s ps' → (weight ps <= weight ps')%nat
    ∧ ∀ x, x ∈ ps → capitalised fold x → lighter lt x → (weight ps < weight ps')%nat.
  Proof.
    induction (lt_wf n) as [n _ IH]. intros s ps ps' En Hp Hp'.
    destruct Hp as [|s x t ps Hx Hp].
    { inversion Hp' as [|? ? ? ? Hx]; subst; [|by apply first_split in Hx as [? ?]; destruct x]. split; [done|]. by intros x ?%elem_of_nil. }
    destruct (first_split _ _ _ _ Hx) as [-> Hne].
    destruct (capitalised_dec x) as [Hcap|Hcap].
    - destruct (capitalised_letters x Hcap) as (c & y & -> & Hlet). destruct (letters_ahead t) as (z & t'' & -> & Hz & Hst).
      inversion Hp' as [|s1 x1 t1 ps1 Hx1 Hp1]; subst. cbn [app] in Hx1. apply ref_apostrophe in Hx1 as [-> ->]; [|done|intros w u r Hin; by apply (not_contracted (39 :: c :: y))].
      inversion Hp1 as [|s2 x2 t2 ps2 Hx2 Hp2]; subst. change (c :: y ++ z ++ t'') with ((c :: y) ++ z ++ t'') in Hx2. rewrite app_assoc in Hx2.
      apply letter_run in Hx2 as [-> ->]; [|done|done|by apply Forall_app|done].
      assert (∃ ps3, pieces fold t'' ps3 ∧ weight ps = (after z + weight ps3)%nat ∧ ∀ u, u ∈ ps → u ∈ ps3 ∨ u = z ∧ letters z) as (ps3 & Hp3 & E3 & Hin3).
      { unfold after. destruct (decide (z = [])) as [->|Hzn]; [exists ps; cbn [app] in Hp; split; [done|]; split; [done|]; by left|].
        inversion Hp as [|s3 x3 t3 ps3 Hx3 Hp3]; subst; [by destruct z|]. apply letter_run in Hx3 as [-> ->]; [|by destruct Hl|done..].
        exists ps3. split; [done|]. split; [done|]. intros u [->|Hu]%elem_of_cons; [by right|by left]. }
      destruct (IH (length t'')) with (s := t'') (ps := ps3) (ps' := ps2) as [I1 I2]; [|done|done|done|].
      { rewrite !app_length. cbn [length]. lia. }
      rewrite !weight_cons, E3. cbn [app]. pose proof (HW _ c y z eq_refl Hlet Hz) as Hw. split; [lia|].
      intros u Hu Hc Hs. apply elem_of_cons in Hu as [->|Hu].
      + pose proof (Hs c y z eq_refl Hlet Hz). lia.
      + destruct (Hin3 u Hu) as [Hu'|[-> Hz']].
        * pose proof (I2 u Hu' Hc Hs). lia.
        * exfalso. destruct (capitalised_letters z Hc) as (a & b & -> & _). apply Forall_cons in Hz as [Hz _]. apply kind_letter in Hz. by apply letter_not_39 in Hz.
    - pose proof (first_same fold letter number space _ _ _ Hx Hcap) as Hx2.
      destruct (C95_unique same letter number space t Hk) as (ps2 & Hp2 & _). destruct (C95_unique same letter number space (x ++ t) Hk) as (ps3 & _ & _ & Hu).
      assert (ps' = x :: ps2) as ->. { rewrite (Hu ps' Hp'). symmetry. apply Hu. by eapply pieces_cons. }
      destruct (IH (length t)) with (s := t) (ps := ps) (ps' := ps2) as [I1 I2]; [|done|done|done|].
      { rewrite <- En, app_length. destruct x; [done|]. cbn [length]. lia. }
      rewrite !weight_cons. split; [lia|]. intros u Hin Hc Hs. apply elem_of_cons in Hin as [->|Hin]; [done|]. pose proof (I2 u Hin Hc Hs). lia.
  Qed.
End cut.

(** * Merges that tell them apart *)
Definition shown_byte (b : Z) : list Z := encode_rune (byte_char b).
Lemma shown_inj a b : 0 <= a < 256 → 0 <= b < 256 → shown_byte a = shown_byte b → a = b.
Proof.
  intros Ha Hb E. apply byte_char_inj; [done|done|]. assert (E1 : encode [byte_char a] = encode [byte_char b]). { unfold shown_byte in E. cbn. by rewrite E. }
  apply encode_inj_scalars in E1; [congruence|repeat constructor; by apply byte_char_scalar..].
Qed.
Section pair.
  Context (q : Z).
  Hypothesis Hq : 0 <= q < 256.
  Notation J := (join_pass (shown_byte 39) (shown_byte q)).
  Definition joined (x : list Z) : nat := length (J (map shown_byte (encode x))).
  Lemma join_none bs : Forall (λ b, 0 <= b <= 255 ∧ b ≠ 39) bs → J (map shown_byte bs) = map shown_byte bs.
  Proof.
    induction 1 as [|b bs [Hb Hn] _ IH]; [done|]. destruct bs as [|b' bs]; [done|]. cbn [map] in *. rewrite join_cons.
    destruct (decide _) as [[E _]|_]; [apply shown_inj in E; lia|]. by rewrite IH.
  Qed.
  Lemma letter_bytes (letter : Z → bool) l : letter 39 = false → Forall (λ c, letter c = true) l → Forall (λ b, 0 <= b <= 255 ∧ b ≠ 39) (encode l).
  Proof.
    intros H39. induction 1 as [|c l Hc _ IH]; [constructor|]. rewrite encode_cons. apply Forall_app. split; [|done].
    destruct (decide (0 <= c <= 127)) as [H1|H1].
    - rewrite encode_rune_ascii by lia. constructor; [|done]. split; [lia|]. intros ->. congruence.
    - assert (Hhi : Forall (λ b, 128 <= b) (encode_rune c)).
      { assert (Hs : 128 <= sanitize c). { unfold sanitize. destruct (scalar c) eqn:E; [apply scalar_spec in E; lia|done]. }
        unfold encode_rune, encode_scalar. set (x := sanitize c) in *. pose proof (Z.shiftr_nonneg x 6). pose proof (Z.shiftr_nonneg x 12). pose proof (Z.shiftr_nonneg x 18).
        repeat case_match; repeat constructor; try lia; match goal with |- context [Z.land ?a ?b] => pose proof (proj2 (Z.land_nonneg a b)); lia end. }
      pose proof (encode_rune_bytes c) as Hb. rewrite Forall_forall in *. intros b Hin. pose proof (Hhi b Hin). pose proof (Hb b Hin). cbn in *. lia.
  Qed.

  Lemma joined_letters (letter : Z → bool) l : letter 39 = false → Forall (λ c, letter c = true) l → joined l = length (encode l).
  Proof. intros H39 H. unfold joined. rewrite join_none by (by eapply letter_bytes). apply map_length. Qed.
  (** An apostrophe, then letters. *)
  Lemma joined_contraction (letter : Z → bool) c y b bs : letter 39 = false → Forall (λ c, letter c = true) (c :: y) → encode_rune c = b :: bs →
    joined (39 :: c :: y) = (if decide (b = q) then length (encode (c :: y)) else S (length (encode (c :: y))))%nat.
  Proof.
    intros H39 H E. pose proof (letter_bytes letter _ H39 H) as Hb. unfold joined. rewrite encode_cons. change (encode_rune 39) with [39]. cbn [app]. rewrite encode_cons in *. rewrite E in *. cbn [app] in *.
    cbn [map]. rewrite join_cons. apply Forall_cons in Hb as [[Hb1 Hb2] Hb].
    destruct (decide (b = q)) as [->|Hn].
    - rewrite decide_True by done. cbn [length]. rewrite join_none by done. by rewrite map_length.
    - rewrite decide_False by (intros [_ E2]; apply shown_inj in E2; lia). cbn [length]. f_equal.
      change (shown_byte b :: map shown_byte (bs ++ encode y)) with (map shown_byte (b :: bs ++ encode y)). rewrite join_none by (by constructor). by rewrite map_length.
  Qed.
End pair.

(** The file with the one line that names the pair. *)
Lemma pair_line q : 0 <= q < 256 → let l := 39 :: 32 :: shown_byte q in
  scan_lines l = ([l], false) ∧ split_spaces l = [[39]; shown_byte q] ∧ 10 ∉ l ∧ last l ≠ Some 13 ∧ 32 ∉ shown_byte q.
Proof.
  intros Hq. assert (G : Forall (λ q, scan_lines (39 :: 32 :: shown_byte q) = ([39 :: 32 :: shown_byte q], false) ∧ split_spaces (39 :: 32 :: shown_byte q) = [[39]; shown_byte q] ∧ 10 ∉ (39 :: 32 :: shown_byte q) ∧ last (39 :: 32 :: shown_byte q) ≠ Some 13 ∧ 32 ∉ shown_byte q) (seqZ 0 256)).
  { apply (bool_decide_unpack _). vm_compute. exact I. }
  rewrite Forall_forall in G. apply G, elem_of_seqZ. lia.
Qed.
Lemma pair_model q : 0 <= q < 256 → ∃ m file ls, has_bytes (b_vocab m) ∧ consistent (b_vocab m) ∧ merge_map_from_file file (b_vocab m) 0 = Ret (Ok (b_merges m))
  ∧ file_lines file ls ∧ listed ls [(shown_byte 39, shown_byte q)] ∧ b_prefix m = [] ∧ b_suffix m = [] ∧ (b_dropout m <= 0)%Q ∧ b_unk m = [].
Proof.
  intros Hq. destruct (grown_add_terms [] new_vocab (map shown_byte (seqZ 0 256) ++ [39 :: shown_byte q]) grown_new) as (v & _ & G & _). cbn [app] in G.
  assert (Hv : ∀ t, t ∈ map shown_byte (seqZ 0 256) ++ [39 :: shown_byte q] → is_Some (get_id v t)).
  { intros t Ht. unfold get_id. rewrite <- elem_of_dom, (gr_dom _ _ G). unfold terms_set. by apply elem_of_list_to_set. }
  assert (Hby : has_bytes v). { intros b Hb. apply Hv. apply elem_of_app. left. apply elem_of_list_fmap. exists b. split; [done|]. apply elem_of_seqZ. lia. }
  destruct (pair_line q Hq) as (L1 & L2 & L3 & L4 & L5). set (l := 39 :: 32 :: shown_byte q) in *.
  assert (∃ mm, merge_map_from_file l v 0 = Ret (Ok mm)) as (mm & Hmm).
  { unfold merge_map_from_file. rewrite L1. cbn [merges_loop]. change (has_prefix l version_prefix) with false. cbv iota. rewrite L2.
    destruct (Hby 39) as [i1 E1]; [lia|]. destruct (Hby q Hq) as [i2 E2]. destruct (Hv (39 :: shown_byte q)) as [i3 E3]; [apply elem_of_app; right; by left|].
    change (encode_rune (byte_char 39)) with [39] in E1. rewrite E1. fold (shown_byte q) in E2. rewrite E2.
    assert (Es : sub (shown_byte q) 0 (zlen (shown_byte q)) = Ret (shown_byte q)).
    { apply sub_full. }
    rewrite Es. cbn [mbind outcome_bind app]. rewrite E3. by eexists. }
  exists (Bpe v mm 0 [] [] [] false), l, [l]. split; [done|]. split; [apply (gr_cons _ _ G)|]. split; [done|]. split; [by apply fl_last|]. split; [|done].
  unfold listed, merge_lines. rewrite filter_cons_True by (intros [r [= E]]; done). rewrite filter_nil. constructor; [|constructor]. split; [done|]. split; [|done].
  change (shown_byte 39) with [39]. set_solver by lia.
Qed.
Lemma encode_rune_some c : encode_rune c ≠ [].
Proof. destruct (encode_rune_head c) as (b & t & -> & _). done. Qed.
