(** Facts about texts that are encoded in parts. *)
From Coq Require Import ZifyBool ZifyNat Sorted.
From stdpp Require Import relations list_numbers.
From Verif Require Import GoBase Utf8Facts Strutils SplitPattern NormString Vocab Bpe WordPiece Encodings PreTokString Normalizers PreTokenizers Regex SpecText SpecNorm SpecHist SpecBpe SpecWordPiece SpecPts SpecPretok SpecEnd SpecJoin
  SliceFacts StrutilsFacts PatternFacts NormFacts NormInv NormReplace NormSlice HistFacts RangeFacts PtsFacts PretokFacts BpeFacts BpeTok PropsPts EndFacts ByteFacts RegexFacts.
Import GoBase NormString SpecNorm.
#[local] Open Scope Z_scope.

(** * Pieces *)
Definition later (d : Z) (x : Z * list Z) : Z * list Z := (d + x.1, x.2).

Lemma in_order_later d fs : in_order fs → in_order (map (later d) fs).
Proof.
  induction fs as [|x fs IH]; [done|]. cbn [map]. rewrite !in_order_cons. intros [H1 H2]. split; [by apply IH|].
  intros y (z & -> & Hz)%elem_of_list_fmap. apply H2 in Hz. cbn [later fst snd]. lia.
Qed.

Lemma occurs_left rs1 rs2 l r x : occurs rs1 l r x → occurs (rs1 ++ rs2) l (r ++ rs2) x.
Proof. intros [-> H]. split; [|done]. by rewrite <- !app_assoc. Qed.
Lemma occurs_right rs1 rs2 l r x : occurs rs2 l r x → occurs (rs1 ++ rs2) (rs1 ++ l) r (later (zlen (encode rs1)) x).
Proof. intros [-> H]. split; [by rewrite <- !app_assoc|]. cbn. by rewrite encode_app, zlen_app, H. Qed.
(** A piece without [d] is on one side of [d]. *)
Lemma occurs_one_side rs1 d rs2 l r x : occurs (rs1 ++ d :: rs2) l r x → d ∉ x.2 → x.2 ≠ [] →
  (∃ r', occurs rs1 l r' x ∧ r = r' ++ d :: rs2)
  ∨ ∃ l' y, occurs rs2 l' r y ∧ x = later (zlen (encode (rs1 ++ [d]))) y ∧ l = rs1 ++ d :: l'.
Proof.
  intros [E Hk] Hd Hne. destruct (app_eq_inv _ _ _ _ E) as [(m & E1 & E2)|(m & E1 & E2)].
  - destruct (app_eq_inv _ _ _ _ E2) as [(m' & E3 & E4)|(m' & E3 & E4)].
    + destruct m' as [|y m'].
      * left. exists []. cbn in *. rewrite app_nil_r in E3. split; [|done]. split; [|done]. by rewrite app_nil_r, E3.
      * injection E4 as <- _. destruct Hd. rewrite E3. apply elem_of_app. right. by left.
    + left. exists m'. split; [|done]. split; [|done]. by rewrite E1, E3.
  - destruct m as [|y m].
    + cbn in E2. rewrite app_nil_r in E1. destruct x as [k w]; cbn [fst snd] in *. destruct w as [|y w]; [done|]. injection E2 as <- _. destruct Hd. by left.
    + injection E2 as <- E2. right. exists m, (zlen (encode m), x.2). split; [by split|]. split; [|done].
      destruct x as [k w]; cbn [fst snd] in *. unfold later. cbn. f_equal. rewrite Hk, E1.
      change (d :: m) with ([d] ++ m). rewrite !encode_app, !zlen_app. lia.
Qed.

Lemma run_join stop rs1 d rs2 x : stop d = true →
  run_of stop (rs1 ++ d :: rs2) x ↔ run_of stop rs1 x ∨ ∃ y, run_of stop rs2 y ∧ x = later (zlen (encode (rs1 ++ [d]))) y.
Proof.
  intros Hd. assert (Hnd : ∀ w, Forall (λ c, stop c = false) w → d ∉ w).
  { intros w Hw Hin. rewrite Forall_forall in Hw. apply Hw in Hin. congruence. } split.
  - intros (l & r & Ho & Hne & Hw & Hl & Hr). destruct (occurs_one_side _ _ _ _ _ _ Ho (Hnd _ Hw) Hne) as [(r' & Ho' & ->)|(l' & y & Ho' & -> & ->)].
    + left. exists l, r'. split_and!; try done. intros c Hc. apply Hr. by destruct r'.
    + right. exists y. split; [|done]. exists l', r. split_and!; try done. intros c Hc. apply Hl. change (d :: l') with ([d] ++ l'). rewrite app_assoc, last_app, Hc. done.
  - intros [(l & r & Ho & Hne & Hw & Hl & Hr)|(y & (l & r & Ho & Hne & Hw & Hl & Hr) & ->)].
    + exists l, (r ++ d :: rs2). split; [by apply occurs_left|]. split_and!; try done. intros c. destruct r as [|z r]; [by intros [= ->]|]. apply Hr.
    + exists ((rs1 ++ [d]) ++ l), r. replace (rs1 ++ d :: rs2) with ((rs1 ++ [d]) ++ rs2) by (by rewrite <- app_assoc).
      split; [by apply occurs_right|]. split_and!; try done. intros c. rewrite last_app. destruct (last l) as [c'|] eqn:E; [by apply Hl|].
      rewrite last_snoc. congruence.
Qed.
Lemma one_join gone single rs1 d rs2 x : gone d = true →
  one_of gone single (rs1 ++ d :: rs2) x ↔ one_of gone single rs1 x ∨ ∃ y, one_of gone single rs2 y ∧ x = later (zlen (encode (rs1 ++ [d]))) y.
Proof.
  intros Hd. split.
  - intros (l & c & r & Ho & Hw & Hg & Hs). destruct (occurs_one_side _ _ _ _ _ _ Ho) as [(r' & Ho' & ->)|(l' & y & Ho' & -> & ->)].
    + rewrite Hw. intros ->%elem_of_list_singleton. congruence.
    + by rewrite Hw.
    + left. by exists l, c, r'.
    + right. exists y. split; [|done]. by exists l', c, r.
  - intros [(l & c & r & Ho & Hw & Hg & Hs)|(y & (l & c & r & Ho & Hw & Hg & Hs) & ->)].
    + exists l, c, (r ++ d :: rs2). split; [by apply occurs_left|]. done.
    + exists ((rs1 ++ [d]) ++ l), c, r. replace (rs1 ++ d :: rs2) with ((rs1 ++ [d]) ++ rs2) by (by rewrite <- app_assoc).
      split; [by apply occurs_right|]. done.
Qed.
Lemma in_order_join rs1 d fs1 fs2 : (∀ x, x ∈ fs1 → ∃ l r, occurs rs1 l r x) → (∀ y, y ∈ fs2 → 0 <= y.1) → in_order fs1 → in_order fs2 →
  in_order (fs1 ++ map (later (zlen (encode (rs1 ++ [d])))) fs2).
Proof.
  intros H1 H2 Ho1 Ho2. apply in_order_app. split; [done|]. split; [by apply in_order_later|].
  intros x y Hx (z & -> & Hz)%elem_of_list_fmap. destruct (H1 x Hx) as (l & r & -> & ->). apply H2 in Hz. cbn [later fst].
  rewrite !encode_app, !zlen_app. pose proof (zlen_nonneg (encode r)). pose proof (zlen_nonneg (encode [d])). lia.
Qed.
Lemma occurs_nonneg rs l r x : occurs rs l r x → 0 <= x.1.
Proof. intros [_ ->]. apply zlen_nonneg. Qed.

Lemma cuts_join pre shown rs1 d rs2 fs1 : scalars rs2 → shown d = false → cuts pre rs1 shown fs1 →
  ∃ fs2, cuts pre rs2 shown fs2 ∧ cuts pre (rs1 ++ d :: rs2) shown (fs1 ++ map (later (zlen (encode (rs1 ++ [d])))) fs2).
Proof.
  intros Hs Hd H1. destruct H1 as [pre stop rs1 fs1 Hdel [Ho1 Hf1]|u rs1 fs1 [Ho1 Hf1]|word space rs1 fs1 Ho1 Hf1].
  - apply negb_false_iff in Hd. destruct (delimited stop rs2 Hs) as (fs2 & _ & Ho2 & Hf2). exists fs2. split; [by constructor|].
    constructor; [done|]. split.
    + apply in_order_join; try done.
      * intros x (l & r & H & _)%Hf1. eauto.
      * intros y (l & r & H & _)%Hf2. by eapply occurs_nonneg.
    + intros x. rewrite run_join by done. rewrite elem_of_app, Hf1, elem_of_list_fmap. setoid_rewrite Hf2. naive_solver.
  - apply negb_false_iff in Hd. destruct (bert_pieces u rs2 Hs) as (fs2 & _ & Ho2 & Hf2). exists fs2. split; [by apply cuts_bert|].
    apply cuts_bert. split.
    + apply in_order_join; try done.
      * intros x Hx. apply Hf1 in Hx as [(l & c & r & H & _)|(l & r & H & _)]; eauto.
      * intros y Hy. apply Hf2 in Hy as [(l & c & r & H & _)|(l & r & H & _)]; by eapply occurs_nonneg.
    + intros x. unfold bert_piece. rewrite one_join by done. rewrite run_join by (by rewrite Hd). rewrite elem_of_app, Hf1, elem_of_list_fmap. setoid_rewrite Hf2.
      unfold bert_piece. naive_solver.
  - assert (Hk : ∀ k, other_kind word space k d = true).
    { intros k. destruct (other_kind word space k d) eqn:E; [done|]. exfalso. assert (word d || negb (space d) = true); [|congruence]. apply shown_kind. exists k. by rewrite E. }
    destruct (word_pieces word space rs2 Hs) as (fs2 & _ & Ho2 & Hf2). exists fs2. split; [by apply cuts_words|]. apply cuts_words.
    + apply in_order_join; try done.
      * intros x (l & r & k & H & _)%Hf1. eauto.
      * intros y (l & r & k & H & _)%Hf2. by eapply occurs_nonneg.
    + intros x. rewrite elem_of_app, Hf1, elem_of_list_fmap. setoid_rewrite Hf2. rewrite !kind_runs. setoid_rewrite kind_runs. split.
      * intros [(k & H)|(y & -> & k & H)]; exists k; apply run_join; [done|by left|done|right; by exists y].
      * intros (k & H). apply run_join in H as [H|(y & H & ->)]; [left; by exists k|right; exists y; split; [done|by exists k]|done].
Qed.

(** * Tokens *)
Fixpoint tok_all (model : a_model) (k : nat) (fs : list (Z * list Z)) : outcome (result (list (list token))) :=
  match fs with
  | [] => Ret (Ok [])
  | x :: fs' =>
    r ← model k (encode x.2);
    match r with
    | Err e => Ret (Err e)
    | Ok ts => y ← tok_all model (S k) fs'; match y with Err e => Ret (Err e) | Ok tss => Ret (Ok (ts :: tss)) end
    end
  end.
Definition with_tokens (fs : list (Z * list Z)) (tss : list (list token)) : list psplit :=
  zip_with (λ x ts, PSplit (plain x.1 x.2) (Some ts)) fs tss.

Lemma tok_all_later model d k fs : tok_all model k (map (later d) fs) = tok_all model k fs.
Proof. revert k. induction fs as [|x fs IH]; intros k; [done|]. cbn [map tok_all later snd]. by rewrite IH. Qed.
Lemma tok_all_app model k fs1 fs2 : tok_all model k (fs1 ++ fs2) =
  (y ← tok_all model k fs1;
   match y with
   | Err e => Ret (Err e)
   | Ok t1 => z ← tok_all model (k + length fs1) fs2; match z with Err e => Ret (Err e) | Ok t2 => Ret (Ok (t1 ++ t2)) end
   end).
Proof.
  revert k. induction fs1 as [|x fs1 IH]; intros k; cbn [app tok_all mbind outcome_bind length].
  - rewrite Nat.add_0_r. by destruct (tok_all model k fs2) as [[?|?]|].
  - destruct (model k (encode x.2)) as [[ts|e]|]; cbn [mbind outcome_bind]; [|done|done]. rewrite IH.
    destruct (tok_all model (S k) fs1) as [[?|?]|]; cbn [mbind outcome_bind]; [|done|done].
    replace (k + S (length fs1))%nat with (S k + length fs1)%nat by lia. by destruct (tok_all model (S k + length fs1) fs2) as [[?|?]|].
Qed.
Lemma tok_all_called model j k fs : tok_all (called_before j model) k fs = tok_all model (j + k) fs.
Proof.
  revert k. induction fs as [|x fs IH]; intros k; [done|]. cbn [tok_all]. rewrite IH. unfold called_before. by replace (j + S k)%nat with (S (j + k)) by lia.
Qed.
Lemma tok_all_length model k fs tss : tok_all model k fs = Ret (Ok tss) → length tss = length fs.
Proof.
  revert k tss. induction fs as [|x fs IH]; intros k tss; cbn [tok_all]; [by intros [= <-]|].
  destruct (model k (encode x.2)) as [[ts|e]|]; cbn [mbind outcome_bind]; [|done|done].
  destruct (tok_all model (S k) fs) as [[?|?]|] eqn:E; cbn [mbind outcome_bind]; [|done|done]. intros [= <-]. cbn. f_equal. by eapply IH.
Qed.
Lemma tok_all_within model k fs tss : stays_inside model → (∀ x, x ∈ fs → scalars x.2) → tok_all model k fs = Ret (Ok tss) →
  Forall2 (λ x toks, Forall (λ t, 0 <= o_start (t_offsets t) ∧ o_start (t_offsets t) <= o_end (t_offsets t) <= zlen (encode x.2)) toks) fs tss.
Proof.
  intros Hw. revert k tss. induction fs as [|x fs IH]; intros k tss Hs; cbn [tok_all]; [intros [= <-]; constructor|].
  destruct (model k (encode x.2)) as [[ts|e]|] eqn:E; cbn [mbind outcome_bind]; [|done|done].
  destruct (tok_all model (S k) fs) as [[?|?]|] eqn:E'; cbn [mbind outcome_bind]; [|done|done]. intros [= <-]. constructor.
  - eapply Hw; [|exact E]. apply Hs. by left.
  - eapply IH; [|exact E']. intros y Hy. apply Hs. by right.
Qed.

Lemma tokenize_plain model k fs :
  match tok_all model k fs with
  | Ret (Ok tss) => ∃ k', tokenize_loop (calling model) k (map plain_split fs) = Ret (k', with_tokens fs tss, None)
  | Ret (Err e) => ∃ k' out, tokenize_loop (calling model) k (map plain_split fs) = Ret (k', out, Some e)
  | Panic => tokenize_loop (calling model) k (map plain_split fs) = Panic
  end.
Proof.
  revert k. induction fs as [|x fs IH]; intros k; [by exists k|].
  cbn [map tokenize_loop tok_all]. change (sp_tokens (plain_split x)) with (@None (list token)). cbn iota. rewrite calling_eq.
  change (sp_ns (plain_split x)) with (plain x.1 x.2). cbn [ns_norm plain].
  destruct (model k (encode x.2)) as [[ts|e]|]; cbn [mbind outcome_bind]; [|by eauto|done].
  specialize (IH (S k)). destruct (tok_all model (S k) fs) as [[tss|e]|]; cbn [mbind outcome_bind].
  - destruct IH as [k' IH]. exists k'. rewrite IH. done.
  - destruct IH as (k' & out & IH). exists k'. eexists. rewrite IH. done.
  - by rewrite IH.
Qed.

(** * Entries *)
Definition entry_later (d j : Z) (t : enc_token) : enc_token :=
  EncToken (et_id t) (et_token t) (Offsets (d + o_start (et_offsets t)) (d + o_end (et_offsets t))) (j + et_word t) (et_type t).

Lemma encode_tokens_later d j k w i ty toks :
  Forall (λ t, 0 <= o_start (t_offsets t) ∧ o_start (t_offsets t) <= o_end (t_offsets t) <= zlen (encode w)) toks →
  ∃ es, encode_tokens (plain k w) i ty toks = Ret es ∧ encode_tokens (plain (d + k) w) (j + i) ty toks = Ret (map (entry_later d j) es).
Proof.
  induction 1 as [|t toks (H1 & H2 & H3) _ (es & E1 & E2)]; cbn [encode_tokens]; [by exists []|].
  assert (Hc : ∃ s e, ∀ k', coerce_to_orig (plain k' w) (NRange (o_start (t_offsets t)) (o_end (t_offsets t))) = Ret ((s, e), true)).
  { unfold coerce_to_orig. cbn [r_len r_end r_start plain ns_norm ns_al]. unfold r_len; cbn [r_end r_start]. destruct (Z.eqb_spec (o_end (t_offsets t) - o_start (t_offsets t)) 0) as [|Hne]; [by exists (o_start (t_offsets t)), (o_end (t_offsets t))|].
    destruct (Z.ltb_spec (o_end (t_offsets t)) (o_start (t_offsets t))); [lia|].
    destruct ((zlen (encode w) =? 0) && _ && _) eqn:E; [lia|].
    assert (Hl : zlen (spans_of (fresh 0 w)) = zlen (encode w)) by (rewrite zlen_spans; unfold alen; by rewrite fresh_chars).
    destruct (sub_total (spans_of (fresh 0 w)) (o_start (t_offsets t)) (o_end (t_offsets t))) as (als & Hals); [lia..|]. rewrite Hals. cbn [mbind outcome_bind].
    apply sub_zlen in Hals. destruct (idx_total als 0) as (a & ->); [lia|]. destruct (idx_total als (zlen als - 1)) as (b & ->); [lia|]. by exists a.1, b.2. }
  destruct Hc as (s & e & Hc). rewrite !Hc. cbn [mbind outcome_bind]. rewrite E1, E2. cbn [mbind outcome_bind plain ns_shift].
  eexists. split; [done|]. cbn [map]. do 2 f_equal. unfold entry_later. cbn. do 2 f_equal; lia.
Qed.


Definition good_tokens (x : Z * list Z) (toks : list token) : Prop :=
  Forall (λ t, 0 <= o_start (t_offsets t) ∧ o_start (t_offsets t) <= o_end (t_offsets t) <= zlen (encode x.2)) toks.

Lemma with_tokens_app fs1 fs2 t1 t2 : length t1 = length fs1 → with_tokens (fs1 ++ fs2) (t1 ++ t2) = with_tokens fs1 t1 ++ with_tokens fs2 t2.
Proof. intros H. unfold with_tokens. by rewrite zip_with_app. Qed.
Lemma encode_splits_app wi ty i l1 l2 : encode_splits wi ty i (l1 ++ l2) =
  (a ← encode_splits wi ty i l1; b ← encode_splits wi ty (i + zlen l1) l2; Ret (a ++ b)).
Proof.
  revert i. induction l1 as [|x l1 IH]; intros i; cbn [app encode_splits mbind outcome_bind].
  - change (zlen []) with 0. rewrite Z.add_0_r. by destruct (encode_splits wi ty i l2).
  - destruct (encode_tokens _ _ _ _) as [ts|]; cbn [mbind outcome_bind]; [|done]. rewrite IH, zlen_cons. replace (i + (1 + zlen l1)) with (i + 1 + zlen l1) by lia.
    destruct (encode_splits wi ty (i + 1) l1) as [a|]; cbn [mbind outcome_bind]; [|done].
    destruct (encode_splits wi ty (i + 1 + zlen l1) l2) as [b|]; cbn [mbind outcome_bind]; [|done]. by rewrite app_assoc.
Qed.
Lemma encode_splits_later d wi ty i j fs tss : Forall2 good_tokens fs tss →
  ∃ es, encode_splits wi ty i (with_tokens fs tss) = Ret es
    ∧ encode_splits wi ty (i + j) (with_tokens (map (later d) fs) tss) = Ret (map (entry_later d (if wi <? 0 then j else 0)) es).
Proof.
  intros H. revert i. induction H as [|[k w] toks fs tss H1 H IH]; intros i; [by exists []|].
  unfold with_tokens in *. cbn [map zip_with later fst snd encode_splits sp_ns sp_tokens from_option].
  destruct (encode_tokens_later d (if wi <? 0 then j else 0) k w (if wi <? 0 then i else wi) ty toks H1) as (es1 & E1 & E2).
  destruct (IH (i + 1)) as (es2 & E3 & E4). cbn [id] in *. rewrite E1. cbn [mbind outcome_bind]. rewrite E3. cbn [mbind outcome_bind].
  exists (es1 ++ es2). split; [done|]. rewrite map_app.
  replace (if wi <? 0 then i + j else wi) with ((if wi <? 0 then j else 0) + (if wi <? 0 then i else wi)) by (destruct (wi <? 0); lia).
  rewrite E2. cbn [mbind outcome_bind]. replace (i + j + 1) with (i + 1 + j) by lia. rewrite E4. done.
Qed.

(** * All in one *)
Definition encode_pieces (model : a_model) (fs : list (Z * list Z)) (wi ty : Z) : outcome (result encoding) :=
  r ← tok_all model O fs;
  match r with
  | Err e => Ret (Err e)
  | Ok tss => es ← encode_splits wi ty 0 (with_tokens fs tss); Ret (Ok (encoding_from_tokens es))
  end.
Lemma encode_text_pieces pre model rs fs wi ty : pre (pts_from_string (encode rs)) = Ret (Pts (encode rs) (map plain_split fs), None) →
  encode_text pre model (encode rs) wi ty = encode_pieces model fs wi ty.
Proof.
  intros Hp. unfold encode_text, encode_ns. unfold pts_from_string in Hp. rewrite Hp. cbn [mbind outcome_bind fst snd]. unfold pts_tokenize, encode_pieces.
  cbn [p_splits p_original]. pose proof (tokenize_plain model 0 fs) as H. destruct (tok_all model 0 fs) as [[tss|e]|] eqn:Et; cbn [mbind outcome_bind].
  - destruct H as (k' & ->). cbn [mbind outcome_bind fst snd]. unfold into_encoding. cbn [p_splits]. apply tok_all_length in Et.
    destruct (Z.eqb_spec (zlen (with_tokens fs tss)) 0) as [Hz|Hz].
    + destruct (with_tokens fs tss) as [|? l]; [done|]. rewrite zlen_cons in Hz. pose proof (zlen_nonneg l). lia.
    + replace (all_have_tokens _) with true; [done|].
      symmetry. apply all_have_tokens_spec. apply Forall_forall. intros x Hx. apply elem_of_lookup_zip_with in Hx as (i & n & toks & -> & _). by eexists.
  - by destruct H as (k' & out & ->).
  - by rewrite H.
Qed.

Lemma encoding_behind d j a b : behind d j (encoding_from_tokens a) (encoding_from_tokens b) = encoding_from_tokens (a ++ map (entry_later d j) b).
Proof.
  assert (H : ∀ l, entries (encoding_from_tokens l) l) by apply encoding_from_tokens_eq. unfold entries in H. rewrite !H. unfold behind. cbn. rewrite !map_app, !map_map. done.
Qed.

Lemma encode_pieces_join model d fs1 fs2 wi ty : stays_inside model → (∀ x, x ∈ fs1 → scalars x.2) → (∀ x, x ∈ fs2 → scalars x.2) →
  encode_pieces model (fs1 ++ map (later d) fs2) wi ty
  = one_then_other d (if wi <? 0 then zlen fs1 else 0) (encode_pieces model fs1 wi ty) (encode_pieces (called_before (length fs1) model) fs2 wi ty).
Proof.
  intros Hw Hs1 Hs2. unfold encode_pieces. rewrite tok_all_app, tok_all_later, tok_all_called, Nat.add_0_l, Nat.add_0_r.
  pose proof (tok_all_within model 0 fs1) as Hw1. pose proof (tok_all_within model (length fs1) fs2) as Hw2. pose proof (tok_all_length model 0 fs1) as Hl1.
  destruct (tok_all model 0 fs1) as [[t1|e]|]; cbn [mbind outcome_bind]; [|done|done].
  destruct (encode_splits_later d wi ty 0 0 fs1 t1) as (es1 & E1 & _); [by apply Hw1|]. rewrite E1. cbn [mbind outcome_bind one_then_other].
  destruct (tok_all model (length fs1) fs2) as [[t2|e]|]; cbn [mbind outcome_bind]; [|done|done].
  rewrite with_tokens_app by (by apply Hl1). rewrite encode_splits_app, E1. cbn [mbind outcome_bind].
  destruct (encode_splits_later d wi ty 0 (zlen fs1) fs2 t2) as (es2 & E2 & E3); [by apply Hw2|]. rewrite E2. cbn [mbind outcome_bind].
  replace (zlen (with_tokens fs1 t1)) with (zlen fs1).
  2: { unfold zlen, with_tokens. rewrite zip_with_length, (Hl1 t1 eq_refl). f_equal. lia. }
  rewrite E3. cbn [mbind outcome_bind]. by rewrite encoding_behind.
Qed.

(** * Models *)
Lemma group_bytes fuse ou cs ss : Forall (λ c, 0 <= c.2) cs → group_syms fuse ou cs ss → sym_bytes ss <= class_bytes cs.
Proof.
  intros Hp G. induction G as [|i n cs ss G IH|n cs ss Hou G IH|u n cs ss Hou _ G IH|u ns cs ss Hou _ Hne _ G IH]; [done|..].
  1-3: apply Forall_cons in Hp as [Hn Hp]; specialize (IH Hp); unfold sym_bytes, class_bytes in *; cbn in *; lia.
  apply Forall_app in Hp as [_ Hp]. specialize (IH Hp). rewrite class_bytes_app.
  assert (class_bytes (map (pair None) ns) = foldr Z.add 0 ns) as ->. { clear. induction ns as [|n ns IH]; [done|]. cbn. f_equal. exact IH. }
  unfold sym_bytes in *. cbn in *. lia.
Qed.
Lemma char_classes_pos m rs : Forall (λ c, 0 <= c.2) (char_classes m rs).
Proof.
  apply (Forall_fmap snd (λ n, 0 <= n)). rewrite char_classes_snd. apply Forall_map, Forall_forall. intros r _. cbn. pose proof (rune_len_bounds r). lia.
Qed.
