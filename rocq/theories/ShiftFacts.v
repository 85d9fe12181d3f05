(** Proofs for C96. *)
From Coq Require Import ZifyBool.
From Verif Require Import GoBase Utf8Facts Strutils SplitPattern NormString Normalizers SpecText SpecNorm SpecNormalizers SliceFacts StrutilsFacts
  PatternFacts NormFacts NormEdits NormReplace NormalizersFacts SpecPts SpecExact ExactFacts SpecUtf8 CodecFacts SpecShift.
Import GoBase.
#[local] Open Scope Z_scope.

(** * Looking up a span *)
Lemma idx_span v b : idx (spans_of v) b = match span_at v b with Some a => Ret a | None => Panic end.
Proof.
  revert b. induction v as [|[c a] v IH]; intros b.
  - cbn [span_at]. apply idx_panic. change (zlen (spans_of [])) with 0. lia.
  - rewrite spans_of_cons. cbn [span_at]. pose proof (rune_len_bounds c). destruct (Z.ltb_spec b 0).
    { apply idx_panic. lia. }
    destruct (Z.ltb_spec b (rune_len c)).
    + rewrite idx_app_l by (rewrite zlen_repeat; unfold rune_len, zlen in *; lia). apply idx_repeat. unfold rune_len, zlen in *. lia.
    + rewrite idx_app_r by (rewrite zlen_repeat; unfold rune_len, zlen in *; lia). rewrite <- IH. f_equal. rewrite zlen_repeat. done.
Qed.

Lemma span_at_None v b : span_at v b = None ↔ ¬ (0 <= b < zlen (encode v.*1)).
Proof.
  revert b. induction v as [|[c a] v IH]; intros b; cbn [span_at].
  - change (zlen (encode [].*1)) with 0. split; [lia|done].
  - rewrite fmap_cons, zlen_encode_cons. cbn [fst]. pose proof (rune_len_bounds c). pose proof (zlen_nonneg (encode v.*1)).
    destruct (Z.ltb_spec b 0); [split; [lia|done]|]. destruct (Z.ltb_spec b (rune_len c)).
    + split; [done|lia].
    + rewrite IH. lia.
Qed.

(** * Reading from the middle of a character *)
Lemma stray_byte b s : 0x80 <= b < 0xC0 → decode (b :: s) = (rune_error, 1) :: decode s.
Proof.
  intros Hb. cbn [decode]. replace (byte_in 0 127 b) with false by (unfold byte_in; lia).
  destruct s as [|b1 s]; [done|]. replace (head2 b b1) with false by (unfold head2, byte_in; lia).
  destruct s as [|b2 s]; [done|]. replace (head3 b b1 b2) with false by (unfold head3, byte_in; lia).
  destruct s as [|b3 s]; [done|]. replace (head4 b b1 b2 b3) with false by (unfold head4, byte_in; lia). done.
Qed.
Lemma stray_bytes l s : Forall (λ b, 0x80 <= b < 0xC0) l → runes (l ++ s) = repeat rune_error (length l) ++ runes s.
Proof.
  intros Hl. induction Hl as [|b l Hb Hl IH]; [done|]. unfold runes in *. cbn [app length repeat]. rewrite stray_byte by done. rewrite fmap_cons. cbn [fst].
  f_equal. apply IH.
Qed.
Lemma encode_tail c : scalar c = true → ∃ b l, encode_rune c = b :: l ∧ Forall (λ b, 0x80 <= b < 0xC0) l.
Proof.
  intros Hc%char_scalar%utf8_encode. inversion Hc; subst; (do 2 eexists; split; [reflexivity|]).
  all: rewrite ?low6, ?lor_80 by (apply Z.mod_pos_bound; lia).
  all: repeat (apply Forall_cons; split; [match goal with |- _ <= _ + ?x mod 64 < _ => pose proof (Z.mod_pos_bound x 64); lia end|]); apply Forall_nil; exact I.
Qed.

Lemma runes_from k rs : scalars rs → 0 <= k → runes (drop (Z.to_nat k) (encode rs)) = read_from k rs.
Proof.
  intros Hs. revert k. induction Hs as [|c rs Hc Hs IH]; intros k Hk.
  - cbn [read_from]. change (encode []) with (@nil Z). by rewrite drop_nil.
  - cbn [read_from]. destruct (Z.leb_spec k 0).
    { replace k with 0 by lia. apply runes_encode_scalars. by constructor. }
    rewrite encode_cons. destruct (Z.leb_spec (rune_len c) k).
    + rewrite drop_app_ge by (unfold rune_len, zlen in *; lia). rewrite <- IH by lia. do 2 f_equal. unfold rune_len, zlen in *. lia.
    + rewrite drop_app_le by (unfold rune_len, zlen in *; lia). destruct (encode_tail c Hc) as (b & l & E & Hl). unfold rune_len in *. rewrite E in *.
      replace (Z.to_nat k) with (S (Z.to_nat (k - 1))) by lia. cbn [drop].
      rewrite stray_bytes by (by apply Forall_drop). rewrite runes_encode_scalars by done. f_equal. f_equal. rewrite drop_length, zlen_cons. unfold zlen. lia.
Qed.

Lemma read_from_app k lead rest : k <= zlen (encode lead) → read_from k (lead ++ rest) = read_from k lead ++ rest.
Proof.
  revert k. induction lead as [|c lead IH]; intros k Hk; cbn [app read_from].
  - change (zlen (encode [])) with 0 in Hk. destruct rest; [done|]. cbn [read_from]. replace (k <=? 0) with true by lia. done.
  - rewrite zlen_encode_cons in Hk. destruct (k <=? 0); [done|]. destruct (Z.leb_spec (rune_len c) k).
    + apply IH. lia.
    + by rewrite app_assoc.
Qed.

(** * The loop *)
Notation flagged := (list (Z * bool)) (only parsing).
Fixpoint gap (fl : flagged) : nat := match fl with (_, false) :: fl' => S (gap fl') | _ => 0 end.
Fixpoint changes (fl : flagged) : list (Z * Z) :=
  match fl with
  | [] => []
  | (c, true) :: fl' => (c, - Z.of_nat (gap fl')) :: changes fl'
  | (_, false) :: fl' => changes fl'
  end.
Fixpoint walk (fl : flagged) (rs : list Z) (off : Z) : list (Z * Z) :=
  match fl, rs with
  | (c, b) :: fl', r :: rs' => (if b then [(c, off)] else []) ++ walk fl' rs' (off + rune_len r)
  | _, _ => []
  end.
Fixpoint collect (al : list (Z * Z)) (ps : list (Z * Z)) : outcome (list (Z * Z) * list Z) :=
  match ps with
  | [] => Ret ([], [])
  | (c, i) :: ps' => a ← idx al i; z ← collect al ps'; Ret (repeat a (length (encode_rune c)) ++ z.1, encode_rune c ++ z.2)
  end.

Lemma gap_length fl : (gap fl <= length fl)%nat.
Proof. induction fl as [|[c [|]] fl IH]; cbn [gap length]; lia. Qed.

Lemma tr_loop_walk al fl rs off : (length fl <= length rs)%nat →
  tr_loop al (changes fl) (off + zlen (encode (take (gap fl) rs))) (drop (gap fl) rs) = collect al (walk fl rs off).
Proof.
  revert rs off. induction fl as [|[c b] fl IH]; intros rs off Hl; [done|].
  destruct rs as [|r rs]; [cbn in Hl; lia|]. cbn [length] in Hl. specialize (IH rs (off + rune_len r) ltac:(lia)).
  destruct b; cbn [gap changes walk take drop app].
  - change (encode []) with (@nil Z). change (zlen (@nil Z)) with 0. rewrite Z.add_0_r. cbn [tr_loop collect].
    replace (1 <=? - Z.of_nat (gap fl)) with false by lia. replace (- Z.of_nat (gap fl) <=? 0) with true by lia. cbv iota.
    destruct (idx al off) as [a|]; [|done]. cbn [mbind outcome_bind]. rewrite Z.opp_involutive.
    pose proof (gap_length fl). rewrite <- IH.
    destruct (gap fl) as [|g] eqn:Eg.
    + change (- Z.of_nat 0 <=? -1) with false. cbv iota. cbn [mbind outcome_bind take drop]. change (zlen (encode [])) with 0. done.
    + replace (- Z.of_nat (S g) <=? -1) with true by lia. cbv iota.
      assert (E1 : sub rs 0 (Z.of_nat (S g)) = Ret (take (S g) rs)). { rewrite <- (take_drop (S g) rs) at 1. apply sub_prefix. unfold zlen. rewrite take_length. lia. }
      assert (E2 : sub rs (Z.of_nat (S g)) (zlen rs) = Ret (drop (S g) rs)).
      { rewrite <- (take_drop (S g) rs) at 1. apply sub_suffix; [unfold zlen; rewrite take_length; lia|by rewrite take_drop]. }
      rewrite E1, E2. cbn [mbind outcome_bind]. done.
  - rewrite <- IH. f_equal. rewrite encode_cons, zlen_app. unfold rune_len. lia.
Qed.

(** * Transform *)
Lemma transform_walk n v dest k : repr n v → 0 <= k <= zlen (encode v.*1) →
  transform n dest k = (x ← tr_loop (spans_of v) dest k (read_from k v.*1); Ret (NS (ns_orig n) x.2 x.1 (ns_shift n))).
Proof.
  intros (Hs & Hn & Ha) Hk. unfold transform, transform_range. cbn [coerce_to_norm negb]. unfold ns_len. rewrite Hn, Ha, sub_full. cbn [mbind outcome_bind].
  set (s := encode v.*1) in *. assert (zlen (take (Z.to_nat k) s) = k) as Hz by (unfold zlen in *; rewrite take_length; lia).
  assert (E1 : sub s 0 k = Ret (take (Z.to_nat k) s)). { rewrite <- (take_drop (Z.to_nat k) s) at 1. apply sub_prefix. lia. }
  assert (E2 : sub s k (zlen s) = Ret (drop (Z.to_nat k) s)).
  { rewrite <- (take_drop (Z.to_nat k) s) at 1. apply sub_suffix; [lia|by rewrite take_drop]. }
  rewrite E1, E2. cbn [mbind outcome_bind]. rewrite Hz, Z.add_0_r. unfold s. rewrite runes_from by (done || lia).
  destruct (tr_loop _ _ _ _) as [x|]; [|done]. cbn [mbind outcome_bind].
  assert (Hl : zlen (spans_of v) = zlen (encode v.*1)).
  { clear. induction v as [|[c a] v IH]; [done|]. rewrite spans_of_cons, fmap_cons, zlen_encode_cons, zlen_app, zlen_repeat, IH. done. }
  assert (E3 : ∀ A (l : list A), sub l 0 0 = Ret []). { intros A l. apply (sub_prefix [] l). done. }
  assert (E4 : ∀ A (l : list A) m, m = zlen l → sub l m (zlen l) = Ret []).
  { intros A l m ->. rewrite <- (app_nil_r l) at 1. apply sub_suffix; [done|by rewrite app_nil_r]. }
  rewrite !E3. cbn [mbind outcome_bind]. rewrite (E4 _ (spans_of v)) by (unfold s; done). cbn [mbind outcome_bind]. rewrite (E4 _ (encode _)) by done. cbn [mbind outcome_bind app]. by rewrite !app_nil_r.
Qed.

(** * Positions *)
Lemma filter_fmap {A B} (f : A → B) (P : B → Prop) `{∀ x, Decision (P x)} (l : list A) : base.filter P (f <$> l) = f <$> base.filter (λ x, P (f x)) l.
Proof. induction l as [|x l IH]; [done|]. rewrite fmap_cons, !filter_cons. destruct (decide (P (f x))); [|done]. rewrite fmap_cons. by f_equal. Qed.
Lemma imap_S {A} (l : list A) : imap (λ i, pair (S i)) l = (λ pc, (S pc.1, pc.2)) <$> imap pair l.
Proof. rewrite fmap_imap. by apply imap_ext. Qed.
Lemma imap_pair_cons {A} (x : A) l : imap pair (x :: l) = (0%nat, x) :: ((λ pc, (S pc.1, pc.2)) <$> imap pair l).
Proof. rewrite <- imap_S. done. Qed.

Lemma walk_positions fl rs off : (length fl <= length rs)%nat →
  walk fl rs off = (λ pc : nat * (Z * bool), (pc.2.1, off + zlen (encode (take pc.1 rs)))) <$> base.filter (λ pc, pc.2.2 = true) (imap pair fl).
Proof.
  revert rs off. induction fl as [|[c b] fl IH]; intros rs off Hl; [done|]. destruct rs as [|r rs]; [cbn in Hl; lia|]. cbn [length] in Hl.
  cbn [walk]. rewrite imap_pair_cons, filter_cons. cbn [snd].
  assert (E : walk fl rs (off + rune_len r) = (λ pc : nat * (Z * bool), (pc.2.1, off + zlen (encode (take pc.1 (r :: rs))))) <$>
    base.filter (λ pc, pc.2.2 = true) ((λ pc : nat * (Z * bool), (S pc.1, pc.2)) <$> imap pair fl)).
  { rewrite IH by lia. rewrite filter_fmap. cbn [snd]. rewrite <- list_fmap_compose. apply list_fmap_ext. intros i [p [c' b']] _. cbn [compose fst snd take]. f_equal.
    rewrite encode_cons, zlen_app. unfold rune_len. lia. }
  rewrite E. destruct b; [|done]. rewrite decide_True by done. rewrite fmap_cons. cbn [app fst snd take]. do 2 f_equal. change (zlen (encode [])) with 0. lia.
Qed.

Lemma collect_found v k cs :
  collect (spans_of v) ((λ pc : nat * Z, (pc.2, k + zlen (encode (take pc.1 (read_from k v.*1))))) <$> cs)
  = match with_found v k cs with Some w => Ret (spans_of w, encode w.*1) | None => Panic end.
Proof.
  induction cs as [|[p c] cs IH]; [done|]. unfold with_found in *. cbn [mapM]. rewrite fmap_cons. cbn [collect fst snd]. rewrite idx_span, IH. unfold found_at.
  destruct (span_at v _) as [a|]; cbn [mbind outcome_bind option_bind]; [|done].
  destruct (mapM _ cs) as [w|]; cbn [mbind outcome_bind option_bind mret option_ret fst snd]; [|done].
  rewrite spans_of_cons, fmap_cons, encode_cons. done.
Qed.
Lemma with_found_chars v k cs w : with_found v k cs = Some w → w.*1 = cs.*2.
Proof.
  revert w. induction cs as [|[p c] cs IH]; intros w; unfold with_found in *; cbn [mapM].
  { by intros [= <-]. }
  cbn [fst snd]. destruct (span_at v _) as [a|]; cbn [mbind option_bind]; [|done].
  destruct (mapM _ cs) as [w'|]; cbn [mbind option_bind]; [|done]. intros [= <-]. rewrite !fmap_cons. cbn [fst snd]. f_equal. by apply IH.
Qed.

(** What a list of changes made of flagged characters does. *)
Lemma transform_found n lead rest fl cs :
  repr n (lead ++ rest) → fl.*1 = rest.*1 → gap fl = 0%nat →
  cs = (λ pc : nat * (Z * bool), (pc.1, pc.2.1)) <$> base.filter (λ pc, pc.2.2 = true) (imap pair fl) →
  match with_found (lead ++ rest) (zlen lead) cs with
  | Some w => ∃ n', transform n (changes fl) (zlen lead) = Ret n' ∧ repr n' w ∧ same_origin n n'
  | None => transform n (changes fl) (zlen lead) = Panic
  end.
Proof.
  intros Hr Hfl Hg Hcs. pose proof Hr as (Hs & _ & _).
  assert (Hk : 0 <= zlen lead <= zlen (encode lead.*1)).
  { split; [apply zlen_nonneg|]. clear. induction lead as [|[c a] lead IH]; [done|]. rewrite fmap_cons, zlen_cons, zlen_encode_cons. cbn [fst]. pose proof (rune_len_bounds c). lia. }
  assert (Hlen : (length fl <= length (read_from (zlen lead) (lead ++ rest).*1))%nat).
  { rewrite fmap_app, read_from_app by lia. rewrite app_length, <- Hfl, fmap_length. lia. }
  rewrite (transform_walk n (lead ++ rest)) by (done || rewrite fmap_app, encode_app, zlen_app; pose proof (zlen_nonneg (encode rest.*1)); lia).
  pose proof (tr_loop_walk (spans_of (lead ++ rest)) fl _ (zlen lead) Hlen) as E. rewrite Hg, take_0, drop_0 in E. change (zlen (encode [])) with 0 in E. rewrite Z.add_0_r in E.
  rewrite E, walk_positions by done.
  pose proof (collect_found (lead ++ rest) (zlen lead) cs) as E2. rewrite Hcs in E2 at 1. rewrite <- list_fmap_compose in E2. unfold compose in E2. cbn [fst snd] in E2.
  rewrite E2. destruct (with_found _ _ cs) as [w|] eqn:Ew; [|done]. cbn [mbind outcome_bind fst snd]. eexists. split; [done|]. split; [|done].
  split; [|done]. rewrite (with_found_chars _ _ _ _ Ew), Hcs. rewrite <- list_fmap_compose.
  apply Forall_fmap, Forall_forall. intros [p [c b]] Hin%elem_of_list_filter. destruct Hin as [_ Hin]. apply elem_of_lookup_imap in Hin as (i & x & [= <- <-] & Hx).
  cbn [compose snd fst]. rewrite fmap_app in Hs. apply scalars_app in Hs as [_ Hs]. rewrite <- Hfl in Hs. eapply Forall_lookup_1 in Hs; [apply Hs|].
  rewrite list_lookup_fmap, Hx. done.
Qed.

(** * Filter *)
Definition flags (keep : Z → bool) (rs : list Z) : flagged := (λ r, (r, keep r)) <$> rs.
Lemma filter_loop_some keep rs l rm st : filter_loop keep rs (Some l) rm st = ((l, - (rm + Z.of_nat (gap (flags keep rs)))) :: changes (flags keep rs), st).
Proof.
  revert l rm st. induction rs as [|r rs IH]; intros l rm st; cbn [filter_loop].
  - unfold flags. cbn [fmap list_fmap gap changes]. do 3 f_equal. lia.
  - unfold flags in *. rewrite fmap_cons. destruct (keep r); cbn [negb gap changes].
    + rewrite IH. cbn [fst snd]. rewrite Z.add_0_l, Z.add_0_r. done.
    + rewrite IH. do 3 f_equal. lia.
Qed.
Lemma filter_loop_none keep rs rm : filter_loop keep rs None rm 0 =
  if (leading keep rs <? length rs)%nat then (changes (flags keep rs), rm + Z.of_nat (leading keep rs)) else ([], 0).
Proof.
  revert rm. induction rs as [|r rs IH]; intros rm; cbn [filter_loop leading]; [done|]. unfold flags in *. rewrite fmap_cons. destruct (keep r) eqn:E; cbn [negb changes length].
  - rewrite filter_loop_some. rewrite Z.add_0_r, Z.add_0_l. done.
  - rewrite IH. change (S (leading keep rs) <? S (length rs))%nat with (leading keep rs <? length rs)%nat. destruct (_ <? _)%nat; [|done]. f_equal. lia.
Qed.
Lemma leading_le keep rs : (leading keep rs <= length rs)%nat.
Proof. induction rs as [|r rs IH]; cbn [leading length]; [lia|]. destruct (keep r); lia. Qed.
Lemma changes_drop keep rs : changes (flags keep rs) = changes (flags keep (drop (leading keep rs) rs)).
Proof. induction rs as [|r rs IH]; [done|]. cbn [leading]. destruct (keep r) eqn:E; [done|]. unfold flags in *. rewrite fmap_cons, E. cbn [changes drop]. apply IH. Qed.
Lemma gap_drop keep rs : gap (flags keep (drop (leading keep rs) rs)) = 0%nat.
Proof. induction rs as [|r rs IH]; [done|]. cbn [leading]. destruct (keep r) eqn:E; [|done]. cbn [drop]. unfold flags. rewrite fmap_cons, E. done. Qed.

Lemma filter_found n v keep : repr n v →
  match filtered keep v with
  | Some w => ∃ n', filter_runes n keep = Ret n' ∧ repr n' w ∧ same_origin n n'
  | None => filter_runes n keep = Panic
  end.
Proof.
  intros Hr. unfold filter_runes. rewrite (repr_runes n v Hr), filter_loop_none. unfold filtered. set (k := leading keep v.*1).
  assert (Hcs : base.filter (λ pc, keep pc.2 = true) (imap pair (drop k v.*1))
    = (λ pc : nat * (Z * bool), (pc.1, pc.2.1)) <$> base.filter (λ pc, pc.2.2 = true) (imap pair (flags keep (drop k v.*1)))).
  { unfold flags. rewrite imap_fmap. generalize (drop k v.*1). intros l.
    assert (E : imap (λ i, pair i ∘ λ r, (r, keep r)) l = (λ pc : nat * Z, (pc.1, (pc.2, keep pc.2))) <$> imap pair l). { rewrite fmap_imap. by apply imap_ext. }
    rewrite E, filter_fmap. cbn [snd]. rewrite <- list_fmap_compose. rewrite <- (list_fmap_id (base.filter _ _)) at 1. apply list_fmap_ext. by intros i [p c] _. }
  destruct (Nat.ltb_spec k (length v.*1)) as [Hlt|Hge]; cbn [fst snd].
  - rewrite Z.add_0_l, changes_drop. fold k.
    pose proof (transform_found n (take k v) (drop k v) (flags keep (drop k v.*1))) as H. rewrite take_drop in H.
    specialize (H (base.filter (λ pc, keep pc.2 = true) (imap pair (drop k v.*1))) Hr). rewrite fmap_length in Hlt. assert (zlen (take k v) = Z.of_nat k) as Hz by (unfold zlen; rewrite take_length; lia). rewrite Hz in H.
    apply H; [|apply gap_drop|exact Hcs]. unfold flags. rewrite <- list_fmap_compose, <- fmap_drop. rewrite <- (list_fmap_id (drop k v).*1) at 2. by apply list_fmap_ext.
  - rewrite drop_ge by lia. change (∃ n', transform n [] 0 = Ret n' ∧ repr n' [] ∧ same_origin n n').
    pose proof (transform_spec n [] v [] Hr) as E. rewrite alen_nil in E. rewrite E. cbn [rewrite_chars]. eexists. split; [done|]. split; [|done]. split; [constructor|done].
Qed.

(** * Trim *)
Lemma span_at_split a c s b : span_at (a ++ (c, s) :: b) (zlen (encode a.*1)) = Some s.
Proof.
  induction a as [|[c' s'] a IH]; cbn [app span_at].
  - change (zlen (encode [].*1)) with 0. pose proof (rune_len_bounds c). change (0 <? 0) with false. cbv iota. replace (0 <? rune_len c) with true by lia. done.
  - rewrite fmap_cons, zlen_encode_cons. cbn [fst]. pose proof (rune_len_bounds c'). pose proof (zlen_nonneg (encode a.*1)).
    replace (_ <? 0) with false by lia. replace (_ <? rune_len c') with false by lia. rewrite <- IH. f_equal. lia.
Qed.
(** Nothing is displaced if the characters in front take one byte each. *)
Lemma found_right lead rest p c s : zlen lead = zlen (encode lead.*1) → rest !! p = Some (c, s) →
  span_at (lead ++ rest) (found_at (lead ++ rest) (zlen lead) p) = Some s.
Proof.
  intros Hk Hp. unfold found_at. rewrite fmap_app, read_from_app by lia.
  assert (E : read_from (zlen lead) lead.*1 = []).
  { rewrite Hk. clear. induction lead as [|[x a] lead IH]; [done|]. rewrite fmap_cons, zlen_encode_cons. cbn [read_from fst]. pose proof (rune_len_bounds x). pose proof (zlen_nonneg (encode lead.*1)).
    replace (_ <=? 0) with false by lia. replace (rune_len x <=? _) with true by lia. rewrite <- IH. f_equal. lia. }
  rewrite E. cbn [app]. rewrite <- (take_drop_middle rest p (c, s) Hp) at 1. rewrite app_assoc.
  rewrite <- (span_at_split (lead ++ take p rest) c s (drop (S p) rest)). f_equal. rewrite fmap_app, encode_app, zlen_app, fmap_take. lia.
Qed.
Lemma with_found_right lead rest (f : Z → Prop) `{∀ x, Decision (f x)} : zlen lead = zlen (encode lead.*1) →
  with_found (lead ++ rest) (zlen lead) (base.filter (λ pc, f pc.2) (imap pair rest.*1)) = Some (base.filter (λ p, f p.1) rest).
Proof.
  intros Hk.
  assert (H' : ∀ l, (∀ pc, pc ∈ l → rest !! pc.1 = Some pc.2) →
    with_found (lead ++ rest) (zlen lead) ((λ pc : nat * (Z * (Z * Z)), (pc.1, pc.2.1)) <$> l) = Some l.*2).
  { unfold with_found. induction l as [|[p [c s]] l IH]; intros Hl; [done|]. rewrite !fmap_cons. cbn [mapM fst snd].
    rewrite (found_right lead rest p c s Hk) by (apply (Hl (p, (c, s))); left). cbn [mbind option_bind]. rewrite IH; [done|]. intros pc Hpc. apply Hl. by right. }
  assert (E1 : imap pair rest.*1 = (λ pc : nat * (Z * (Z * Z)), (pc.1, pc.2.1)) <$> imap pair rest). { rewrite fmap_imap, imap_fmap. by apply imap_ext. }
  assert (E2 : rest = (imap pair rest).*2). { rewrite fmap_imap. clear. induction rest as [|x rest IH]; [done|]. cbn. f_equal. exact IH. }
  rewrite E1, filter_fmap. cbn [snd]. rewrite H'.
  - rewrite E2 at 2. by rewrite filter_fmap.
  - intros [p x] [_ Hin]%elem_of_list_filter. apply elem_of_lookup_imap in Hin as (i & y & [= -> ->] & Hy). done.
Qed.
Lemma filter_true {A} (f : A → Prop) `{∀ x, Decision (f x)} (l : list A) : (∀ x, x ∈ l → f x) → base.filter f l = l.
Proof. intros Hl. induction l as [|x l IH]; [done|]. rewrite filter_cons, decide_True by (apply Hl; left). f_equal. apply IH. intros y Hy. apply Hl. by right. Qed.
Lemma filter_none {A} (f : A → Prop) `{∀ x, Decision (f x)} (l : list A) : (∀ x, x ∈ l → ¬ f x) → base.filter f l = [].
Proof. intros Hl. induction l as [|x l IH]; [done|]. rewrite filter_cons, decide_False by (apply Hl; left). apply IH. intros y Hy. apply Hl. by right. Qed.

Lemma trim_found n left right lead mid trail : repr n (lead ++ mid ++ trail) → trimmed left right lead mid trail →
  match with_found (lead ++ mid ++ trail) (zlen lead) (imap pair mid.*1) with
  | Some w => ∃ n', trim_left_right n left right = Ret n' ∧ repr n' w ∧ same_origin n n'
  | None => trim_left_right n left right = Panic
  end.
Proof.
  intros Hr Ht. destruct (decide (mid = [])) as [->|Hne].
  { cbn [fmap list_fmap imap]. unfold with_found. cbn [mapM]. destruct (trim_spec n left right lead [] trail Hr Ht) as (n' & H); [by right|]. by exists n'. }
  destruct (exists_last Hne) as (m & [x a] & ->). rewrite (trim_eq n left right lead m x a trail Hr Ht).
  destruct ((zlen lead =? 0) && (zlen trail =? 0)) eqn:E0.
  { apply andb_true_iff in E0 as [E1 E2]. destruct lead; [|rewrite zlen_cons in E1; pose proof (zlen_nonneg lead); lia].
    destruct trail; [|rewrite zlen_cons in E2; pose proof (zlen_nonneg trail); lia]. rewrite app_nil_r in *. cbn [app] in *.
    pose proof (with_found_right [] (m ++ [(x, a)]) (λ _, True) eq_refl) as E. cbn [app] in E. rewrite !filter_true in E by done. rewrite E. by exists n. }
  set (fl := ((λ c, (c, true)) <$> (m ++ [(x, a)]).*1) ++ ((λ c, (c, false)) <$> trail.*1)).
  assert (Hch : changes fl = map (λ r, (r, 0)) m.*1 ++ [(x, - zlen trail.*1)]).
  { unfold fl. clear. assert (∀ t : list Z, gap ((λ c, (c, false)) <$> t) = length t ∧ changes ((λ c, (c, false)) <$> t) = []) as Ht.
    { induction t as [|c t [H1 H2]]; [done|]. rewrite fmap_cons. cbn [gap changes length]. split; [by f_equal|done]. }
    rewrite fmap_app. change ([(x, a)].*1) with [x]. induction m.*1 as [|y l IH].
    - cbn [app fmap list_fmap map changes]. destruct (Ht trail.*1) as [-> ->]. done.
    - cbn [app]. rewrite fmap_cons. cbn [app map changes]. rewrite <- IH. f_equal. destruct l; done. }
  rewrite <- Hch. apply transform_found; [done| | |].
  - unfold fl. rewrite !fmap_app, <- !list_fmap_compose. reflexivity.
  - unfold fl. destruct m as [|y m]; done.
  - unfold fl. rewrite imap_app, filter_app. rewrite filter_true, filter_none.
    + rewrite app_nil_r, (imap_fmap _ (λ c, (c, true))), fmap_imap. by apply imap_ext.
    + intros [p [c b]] Hin. apply elem_of_lookup_imap in Hin as (i & y & E & Hy). rewrite list_lookup_fmap in Hy. destruct (trail.*1 !! i); [|done]. injection Hy as <-. by injection E as _ _ ->.
    + intros [p [c b]] Hin. apply elem_of_lookup_imap in Hin as (i & y & E & Hy). rewrite list_lookup_fmap in Hy. destruct (_ !! i); [|done]. injection Hy as <-. by injection E as _ _ ->.
Qed.

(** * BERT *)
Lemma bert_found_spec u o n v : repr n v →
  match bert_found u o v with
  | Some w => ∃ n', bert_normalize u o n = Ret n' ∧ repr n' w ∧ same_origin n n'
  | None => bert_normalize u o n = Panic
  end.
Proof.
  intros Hr. unfold bert_found, bert_normalize.
  assert (match if_asked (bo_clean o) (λ v, w ← filtered (λ r, negb (bool_decide (cleaned_away u r))) v; Some (map (λ p, (if white_space p.1 then 32 else p.1, p.2)) w)) v with
    | Some w => ∃ n', (if bo_clean o then clean_text u n else Ret n) = Ret n' ∧ repr n' w ∧ same_origin n n'
    | None => (if bo_clean o then clean_text u n else Ret n) = Panic end) as H1.
  { destruct (bo_clean o); cbn [if_asked]; [|by exists n]. unfold clean_text.
    pose proof (filter_found n v (λ r, negb ((r =? 0) || (r =? rune_error) || is_control u r)) Hr) as H.
    assert (E : filtered (λ r, negb (bool_decide (cleaned_away u r))) v = filtered (λ r, negb ((r =? 0) || (r =? rune_error) || is_control u r)) v).
    { assert (Hk : ∀ r, bool_decide (cleaned_away u r) = (r =? 0) || (r =? rune_error) || is_control u r).
      { intros r. apply eq_bool_prop_intro. rewrite bool_decide_spec. unfold cleaned_away, is_control, rune_error. split.
        - intros [->|[->|(H1 & H2 & H3 & H4)]]; [done|done|]. replace (r =? 9) with false by lia. replace (r =? 10) with false by lia. replace (r =? 13) with false by lia. cbn [orb]. by rewrite H1, orb_true_r.
        - intros H'%Is_true_true. destruct (Z.eqb_spec r 0); [by left|]. destruct (Z.eqb_spec r 65533); [by right; left|]. cbn [orb] in H'.
          destruct ((r =? 9) || (r =? 10) || (r =? 13)) eqn:E; [done|]. right. right. split; [done|]. lia. }
      unfold filtered.
      assert (Hlead : ∀ rs, leading (λ r, negb (bool_decide (cleaned_away u r))) rs = leading (λ r, negb ((r =? 0) || (r =? rune_error) || is_control u r)) rs).
      { induction rs as [|r rs IH]; [done|]. cbn [leading]. rewrite Hk, IH. done. }
      rewrite Hlead. f_equal. apply list_filter_iff. intros [p c]. cbn [snd]. by rewrite Hk. }
    rewrite E. destruct (filtered _ v) as [w|].
    - destruct H as (n1 & -> & R1 & O1). cbn [mbind option_bind outcome_bind]. destruct (map_runes_text n1 w (λ r, if is_whitespace r then 32 else r) R1) as (n2 & -> & _ & R2 & O2).
      exists n2. split; [done|]. split; [|destruct O1, O2; split; congruence].
      destruct R1 as (S1 & _). replace (map (λ p, (if white_space p.1 then 32 else p.1, p.2)) w) with (map (λ p : Z * (Z * Z), (sanitize (if is_whitespace p.1 then 32 else p.1), p.2)) w); [done|].
      clear -S1. induction w as [|[c a] w IH]; [done|]. rewrite fmap_cons in S1. apply Forall_cons in S1 as [Hc S1]. cbn [map fst snd] in *. f_equal; [|by apply IH]. f_equal.
      rewrite is_whitespace_white. destruct (white_space c); [done|]. by apply sanitize_id.
    - by rewrite H. }
  destruct (if_asked _ _ v) as [v1|]; cbn [mbind option_bind]; [|by rewrite H1]. destruct H1 as (n1 & -> & R1 & O1). cbn [mbind outcome_bind].
  assert (∃ n2, (if bo_chinese o then handle_chinese n1 else Ret n1) = Ret n2 ∧ repr n2 (when (bo_chinese o) (aspaced_out is_chinese) v1) ∧ same_origin n1 n2) as (n2 & -> & R2 & O2).
  { destruct (bo_chinese o); cbn [when]; [by apply chinese_aligned|by exists n1]. }
  cbn [mbind outcome_bind].
  assert (match if_asked (bo_accents o) (filtered (λ r, negb (u_mn u r))) (when (bo_chinese o) (aspaced_out is_chinese) v1) with
    | Some w => ∃ n', (if bo_accents o then strip_accents u n2 else Ret n2) = Ret n' ∧ repr n' w ∧ same_origin n2 n'
    | None => (if bo_accents o then strip_accents u n2 else Ret n2) = Panic end) as H3.
  { destruct (bo_accents o); cbn [if_asked]; [|by exists n2]. by apply filter_found. }
  destruct (if_asked (bo_accents o) _ _) as [v2|]; cbn [mbind option_bind]; [|by rewrite H3]. destruct H3 as (n3 & -> & R3 & O3). cbn [mbind outcome_bind].
  assert (∃ n4, (if bo_lower o then map_runes n3 (u_lower u) else Ret n3) = Ret n4 ∧ repr n4 (when (bo_lower o) (alowered u) v2) ∧ same_origin n3 n4) as (n4 & -> & R4 & O4).
  { destruct (bo_lower o); cbn [when]; [|by exists n3]. destruct (map_runes_text n3 v2 (u_lower u) R3) as (n4 & H & _ & R4 & O4). by exists n4. }
  exists n4. split; [done|]. split; [done|]. unfold same_origin in *. intuition congruence.
Qed.

(** * Panics *)
Lemma with_found_None v k cs : 0 <= k → with_found v k cs = None ↔ ∃ p c, (p, c) ∈ cs ∧ zlen (encode v.*1) <= found_at v k p.
Proof.
  intros Hk. assert (Hp : ∀ p, 0 <= found_at v k p) by (intros p; unfold found_at; pose proof (zlen_nonneg (encode (take p (read_from k v.*1)))); lia).
  unfold with_found. induction cs as [|[p c] cs IH]; cbn [mapM fst snd].
  { split; [done|]. intros (p & c & H%elem_of_nil & _). done. }
  destruct (span_at v (found_at v k p)) as [a|] eqn:E; cbn [mbind option_bind].
  - assert (found_at v k p < zlen (encode v.*1)) as Hlt.
    { destruct (decide (found_at v k p < zlen (encode v.*1))); [done|]. assert (span_at v (found_at v k p) = None) by (apply span_at_None; lia). congruence. }
    destruct (mapM _ cs) as [w|]; cbn [mbind option_bind mret option_ret].
    + split; [done|]. intros (p' & c' & [[= -> ->]|H]%elem_of_cons & Hx); [lia|]. assert (Some w = None) by (apply IH; eauto). done.
    + split; [|done]. intros _. destruct IH as [IH _]. destruct IH as (p' & c' & H & Hx); [done|]. exists p', c'. split; [by right|done].
  - split; [|done]. intros _. exists p, c. split; [left|]. apply span_at_None in E. specialize (Hp p). lia.
Qed.

Lemma filtered_None keep v : filtered keep v = None ↔
  ∃ p c, drop (leading keep v.*1) v.*1 !! p = Some c ∧ keep c = true ∧ zlen (encode v.*1) <= found_at v (Z.of_nat (leading keep v.*1)) p.
Proof.
  unfold filtered. rewrite with_found_None by lia. split.
  - intros (p & c & [H1 H2]%elem_of_list_filter & H3). apply elem_of_lookup_imap in H2 as (i & y & [= -> ->] & Hy). eauto.
  - intros (p & c & H1 & H2 & H3). exists p, c. split; [|done]. apply elem_of_list_filter. split; [done|]. apply elem_of_lookup_imap. eauto.
Qed.

Lemma encode_ascii rs : Forall (λ r, 0 <= r < 128) rs → encode rs = rs.
Proof. intros H. induction H as [|r rs Hr H IH]; [done|]. rewrite encode_cons, IH, encode_rune_ascii by lia. done. Qed.

Lemma mark_None keep c a (rest : list (Z * (Z * Z))) : keep c = false → 128 <= c → scalar c = true → Forall (λ p, 0 <= p.1 < 128 ∧ keep p.1 = true) rest →
  filtered keep ((c, a) :: rest) = None ↔ rune_len c + 2 <= 2 * zlen rest.
Proof.
  intros Hc H1 Hs Hr. rewrite filtered_None, fmap_cons. cbn [fst leading]. rewrite Hc.
  assert (leading keep rest.*1 = 0%nat) as ->. { destruct Hr as [|p l [_ Hp] _]; [done|]. rewrite fmap_cons. cbn [leading]. by rewrite Hp. }
  cbn [drop]. rewrite drop_0. change (Z.of_nat 1) with 1.
  assert (Hasc : Forall (λ r, 0 <= r < 128) rest.*1). { apply Forall_fmap. eapply Forall_impl; [exact Hr|]. by intros ? [? _]. }
  assert (H2 : 2 <= rune_len c). { apply char_scalar, utf8_encode in Hs. unfold rune_len. inversion Hs; subst; unfold zlen; cbn [length]; lia. }
  pose proof (rune_len_bounds c).
  assert (Hf : ∀ p, (p < length rest)%nat → found_at ((c, a) :: rest) 1 p = 1 + 3 * Z.min (Z.of_nat p) (rune_len c - 1) + Z.max 0 (Z.of_nat p - (rune_len c - 1))).
  { intros p Hp. unfold found_at. rewrite fmap_cons. cbn [fst read_from]. change (1 <=? 0) with false. replace (rune_len c <=? 1) with false by lia.
    rewrite firstn_app, repeat_length, encode_app, zlen_app. rewrite (encode_ascii (take _ rest.*1)) by (by apply Forall_take). unfold zlen at 2. rewrite take_length, fmap_length.
    assert (Hrep : ∀ m j, zlen (encode (take m (repeat 65533 j))) = 3 * Z.of_nat (m `min` j)).
    { induction m as [|m IH]; intros j; [done|]. destruct j as [|j]; [done|]. cbn [repeat take]. rewrite zlen_encode_cons, IH. change (rune_len 65533) with 3. lia. }
    rewrite Hrep. lia. }
  rewrite zlen_encode_cons. rewrite (encode_ascii rest.*1) by done. assert (Hz : zlen rest.*1 = zlen rest) by (unfold zlen; by rewrite fmap_length). rewrite Hz.
  split.
  - intros (p & x & Hp & _ & Hx). apply lookup_lt_Some in Hp. rewrite fmap_length in Hp. rewrite Hf in Hx by done. unfold zlen in *. lia.
  - intros Hm. assert (Hlt : (length rest - 1 < length rest)%nat) by (unfold zlen in *; lia). destruct (lookup_lt_is_Some_2 rest (length rest - 1)%nat Hlt) as [[x s] Hx].
    exists (length rest - 1)%nat, x. rewrite list_lookup_fmap, Hx. split; [done|]. split; [|rewrite Hf by done; unfold zlen in *; lia].
    eapply Forall_lookup_1 in Hr; [|exact Hx]. apply Hr.
Qed.

(** * Append *)
Lemma read_from_skip w j rs : 0 <= j → read_from (zlen (encode w) + j) (w ++ rs) = read_from j rs.
Proof.
  intros Hj. induction w as [|c w IH]; [done|]. rewrite zlen_encode_cons. cbn [app read_from]. pose proof (rune_len_bounds c). pose proof (zlen_nonneg (encode w)).
  replace (_ <=? 0) with false by lia. replace (rune_len c <=? _) with true by lia. rewrite <- IH. f_equal. lia.
Qed.
Lemma read_from_cons k rs : 0 <= k < zlen (encode rs) → ∃ c cs, read_from k rs = c :: cs ∧ (k + rune_len c <= zlen (encode rs) ∨ c = 0xFFFD).
Proof.
  revert k. induction rs as [|r rs IH]; intros k Hk; [change (zlen (encode [])) with 0 in Hk; lia|]. rewrite zlen_encode_cons in *. cbn [read_from].
  pose proof (zlen_nonneg (encode rs)). destruct (Z.leb_spec k 0); [exists r, rs; split; [done|]; left; lia|].
  destruct (Z.leb_spec (rune_len r) k).
  - destruct (IH (k - rune_len r)) as (c & cs & -> & Hc); [lia|]. exists c, cs. split; [done|]. destruct Hc; [left; lia|by right].
  - destruct (Z.to_nat (rune_len r - k)) eqn:E; [lia|]. cbn [repeat app]. do 2 eexists. split; [done|]. by right.
Qed.
Lemma inserted_spans (a : Z * Z) crs : spans_of (map (λ r, (r, a)) crs) = repeat a (length (encode crs)).
Proof.
  induction crs as [|r crs IH]; [done|]. cbn [map]. rewrite spans_of_cons, encode_cons, app_length, repeat_app, IH. done.
Qed.
Lemma spans_zlen v : zlen (spans_of v) = zlen (encode v.*1).
Proof. induction v as [|[c a] v IH]; [done|]. rewrite spans_of_cons, fmap_cons, zlen_encode_cons, zlen_app, zlen_repeat, IH. done. Qed.

Lemma append_found n v x a p c cs : repr n (v ++ [(x, a)]) → read_from (zlen v) (v.*1 ++ [x]) = c :: cs →
  let s := v.*1 ++ [x] in let b := zlen v + rune_len c - 1 in
  if decide (p = [] ∨ b < zlen (encode s)) then
    ∃ a1 a2 n', append n p = Ret n' ∧ span_at (v ++ [(x, a)]) (zlen v) = Some a1 ∧ (p = [] ∨ span_at (v ++ [(x, a)]) b = Some a2)
      ∧ ns_norm n' = take (length v) (encode s) ++ encode (x :: runes p)
      ∧ ns_al n' = take (length v) (spans_of (v ++ [(x, a)])) ++ repeat a1 (length (encode_rune x)) ++ repeat a2 (length (encode (runes p)))
      ∧ same_origin n n'
  else append n p = Panic.
Proof.
  intros Hr Hc s b. pose proof Hr as (Hs & Hn & Ha). rewrite fmap_app in Hs, Hn. change ([(x, a)].*1) with [x] in Hs, Hn. fold s in Hs, Hn, Hc.
  assert (Hlt : zlen v < zlen (encode s)).
  { unfold s. rewrite encode_app, zlen_app. pose proof (encode_pos x []). assert (zlen v <= zlen (encode v.*1)); [|lia].
    clear. induction v as [|[y b] v IH]; [done|]. rewrite fmap_cons, zlen_cons, zlen_encode_cons. cbn [fst]. pose proof (rune_len_bounds y). lia. }
  pose proof (zlen_nonneg v) as Hv.
  assert (Happ : append n p = (z ← tr_loop (ns_al n) ((x, 0) :: map (λ r, (r, 1)) (runes p)) (zlen v) (c :: cs);
     Ret (NS (ns_orig n) (take (length v) (encode s) ++ z.2) (take (length v) (ns_al n) ++ z.1) (ns_shift n)))).
  { unfold append. rewrite Hn. replace (zlen (encode s) =? 0) with false by lia. rewrite runes_encode_scalars by done.
    assert (Hlen : zlen s - 1 = zlen v) by (unfold s; rewrite zlen_app; change (zlen [x]) with 1; unfold zlen; rewrite fmap_length; lia). rewrite Hlen.
    assert (Hlast : idx s (zlen v) = Ret x).
    { unfold s. rewrite idx_app_r by (unfold zlen; rewrite fmap_length; lia). unfold zlen at 2. rewrite fmap_length. unfold zlen. by rewrite Z.sub_diag. }
    rewrite Hlast. cbn [mbind outcome_bind]. unfold transform_range, ns_len. cbn [coerce_to_norm negb]. rewrite Hn.
    assert (Hnat : Z.to_nat (zlen v) = length v) by (unfold zlen; lia).
    assert (Hcut : ∀ A (l : list A) j, zlen v <= j → zlen l = j → sub l (zlen v) j = Ret (drop (length v) l) ∧ sub l 0 (zlen v) = Ret (take (length v) l) ∧ sub l j (zlen l) = Ret []).
    { intros A l j Hl <-. assert (zlen (take (length v) l) = zlen v) as Ht by (unfold zlen in *; rewrite take_length; lia). split; [|split].
      - rewrite <- (take_drop (length v) l) at 1. apply sub_suffix; [done|by rewrite take_drop].
      - rewrite <- (take_drop (length v) l) at 1. by apply sub_prefix.
      - rewrite <- (app_nil_r l) at 1. apply sub_suffix; [done|by rewrite app_nil_r]. }
    assert (Hal : zlen (ns_al n) = zlen (encode s)). { rewrite Ha, spans_zlen, fmap_app. done. }
    destruct (Hcut _ (encode s) (zlen (encode s))) as (E1 & E2 & E3); [lia|done|]. destruct (Hcut _ (ns_al n) (zlen (encode s))) as (_ & E4 & E5); [lia|done|].
    rewrite E1. cbn [mbind outcome_bind].
    assert (E6 : sub (drop (length v) (encode s)) 0 0 = Ret []) by (by apply (sub_prefix [])). rewrite E6. cbn [mbind outcome_bind].
    rewrite sub_full. cbn [mbind outcome_bind]. change (zlen []) with 0. rewrite Z.add_0_l. rewrite <- Hnat, runes_from, Hc by (done || lia). rewrite Hnat.
    destruct (tr_loop _ _ _ _) as [z|]; cbn [mbind outcome_bind]; [|done]. rewrite E4. cbn [mbind outcome_bind]. rewrite E5. cbn [mbind outcome_bind]. rewrite E2. cbn [mbind outcome_bind].
    rewrite E3. cbn [mbind outcome_bind]. by rewrite !app_nil_r. }
  rewrite Happ. cbn [tr_loop]. change (1 <=? 0) with false. change (0 <=? 0) with true. change (0 <=? -1) with false. cbv iota. cbn [mbind outcome_bind]. rewrite Z.add_0_r.
  rewrite Ha, idx_span. destruct (span_at (v ++ [(x, a)]) (zlen v)) as [a1|] eqn:E1.
  2: { apply span_at_None in E1. rewrite fmap_app in E1. change ([(x, a)].*1) with [x] in E1. fold s in E1. lia. }
  cbn [mbind outcome_bind]. pose proof (rune_len_bounds c) as Hb.
  destruct (decide (p = [])) as [->|Hp].
  { rewrite decide_True by (by left). change (runes []) with (@nil Z). cbn [map tr_loop mbind outcome_bind fst snd]. exists a1, a1.
    eexists. split; [done|]. split; [done|]. split; [by left|]. cbn [ns_norm ns_al ns_orig]. split; [by rewrite encode_cons|]. split; [by rewrite !app_nil_r|done]. }
  assert (∃ r rs, runes p = r :: rs) as (r0 & rs0 & Hp0).
  { unfold runes. destruct (decode p) as [|[r w] d] eqn:E; [|rewrite fmap_cons; eauto]. exfalso. apply Hp.
    pose proof (decode_widths p) as Hw. rewrite E in Hw. destruct p; [done|]. rewrite zlen_cons in Hw. pose proof (zlen_nonneg p). cbn in Hw. lia. }
  destruct (span_at (v ++ [(x, a)]) b) as [a2|] eqn:E2.
  - assert (b < zlen (encode s)) as Hbl.
    { destruct (decide (b < zlen (encode s))); [done|]. assert (span_at (v ++ [(x, a)]) b = None); [|congruence]. apply span_at_None. rewrite fmap_app. change ([(x, a)].*1) with [x]. fold s. lia. }
    rewrite decide_True by (by right). rewrite (tr_loop_insert (spans_of (v ++ [(x, a)])) (runes p) _ _ a2).
    + cbn [mbind outcome_bind fst snd]. exists a1, a2. eexists. split; [done|]. split; [done|]. split; [by right|]. cbn [ns_norm ns_al]. split; [by rewrite encode_cons|].
      split; [by rewrite inserted_spans|done].
    + apply runes_scalars.
    + replace (zlen v + rune_len c <? 1) with false by lia. rewrite idx_span. fold b. by rewrite E2.
  - rewrite decide_False.
    + rewrite Hp0. cbn [map tr_loop]. change (1 <=? 1) with true. cbv iota. replace (zlen v + rune_len c <? 1) with false by lia. rewrite idx_span. fold b. rewrite E2. done.
    + intros [?|Hbl]; [done|]. apply span_at_None in E2. rewrite fmap_app in E2. change ([(x, a)].*1) with [x] in E2. fold s in E2. lia.
Qed.

Lemma one_two_byte rs : scalars rs → zlen (encode rs) = zlen rs + 1 →
  ∃ w1 c w2, rs = w1 ++ c :: w2 ∧ Forall (λ r, r < 128) w1 ∧ Forall (λ r, r < 128) w2 ∧ rune_len c = 2.
Proof.
  induction 1 as [|r rs Hr Hs IH]; [done|]. rewrite zlen_encode_cons, zlen_cons. intros E. pose proof (encode_count rs). pose proof (rune_len_bounds r).
  destruct (decide (rune_len r = 1)) as [E1|E1].
  - destruct IH as (w1 & c & w2 & -> & H1 & H2 & H3); [lia|]. exists (r :: w1), c, w2. split; [done|]. split; [|done]. constructor; [|done].
    by apply encode_rune_small.
  - exists [], r, rs. split; [done|]. split; [constructor|]. split; [|lia]. apply encode_count_ascii; [done|lia].
Qed.
Lemma two_bytes c : scalar c = true → rune_len c = 2 ↔ 128 <= c < 0x800.
Proof.
  intros Hs%char_scalar%utf8_encode. unfold rune_len. inversion Hs; subst; unfold zlen; cbn [length]; lia.
Qed.
Lemma ascii_len rs : scalars rs → Forall (λ r, r < 128) rs → zlen (encode rs) = zlen rs.
Proof. intros Hs H. by apply encode_count_ascii. Qed.

Lemma append_panic_iff n v x a p : repr n (v ++ [(x, a)]) →
  append n p = Panic ↔ p ≠ [] ∧ x < 128 ∧ ∃ w c, v.*1 = w ++ [c] ∧ Forall (λ r, r < 128) w ∧ 128 <= c < 0x800.
Proof.
  intros Hr. pose proof Hr as (Hs & _). rewrite fmap_app in Hs. change ([(x, a)].*1) with [x] in Hs. apply scalars_app in Hs as [Hsv Hsx].
  apply Forall_cons in Hsx as [Hsx _]. pose proof (rune_len_bounds x) as Hbx.
  assert (Hzv : zlen v.*1 = zlen v) by (unfold zlen; by rewrite fmap_length). pose proof (encode_count v.*1) as Hcount. pose proof (zlen_nonneg v) as Hv0.
  assert (Hx1 : rune_len x = 1 ↔ x < 128).
  { pose proof (encode_count_ascii [x] ltac:(by repeat constructor)) as Hx. rewrite zlen_encode_cons, Forall_singleton in Hx. change (zlen (encode [])) with 0 in Hx. change (zlen [x]) with 1 in Hx. rewrite <- Hx. lia. }
  assert (Hsl : zlen (encode (v.*1 ++ [x])) = zlen (encode v.*1) + rune_len x).
  { rewrite encode_app, zlen_app, zlen_encode_cons. change (zlen (encode [])) with 0. lia. }
  destruct (read_from_cons (zlen v) (v.*1 ++ [x])) as (c & cs & Hc & Hsize); [lia|].
  pose proof (append_found n v x a p c cs Hr Hc) as H. cbv zeta in H. destruct (decide _) as [Hd|Hd].
  - destruct H as (a1 & a2 & n' & -> & _). split; [done|]. intros (Hp & Hx & w & d & Ew & Hw & Hd2). exfalso. destruct Hd as [?|Hd]; [done|].
    rewrite Ew in Hsv. apply scalars_app in Hsv as [Hsw Hsd]. apply Forall_cons in Hsd as [Hsd _]. apply (two_bytes d Hsd) in Hd2. apply Hx1 in Hx.
    assert (Hzv2 : zlen v = zlen w + 1) by (rewrite <- Hzv, Ew, zlen_app; done). pose proof (ascii_len w Hsw Hw) as Hlw.
    rewrite Ew, <- app_assoc, Hzv2, <- Hlw, read_from_skip in Hc by lia. cbn [app read_from] in Hc. change (1 <=? 0) with false in Hc. rewrite Hd2 in Hc. cbn in Hc. injection Hc as <- _.
    rewrite Hsl, Ew, encode_app, zlen_app, zlen_encode_cons in Hd. change (zlen (encode [])) with 0 in Hd. change (rune_len 65533) with 3 in Hd. lia.
  - split; [|by rewrite H]. intros _. assert (p ≠ [] ∧ ¬ zlen v + rune_len c - 1 < zlen (encode (v.*1 ++ [x]))) as [Hp Hd']; [tauto|]. clear Hd. rename Hd' into Hd. split; [done|]. destruct Hsize as [Hsize| ->]; [lia|]. change (rune_len 65533) with 3 in Hd.
    rewrite Hsl in Hd. destruct (decide (zlen (encode v.*1) = zlen v)) as [E|E].
    { exfalso. rewrite <- E, <- (Z.add_0_r (zlen (encode _))), read_from_skip in Hc by lia. cbn [read_from] in Hc. change (0 <=? 0) with true in Hc. cbv iota in Hc. injection Hc as -> _.
      change (rune_len 65533) with 3 in Hd. lia. }
    destruct (one_two_byte v.*1 Hsv) as (w1 & d & w2 & Ew & Hw1 & Hw2 & Hd2); [lia|]. split; [apply Hx1; lia|].
    rewrite Ew in Hsv. apply scalars_app in Hsv as [Hsw Hsd]. apply Forall_cons in Hsd as [Hsd Hsw2]. pose proof (ascii_len w1 Hsw Hw1) as Hl1. pose proof (ascii_len w2 Hsw2 Hw2) as Hl2.
    destruct w2 as [|y w2]; [exists w1, d; split; [done|]; split; [done|]; by apply two_bytes|]. exfalso.
    assert (Hzv2 : zlen v = zlen w1 + (1 + zlen (y :: w2))) by (rewrite <- Hzv, Ew, zlen_app, (zlen_cons d); done).
    destruct (exists_last (l := y :: w2)) as (l & z & El); [done|]. rewrite El in Hsw2, Hw2, Ew, Hzv2.
    apply scalars_app in Hsw2 as [Hsl2 _]. apply Forall_app in Hw2 as [Hll Hz]. apply Forall_cons in Hz as [Hz _]. pose proof (ascii_len l Hsl2 Hll) as Hll2.
    rewrite Ew in Hc. replace ((w1 ++ d :: l ++ [z]) ++ [x]) with ((w1 ++ d :: l) ++ [z; x]) in Hc by (by rewrite <- !app_assoc; cbn [app]; rewrite <- app_assoc).
    replace (zlen v) with (zlen (encode (w1 ++ d :: l)) + 0) in Hc.
    2: { rewrite encode_app, zlen_app, zlen_encode_cons, Hzv2, zlen_app. change (zlen [z]) with 1. lia. }
    rewrite read_from_skip in Hc by lia. cbn [read_from] in Hc. change (0 <=? 0) with true in Hc. cbv iota in Hc. injection Hc as -> _. lia.
Qed.
