(** Facts about encoding strings that need not be valid UTF-8. *)
From Coq Require Import ZifyBool QArith.
From Verif Require Import GoBase Utf8Facts Strutils SplitPattern NormString Vocab MergeMap Bpe WordPiece Encodings PreTokString PreTokenizers SpecText SpecNorm SpecVocab SpecBpe SpecWordPiece SpecEnd SpecPipe SpecInvalid SpecBytes
  SliceFacts NormFacts NormSlice InvalidFacts PtsFacts EndFacts PipeFacts WordPieceFacts BpeTok PropsWordPiece PropsBpe.
Import GoBase NormString SpecNorm.
#[local] Open Scope Z_scope.

(** The model reads the text with U+FFFD for every undecodable byte. *)
Lemma bpe_reads m s draws : bpe_tokenize m s draws = bpe_tokenize m (encode (runes s)) draws.
Proof.
  unfold bpe_tokenize, merge_word. rewrite (runes_encode_scalars _ (runes_scalars s)). destruct (Z.eqb_spec (zlen s) 0) as [E|E].
  { destruct s; [done|]. rewrite zlen_cons in E. pose proof (zlen_nonneg s). lia. }
  destruct (Z.eqb_spec (zlen (encode (runes s))) 0) as [E'|_]; [|done]. rewrite encode_runes_zlen in E'. pose proof (bad_nonneg s). pose proof (zlen_nonneg s). lia.
Qed.

(** FromString has the alignments of that text. *)
Definition as_read (s : list Z) : ns := NS s (encode (runes s)) (alignments_from_string s) 0.
Lemma as_read_holds s : holds_at (spread 0 (decode s)) (as_read s).
Proof.
  unfold holds_at. cbn [as_read ns_shift]. replace (shift_spans (- 0) (spread 0 (decode s))) with (spread 0 (decode s)).
  - split; [rewrite spread_chars; apply runes_scalars|]. split; [by rewrite spread_chars|]. apply alignments_spread.
  - unfold shift_spans. generalize (spread 0 (decode s)). induction l as [|[c [a b]] l IH]; [done|]. cbn [map]. rewrite <- IH. cbn. by rewrite !Z.add_0_r.
Qed.
Lemma coerce_al n n' a b : ns_al n = ns_al n' → a < b → coerce_to_orig n (NRange a b) = coerce_to_orig n' (NRange a b).
Proof.
  intros H Hab. unfold coerce_to_orig, r_len. cbn [r_end r_start]. rewrite H. destruct (Z.eqb_spec (b - a) 0); [lia|]. destruct (b <? a); [done|].
  destruct ((zlen (ns_norm n) =? 0) && (a =? 0) && (b =? 0)) eqn:E; [lia|]. destruct ((zlen (ns_norm n') =? 0) && (a =? 0) && (b =? 0)) eqn:E'; [lia|]. done.
Qed.
Lemma encode_tokens_al n n' w ty toks : ns_al n = ns_al n' → ns_shift n = ns_shift n' → Forall (λ t, o_start (t_offsets t) < o_end (t_offsets t)) toks →
  encode_tokens n w ty toks = encode_tokens n' w ty toks.
Proof. intros H1 H2. induction 1 as [|t toks Ht _ IH]; [done|]. cbn [encode_tokens]. rewrite (coerce_al n n' _ _ H1 Ht), IH, H2. done. Qed.

(** The spans of groups of characters. *)
Lemma spread_app i d1 d2 : spread i (d1 ++ d2) = spread i d1 ++ spread (i + read_bytes d1) d2.
Proof.
  revert i. induction d1 as [|[r w] d1 IH]; intros i; cbn [app spread]; [change (read_bytes []) with 0; by rewrite Z.add_0_r|].
  rewrite IH. cbn [app]. unfold read_bytes. rewrite fmap_cons. cbn [foldr snd]. by rewrite Z.add_assoc.
Qed.
Lemma read_bytes_app d1 d2 : read_bytes (d1 ++ d2) = read_bytes d1 + read_bytes d2.
Proof.
  induction d1 as [|[r w] d1 IH]; [done|]. change (read_bytes (((r, w) :: d1) ++ d2)) with (w + read_bytes (d1 ++ d2)). rewrite IH.
  change (read_bytes ((r, w) :: d1)) with (w + read_bytes d1). lia.
Qed.
Lemma spread_span i g : Forall (λ p : Z * Z, scalar p.1 = true ∧ (p = (rune_error, 1) ∨ p.2 = rune_len p.1)) g → g ≠ [] →
  first_start (spread i g) = i ∧ last_end (spread i g) = i + read_bytes g + excess g.
Proof.
  intros Hg Hne. split; [by destruct g as [|[r w] g]|]. destruct g as [|[r w] g _] using rev_ind; [done|]. apply Forall_app in Hg as [_ Hg]. apply Forall_cons in Hg as [[_ Hg] _].
  rewrite spread_app, read_bytes_app. unfold last_end, last_span, excess. rewrite fmap_app, last_snoc. cbn [spread fmap list_fmap]. rewrite last_snoc. cbn [snd].
  change (read_bytes [(r, w)]) with (w + 0). cbn [default from_option id snd]. destruct Hg as [[= -> ->]|Hw].
  - rewrite decide_True by done. change (rune_len rune_error) with 3. lia.
  - rewrite decide_False; [cbn [fst snd] in Hw; lia|]. intros [= -> ->]. discriminate Hw.
Qed.
Lemma spread_split i d v1 v2 : spread i d = v1 ++ v2 → ∃ d1 d2, d = d1 ++ d2 ∧ v1 = spread i d1 ∧ v2 = spread (i + read_bytes d1) d2.
Proof.
  intros H. exists (take (length v1) d), (drop (length v1) d). split; [by rewrite take_drop|]. rewrite <- (take_drop (length v1) d), spread_app in H.
  assert (Hl : ∀ i d, length (spread i d) = length d). { intros i' d'. revert i'. induction d' as [|[? ?] d' IH]; intros i'; [done|]. cbn. by rewrite IH. }
  pose proof (f_equal length H) as Hlen. rewrite !app_length, !Hl, take_length, drop_length in Hlen.
  apply app_inj_1 in H; [|rewrite Hl, take_length; lia]. destruct H as [-> ->]. done.
Qed.

Lemma said_places_snoc p gs g : said_places p (gs ++ [g]) = said_places p gs ++ [Offsets (p + read_bytes (concat gs)) (p + read_bytes (concat gs) + read_bytes g + excess g)].
Proof.
  revert p. induction gs as [|x gs IH]; intros p; cbn [app said_places concat]; [change (read_bytes []) with 0; by rewrite Z.add_0_r|].
  rewrite IH, read_bytes_app. cbn [app]. by rewrite !Z.add_assoc.
Qed.

(** * Byte pair encoding without pre-tokenizer *)
Lemma groups_of p d ps : Forall (λ p : Z * Z, scalar p.1 = true ∧ (p = (rune_error, 1) ∨ p.2 = rune_len p.1)) d → Forall (λ g : atext, g ≠ []) ps → concat ps = spread p d →
  ∃ gs, concat gs = d ∧ Forall (λ g, g ≠ []) gs ∧ map (λ g, g.*1) gs = map (λ g, g.*1) ps ∧ map (λ g, Offsets (first_start g) (last_end g)) ps = said_places p gs.
Proof.
  intros Hd Hp. revert p d Hd. induction Hp as [|g ps Hg Hp IH]; intros p d Hd Hc; cbn [concat] in Hc.
  - destruct d as [|[r w] d]; [|done]. by exists [].
  - symmetry in Hc. apply spread_split in Hc as (d1 & d2 & -> & -> & Hc). apply Forall_app in Hd as [Hd1 Hd2].
    destruct (IH _ d2 Hd2 Hc) as (gs & H1 & H2 & H3 & H4). assert (d1 ≠ []) by (intros ->; done). destruct (spread_span p d1 Hd1 H) as [S1 S2].
    exists (d1 :: gs). split; [cbn; by rewrite H1|]. split; [by constructor|]. split; [cbn [map]; by rewrite H3, spread_chars|]. cbn [map said_places]. by rewrite S1, S2, H4.
Qed.

Lemma tile_entries w ty t d r toks es : t = d ++ r → toks_tile (alen d) toks (alen t) → Forall2 (entry_of t w ty) toks es →
  ∃ ps, concat ps = r ∧ Forall (λ p : atext, p ≠ []) ps ∧ map et_offsets es = map (λ p, Offsets (first_start p) (last_end p)) ps
    ∧ Forall2 (λ tok p, ∃ a b, t = a ++ p ++ b ∧ t_offsets tok = Offsets (alen a) (alen (a ++ p))) toks ps.
Proof.
  intros Ht Htile He. revert d r Ht Htile. induction He as [|tok en toks es H He IH]; intros d r Ht Htile; cbn [toks_tile] in Htile.
  - exists []. split; [|done]. rewrite Ht in Htile. rewrite alen_app in Htile. destruct r as [|[c s] r]; [done|].
    unfold alen in Htile at 3. rewrite (fmap_cons fst) in Htile. cbn [fst] in Htile. pose proof (encode_pos c r.*1). lia.
  - destruct Htile as (H1 & H2 & H3). destruct H as (E1 & E2 & E3 & E4 & t1 & t2 & t3 & E5 & E6 & E7 & E8). rewrite E7 in H1, H3. cbn [o_start o_end] in H1, H3.
    assert (t1 = d ∧ t2 ++ t3 = r) as [-> <-]. { apply atext_prefix_len; [congruence|done]. }
    destruct (IH (d ++ t2) t3) as (ps & P1 & P2 & P3 & P4); [by rewrite <- app_assoc|done|].
    exists (t2 :: ps). split; [cbn; by rewrite P1|]. split; [by constructor|]. split; [cbn [map]; by rewrite E8, P3|]. constructor; [|done]. by exists d, t3.
Qed.

Lemma uncut_encoding s wi ty (model : a_model) toks :
  model O s = Ret (Ok toks) → toks_tile 0 toks (zlen (encode (runes s))) →
  Forall (λ t, boundary (encode (runes s)) (o_start (t_offsets t)) ∧ boundary (encode (runes s)) (o_end (t_offsets t))) toks →
  ∃ groups e es, encode_text uncut model s wi ty = Ret (Ok e) ∧ entries e es
    ∧ concat groups = decode s ∧ Forall (λ g, g ≠ []) groups ∧ map et_offsets es = said_places 0 groups
    ∧ map et_id es = map t_id toks ∧ map et_token es = map t_value toks
    ∧ Forall2 (λ t g, ∃ a b, runes s = a ++ g.*1 ++ b ∧ t_offsets t = Offsets (zlen (encode a)) (zlen (encode (a ++ g.*1)))) toks groups.
Proof.
  intros Hm Ht Hb. set (v := spread 0 (decode s)). assert (Hv : v.*1 = runes s) by (unfold v; by rewrite spread_chars).
  assert (Hlt : Forall (λ t, o_start (t_offsets t) < o_end (t_offsets t)) toks). { apply Forall_forall. intros t Hin. by apply (toks_tile_in _ _ _ _ Ht). }
  assert (Hon : Forall (on_chars v) toks).
  { rewrite Forall_forall in Hb, Hlt. apply Forall_forall. intros t Hin. apply on_chars_boundary; rewrite ?Hv; [apply runes_scalars|by apply Hb..|by apply Hlt]. }
  destruct (encode_tokens_chars v (as_read s) (if wi <? 0 then 0 else wi) ty toks (as_read_holds s) Hon) as (es & E & He).
  destruct (tile_entries (if wi <? 0 then 0 else wi) ty v [] v toks es eq_refl) as (ps & P1 & P2 & P3 & P4); [|done|].
  { change (alen []) with 0. unfold alen. by rewrite Hv. }
  destruct (groups_of 0 (decode s) ps (decode_props s) P2 P1) as (gs & G1 & G2 & G3 & G4).
  exists gs, (encoding_from_tokens es), es. split_and!; [|apply encoding_from_tokens_eq|done|done| | | |].
  - unfold encode_text, encode_ns, uncut, pts_from_ns. cbn [mbind outcome_bind fst snd]. unfold pts_tokenize. cbn [p_splits p_original tokenize_loop sp_tokens].
    unfold calling at 1. cbn [sp_ns]. change (ns_norm (from_string s)) with s. rewrite Hm. cbn [mbind outcome_bind fst snd]. unfold into_encoding. cbn [p_splits].
    change (zlen _ =? 0) with false. cbn [all_have_tokens forallb sp_tokens andb negb encode_splits sp_ns default].
    change (id toks) with toks. rewrite (encode_tokens_al (from_string s) (as_read s) _ _ _ eq_refl eq_refl Hlt), E. cbn [mbind outcome_bind]. by rewrite app_nil_r.
  - by rewrite P3, G4.
  - clear -He. induction He as [|t en toks es (H & _) _ IH]; [done|]. cbn [map]. by rewrite H, IH.
  - clear -He. induction He as [|t en toks es (_ & H & _) _ IH]; [done|]. cbn [map]. by rewrite H, IH.
  - clear -P4 G3 Hv. revert gs G3. induction P4 as [|t p toks ps (a & b & H & Ho) _ IH]; intros [|g gs] G3; try done; constructor.
    + cbn [map] in G3. injection G3 as G3 _. exists a.*1, b.*1. rewrite <- Hv, H, G3. split; [by rewrite !fmap_app|]. rewrite Ho. unfold alen. by rewrite fmap_app.
    + apply IH. cbn [map] in G3. by injection G3 as _ G3.
Qed.

(** * Said and true places *)
Lemma said_true p gs : said_places p gs = true_places p gs ↔ Forall (λ g, last g ≠ Some (rune_error, 1)) gs.
Proof.
  revert p. induction gs as [|g gs IH]; intros p; cbn [said_places true_places]; [split; [constructor|done]|].
  rewrite Forall_cons, <- (IH (p + read_bytes g)). unfold excess. destruct (decide _) as [E|E].
  - split; [intros [= H _]; lia|]. by intros [? _].
  - rewrite Z.add_0_r. split; [intros [= H]; done|]. by intros [_ ->].
Qed.
Lemma said_in p gs o : Forall (λ g, g ≠ []) gs → Forall (λ x : Z * Z, 1 <= x.2) (concat gs) → o ∈ said_places p gs → p <= o_start o ∧ o_start o < o_end o ∧ o_end o <= p + read_bytes (concat gs) + 2.
Proof.
  intros Hn. revert p. induction Hn as [|g gs Hg Hn IH]; intros p Hw Hin; [by apply elem_of_nil in Hin|]. cbn [concat] in Hw |- *. apply Forall_app in Hw as [W1 W2]. rewrite read_bytes_app.
  assert (Hr : ∀ d : list (Z * Z), Forall (λ x, 1 <= x.2) d → 0 <= read_bytes d).
  { clear. induction 1 as [|[r w] d Hw _ IH]; [done|]. change (read_bytes ((r, w) :: d)) with (w + read_bytes d). cbn [snd] in Hw. lia. }
  assert (0 < read_bytes g). { destruct g as [|[r w] g]; [done|]. apply Forall_cons in W1 as [W1 W1']. pose proof (Hr _ W1'). change (read_bytes ((r, w) :: g)) with (w + read_bytes g). cbn [snd] in W1. lia. }
  pose proof (Hr _ W2). cbn [said_places] in Hin. apply elem_of_cons in Hin as [->|Hin].
  - cbn [o_start o_end]. unfold excess. destruct (decide _); lia.
  - destruct (IH (p + read_bytes g) W2 Hin) as (? & ? & ?). lia.
Qed.
Lemma said_start p gs o : Forall (λ g, g ≠ []) gs → Forall (λ x : Z * Z, 1 <= x.2) (concat gs) → o ∈ said_places p gs → o_start o < p + read_bytes (concat gs).
Proof.
  intros Hn. revert p. induction Hn as [|g gs Hg Hn IH]; intros p Hw Hin; [by apply elem_of_nil in Hin|]. cbn [concat] in Hw |- *. apply Forall_app in Hw as [W1 W2]. rewrite read_bytes_app.
  assert (Hr : ∀ d : list (Z * Z), Forall (λ x, 1 <= x.2) d → 0 <= read_bytes d).
  { clear. induction 1 as [|[r w] d Hw _ IH]; [done|]. change (read_bytes ((r, w) :: d)) with (w + read_bytes d). cbn [snd] in Hw. lia. }
  assert (0 < read_bytes g). { destruct g as [|[r w] g]; [done|]. apply Forall_cons in W1 as [W1 W1']. pose proof (Hr _ W1'). change (read_bytes ((r, w) :: g)) with (w + read_bytes g). cbn [snd] in W1. lia. }
  pose proof (Hr _ W2). cbn [said_places] in Hin. apply elem_of_cons in Hin as [->|Hin]; [cbn [o_start]; lia|].
  pose proof (IH (p + read_bytes g) W2 Hin). lia.
Qed.
Lemma said_last p gs : Forall (λ g, g ≠ []) gs → last (concat gs) = Some (rune_error, 1) →
  ∃ a, last (said_places p gs) = Some (Offsets a (p + read_bytes (concat gs) + 2)).
Proof.
  intros Hn Hl. destruct gs as [|g gs _] using rev_ind; [done|]. rewrite said_places_snoc, last_snoc. rewrite concat_app, read_bytes_app. cbn [concat]. rewrite app_nil_r.
  apply Forall_app in Hn as [_ Hn]. apply Forall_cons in Hn as [Hn _]. rewrite concat_app in Hl. cbn [concat] in Hl. rewrite app_nil_r in Hl.
  assert (E : last g = Some (rune_error, 1)). { destruct g as [|x g _] using rev_ind; [done|]. by rewrite app_assoc, last_snoc in Hl; rewrite last_snoc. }
  unfold excess. rewrite decide_True by done. eexists. rewrite Z.add_assoc. done.
Qed.

(** * WordPiece without pre-tokenizer *)
Lemma read_span_idx p d i : 0 <= i < alen (spread p d) → idx (spans_of (spread p d)) i = Ret (read_span p d i).
Proof.
  revert p i. induction d as [|[r w] d IH]; intros p i Hi; cbn [spread read_span] in *; [change (alen []) with 0 in Hi; lia|].
  rewrite alen_cons in Hi. destruct (Z.ltb_spec i (rune_len r)) as [Hl|Hl].
  - pose proof (idx_spans_middle [] r (p, p + rune_len r) (spread (p + w) d) i) as H. cbn [app] in H. change (alen []) with 0 in H. rewrite Z.add_0_l in H. apply H. lia.
  - rewrite spans_of_cons, idx_app_r by (rewrite zlen_repeat; unfold rune_len, zlen in Hl; lia). rewrite zlen_repeat. change (Z.of_nat (length (encode_rune r))) with (rune_len r).
    apply IH. lia.
Qed.
Definition read_well (rs : list Z) : list (Z * Z) := map (λ r, (r, rune_len r)) rs.
Lemma read_well_decode rs rest : scalars rs → decode (encode rs ++ rest) = read_well rs ++ decode rest.
Proof.
  intros Hs. rewrite decode_encode_app. f_equal. unfold read_well. induction Hs as [|r rs Hr _ IH]; [done|]. cbn [map]. rewrite IH. f_equal. f_equal. by apply sanitize_id.
Qed.
Lemma read_span_skip p rs d i : 0 <= i → read_span p (read_well rs ++ d) (zlen (encode rs) + i) = read_span (p + zlen (encode rs)) d i.
Proof.
  intros Hi. revert p. induction rs as [|r rs IH]; intros p; [change (zlen (encode [])) with 0; by rewrite Z.add_0_r|].
  rewrite zlen_encode_cons. cbn [read_well map app read_span]. pose proof (zlen_nonneg (encode rs)).
  destruct (Z.ltb_spec (rune_len r + zlen (encode rs) + i) (rune_len r)); [lia|]. replace (rune_len r + zlen (encode rs) + i - rune_len r) with (zlen (encode rs) + i) by lia.
  specialize (IH (p + rune_len r)). unfold read_well in IH. rewrite IH. by rewrite Z.add_assoc.
Qed.
Lemma read_span_valid a c b rest : scalars (a ++ c ++ b) → c ≠ [] →
  (read_span 0 (decode (encode (a ++ c ++ b) ++ rest)) (zlen (encode a))).1 = zlen (encode a)
  ∧ (read_span 0 (decode (encode (a ++ c ++ b) ++ rest)) (zlen (encode (a ++ c)) - 1)).2 = zlen (encode (a ++ c)).
Proof.
  intros Hs Hc. rewrite read_well_decode by done. split.
  - unfold read_well. rewrite map_app, <- app_assoc. rewrite <- (Z.add_0_r (zlen (encode a))) at 1. rewrite (read_span_skip 0 a) by lia.
    destruct c as [|x c]; [done|]. cbn [app map read_span]. pose proof (rune_len_bounds x). destruct (Z.ltb_spec 0 (rune_len x)); [done|lia].
  - destruct c as [|x c _] using rev_ind; [done|]. rewrite <- (app_assoc c), app_assoc. cbn [app]. unfold read_well. rewrite map_app. rewrite <- (app_assoc (map _ (a ++ c))). cbn [map app].
    rewrite app_assoc, (encode_app (a ++ c) [x]), zlen_app. rewrite zlen_encode_cons. change (zlen (encode [])) with 0. pose proof (rune_len_bounds x).
    replace (zlen (encode (a ++ c)) + (rune_len x + 0) - 1) with (zlen (encode (a ++ c)) + (rune_len x - 1)) by lia. rewrite (read_span_skip 0 (a ++ c)) by lia.
    cbn [read_span]. destruct (Z.ltb_spec (rune_len x - 1) (rune_len x)); [cbn [snd]; lia|lia].
Qed.

Lemma encode_tokens_read s w ty toks : Forall (λ t, 0 <= o_start (t_offsets t) ∧ o_start (t_offsets t) < o_end (t_offsets t) ∧ o_end (t_offsets t) <= zlen s) toks →
  encode_tokens (from_string s) w ty toks
  = Ret (map (λ t, EncToken (t_id t) (t_value t) (Offsets (read_span 0 (decode s) (o_start (t_offsets t))).1 (read_span 0 (decode s) (o_end (t_offsets t) - 1)).2) w ty) toks).
Proof.
  induction 1 as [|t toks (H1 & H2 & H3) _ IH]; [done|]. cbn [encode_tokens map].
  assert (Hal : alen (spread 0 (decode s)) = zlen s + 2 * bad_bytes s). { unfold alen. rewrite spread_chars. apply encode_runes_zlen. }
  pose proof (bad_nonneg s). destruct (coerce_to_orig_bytes (from_string s) (o_start (t_offsets t)) (o_end (t_offsets t))) as (a & b & Ha & Hb & E).
  { done. } { done. } { cbn [from_string ns_al]. rewrite alignments_spread, zlen_spans. lia. }
  cbn [from_string ns_al] in Ha, Hb. rewrite alignments_spread, read_span_idx in Ha by lia. rewrite alignments_spread, read_span_idx in Hb by lia.
  injection Ha as <-. injection Hb as <-. rewrite E. cbn [mbind outcome_bind]. rewrite IH. cbn [mbind outcome_bind]. cbn [from_string ns_shift]. by rewrite !Z.add_0_l.
Qed.

Lemma uncut_bytes s wi ty (model : a_model) toks : model O s = Ret (Ok toks) → toks_tile 0 toks (zlen s) →
  ∃ e es, encode_text uncut model s wi ty = Ret (Ok e) ∧ entries e es ∧ map et_id es = map t_id toks ∧ map et_token es = map t_value toks
    ∧ map et_offsets es = map (λ t, Offsets (read_span 0 (decode s) (o_start (t_offsets t))).1 (read_span 0 (decode s) (o_end (t_offsets t) - 1)).2) toks.
Proof.
  intros Hm Ht.
  assert (Hin : Forall (λ t, 0 <= o_start (t_offsets t) ∧ o_start (t_offsets t) < o_end (t_offsets t) ∧ o_end (t_offsets t) <= zlen s) toks).
  { apply Forall_forall. intros t Hin. by apply (toks_tile_in _ _ _ _ Ht). }
  pose proof (encode_tokens_read s (if wi <? 0 then 0 else wi) ty toks Hin) as E. eexists _, _. split; [|split; [apply encoding_from_tokens_eq|]].
  - unfold encode_text, encode_ns, uncut, pts_from_ns. cbn [mbind outcome_bind fst snd]. unfold pts_tokenize. cbn [p_splits p_original tokenize_loop sp_tokens].
    unfold calling at 1. cbn [sp_ns]. change (ns_norm (from_string s)) with s. rewrite Hm. cbn [mbind outcome_bind fst snd]. unfold into_encoding. cbn [p_splits].
    change (zlen _ =? 0) with false. cbn [all_have_tokens forallb sp_tokens andb negb encode_splits sp_ns default].
    change (id toks) with toks. rewrite E. cbn [mbind outcome_bind]. rewrite app_nil_r. done.
  - rewrite !map_map. by split_and!.
Qed.

Lemma known_classes m rs : b_prefix m = [] → b_suffix m = [] → Forall (λ r, is_Some (get_id (b_vocab m) (encode_rune r))) rs → Forall (λ c, c.1 ≠ None) (char_classes m rs).
Proof.
  intros Hp Hs Hk. unfold char_classes. rewrite Hp, Hs.
  assert (Ht : char_terms [] [] rs = map encode_rune rs).
  { unfold char_terms. rewrite <- imap_const. apply imap_ext. intros i x _. destruct (decide (i = 0%nat)), (decide (S i = length rs)); cbn [app]; by rewrite app_nil_r. }
  rewrite Ht. clear Ht. induction Hk as [|r rs Hr _ IH]; cbn [map zip_with]; constructor; [|done]. cbn [fst]. by destruct Hr as [x ->].
Qed.
