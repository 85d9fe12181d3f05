(** Property theorems C54-C59 (pre-tokenizers), and that pre-tokenizers are histories in the sense of C52. *)
From Coq Require Import ZifyBool Sorted.
From stdpp Require Import relations list_numbers.
From Verif Require Import GoBase Utf8Facts Strutils SplitPattern NormString Bpe Encodings PreTokString Normalizers PreTokenizers Regex Defaults SpecText SpecNorm SpecHist SpecPts SpecPretok
  SliceFacts StrutilsFacts PatternFacts NormFacts NormReplace NormSlice HistFacts RangeFacts PtsFacts PretokFacts ByteFacts LostFacts RegexFacts Gpt2Facts.
Import GoBase NormString SpecNorm.
#[local] Open Scope Z_scope.

(** * C52 *)
Lemma cut_slices n ms ps : cut n ms = Ret (Ok ps) → Forall (λ q, ∃ r, slice n r = Ret (Some q)) ps.
Proof.
  revert ps. induction ms as [|[[s e] b] ms IH]; intros ps; cbn [cut]; [by intros [= <-]|]. destruct b; [apply IH|].
  intros H. apply bind_Ret in H as ([p|] & Hp & H); [|done]. apply bind_Ret in H as ([l|] & Hl & H); [|done]. injection H as <-.
  constructor; [eauto|]. by apply IH.
Qed.
Lemma split_by_edits p b n n' r : split_by p b n = Ret (n', r) → n' = n ∧ ∀ l, r = Ok l → Forall (λ x, rtc edit n (sp_ns x)) l.
Proof.
  unfold split_by. intros H. apply bind_Ret in H as (x & Hx & H). injection H as <- <-. split; [done|].
  destruct x as [l|e]; [|done]. intros l' [= <-]. unfold splits_from_ns. apply Forall_map.
  unfold split in Hx. apply bind_Ret in Hx as ([cs|] & _ & Hx); [|done]. apply cut_slices in Hx. eapply Forall_impl; [exact Hx|].
  intros q (rg & Hq). cbn [sp_ns]. apply rtc_once. by eapply edit_slice.
Qed.
Lemma run_split_step f p p' e :
  (∀ n n' r, wf n → f n = Ret (n', r) → rtc edit n n' ∧ ∀ l, r = Ok l → Forall (λ x, rtc edit n (sp_ns x)) l) →
  run_split f p = Ret (p', e) → pts_step p p'.
Proof.
  intros Hf H. unfold run_split in H. apply bind_Ret in H as ([[st q] er] & H & E). injection E as <- <-.
  eapply (step_split p unit (stateless f)); [|exact H]. intros s i n st' n' r Hn Hr. unfold stateless in Hr.
  apply bind_Ret in Hr as ([n1 r1] & Hr & E). injection E as <- <- <-. by apply Hf.
Qed.
Lemma split_by_step p b q q' e : run_split (split_by p b) q = Ret (q', e) → pts_step q q'.
Proof. apply run_split_step. intros n n' r _ Hr. apply split_by_edits in Hr as [-> Hr]. by split; [apply rtc_refl|]. Qed.

(** Every pre-tokenizer of the repository, failing or not, is one of the histories C52 and C53 speak of. *)
Theorem C52_pretokenizers :
  ∀ (pt : pretokenizer) p p' e,
  pt = whitespace_split ∨ (∃ c, pt = rune_delimiter c) ∨ (∃ engine, pt = whitespace_pretokenizer engine) ∨ (∃ u, pt = bert_pretokenizer u)
  ∨ (∃ c b, pt = metaspace c b) ∨ (∃ engine b, pt = byte_level engine b) →
  pt p = Ret (p', e) → rtc pts_step p p'.
Proof.
  intros pt p p' e [->|[(c & ->)|[(en & ->)|[(u & ->)|[(c & b & ->)|(en & b & ->)]]]]] H.
  - apply rtc_once. by eapply split_by_step.
  - apply rtc_once. by eapply split_by_step.
  - apply rtc_once. by eapply split_by_step.
  - unfold bert_pretokenizer in H. apply bind_Ret in H as ([p1 e1] & H1 & H). apply split_by_step in H1. destruct e1.
    + injection H as <- <-. by apply rtc_once.
    + eapply rtc_l; [exact H1|]. apply rtc_once. by eapply split_by_step.
  - apply rtc_once. eapply run_split_step; [|exact H]. intros n n' r Hn Hr. unfold metaspace_split in Hr.
    apply bind_Ret in Hr as (n1 & H1 & Hr).
    assert (E1 : rtc edit n n1). { destruct (b && _); [apply rtc_once; by eapply edit_prepend|]. injection H1 as <-. apply rtc_refl. }
    assert (Hw1 : wf n1). { clear -E1 Hn. induction E1 as [|x y z Hxy _ IH]; [done|]. apply IH. by eapply edit_wf. }
    apply bind_Ret in Hr as ([n2|er] & H2 & Hr); [|by injection Hr as <- <-].
    assert (E2 : edit n1 n2).
    { destruct Hw1 as (v & Hw1). pose proof Hw1 as ((Hs & Hv & _) & _). destruct (func_pattern_cover (λ x, x =? 32) v.*1 Hs) as (cs & Hcs & Hcov).
      assert (Es : encode_rune c = encode [sanitize c]). { cbn [encode flat_map]. by rewrite app_nil_r, encode_rune_sanitize. }
      rewrite Es in H2. eapply (edit_replace n1 (rune_pattern 32) cs [sanitize c]); [by rewrite Hv|by rewrite Hv| |exact H2]. constructor; [apply sanitize_scalar|constructor]. }
    apply split_by_edits in Hr as [-> Hr].
    assert (E : rtc edit n n2) by (etrans; [exact E1|by apply rtc_once]). split; [exact E|]. intros l Hl. eapply Forall_impl; [exact (Hr l Hl)|].
    intros x Hx. etrans; [exact E|exact Hx].
  - unfold byte_level in H. apply bind_Ret in H as ([p1 e1] & H1 & H).
    assert (S1 : pts_step p p1).
    { eapply run_split_step; [|exact H1]. intros n n' r Hn Hr. unfold byte_level_split in Hr. apply bind_Ret in Hr as (n1 & H2 & Hr).
      assert (E1 : rtc edit n n1). { destruct (b && _); [apply rtc_once; by eapply edit_prepend|]. injection H2 as <-. apply rtc_refl. }
      apply split_by_edits in Hr as [-> Hr]. split; [done|]. intros l Hl. eapply Forall_impl; [exact (Hr l Hl)|]. intros x Hx. by etrans. }
    destruct e1; [injection H as <- <-; by apply rtc_once|]. apply bind_Ret in H as ([[st p2] e2] & H2 & H). injection H as <- <-.
    eapply rtc_l; [exact S1|]. apply rtc_once. eapply (step_normalize p1 unit); [|exact H2]. intros st0 n st1 n' r Hn Hr.
    apply bind_Ret in Hr as (n1 & Hn1 & Hr). injection Hr as <- <- <-. unfold byte_level_normalize in Hn1.
    apply bind_Ret in Hn1 as (ch & _ & Hn1). apply rtc_once. by eapply edit_transform.
Qed.
Print Assumptions C52_pretokenizers.

(** * C54 *)
(** The pieces of an untouched text report their text and offsets. *)
Theorem C54_reported : ∀ text fs, original_byte_splits (Pts text (map plain_split fs)) = map reported fs.
Proof. intros text fs. unfold original_byte_splits. cbn [p_splits]. rewrite map_map. apply map_ext. intros [k t]. done. Qed.
Print Assumptions C54_reported.

Theorem C54_whitespace_split :
  ∀ rs, scalars rs →
  ∃ fs, whitespace_split (pts_from_string (encode rs)) = Ret (Pts (encode rs) (map plain_split fs), None)
    ∧ in_order fs ∧ ∀ x, x ∈ fs ↔ run_of white_space rs x.
Proof. intros rs. apply delimited. Qed.
Print Assumptions C54_whitespace_split.

Theorem C54_rune_delimiter :
  ∀ delimiter rs, scalars rs →
  ∃ fs, rune_delimiter delimiter (pts_from_string (encode rs)) = Ret (Pts (encode rs) (map plain_split fs), None)
    ∧ in_order fs ∧ ∀ x, x ∈ fs ↔ run_of (λ c, c =? delimiter) rs x.
Proof. intros c rs. apply delimited. Qed.
Print Assumptions C54_rune_delimiter.

(** Such a list is determined by the text. *)
Theorem C54_unique :
  ∀ fs gs P, in_order fs → in_order gs → (∀ x, x ∈ fs ↔ P x) → (∀ x, x ∈ gs ↔ P x) → (∀ x, P x → x.2 ≠ []) → fs = gs.
Proof.
  intros fs. induction fs as [|x fs IH]; intros [|y gs] P Ho Ho' Hf Hg Hn.
  - done.
  - destruct (proj1 (elem_of_nil y)). by apply Hf, Hg, elem_of_list_here.
  - destruct (proj1 (elem_of_nil x)). by apply Hg, Hf, elem_of_list_here.
  - apply in_order_cons in Ho as [Ho Hx], Ho' as [Ho' Hy].
    assert (Hlen : ∀ z, P z → 0 < zlen (encode z.2)). { intros [j [|c z]] Hz; [by destruct (Hn _ Hz)|]. apply encode_pos. }
    assert (Px : P x) by (apply Hf, elem_of_list_here). assert (Py : P y) by (apply Hg, elem_of_list_here).
    assert (x = y) as ->.
    { apply Hg in Px as Px'. apply Hf in Py as Py'. apply elem_of_cons in Px' as [?|Hin]; [done|]. apply elem_of_cons in Py' as [?|Hin']; [done|].
      apply Hy in Hin. apply Hx in Hin'. pose proof (Hlen x Px). pose proof (Hlen y Py). lia. }
    f_equal. apply (IH gs (λ z, P z ∧ z ≠ y)); [done|done| | |naive_solver].
    + intros z. split.
      * intros Hz. split; [apply Hf; by apply elem_of_list_further|]. intros ->. apply Hx in Hz. pose proof (Hlen y Py). lia.
      * intros [Hz Hne]. apply Hf, elem_of_cons in Hz as [?|?]; done.
    + intros z. split.
      * intros Hz. split; [apply Hg; by apply elem_of_list_further|]. intros ->. apply Hy in Hz. pose proof (Hlen y Py). lia.
      * intros [Hz Hne]. apply Hg, elem_of_cons in Hz as [?|?]; done.
Qed.
Print Assumptions C54_unique.

(** " é  a野" *)
Example C54_example :
  whitespace_split (pts_from_string (encode [32; 0xE9; 32; 32; 97; 0x91CE]))
  = Ret (Pts (encode [32; 0xE9; 32; 32; 97; 0x91CE]) (map plain_split [(1, [0xE9]); (5, [97; 0x91CE])]), None)
  ∧ map reported [(1, [0xE9]); (5, [97; 0x91CE])]
    = [ByteSplit [195; 169] (Offsets 1 3) None; ByteSplit [97; 233; 135; 142] (Offsets 5 9) None].
Proof. vm_compute. auto. Qed.

(** * C55 *)
Theorem C55_bert_pretokenizer :
  ∀ u rs, scalars rs →
  ∃ fs, bert_pretokenizer u (pts_from_string (encode rs)) = Ret (Pts (encode rs) (map plain_split fs), None)
    ∧ in_order fs ∧ ∀ x, x ∈ fs ↔ bert_piece white_space (u_punct u) rs x.
Proof. apply bert_pieces. Qed.
Print Assumptions C55_bert_pretokenizer.

(** "é?! a." with '?', '!' and '.' as punctuation. *)
Example C55_example :
  let u := Unicode (λ _, false) (λ _, false) (λ c, (c =? 63) || (c =? 33) || (c =? 46)) (λ c, c) (λ c, c) in
  bert_pretokenizer u (pts_from_string (encode [0xE9; 63; 33; 32; 97; 46]))
  = Ret (Pts (encode [0xE9; 63; 33; 32; 97; 46]) (map plain_split [(0, [0xE9]); (2, [63]); (3, [33]); (5, [97]); (6, [46])]), None)
  ∧ bert_pretokenizer u (pts_from_string [97; 9; 98]) = Ret (Pts [97; 9; 98] (map plain_split [(0, [97]); (2, [98])]), None).
Proof. vm_compute. auto. Qed.

(** * C56 *)
Lemma piece_reported root rs t n' : t ≠ [] → piece_of (from_string (encode rs)) t n' →
  original_byte_splits (Pts root [PSplit n' None]) = [report t].
Proof.
  intros Ht (H1 & H2 & _). destruct (H2 Ht) as [H3 H4]. unfold original_byte_splits. cbn [p_splits map sp_ns sp_tokens]. unfold report. do 2 f_equal.
  - destruct H1 as (_ & H1 & _). rewrite H1, shift_spans_chars. done.
  - unfold original_offsets, ns_orig_len. rewrite H4. destruct H3 as (a & b & _ & Ha & He). cbn [ns_shift from_string]. rewrite He. do 2 f_equal; lia.
Qed.
Lemma pieces_reported root rs ts l : Forall (λ t, t ≠ []) ts → Forall2 (piece_of (from_string (encode rs))) ts l →
  original_byte_splits (Pts root (splits_from_ns l)) = map report ts.
Proof.
  intros Hn H. induction H as [|t n' ts l H1 H IH]; [done|]. apply Forall_cons in Hn as [Hn1 Hn]. cbn [map].
  pose proof (piece_reported root rs t n' Hn1 H1) as E. unfold original_byte_splits in *. cbn [p_splits map splits_from_ns sp_ns] in *.
  rewrite <- (IH Hn). f_equal. congruence.
Qed.

(** [c']: what Go makes of the replacement when it is no Unicode scalar value. *)
Theorem C56_metaspace :
  ∀ rs c (prefix : bool), scalars rs →
  let c' := sanitize c in
  ∃ ts l, metaspace c prefix (pts_from_string (encode rs)) = Ret (Pts (encode rs) (splits_from_ns l), None)
    ∧ concat ts = spaces_to c' (if prefix then prefixed (λ x, x =? c') c' (fresh 0 rs) else fresh 0 rs)
    ∧ cut_before c (map (λ t, t.*1) ts)
    ∧ Forall2 (piece_of (from_string (encode rs))) ts l
    ∧ original_byte_splits (Pts (encode rs) (splits_from_ns l)) = map report ts.
Proof.
  intros rs c b Hs c'. destruct (metaspace_spec rs c b Hs) as (ts & l & H1 & H2 & H3 & H4). exists ts, l. split_and!; [done..|].
  apply (pieces_reported _ rs); [|done]. destruct H3 as [H3 _]. rewrite Forall_map in H3. eapply Forall_impl; [exact H3|]. cbn. by intros t (x & r & Ht & _) ->.
Qed.
Print Assumptions C56_metaspace.

(** The plain texts. *)
Theorem C56_texts :
  ∀ rs c (prefix : bool), scalars rs → scalar c = true →
  ∃ ts p, metaspace c prefix (pts_from_string (encode rs)) = Ret (p, None)
    ∧ map bs_string (original_byte_splits p) = map encode ts
    ∧ concat ts = map (λ x, if x =? 32 then c else x)
                      (match rs with x :: _ => if prefix && negb (x =? c) then c :: rs else rs | [] => [] end)
    ∧ cut_before c ts.
Proof.
  intros rs c b Hs Hc. destruct (C56_metaspace rs c b Hs) as (ts & l & H1 & H2 & H3 & _ & H4). cbv zeta in H2. rewrite sanitize_id in H2 by done.
  exists (map (λ t, t.*1) ts), (Pts (encode rs) (splits_from_ns l)). split_and!; [done| | |done].
  - rewrite H4, !map_map. done.
  - assert (E : concat (map (λ t : atext, t.*1) ts) = (concat ts).*1).
    { clear. induction ts as [|t ts IH]; [done|]. cbn. by rewrite fmap_app, IH. }
    rewrite E, H2. unfold spaces_to.
    assert (E2 : ∀ v : atext, (map (λ p : Z * (Z * Z), (if p.1 =? 32 then c else p.1, p.2)) v).*1 = map (λ x, if x =? 32 then c else x) v.*1).
    { clear. induction v as [|[x a] v IH]; [done|]. cbn. by f_equal. }
    rewrite E2. f_equal. destruct rs as [|x rs]; [by destruct b|]. destruct b; cbn [andb]; [|apply fresh_chars]. cbn [fresh prefixed].
    destruct (x =? c); cbn [negb]; rewrite ?fmap_cons; cbn [fst]; by rewrite fresh_chars.
Qed.
Print Assumptions C56_texts.

(** The cut is determined by the text. *)
Theorem C56_unique :
  ∀ c ts ts', cut_before c ts → cut_before c ts' → concat ts = concat ts' → ts = ts'.
Proof.
  intros c ts. induction ts as [|t ts IH]; intros [|t' ts'] H H' E.
  - done.
  - destruct H' as [H' _]. apply Forall_cons in H' as [(x & r & -> & _) _]. done.
  - destruct H as [H _]. apply Forall_cons in H as [(x & r & -> & _) _]. done.
  - destruct H as [H1 H2], H' as [H1' H2']. cbn [tail] in *. apply Forall_cons in H1 as [(x & r & -> & Hr) H1], H1' as [(x' & r' & -> & Hr') H1'].
    cbn [concat app] in E. injection E as <- E.
    assert (Hh : ∀ us, Forall (λ t : list Z, head t = Some c) us → ∀ y, head (concat us) = Some y → y = c).
    { intros us [|u us' Hu _] y; [done|]. destruct u; [done|]. cbn in Hu |- *. congruence. }
    assert (r = r' ∧ concat ts = concat ts') as [-> E'].
    { pose proof (Hh _ H2) as G. pose proof (Hh _ H2') as G'. clear -E Hr Hr' G G'. revert r' E Hr'. induction r as [|y r IH]; intros [|y' r'] E Hr'.
      - done.
      - exfalso. cbn [app] in E. rewrite E in G. apply Hr'. rewrite (G y' eq_refl). apply elem_of_list_here.
      - exfalso. cbn [app] in E. rewrite <- E in G'. apply Hr. rewrite (G' y eq_refl). apply elem_of_list_here.
      - cbn [app] in E. injection E as <- E. destruct (IH (λ H, Hr (elem_of_list_further _ _ _ H)) r' E (λ H, Hr' (elem_of_list_further _ _ _ H))) as [-> ?]. done. }
    f_equal. apply IH; [|split; [done|]|done].
    + split; [done|]. destruct H2; [constructor|done].
    + destruct H2'; [constructor|done].
Qed.
Print Assumptions C56_unique.

(** "a  é" with '_', and with U+D800, which Go turns into U+FFFD where it writes and never finds where it
    looks. *)
Example C56_example :
  (x ← metaspace 95 true (pts_from_string (encode [97; 32; 32; 0xE9])); Ret (original_byte_splits x.1))
  = Ret [ByteSplit (encode [95; 97]) (Offsets 0 1) None; ByteSplit (encode [95]) (Offsets 1 2) None; ByteSplit (encode [95; 0xE9]) (Offsets 2 5) None]
  ∧ (x ← metaspace 0xD800 true (pts_from_string (encode [97; 32; 32; 0xE9])); Ret (original_byte_splits x.1))
    = Ret [ByteSplit (encode [0xFFFD; 97; 0xFFFD; 0xFFFD; 0xE9]) (Offsets 0 5) None]
  ∧ (x ← metaspace 95 true (pts_from_string (encode [95; 97])); Ret (original_byte_splits x.1)) = Ret [ByteSplit [95; 97] (Offsets 0 2) None]
  ∧ (x ← metaspace 95 false (pts_from_string (encode [97; 32])); Ret (original_byte_splits x.1)) = Ret [ByteSplit [97] (Offsets 0 1) None; ByteSplit [95] (Offsets 1 2) None]
  ∧ (x ← metaspace 0x2581 true (pts_from_string (encode [0x2580; 9])); Ret (original_byte_splits x.1)) = Ret [ByteSplit (encode [0x2581; 0x2580; 9]) (Offsets 0 4) None].
Proof. vm_compute. auto 10. Qed.

(** * C57 *)
Theorem C57_table : ∀ b, 0 <= b < 256 → byte_to_rune b = Ret (byte_char b).
Proof. apply byte_to_rune_spec. Qed.
Print Assumptions C57_table.

Theorem C57_injective :
  ∀ a b c, byte_to_rune a = Ret c → byte_to_rune b = Ret c → a = b.
Proof.
  intros a b c Ha Hb.
  assert (Hr : ∀ x y, byte_to_rune x = Ret y → 0 <= x < 256).
  { intros x y Hx. unfold byte_to_rune in Hx. apply idx_lookup in Hx as [Hx0 Hx]. apply lookup_lt_Some in Hx.
    change (length byte_to_rune_table) with 256%nat in Hx. lia. }
  pose proof (Hr _ _ Ha) as H1. pose proof (Hr _ _ Hb) as H2. rewrite byte_to_rune_spec in Ha, Hb by done. apply byte_char_inj; congruence.
Qed.
Print Assumptions C57_injective.

(** Printable ASCII stands for itself; nothing maps to white space, to a control
    character or to the soft hyphen. *)
Theorem C57_range :
  ∀ b c, byte_to_rune b = Ret c →
  scalar c = true ∧ white_space c = false ∧ 32 < c ∧ c ≠ 127 ∧ ¬ (128 <= c < 161) ∧ c ≠ 173 ∧ c < 324 ∧ (33 <= b <= 126 → c = b) ∧ (c < 256 → c = b).
Proof.
  intros b c H. assert (Hb : 0 <= b < 256).
  { unfold byte_to_rune in H. apply idx_lookup in H as [Hx0 Hx]. apply lookup_lt_Some in Hx. change (length byte_to_rune_table) with 256%nat in Hx. lia. }
  rewrite byte_to_rune_spec in H by done. injection H as <-. split; [by apply byte_char_scalar|].
  assert (Hall : Forall (λ b, white_space (byte_char b) = false ∧ 32 < byte_char b ∧ byte_char b ≠ 127 ∧ ¬ (128 <= byte_char b ∧ byte_char b < 161)
    ∧ byte_char b ≠ 173 ∧ byte_char b < 324 ∧ ((33 <= b ∧ b <= 126) → byte_char b = b) ∧ (byte_char b < 256 → byte_char b = b)) (seqZ 0 256)).
  { apply (bool_decide_unpack _). vm_compute. exact I. }
  rewrite Forall_forall in Hall. apply Hall. apply elem_of_seqZ. lia.
Qed.
Print Assumptions C57_range.

(** A byte-level text determines the bytes. *)
Theorem C57_decodable :
  ∀ bs bs', Forall (λ b, 0 <= b < 256) bs → Forall (λ b, 0 <= b < 256) bs' →
  encode (map byte_char bs) = encode (map byte_char bs') → bs = bs'.
Proof.
  intros bs bs' H H' E. apply encode_inj_scalars in E.
  - revert bs' H' E. induction H as [|b bs Hb H IH]; intros [|b' bs'] H' E; try done. cbn in E. injection E as E1 E. apply Forall_cons in H' as [Hb' H'].
    rewrite (IH bs' H' E). f_equal. by apply byte_char_inj.
  - apply Forall_map. eapply Forall_impl; [exact H|]. intros b. apply byte_char_scalar.
  - apply Forall_map. eapply Forall_impl; [exact H'|]. intros b. apply byte_char_scalar.
Qed.
Print Assumptions C57_decodable.

(** Space is "Ġ", newline "Ċ", soft hyphen "Ń". *)
Example C57_example :
  map byte_to_rune [32; 33; 126; 127; 10; 160; 161; 172; 173; 174; 65; 0; 255; 256]
  = [Ret 0x120; Ret 33; Ret 126; Ret 0x121; Ret 0x10A; Ret 0x142; Ret 161; Ret 172; Ret 0x143; Ret 174; Ret 65; Ret 0x100; Ret 255; Panic].
Proof. vm_compute. reflexivity. Qed.

(** * C58 *)
Lemma byte_text_chars v : scalars v.*1 → (byte_text v).*1 = map byte_char (encode v.*1).
Proof.
  intros _. induction v as [|[x a] v IH]; [done|]. unfold byte_text in *. cbn [flat_map fst snd]. rewrite fmap_app, IH, (fmap_cons fst). cbn [fst].
  rewrite encode_cons, map_app. f_equal. rewrite <- list_fmap_compose. done.
Qed.

(** Any answers will do, as long as no empty match is reported beyond the length of the original text
    (there is room for one if a space was put before the text). *)
Theorem C58_byte_level_partial :
  ∀ engine rs (prefix : bool) ms, scalars rs →
  let v := if prefix then prefixed white_space 32 (fresh 0 rs) else fresh 0 rs in
  v ≠ [] → engine (encode v.*1) = (ms, None) → matches2_ok v.*1 0 ms →
  Forall (λ m, m.2 = [] → (match2_range v.*1 m).1 <= zlen (encode rs)) ms →
  ∃ segs l, byte_level engine prefix (pts_from_string (encode rs)) = Ret (Pts (encode rs) (splits_from_ns l), None)
    ∧ concat segs.*1 = v
    ∧ ranges_of true (place 0 (texts_of segs)) = map (match2_range v.*1) ms
    ∧ Forall (λ s, s.2 = false → s.1 ≠ []) segs
    ∧ Forall2 (λ t, piece_of (from_string (encode rs)) (byte_text t)) (base.filter (λ t, t ≠ []) segs.*1) l.
Proof. apply byte_level_spec. Qed.
Print Assumptions C58_byte_level_partial.

Theorem C58_empty :
  ∀ engine prefix, byte_level engine prefix (pts_from_string []) = Ret (Pts [] [], None).
Proof. intros engine []; reflexivity. Qed.
Print Assumptions C58_empty.

(** Lossless: the pieces spell, byte for byte, the text they were given. *)
Theorem C58_lossless_partial :
  ∀ engine rs (prefix : bool) ms, scalars rs →
  let text := match rs with x :: _ => if prefix && negb (white_space x) then 32 :: rs else rs | [] => [] end in
  text ≠ [] → engine (encode text) = (ms, None) → matches2_ok text 0 ms →
  Forall (λ m, m.2 = [] → (match2_range text m).1 <= zlen (encode rs)) ms →
  ∃ p bss, byte_level engine prefix (pts_from_string (encode rs)) = Ret (p, None)
    ∧ map bs_string (original_byte_splits p) = map (λ bs, encode (map byte_char bs)) bss
    ∧ concat bss = encode text ∧ Forall (λ bs, bs ≠ [] ∧ Forall (λ b, 0 <= b < 256) bs) bss.
Proof.
  intros engine rs b ms Hs text Hn He Hm Hl.
  assert (Ev : (if b then prefixed white_space 32 (fresh 0 rs) else fresh 0 rs).*1 = text).
  { unfold text. destruct rs as [|x rs]; [by destruct b|]. destruct b; cbn [andb]; [|apply fresh_chars]. cbn [fresh prefixed].
    destruct (white_space x); cbn [negb]; rewrite ?fmap_cons; cbn [fst]; by rewrite fresh_chars. }
  pose proof (byte_level_spec engine rs b ms Hs) as H. cbv zeta in H. rewrite Ev in H.
  destruct H as (segs & l & H1 & H2 & H3 & H4 & H5); [|done..|].
  { intros E. rewrite E in Ev. done. }
  set (ts := base.filter (λ t, t ≠ []) segs.*1) in *.
  exists (Pts (encode rs) (splits_from_ns l)), (map (λ t : atext, encode t.*1) ts). split; [done|].
  assert (Hts : Forall (λ t : atext, t ≠ [] ∧ scalars t.*1) ts).
  { apply Forall_forall. intros t [Ht Hin]%elem_of_list_filter. split; [done|]. apply elem_of_list_split in Hin as (l1 & l2 & E).
    assert (Hsc : scalars text). { unfold text. destruct rs as [|x rs']; [constructor|]. destruct (_ && _); [|done]. by constructor. }
    rewrite <- Ev, <- H2, E, concat_app in Hsc. cbn [concat] in Hsc. rewrite !fmap_app in Hsc. apply Forall_app in Hsc as [_ Hsc]. by apply Forall_app in Hsc as [Hsc _]. }
  split_and!.
  - unfold original_byte_splits. cbn [p_splits]. rewrite !map_map. clear -H5 Hts. induction H5 as [|t n' ts l H H5 IH]; [done|].
    apply Forall_cons in Hts as [[_ Ht] Hts]. cbn [map splits_from_ns bs_string sp_ns]. f_equal; [|by apply IH].
    destruct H as ((_ & H & _) & _). by rewrite H, shift_spans_chars, byte_text_chars.
  - rewrite <- Ev, <- H2. unfold ts. clear. induction segs as [|[t m] segs IH]; [done|]. rewrite !(fmap_cons fst), filter_cons. cbn [fst concat].
    rewrite fmap_app, encode_app. destruct (decide (t ≠ [])) as [Ht|Ht]; [cbn [map concat]; by rewrite IH|].
    destruct t; [cbn; exact IH|]. destruct Ht. done.
  - apply Forall_map. eapply Forall_impl; [exact Hts|]. intros t [Ht Hsc]. cbn. split.
    + intros E. destruct t as [|[x a] t]; [done|]. rewrite (fmap_cons fst) in E. cbn [fst] in E. pose proof (encode_pos x t.*1) as Hp. rewrite E in Hp. done.
    + eapply Forall_impl; [apply encode_bytes|]. cbn. intros. lia.
Qed.
Print Assumptions C58_lossless_partial.

(** As stated, for any answers, it is false: with the space in front there is an empty match at byte 2,
    while the original text has one byte. *)
Theorem C58_any_answers_refuted :
  ¬ (∀ engine rs (prefix : bool) ms, scalars rs →
     let text := match rs with x :: _ => if prefix && negb (white_space x) then 32 :: rs else rs | [] => [] end in
     text ≠ [] → engine (encode text) = (ms, None) → matches2_ok text 0 ms →
     ∃ p, byte_level engine prefix (pts_from_string (encode rs)) = Ret (p, None)).
Proof.
  intros H. destruct (H (λ _, ([(0, [32; 97]); (2, [])], None)) [97] true [(0, [32; 97]); (2, [])]) as (p & E).
  - by repeat constructor.
  - done.
  - done.
  - exists [], [32; 97], []. split_and!; [done..|]. exists [32; 97], [], []. by split_and!.
  - vm_compute in E. done.
Qed.
Print Assumptions C58_any_answers_refuted.

(** And that is the only way: it panics exactly if an empty match begins past the end of the original text. *)
Theorem C58_panics_iff :
  ∀ engine rs (prefix : bool) ms, scalars rs →
  let text := match rs with x :: _ => if prefix && negb (white_space x) then 32 :: rs else rs | [] => [] end in
  text ≠ [] → engine (encode text) = (ms, None) → matches2_ok text 0 ms →
  byte_level engine prefix (pts_from_string (encode rs)) = Panic
  ↔ Exists (λ m, m.2 = [] ∧ zlen (encode rs) < (match2_range text m).1) ms.
Proof.
  intros engine rs b ms Hs text Hn He Hm.
  assert (Ev : (if b then prefixed white_space 32 (fresh 0 rs) else fresh 0 rs).*1 = text).
  { unfold text. destruct rs as [|x rs]; [by destruct b|]. destruct b; cbn [andb]; [|apply fresh_chars]. cbn [fresh prefixed].
    destruct (white_space x); cbn [negb]; rewrite ?fmap_cons; cbn [fst]; by rewrite fresh_chars. }
  assert (Hv : (if b then prefixed white_space 32 (fresh 0 rs) else fresh 0 rs) ≠ []) by (intros E; by rewrite E in Ev).
  pose proof (byte_level_spec engine rs b ms Hs) as H. pose proof (byte_level_panics engine rs b ms Hs) as H'. cbv zeta in H, H'. rewrite Ev in H, H'. split.
  - intros Hp. apply dec_stable. intros D. rewrite <- Forall_Exists_neg in D. destruct H as (segs & l & H & _); [done..| |congruence].
    eapply Forall_impl; [exact D|]. cbn. intros m D' E. apply Z.nlt_ge. auto.
  - intros Hl. by apply H'.
Qed.
Print Assumptions C58_panics_iff.

(** The default splitting regexp: its matches are never empty and cover the text, so that the pieces are
    the matches, each of one of the expected shapes. *)
Theorem C58_default_regexp :
  ∀ fold letter number space rs (prefix : bool), scalars rs →
  let v := if prefix then prefixed white_space 32 (fresh 0 rs) else fresh 0 rs in
  ∃ ts l, byte_level (engine_of (splitting_re fold letter number space)) prefix (pts_from_string (encode rs))
          = Ret (Pts (encode rs) (splits_from_ns l), None)
    ∧ concat ts = v
    ∧ Forall (λ t, gpt2_shape fold letter number space t.*1) ts
    ∧ Forall2 (λ t, piece_of (from_string (encode rs)) (byte_text t)) ts l.
Proof.
  intros fold letter number space rs b Hs v. destruct (byte_level_matches fold letter number space rs b Hs) as (ms & ts & l & H1 & H2 & H3 & H4 & H5).
  exists ts, l. split_and!; [done|done| |done]. apply splitting_scan in H3 as [_ H3]. rewrite <- H4, Forall_map in H3. done.
Qed.
Print Assumptions C58_default_regexp.

(** "a bé" with the space prefix and the default regexp, latin letters only. *)
Example C58_example :
  let run b rs := (x ← byte_level (engine_of (splitting_re (λ c, c) (λ c, (97 <=? c) && (c <=? 122) || (0xE0 <=? c)) (λ c, (48 <=? c) && (c <=? 57)) (λ c, c =? 32))) b
                     (pts_from_string (encode rs)); Ret (original_byte_splits x.1)) in
  run true [97; 32; 98; 0xE9] = Ret [ByteSplit (encode [0x120; 97]) (Offsets 0 1) None; ByteSplit (encode [0x120; 98; 0xC3; 0xA9]) (Offsets 1 5) None]
  ∧ run false [97; 32; 98; 0xE9] = Ret [ByteSplit (encode [97]) (Offsets 0 1) None; ByteSplit (encode [0x120; 98; 0xC3; 0xA9]) (Offsets 1 5) None]
  ∧ run true [32; 97] = Ret [ByteSplit (encode [0x120; 97]) (Offsets 0 2) None]
  ∧ run true [9; 97] = Ret [ByteSplit (encode [0x109]) (Offsets 0 1) None; ByteSplit (encode [97]) (Offsets 1 2) None].
Proof. vm_compute. auto. Qed.

(** * C59 *)
Theorem C59_any_answers :
  ∀ engine rs ms, scalars rs → rs ≠ [] → engine (encode rs) = (ms, None) → matches2_ok rs 0 ms →
  ∃ fs, whitespace_pretokenizer engine (pts_from_string (encode rs)) = Ret (Pts (encode rs) (map plain_split fs), None)
    ∧ Forall (λ x, ∃ l r, occurs rs l r x) fs
    ∧ map (λ x, (x.1, x.1 + zlen (encode x.2))) fs = base.filter (λ m, m.1 < m.2) (map (match2_range rs) ms).
Proof. apply whitespace_spec. Qed.
Print Assumptions C59_any_answers.

Theorem C59_empty : ∀ engine, whitespace_pretokenizer engine (pts_from_string []) = Ret (Pts [] [], None).
Proof. reflexivity. Qed.
Print Assumptions C59_empty.

Theorem C59_error :
  ∀ engine rs ms e, scalars rs → rs ≠ [] → engine (encode rs) = (ms, Some e) → matches2_ok rs 0 ms →
  whitespace_pretokenizer engine (pts_from_string (encode rs)) = Ret (pts_from_string (encode rs), Some e).
Proof.
  intros engine rs ms e Hs Hn He Hm. pose proof (regexp2_pattern_err engine rs ms e Hs Hn He Hm) as E.
  assert (E' : split_by (invert (regexp2_pattern engine)) Removed (from_string (encode rs)) = Ret (from_string (encode rs), Err e)).
  { unfold split_by, split, invert. change (ns_norm (from_string (encode rs))) with (encode rs). by rewrite E. }
  unfold whitespace_pretokenizer, run_split, pts_split, pts_from_string. cbn [p_splits split_loop]. unfold stateless. unfold pts_from_ns. cbn [p_splits split_loop sp_tokens sp_ns]. by rewrite E'.
Qed.
Print Assumptions C59_error.

Theorem C59_default_regexp :
  ∀ word space rs, scalars rs →
  ∃ fs, whitespace_default word space (pts_from_string (encode rs)) = Ret (Pts (encode rs) (map plain_split fs), None)
    ∧ in_order fs ∧ ∀ x, x ∈ fs ↔ kind_run word space rs x.
Proof. apply word_pieces. Qed.
Print Assumptions C59_default_regexp.

(** "é?! a." *)
Example C59_example :
  whitespace_default (λ c, (97 <=? c) && (c <=? 122) || (0xE0 <=? c)) (λ c, c =? 32) (pts_from_string (encode [0xE9; 63; 33; 32; 97; 46]))
  = Ret (Pts (encode [0xE9; 63; 33; 32; 97; 46]) (map plain_split [(0, [0xE9]); (2, [63; 33]); (5, [97]); (6, [46])]), None).
Proof. vm_compute. reflexivity. Qed.
