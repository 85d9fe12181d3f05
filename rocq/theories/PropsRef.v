(** Property theorems C111: the byte-level pipeline and the tokenizer of GPT-2. *)
From Coq Require Import ZifyBool Sorted QArith String.
From stdpp Require Import relations.
From Verif Require Import GoBase Utf8Facts Strutils SplitPattern NormString Vocab MergeMap Bpe WordPiece Encodings PreTokString Normalizers PreTokenizers Regex SpecText SpecNorm SpecVocab SpecBpe SpecWordPiece SpecPts SpecPretok SpecNormalizers SpecShift SpecProg SpecDrop SpecTrain SpecRead SpecGpt2 SpecEnd SpecPipe SpecRef
  SliceFacts NormFacts NormInv WordPieceFacts BpeTok PretokFacts ByteFacts RegexFacts NormSlice EndFacts PipeFacts Gpt2Facts ProgFacts TrainFacts RefFacts CaseFacts CaseText PropsBpe PropsGpt2 PropsTrain PropsProg PropsPipe PropsChain Lit.
Import GoBase NormString SpecNorm.
#[local] Open Scope Z_scope.

(** * The reference *)
(** It has exactly one answer. *)
Theorem C111_reference :
  ∀ letter number space pairs text, disjoint_kinds letter number space →
  ∃ out, gpt2_tokens letter number space pairs text out ∧ ∀ out', gpt2_tokens letter number space pairs text out' → out' = out.
Proof.
  intros letter number space pairs text Hk. destruct (C95_unique (λ c, c) letter number space text Hk) as (ps & Hp & _ & Hu).
  assert (∃ parts, Forall2 (λ p, gpt2_bpe pairs (map (λ b, encode_rune (byte_char b)) (encode p))) ps parts) as (parts & Hparts).
  { clear. induction ps as [|p ps (parts & IH)]; [exists []; constructor|]. destruct (gpt2_total pairs (map (λ b, encode_rune (byte_char b)) (encode p))) as (x & Hx). exists (x :: parts). by constructor. }
  exists (concat parts). split; [by exists ps, parts|]. intros out' (ps' & parts' & Hp' & Hparts' & ->). f_equal. apply Hu in Hp' as ->.
  clear -Hparts Hparts'. revert parts' Hparts'. induction Hparts as [|p x ps parts H _ IH]; intros parts' H'; [by apply Forall2_nil_inv_l in H'|].
  apply Forall2_cons_inv_l in H' as (y & parts'' & Hy & H' & ->). f_equal; [by eapply gpt2_fun|by apply IH].
Qed.
Print Assumptions C111_reference.

(** * The pieces *)
(** The library compiles the expression with IgnoreCase (bytelevelpretokenizer.go:44), GPT-2 does not. A text is cut in the same way by
    both exactly if the library finds no contraction in it that is not written as in the expression. *)
Theorem C111_pieces_iff :
  ∀ fold letter number space text ps, letter_case fold letter → disjoint_kinds letter number space →
  pieces fold letter number space text ps →
  (pieces (λ c, c) letter number space text ps ↔ Forall (λ x, ¬ capitalised fold x) ps).
Proof.
  intros fold letter number space text ps Hl Hk Hp. split; [by apply pieces_not_capitalised|by apply pieces_same].
Qed.
Print Assumptions C111_pieces_iff.

(** * One word *)
Theorem C111_word :
  ∀ m file ls pairs s draws, consistent (b_vocab m) → merge_map_from_file file (b_vocab m) 0 = Ret (Ok (b_merges m)) →
  file_lines file ls → listed ls pairs → NoDup pairs → training_order pairs →
  b_prefix m = [] → b_suffix m = [] → (b_dropout m <= 0)%Q → (b_unk m ≠ [] → is_Some (get_id (b_vocab m) (b_unk m))) →
  ∃ toks, bpe_tokenize m s draws = Some (Ret (Ok toks)) ∧ gpt2_bpe pairs (legible m false (runes s)) (map t_value toks).
Proof.
  intros m file ls pairs s draws Hc Hf Hl Hp Hnd Ht Hpre Hsuf Hd Hu. destruct (C101_tokenize m file ls pairs s draws Hc Hf Hl Hp Hnd Ht Hpre Hsuf Hd Hu) as (toks & E & Ev).
  exists toks. split; [done|]. rewrite Ev. apply (gpt2_passes pairs []); [done|done|]. by intros ? ?%elem_of_nil.
Qed.
Print Assumptions C111_word.

(** "ab a" and "a b", in this order, which no training produces: GPT-2 joins both occurrences of "a b" in "abab" before it looks
    again, the library joins "ab" with the "a" after it first. *)
Theorem C111_order_refuted :
  ¬ ∀ m file ls pairs s draws, consistent (b_vocab m) → merge_map_from_file file (b_vocab m) 0 = Ret (Ok (b_merges m)) →
  file_lines file ls → listed ls pairs → NoDup pairs →
  b_prefix m = [] → b_suffix m = [] → (b_dropout m <= 0)%Q → (b_unk m ≠ [] → is_Some (get_id (b_vocab m) (b_unk m))) →
  ∃ toks, bpe_tokenize m s draws = Some (Ret (Ok toks)) ∧ gpt2_bpe pairs (legible m false (runes s)) (map t_value toks).
Proof.
  intros H. set (v := ex_vocab [[97]; [98]; [97; 98]; [97; 98; 97]]). set (file := bytes_of "ab a" ++ [10] ++ bytes_of "a b").
  set (mm := match merge_map_from_file file v 0 with Ret (Ok mm) => mm | _ => ∅ end).
  destruct (H (Bpe v mm 0 [] [] [] false) file [bytes_of "ab a"; bytes_of "a b"] [([97; 98], [97]); ([97], [98])] [97; 98; 97; 98] (λ _, 0%Q)) as (toks & E & Ev).
  - apply ex_consistent.
  - by vm_compute.
  - apply (fl_lf (bytes_of "ab a") (bytes_of "a b")); [by vm_compute; set_solver|done|]. apply fl_last; [done|by vm_compute; set_solver|done].
  - unfold listed. change (merge_lines _) with [bytes_of "ab a"; bytes_of "a b"]. repeat constructor; vm_compute; set_solver.
  - repeat constructor; set_solver.
  - done.
  - done.
  - done.
  - done.
  - vm_compute in E. injection E as <-. vm_compute legible in Ev. cbn [map t_value] in Ev.
    assert (G : gpt2_bpe [([97; 98], [97]); ([97], [98])] [[97]; [98]; [97]; [98]] [[97; 98]; [97; 98]]).
    { apply (gpt2_join _ [([97; 98], [97])] ([97], [98]) []); [done|..].
      - intros q ->%elem_of_list_singleton. cbn. naive_solver.
      - by left.
      - apply gpt2_done. intros q. rewrite !elem_of_cons, elem_of_nil. intros [->|[->|[]]]; cbn; naive_solver. }
    pose proof (gpt2_fun _ _ _ _ Ev G) as E2. discriminate.
Qed.
Print Assumptions C111_order_refuted.

(** * The pipeline *)
Lemma gpt2_pipeline fold letter number space n w (prefix : bool) m file ls pairs draws wi ty : wf_as n w → ns_shift n = 0 →
  disjoint_kinds letter number space → has_bytes (b_vocab m) →
  consistent (b_vocab m) → merge_map_from_file file (b_vocab m) 0 = Ret (Ok (b_merges m)) →
  file_lines file ls → listed ls pairs → NoDup pairs → training_order pairs →
  b_prefix m = [] → b_suffix m = [] → (b_dropout m <= 0)%Q → (b_unk m ≠ [] → is_Some (get_id (b_vocab m) (b_unk m))) →
  let v := if prefix then prefixed white_space 32 w else w in
  ∃ e, encode_ns (byte_level (engine_of (splitting_re fold letter number space)) prefix) (bpe_model m draws) n wi ty = Ret (Ok e)
    ∧ tokens_by fold letter number space pairs v.*1 (e_tokens e)
    ∧ Forall2 (λ t i, get_id (b_vocab m) t = Some i) (e_tokens e) (e_ids e).
Proof.
  intros Hw H0 Hd Hby Hcons Hfile Hls Hli Hnd Hord Hpre Hsuf Hdr Hunk v.
  destruct (byte_level_matches_at fold letter number space n w prefix Hw) as (ms & ts & l & H1 & H2 & H3 & H4 & H5). fold v in H2, H3.
  pose proof (scan_pieces fold letter number space Hd _ _ _ H3) as Hpc. rewrite <- H4 in Hpc.
  assert (Hne : Forall (λ t : atext, t ≠ []) ts).
  { apply splitting_scan in H3 as [_ H3]. rewrite <- H4, Forall_map in H3. eapply Forall_impl; [exact H3|]. cbn. intros t Ht ->. by apply shape_nonempty in Ht. }
  assert (Hh : Forall2 holds_at (map byte_text ts) l).
  { apply Forall2_fmap_l. clear -H5 Hne H0. induction H5 as [|t n' ts l H H5 IH]; constructor.
    - apply (piece_holds n _ _ H0); [|done]. apply Forall_cons in Hne as [Hne _]. intros E. apply (f_equal (fmap snd)) in E. rewrite byte_text_snd in E.
      destruct t as [|[c s] t]; [done|]. rewrite spans_of_cons in E. pose proof (rune_len_bounds c) as Hc. unfold rune_len, zlen in Hc. destruct (length (encode_rune c)); [lia|done].
    - apply IH. by apply Forall_cons in Hne as [_ Hne]. }
  assert (Hkn : ∀ t : atext, Forall (λ c, is_Some (get_id (b_vocab m) (encode_rune c))) (byte_text t).*1).
  { intros t. rewrite byte_text_fst. apply Forall_map. eapply Forall_impl; [apply encode_bytes|]. cbn. intros x Hx. apply Hby. lia. }
  assert (Hsc : ∀ t : atext, scalars (byte_text t).*1).
  { intros t. rewrite byte_text_fst. apply Forall_map. eapply Forall_impl; [apply encode_bytes|]. cbn. intros x Hx. apply byte_char_scalar. lia. }
  assert (Hans : ∀ j t, ∃ toks, bpe_model m draws j (encode (byte_text t).*1) = Ret (Ok toks) ∧ toks_tile 0 toks (alen (byte_text t))
     ∧ Forall (λ tok, boundary (encode (byte_text t).*1) (o_start (t_offsets tok)) ∧ boundary (encode (byte_text t).*1) (o_end (t_offsets tok))) toks
     ∧ gpt2_bpe pairs (map (λ b, encode_rune (byte_char b)) (encode t.*1)) (map t_value toks)
     ∧ Forall (λ tok, get_id (b_vocab m) (t_value tok) = Some (t_id tok)) toks).
  { intros j t. destruct (bpe_known m file draws (byte_text t).*1 j Hcons Hfile Hpre Hsuf Hunk (Hsc t) (Hkn t)) as (toks & E & T & B & G).
    exists toks. split; [done|]. split; [done|]. split; [done|]. split.
    - destruct (C111_word m file ls pairs (encode (byte_text t).*1) (draws j) Hcons Hfile Hls Hli Hnd Hord Hpre Hsuf Hdr Hunk) as (toks' & E' & G').
      unfold bpe_model in E. rewrite E' in E. injection E as <-. rewrite runes_encode_scalars in G' by done. rewrite legible_known in G' by done.
      rewrite byte_text_fst, map_map in G'. done.
    - eapply Forall_impl; [exact G|]. by intros tok [_ ?]. }
  destruct (pipeline_tokens (byte_level (engine_of (splitting_re fold letter number space)) prefix) (bpe_model m draws) n wi ty _ (map byte_text ts) l H1 Hh) as [(e & tss & E1 & E2 & E3 & E4 & E5)|(e & j & t & _ & Ht & E)].
  - intros j t (t' & -> & _)%elem_of_list_fmap. destruct (Hans j t') as (toks & E & T & B & _). exists (Ok toks). split; [done|]. by intros ? [= <-].
  - exists e. split; [done|]. rewrite map_length in E2.
    assert (Hall : Forall2 (λ t toks, gpt2_bpe pairs (map (λ b, encode_rune (byte_char b)) (encode t.*1)) (map t_value toks)
                      ∧ Forall (λ tok, get_id (b_vocab m) (t_value tok) = Some (t_id tok)) toks) ts tss).
    { apply Forall2_same_length_lookup_2; [done|]. intros j t toks Hj Htoks. destruct (Hans j t) as (toks' & E & _ & _ & G).
      rewrite (E3 j (byte_text t) toks) in E; [|by rewrite list_lookup_fmap, Hj|done]. injection E as <-. done. }
    split.
    + exists (map (λ t : atext, t.*1) ts), (map (map t_value) tss). split; [done|]. split; [|done]. apply Forall2_fmap. eapply Forall2_impl; [exact Hall|]. by intros t toks [? _].
    + rewrite E4, E5. clear -Hall. induction Hall as [|t toks ts tss [_ H] _ IH]; [constructor|]. cbn [map concat]. apply Forall2_app; [|done].
      clear -H. induction H; cbn [map]; by constructor.
  - exfalso. rewrite list_lookup_fmap in Ht. destruct (ts !! j) as [t'|]; [|done]. injection Ht as <-. destruct (Hans j t') as (toks & E' & _). congruence.
Qed.

Lemma same_tokens fold letter number space pairs text out : disjoint_kinds letter number space →
  (∀ ps, pieces fold letter number space text ps → Forall (λ x, ¬ capitalised fold x) ps) →
  tokens_by fold letter number space pairs text out → gpt2_tokens letter number space pairs text out.
Proof. intros Hk Hc (ps & parts & Hp & H & ->). exists ps, parts. split; [|done]. apply (pieces_same fold); [done|by apply Hc]. Qed.

(** All texts without capitalised contractions, with or without the space in front. *)
Theorem C111_gpt2_partial :
  ∀ fold letter number space rs (prefix : bool) m file ls pairs draws wi ty, scalars rs → disjoint_kinds letter number space → has_bytes (b_vocab m) →
  consistent (b_vocab m) → merge_map_from_file file (b_vocab m) 0 = Ret (Ok (b_merges m)) →
  file_lines file ls → listed ls pairs → NoDup pairs → training_order pairs →
  b_prefix m = [] → b_suffix m = [] → (b_dropout m <= 0)%Q → (b_unk m ≠ [] → is_Some (get_id (b_vocab m) (b_unk m))) →
  let text := match rs with x :: _ => if prefix && negb (white_space x) then 32 :: rs else rs | [] => [] end in
  (* missing in the full statement *)
  (∀ ps, pieces fold letter number space text ps → Forall (λ x, ¬ capitalised fold x) ps) →
  ∃ e, encode_text (byte_level (engine_of (splitting_re fold letter number space)) prefix) (bpe_model m draws) (encode rs) wi ty = Ret (Ok e)
    ∧ gpt2_tokens letter number space pairs text (e_tokens e)
    ∧ Forall2 (λ t i, get_id (b_vocab m) t = Some i) (e_tokens e) (e_ids e).
Proof.
  intros fold letter number space rs b m file ls pairs draws wi ty Hs Hd Hby Hcons Hfile Hls Hli Hnd Hord Hpre Hsuf Hdr Hunk text Hcap.
  destruct (gpt2_pipeline fold letter number space (from_string (encode rs)) (fresh 0 rs) b m file ls pairs draws wi ty) as (e & E1 & E2 & E3); try done.
  { by apply from_string_wf. }
  exists e. split; [done|]. split; [|done]. eapply same_tokens; [done|exact Hcap|].
  assert ((if b then prefixed white_space 32 (fresh 0 rs) else fresh 0 rs).*1 = text) as <-; [|done].
  unfold text. destruct rs as [|x rs]; [by destruct b|]. destruct b; cbn [andb]; [|apply fresh_chars]. pose proof (fresh_chars 0 (x :: rs)) as Hf. cbn [fresh prefixed] in *.
  destruct (white_space x); cbn [negb]; [done|]. rewrite <- Hf. done.
Qed.
Print Assumptions C111_gpt2_partial.

(** For one text, over all merges in training order and all vocabularies with the bytes: the tokens of GPT-2 exactly if the library finds
    no capitalised contraction. *)
Theorem C111_text_iff :
  ∀ fold letter number space rs (prefix : bool), scalars rs → letter_case fold letter → endings_apart fold → disjoint_kinds letter number space →
  let text := match rs with x :: _ => if prefix && negb (white_space x) then 32 :: rs else rs | [] => [] end in
  (∀ m file ls pairs draws, has_bytes (b_vocab m) → consistent (b_vocab m) → merge_map_from_file file (b_vocab m) 0 = Ret (Ok (b_merges m)) →
     file_lines file ls → listed ls pairs → NoDup pairs → training_order pairs →
     b_prefix m = [] → b_suffix m = [] → (b_dropout m <= 0)%Q → (b_unk m ≠ [] → is_Some (get_id (b_vocab m) (b_unk m))) →
     ∃ e, encode_text (byte_level (engine_of (splitting_re fold letter number space)) prefix) (bpe_model m draws) (encode rs) (-1) 0 = Ret (Ok e)
       ∧ gpt2_tokens letter number space pairs text (e_tokens e))
  ↔ ∀ ps, pieces fold letter number space text ps → Forall (λ x, ¬ capitalised fold x) ps.
Proof.
  intros fold letter number space rs b Hs Hl Ha Hk text. split.
  2: { intros Hc m file ls pairs draws H1 H2 H3 H4 H5 H6 H7 H8 H9 H10 H11.
       destruct (C111_gpt2_partial fold letter number space rs b m file ls pairs draws (-1) 0 Hs Hk H1 H2 H3 H4 H5 H6 H7 H8 H9 H10 H11 Hc) as (e & E & T & _). by exists e. }
  intros H ps Hps. apply Forall_forall. intros x Hin Hcap. pose proof Hl as (_ & H39 & _).
  destruct (capitalised_letters fold letter number space Hl x Hcap) as (c & y & -> & Hlet).
  destruct (Utf8Facts.encode_rune_head c) as (q & bs & Eq & _ & _ & Hq & _). assert (Hq' : 0 <= q < 256) by lia.
  destruct (pair_model q Hq') as (m & file & ls & H1 & H2 & H3 & H4 & H5 & H6 & H7 & H8 & H9).
  assert (Hnd : NoDup [(shown_byte 39, shown_byte q)]) by (repeat constructor; set_solver).
  assert (Hto : training_order [(shown_byte 39, shown_byte q)]).
  { intros i j p r Hij Hp Hr. destruct i as [|[|i]]; [|done..]. destruct j as [|[|j]]; [|done..]. injection Hp as <-. injection Hr as <-. cbn [fst snd].
    assert (Hne : ∀ z, shown_byte z ≠ []) by (intros z Ez; by destruct (encode_rune_some (byte_char z))). split; intros E; apply (f_equal length) in E; rewrite app_length in E.
    - pose proof (Hne q). destruct (shown_byte q); [done|]. cbn in E. lia.
    - pose proof (Hne 39). destruct (shown_byte 39); [done|]. cbn in E. lia. }
  assert (Hun : b_unk m ≠ [] → is_Some (get_id (b_vocab m) (b_unk m))) by done.
  destruct (H m file ls _ (λ _ _, 0%Q) H1 H2 H3 H4 H5 Hnd Hto H6 H7 H8 Hun) as (e & E & (ps2 & parts2 & P2 & F2 & T2)).
  destruct (gpt2_pipeline fold letter number space (from_string (encode rs)) (fresh 0 rs) b m file ls _ (λ _ _, 0%Q) (-1) 0 (from_string_wf rs Hs) eq_refl Hk H1 H2 H3 H4 H5 Hnd Hto H6 H7 H8 Hun) as (e' & E' & (ps1 & parts1 & P1 & F1 & T1) & _).
  unfold encode_text in E. rewrite E in E'. injection E' as <-.
  assert (Et : (if b then prefixed white_space 32 (fresh 0 rs) else fresh 0 rs).*1 = text).
  { unfold text. clear. destruct rs as [|x rs]; [by destruct b|]. destruct b; cbn [andb]; [|apply fresh_chars]. pose proof (fresh_chars 0 (x :: rs)) as Hf. cbn [fresh prefixed] in *.
    destruct (white_space x); cbn [negb]; [done|]. rewrite <- Hf. done. }
  rewrite Et in P1. destruct (C95_unique fold letter number space text Hk) as (ps0 & _ & _ & Hu). rewrite (Hu ps1 P1), <- (Hu ps Hps) in F1. clear Hu P1 Et.
  assert (Hlen : ∀ l parts, Forall2 (λ p, gpt2_bpe [(shown_byte 39, shown_byte q)] (map (λ b, encode_rune (byte_char b)) (encode p))) l parts → length (concat parts) = weight (joined q) l).
  { clear -Hto. induction 1 as [|p r l parts Hp _ IH]; [done|]. cbn [concat]. rewrite app_length, IH, weight_cons. f_equal.
    assert (Hp' : gpt2_bpe [(shown_byte 39, shown_byte q)] (map shown_byte (encode p)) (join_all [(shown_byte 39, shown_byte q)] (map shown_byte (encode p)))).
    { apply (gpt2_passes _ []); [done|done|]. by intros ? ?%elem_of_nil. }
    by rewrite (gpt2_fun _ _ _ _ Hp Hp'). }
  assert (HL : ∀ l, all_of letter number space KLetter l → Forall (λ c, letter c = true) l). { intros l Hl'. eapply Forall_impl; [exact Hl'|]. intros z. apply kind_letter. }
  assert (Hlight : ∀ (R : nat → nat → Prop) x, (∀ c y k bs, x = 39 :: c :: y → encode_rune c = k :: bs → ∀ n, R ((if decide (k = q) then 0 else 1) + n)%nat (1 + n)%nat) → lighter letter number space (joined q) R x).
  { intros R x HR c' y' z -> Hc' Hz. apply HL in Hc', Hz. assert (Hcz : Forall (λ c, letter c = true) (c' :: y' ++ z)) by (change (c' :: y' ++ z) with ((c' :: y') ++ z); by apply Forall_app).
    destruct (encode_rune c') as [|k bs'] eqn:Ek; [by destruct (encode_rune_some c')|].
    rewrite (joined_contraction q Hq' letter c' y' k bs' H39 Hc' Ek), (joined_letters q letter _ H39 Hcz).
    assert (Eaf : after (joined q) z = length (encode z)). { unfold after. destruct (decide (z = [])) as [->|_]; [done|]. by apply (joined_letters q letter). }
    rewrite Eaf. change (joined q [39]) with 1%nat. change (c' :: y' ++ z) with ((c' :: y') ++ z). rewrite encode_app, app_length.
    pose proof (HR c' y' k bs' eq_refl Ek (length (encode (c' :: y')) + length (encode z))%nat) as G. destruct (decide (k = q)); cbn [Nat.add] in *; exact G. }
  destruct (weights fold letter number space Hl Ha Hk (joined q)) with (n := length text) (s := text) (ps := ps) (ps' := ps2) as [_ W]; [|done|done|done|].
  { intros x. apply Hlight. intros ? ? k ? _ _ n. destruct (decide (k = q)); lia. }
  pose proof (W (39 :: c :: y) Hin Hcap) as W'. rewrite <- (Hlen _ _ F1), <- (Hlen _ _ F2) in W'. rewrite T1 in T2. rewrite T2 in W'.
  apply Nat.lt_irrefl with (length (concat parts2)), W'. apply Hlight. intros c' y' k bs' [= <- <-] Ek n. rewrite Eq in Ek. injection Ek as -> _. rewrite decide_True by done. lia.
Qed.
Print Assumptions C111_text_iff.
(** "I'M" and "we're": only the first has one. *)
Example C111_text_example :
  let fold := λ c, if (65 <=? c) && (c <=? 90) then c + 32 else c in
  capitalised fold [39; 77] ∧ ¬ capitalised fold [39; 114; 101] ∧ endings_apart fold.
Proof.
  cbv zeta. split; [|split].
  - split; [exists [109]; split; [unfold endings; set_solver|done]|]. intros w Hw [= <-]. unfold endings in Hw. set_solver.
  - intros [_ H]. apply (H [114; 101]); [unfold endings; set_solver|done].
  - intros w w' d d' Hw Hw' Hd Hd'. assert (G : ∀ w d, w ∈ endings → d ∈ w → 97 <= d <= 122).
    { clear. intros w d Hw Hd. unfold endings in Hw. rewrite !elem_of_cons, elem_of_nil in Hw. destruct_or!; subst; rewrite !elem_of_cons, elem_of_nil in Hd; lia. }
    pose proof (G w d Hw Hd). pose proof (G w' d' Hw' Hd'). intros E. replace ((65 <=? d) && (d <=? 90)) with false in E by lia. replace ((65 <=? d') && (d' <=? 90)) with false in E by lia. done.
Qed.

(** All texts, if the same expression is compiled without IgnoreCase and given to New. *)
Theorem C111_own_regexp :
  ∀ letter number space rs (prefix : bool) m file ls pairs draws wi ty, scalars rs → disjoint_kinds letter number space → has_bytes (b_vocab m) →
  consistent (b_vocab m) → merge_map_from_file file (b_vocab m) 0 = Ret (Ok (b_merges m)) →
  file_lines file ls → listed ls pairs → NoDup pairs → training_order pairs →
  b_prefix m = [] → b_suffix m = [] → (b_dropout m <= 0)%Q → (b_unk m ≠ [] → is_Some (get_id (b_vocab m) (b_unk m))) →
  let text := match rs with x :: _ => if prefix && negb (white_space x) then 32 :: rs else rs | [] => [] end in
  ∃ e, encode_text (byte_level (engine_of (splitting_re (λ c, c) letter number space)) prefix) (bpe_model m draws) (encode rs) wi ty = Ret (Ok e)
    ∧ gpt2_tokens letter number space pairs text (e_tokens e)
    ∧ Forall2 (λ t i, get_id (b_vocab m) t = Some i) (e_tokens e) (e_ids e).
Proof.
  intros letter number space rs b m file ls pairs draws wi ty Hs Hd Hby Hcons Hfile Hls Hli Hnd Hord Hpre Hsuf Hdr Hunk text.
  eapply C111_gpt2_partial; try done. intros ps _. apply Forall_forall. intros x _ [(w & Hin & E) Hno]. rewrite (map_id x), (map_id (39 :: w)) in E. by apply (Hno w).
Qed.
Print Assumptions C111_own_regexp.

(** After any sequence of normalizers that does not panic. *)
Theorem C111_normalized_partial :
  ∀ u z fold letter number space rs (prefix : bool) m file ls pairs draws wi ty, scalars rs → disjoint_kinds letter number space → has_bytes (b_vocab m) →
  consistent (b_vocab m) → merge_map_from_file file (b_vocab m) 0 = Ret (Ok (b_merges m)) →
  file_lines file ls → listed ls pairs → NoDup pairs → training_order pairs →
  b_prefix m = [] → b_suffix m = [] → (b_dropout m <= 0)%Q → (b_unk m ≠ [] → is_Some (get_id (b_vocab m) (b_unk m))) →
  ∀ w, meanings u (steps_of u z) (fresh 0 rs) = Some w →
  let text := (if prefix then prefixed white_space 32 w else w).*1 in
  (* missing in the full statement *)
  (∀ ps, pieces fold letter number space text ps → Forall (λ x, ¬ capitalised fold x) ps) →
  ∃ e, encode_normalized (normalizer_of u z) (byte_level (engine_of (splitting_re fold letter number space)) prefix) (bpe_model m draws) (encode rs) wi ty = Ret (Ok e)
    ∧ gpt2_tokens letter number space pairs text (e_tokens e)
    ∧ Forall2 (λ t i, get_id (b_vocab m) t = Some i) (e_tokens e) (e_ids e).
Proof.
  intros u z fold letter number space rs b m file ls pairs draws wi ty Hs Hd Hby Hcons Hfile Hls Hli Hnd Hord Hpre Hsuf Hdr Hunk w Hmw text Hcap.
  pose proof (normalized u z rs Hs) as H. rewrite Hmw in H. destruct H as (n & E & Hw & H0 & _). rewrite (normalized_pipe _ _ _ _ _ _ _ _ E).
  destruct (gpt2_pipeline fold letter number space n w b m file ls pairs draws wi ty) as (e & E1 & E2 & E3); try done.
  exists e. split; [done|]. split; [|done]. by eapply same_tokens.
Qed.
Print Assumptions C111_normalized_partial.

(** "'To" with the merge "T o": "'" and "To" for GPT-2; the library cuts "'T" off, as if it were "'t", and has "'", "T" and "o". *)
Definition case_model : bpe :=
  let v := ex_vocab (map (λ b, encode_rune (byte_char b)) (seqZ 0 256) ++ [bytes_of "To"]) in
  Bpe v (match merge_map_from_file (bytes_of "T o") v 0 with Ret (Ok mm) => mm | _ => ∅ end) 0 [] [] [] false.
Theorem C111_case_refuted :
  ¬ ∀ fold letter number space rs m file ls pairs draws wi ty, scalars rs → letter_case fold letter → disjoint_kinds letter number space → has_bytes (b_vocab m) →
  consistent (b_vocab m) → merge_map_from_file file (b_vocab m) 0 = Ret (Ok (b_merges m)) →
  file_lines file ls → listed ls pairs → NoDup pairs → training_order pairs →
  b_prefix m = [] → b_suffix m = [] → (b_dropout m <= 0)%Q → (b_unk m ≠ [] → is_Some (get_id (b_vocab m) (b_unk m))) →
  ∃ e, encode_text (byte_level (engine_of (splitting_re fold letter number space)) false) (bpe_model m draws) (encode rs) wi ty = Ret (Ok e)
    ∧ gpt2_tokens letter number space pairs rs (e_tokens e).
Proof.
  intros H.
  assert (Hk : disjoint_kinds abc digit blank).
  { split; [done|]. intros c. unfold abc, digit, blank, low. destruct (Z.leb_spec 65 c), (Z.leb_spec c 90); cbn [andb]; lia. }
  destruct (H low abc digit blank (bytes_of "'To") case_model (bytes_of "T o") [bytes_of "T o"] [(bytes_of "T", bytes_of "o")] (λ _ _, 0%Q) (-1) 0) as (e & E & Ev).
  - repeat constructor.
  - split; [intros c; unfold low; destruct (Z.leb_spec 65 c), (Z.leb_spec c 90); cbn [andb]; change ((65 <=? 39) && (39 <=? 90)) with false; cbv iota; lia|]. split; [done|].
    intros w c d Hw Hd E. assert (97 <= d <= 122) as Hdr.
    { unfold endings in Hw. repeat (apply elem_of_cons in Hw as [->|Hw]); try (by apply elem_of_nil in Hw); repeat (apply elem_of_cons in Hd as [->|Hd]); try (by apply elem_of_nil in Hd); lia. }
    unfold abc. rewrite E. unfold low. destruct (Z.leb_spec 65 d), (Z.leb_spec d 90); cbn [andb]; lia.
  - done.
  - intros b Hb. assert (Forall (λ b, is_Some (get_id (b_vocab case_model) (encode_rune (byte_char b)))) (seqZ 0 256)) as HF by (apply (bool_decide_unpack _); by vm_compute).
    rewrite Forall_forall in HF. apply HF, elem_of_seqZ. lia.
  - apply ex_consistent.
  - by vm_compute.
  - apply fl_last; [done|by vm_compute; set_solver|done].
  - unfold listed. change (merge_lines _) with [bytes_of "T o"]. repeat constructor; vm_compute; set_solver.
  - repeat constructor; set_solver.
  - intros [|i] [|j] p q _ Hp Hq; try done. injection Hp as <-. injection Hq as <-. by vm_compute.
  - done.
  - done.
  - done.
  - intros Hx. by destruct Hx.
  - assert (Et : match encode_text (byte_level (engine_of (splitting_re low abc digit blank)) false) (bpe_model case_model (λ _ _, 0%Q)) (encode (bytes_of "'To")) (-1) 0 with
                 | Ret (Ok e) => e_tokens e | _ => [] end = [bytes_of "'"; bytes_of "T"; bytes_of "o"]) by by vm_compute.
    rewrite E in Et. clear E. rewrite Et in Ev.
    assert (G : gpt2_tokens abc digit blank [(bytes_of "T", bytes_of "o")] (bytes_of "'To") [bytes_of "'"; bytes_of "To"]).
    { exists [bytes_of "'"; bytes_of "To"], [[bytes_of "'"]; [bytes_of "To"]]. split; [|split; [|done]].
      - exact (scan_pieces (λ c, c) abc digit blank Hk 0 _ _ (find_all_scan _ 0 (bytes_of "'To") (splitting_never_empty _ _ _ _))).
      - constructor; [|constructor; [|constructor]].
        + apply gpt2_done. intros p ->%elem_of_list_singleton. by vm_compute.
        + eapply (gpt2_join _ [] _ []); [done|by intros ? ?%elem_of_nil|by left|]. apply gpt2_done. intros p ->%elem_of_list_singleton. by vm_compute. }
    destruct (C111_reference abc digit blank [(bytes_of "T", bytes_of "o")] (bytes_of "'To") Hk) as (out & _ & Hu).
    apply Hu in Ev. apply Hu in G. rewrite <- G in Ev. discriminate.
Qed.
Print Assumptions C111_case_refuted.

(** "O'Dell he'd": the first contraction is capitalised, the second is not. *)
Example C111_pieces_example :
  pieces low abc digit blank (bytes_of "O'Dell he'd") [bytes_of "O"; bytes_of "'D"; bytes_of "ell"; bytes_of " he"; bytes_of "'d"]
  ∧ pieces (λ c, c) abc digit blank (bytes_of "O'Dell he'd") [bytes_of "O"; bytes_of "'"; bytes_of "Dell"; bytes_of " he"; bytes_of "'d"]
  ∧ capitalised low (bytes_of "'D") ∧ ¬ capitalised low (bytes_of "'d") ∧ ¬ capitalised low (bytes_of " he").
Proof.
  assert (Hk : disjoint_kinds abc digit blank).
  { split; [done|]. intros c. unfold abc, digit, blank, low. destruct (Z.leb_spec 65 c), (Z.leb_spec c 90); cbn [andb]; lia. }
  split; [exact (scan_pieces low abc digit blank Hk 0 _ _ (find_all_scan _ 0 (bytes_of "O'Dell he'd") (splitting_never_empty _ _ _ _)))|].
  split; [exact (scan_pieces (λ c, c) abc digit blank Hk 0 _ _ (find_all_scan _ 0 (bytes_of "O'Dell he'd") (splitting_never_empty _ _ _ _)))|].
  split_and!.
  - split; [exists [100]; split; [unfold endings; set_solver|done]|]. intros w Hw. unfold endings in Hw. by repeat (apply elem_of_cons in Hw as [->|Hw]); try (by apply elem_of_nil in Hw).
  - intros [_ H]. apply (H [100]); [unfold endings; set_solver|done].
  - intros [(w & _ & E) _]. discriminate.
Qed.

(** "low lower" with the merges "l o", "lo w", "e r" and "Ġ low" - and what GPT-2 makes of its second piece. *)
Example C111_example :
  let bytes := map (λ b, encode_rune (byte_char b)) (seqZ 0 256) in
  let v := PropsBpe.ex_vocab (bytes ++ map bytes_of ["lo"%string; "low"%string; "er"%string; "Ġlow"%string]) in
  let pre := byte_level (engine_of (splitting_re (λ c, c) (λ c, (97 <=? c) && (c <=? 122)) (λ c, (48 <=? c) && (c <=? 57)) (λ c, c =? 32))) false in
  let pairs := map (λ p, (bytes_of p.1, bytes_of p.2)) [("l"%string, "o"%string); ("lo"%string, "w"%string); ("e"%string, "r"%string); ("Ġ"%string, "low"%string)] in
  match merge_map_from_file (bytes_of "l o" ++ [10] ++ bytes_of "lo w" ++ [10] ++ bytes_of "e r" ++ [10] ++ bytes_of "Ġ low") v 0 with
  | Ret (Ok mm) =>
    (e ← encode_text pre (bpe_model (Bpe v mm 0 [] [] [] false) (λ _ _, 0%Q)) (bytes_of "low lower") (-1) 0; Ret (match e with Ok e => (e_tokens e, e_ids e) | Err _ => ([], []) end))
    = Ret (map bytes_of ["low"%string; "Ġlow"%string; "er"%string], [257; 259; 258])
  | _ => False
  end
  ∧ gpt2_bpe pairs (map (λ b, encode_rune (byte_char b)) (bytes_of " lower")) (map bytes_of ["Ġlow"%string; "er"%string]).
Proof.
  cbv zeta. split; [vm_compute; auto|].
  set (p1 := (bytes_of "l", bytes_of "o")). set (p2 := (bytes_of "lo", bytes_of "w")). set (p3 := (bytes_of "e", bytes_of "r")). set (p4 := (bytes_of "Ġ", bytes_of "low")).
  change (map _ [("l"%string, _); _; _; _]) with [p1; p2; p3; p4].
  assert (Hno : ∀ a b ts, bool_decide (adjacent a b ts) = false → ¬ adjacent a b ts) by (intros a b ts; by rewrite bool_decide_eq_false).
  assert (Hyes : ∀ a b ts, bool_decide (adjacent a b ts) = true → adjacent a b ts) by (intros a b ts; by rewrite bool_decide_eq_true).
  eapply (gpt2_join _ [] p1 [p2; p3; p4]); [done|by intros ? ?%elem_of_nil|apply Hyes; by vm_compute|].
  eapply (gpt2_join _ [p1] p2 [p3; p4]); [done|intros q; rewrite ?elem_of_cons, elem_of_nil; intros [->|[]]; apply Hno; by vm_compute|apply Hyes; by vm_compute|].
  eapply (gpt2_join _ [p1; p2] p3 [p4]); [done|intros q; rewrite ?elem_of_cons, elem_of_nil; intros [->|[->|[]]]; apply Hno; by vm_compute|apply Hyes; by vm_compute|].
  eapply (gpt2_join _ [p1; p2; p3] p4 []); [done|intros q; rewrite ?elem_of_cons, elem_of_nil; intros [->|[->|[->|[]]]]; apply Hno; by vm_compute|apply Hyes; by vm_compute|].
  match goal with |- gpt2_bpe _ ?x ?y => let x' := eval vm_compute in x in let y' := eval vm_compute in y in change (gpt2_bpe [p1; p2; p3; p4] x' y') end.
  apply gpt2_done. intros q. rewrite ?elem_of_cons, elem_of_nil. intros [->|[->|[->|[->|[]]]]]; apply Hno; by vm_compute.
Qed.
