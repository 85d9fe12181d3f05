(** Property theorems C95: where the default byte-level pre-tokenizer cuts. *)
From Coq Require Import ZifyBool String.
From Verif Require Import GoBase Lit Utf8Facts Strutils SplitPattern NormString Encodings PreTokString PreTokenizers Regex Defaults SpecText SpecNorm SpecPts SpecPretok SpecGpt2
  NormFacts NormSlice RegexFacts Gpt2Facts PropsPretok.
Import GoBase NormString SpecNorm.
#[local] Open Scope Z_scope.

(** The pieces are those that reading from the left gives. *)
Theorem C95_cuts :
  ∀ fold letter number space rs (prefix : bool), scalars rs → disjoint_kinds letter number space →
  let v := if prefix then prefixed white_space 32 (fresh 0 rs) else fresh 0 rs in
  ∃ ts l, byte_level (engine_of (splitting_re fold letter number space)) prefix (pts_from_string (encode rs))
          = Ret (Pts (encode rs) (splits_from_ns l), None)
    ∧ concat ts = v
    ∧ pieces fold letter number space v.*1 (map (λ t : atext, t.*1) ts)
    ∧ Forall2 (λ t, piece_of (from_string (encode rs)) (byte_text t)) ts l.
Proof.
  intros fold letter number space rs b Hs Hk v. destruct (byte_level_matches fold letter number space rs b Hs) as (ms & ts & l & H1 & H2 & H3 & H4 & H5).
  exists ts, l. split_and!; [done|done| |done]. rewrite H4. by eapply scan_pieces.
Qed.
Print Assumptions C95_cuts.

(** The default pre-tokenizer: with a space in front of a text that does not begin with white space. *)
Theorem C95_default :
  ∀ fold letter number space rs, scalars rs → disjoint_kinds letter number space →
  let text := match rs with r :: _ => if white_space r then rs else 32 :: rs | [] => [] end in
  ∃ p ps, byte_level_default fold letter number space (pts_from_string (encode rs)) = Ret (p, None)
    ∧ pieces fold letter number space text ps
    ∧ map bs_string (original_byte_splits p) = map (λ t, encode (map byte_char (encode t))) ps.
Proof.
  intros fold letter number space rs Hs Hk text. destruct (C95_cuts fold letter number space rs true Hs Hk) as (ts & l & H1 & H2 & H3 & H4).
  assert (Ev : (prefixed white_space 32 (fresh 0 rs)).*1 = text).
  { unfold text. destruct rs as [|x rs']; [done|]. cbn [fresh prefixed]. destruct (white_space x); rewrite ?fmap_cons; cbn [fst]; by rewrite fresh_chars. }
  rewrite Ev in H3. exists (Pts (encode rs) (splits_from_ns l)), (map (λ t : atext, t.*1) ts). split_and!; [exact H1|done|].
  assert (Hsc : scalars text) by (unfold text; destruct rs as [|x ?]; [constructor|]; destruct (white_space x); [done|by constructor]).
  rewrite <- Ev, <- H2 in Hsc. unfold original_byte_splits. cbn [p_splits]. rewrite !map_map. clear -H4 Hsc. induction H4 as [|t n' ts l H H5 IH]; [done|].
  cbn [concat] in Hsc. rewrite fmap_app in Hsc. apply Forall_app in Hsc as [Ht Hts]. cbn [map splits_from_ns bs_string sp_ns]. f_equal; [|by apply IH].
  destruct H as ((_ & H & _) & _). by rewrite H, shift_spans_chars, byte_text_chars.
Qed.
Print Assumptions C95_default.

(** Every text is cut in exactly one way. *)
Theorem C95_unique :
  ∀ fold letter number space s, disjoint_kinds letter number space →
  ∃ ps, pieces fold letter number space s ps ∧ concat ps = s ∧ ∀ ps', pieces fold letter number space s ps' → ps' = ps.
Proof.
  intros fold letter number space s Hk. pose proof (find_all_scan (splitting_re fold letter number space) 0 s (splitting_never_empty _ _ _ _)) as H.
  exists (find_all (splitting_re fold letter number space) 0 O s).*2. apply scan_pieces in H as Hp; [|done]. split_and!; [done| |].
  - apply splitting_scan in H as [H _]. done.
  - intros ps' Hp'. by eapply pieces_fun.
Qed.
Print Assumptions C95_unique.

Definition low (c : Z) : Z := if (65 <=? c) && (c <=? 90) then c + 32 else c.
Definition abc (c : Z) : bool := (97 <=? low c) && (low c <=? 122).
Definition digit (c : Z) : bool := (48 <=? c) && (c <=? 57).
Definition blank (c : Z) : bool := (c =? 32) || (c =? 10) || (c =? 9).

(** "He'LL  go", two newlines, "12 !", a tab, "a" and two spaces. *)
Example C95_example :
  let s := bytes_of "He'LL  go" ++ [10; 10] ++ bytes_of "12 !" ++ [9; 97; 32; 32] in
  let ps := [bytes_of "He"; bytes_of "'LL"; [32]; bytes_of " go"; [10]; [10]; bytes_of "12"; bytes_of " !"; [9]; [97]; [32; 32]] in
  disjoint_kinds abc digit blank
  ∧ pieces low abc digit blank s ps
  ∧ (x ← byte_level (engine_of (splitting_re low abc digit blank)) false (pts_from_string s); Ret (map (λ b, (o_start (bs_offsets b), o_end (bs_offsets b))) (original_byte_splits x.1)))
    = Ret [(0, 2); (2, 5); (5, 6); (6, 9); (9, 10); (10, 11); (11, 13); (13, 15); (15, 16); (16, 17); (17, 19)]
  (* the default pre-tokenizer puts a space in front *)
  ∧ pieces low abc digit blank (32 :: s) (bytes_of " He" :: tail ps)
  ∧ (x ← byte_level_default low abc digit blank (pts_from_string s); Ret (map (λ b, (bs_string b, o_start (bs_offsets b), o_end (bs_offsets b))) (take 4 (original_byte_splits x.1))))
    = Ret [(encode (0x120 :: bytes_of "He"), 0, 2); (bytes_of "'LL", 2, 5); (encode [0x120], 5, 6); (encode (0x120 :: bytes_of "go"), 6, 9)].
Proof.
  assert (Hk : disjoint_kinds abc digit blank).
  { split; [done|]. intros c. unfold abc, digit, blank, low. destruct (Z.leb_spec 65 c), (Z.leb_spec c 90); cbn [andb]; lia. }
  assert (Hp : ∀ s, pieces low abc digit blank s (find_all (splitting_re low abc digit blank) 0 O s).*2).
  { intros s. apply scan_pieces with 0; [done|]. apply find_all_scan, splitting_never_empty. }
  intros s ps. split; [done|]. split; [exact (Hp s)|]. split; [by vm_compute|]. split; [exact (Hp (32 :: s))|by vm_compute].
Qed.
