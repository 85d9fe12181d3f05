(** Vocabulary files, from their bytes on. *)
From Coq Require Import ZifyBool QArith String.
From stdpp Require Import relations list_numbers.
From Verif Require Import GoBase Lit Utf8Facts Strutils Vocab Json MergeMap Bpe WordPiece SpecText SpecVocab SpecJson SpecBpe SpecWordPiece VocabFacts JsonFacts JsonVocab PropsBpe PropsWordPiece.
Import GoBase SpecJson.
#[local] Open Scope Z_scope.

(** * C81 *)
(** Decoding succeeds exactly on the documents of the grammar, read as code points, and gives what they denote. *)
Theorem C81_reads :
  ∀ raw j, bytes raw → (unmarshal raw = Some j ↔ ∃ d, document_of (runes raw) d ∧ j = in_bytes d).
Proof.
  intros raw j Hb. split; [by apply unmarshal_sound|]. intros (d & Hd & ->). by apply unmarshal_complete.
Qed.
Print Assumptions C81_reads.
(**  { "aé" : 1, "b" : null }  with a tab, a line break and a repeated name; and some texts that are no documents. *)
Example C81_reads_example :
  unmarshal [32; 123; 9; 34; 97; 92; 117; 48; 48; 69; 57; 34; 32; 58; 32; 49; 44; 10; 34; 98; 34; 58; 110; 117; 108; 108; 44; 34; 97; 0xC3; 0xA9; 34; 58; 45; 55; 125; 13]
  = Some (Some [([97; 0xC3; 0xA9], 1); ([98], 0); ([97; 0xC3; 0xA9], -7)])
  ∧ unmarshal [123; 125] = Some (Some []) ∧ unmarshal [110; 117; 108; 108; 10] = Some None
  ∧ unmarshal [] = None (* nothing *) ∧ unmarshal [91; 93] = None (* [] *)
  ∧ unmarshal [123; 34; 97; 34; 58; 49; 44; 125] = None (* {"a":1,} *)
  ∧ unmarshal [123; 34; 97; 34; 58; 48; 49; 125] = None (* {"a":01} *)
  ∧ unmarshal [123; 34; 97; 34; 58; 49; 46; 48; 125] = None (* {"a":1.0} *)
  ∧ unmarshal [123; 34; 97; 34; 58; 34; 49; 34; 125] = None (* {"a":"1"} *)
  ∧ unmarshal [123; 34; 10; 34; 58; 49; 125] = None (* a line break in a string *)
  ∧ unmarshal ([123; 34; 97; 34; 58] ++ [57; 50; 50; 51; 51; 55; 50; 48; 51; 54; 56; 53; 52; 55; 55; 53; 56; 48; 56] ++ [125]) = None (* 2^63 *)
  ∧ unmarshal ([123; 34; 97; 34; 58; 45] ++ [57; 50; 50; 51; 51; 55; 50; 48; 51; 54; 56; 53; 52; 55; 55; 53; 56; 48; 56] ++ [125])
    = Some (Some [([97], -9223372036854775808)]).
Proof. vm_compute. auto 20. Qed.
(** Surrogates: the escapes d834 dd1e together are U+1D11E, each of them alone is U+FFFD. *)
Example C81_surrogates_example :
  let esc a b c d := [92; 117; a; b; c; d] in
  unquote (esc 100 56 51 52 ++ esc 100 68 49 69) = [0xF0; 0x9D; 0x84; 0x9E]
  ∧ unquote (esc 100 56 51 52 ++ [120]) = [0xEF; 0xBF; 0xBD; 120] ∧ unquote (esc 100 68 49 69) = [0xEF; 0xBF; 0xBD]
  ∧ unquote (esc 100 56 51 52 ++ esc 48 48 52 49) = [0xEF; 0xBF; 0xBD; 65]
  ∧ unquote [92; 110; 92; 116; 92; 47; 92; 92; 92; 34] = [10; 9; 47; 92; 34].
Proof. vm_compute. auto 10. Qed.
(** The limits: digits, integers, surrogates, escapes, control characters, and where white space may be. *)
Example C81_limits_example :
  map hex [47; 48; 57; 58; 64; 65; 70; 71; 96; 97; 102; 103] = [None; Some 0; Some 9; None; None; Some 10; Some 15; None; None; Some 10; Some 15; None]
  ∧ map (λ s, scan_int (bytes_of s)) ["9223372036854775807"; "9223372036854775808"; "-9223372036854775808"; "-9223372036854775809"; "-0"; "-"; "00"; "10:"; "1/"]%string
    = [Some (9223372036854775807, []); None; Some (-9223372036854775808, []); None; Some (0, []); None; None; Some (10, [58]); Some (1, [47])]
  ∧ map (λ p, decode_pair p.1 p.2) [(0xD800, 0xDC00); (0xD7FF, 0xDC00); (0xDBFF, 0xDFFF); (0xDC00, 0xDC00); (0xDBFF, 0xE000); (0xDBFF, 0xDBFF)]
    = [0x10000; 0xFFFD; 0x10FFFF; 0xFFFD; 0xFFFD; 0xFFFD]
  ∧ map is_surrogate [0xD7FF; 0xD800; 0xDFFF; 0xE000] = [false; true; true; false]
  ∧ List.filter simple_escape (seqZ 0 256) = [34; 47; 92; 98; 102; 110; 114; 116]
  ∧ map unescape [34; 47; 92; 98; 102; 110; 114; 116] = [34; 47; 92; 8; 12; 10; 13; 9]
  ∧ List.filter is_space (seqZ 0 256) = [9; 10; 13; 32]
  ∧ scan_string [31; 34] = None ∧ scan_string [32; 127; 34; 1] = Some ([32; 127], [1])
  ∧ unquote [127; 128; 0xC3; 0xA9] = [127; 0xEF; 0xBF; 0xBD; 0xC3; 0xA9]
  ∧ unmarshal (bytes_of " { ""a"" : 1 , ""b"" : null } ") = Some (Some [([97], 1); ([98], 0)])
  ∧ unmarshal (bytes_of " { } ") = Some (Some []) ∧ unmarshal (bytes_of " null ") = Some None
  ∧ unmarshal (bytes_of "{""a"":nulk}") = None ∧ unmarshal (bytes_of "null{") = None ∧ unmarshal (bytes_of "{}{") = None ∧ unmarshal (bytes_of "{""a"":1}}") = None
  ∧ unmarshal (bytes_of "{""a"";1}") = None ∧ unmarshal (bytes_of "{a:1}") = None ∧ unmarshal (bytes_of "{""a"":1;}") = None ∧ unmarshal (bytes_of "{""\x"":1}") = None
  ∧ unmarshal (bytes_of "{""\u00g0"":1}") = None ∧ unmarshal (bytes_of "{""\u00aA"":1}") = Some (Some [([0xC2; 0xAA], 1)]).
Proof. vm_compute. auto 30. Qed.

(** No text denotes two documents. *)
Theorem C81_unambiguous : ∀ t d d', scalars t → document_of t d → document_of t d' → d = d'.
Proof. exact document_unique. Qed.
Print Assumptions C81_unambiguous.

(** FromJSONFile fails exactly on the files that are no such documents. *)
Theorem C81_rejects :
  ∀ raw order, bytes raw → (from_json_bytes raw order = Err EBadJSON ↔ ¬ ∃ d, document_of (runes raw) d).
Proof.
  intros raw order Hb. unfold from_json_bytes. destruct (unmarshal raw) as [j|] eqn:E.
  - split; [done|]. intros H. apply unmarshal_sound in E as (d & Hd & _); [|done]. destruct H. by exists d.
  - split; [|done]. intros _ (d & Hd). by rewrite (unmarshal_complete raw d) in E.
Qed.
Print Assumptions C81_rejects.

(** Otherwise GetID answers what the document says, the last member of a name counting, and nothing else; the map is
    nil exactly for the document null. *)
Theorem C81_load :
  ∀ raw order v, bytes raw → from_json_bytes raw order = Ok v →
  ∃ d, document_of (runes raw) d ∧ (v_nil v = true ↔ d = None)
  ∧ ∀ t z, get_id v t = Some z ↔ ∃ k, scalars k ∧ t = encode k ∧ says d k z.
Proof.
  intros raw order v Hb H. unfold from_json_bytes in H. destruct (unmarshal raw) as [j|] eqn:E; [|done]. injection H as <-.
  apply unmarshal_sound in E as (d & Hd & ->); [|done]. exists d. split; [done|]. split; [by destruct d|]. intros t z. by apply (document_map raw).
Qed.
Print Assumptions C81_load.

(** What is written is what is loaded: distinct terms with distinct IDs, in the usual notation. *)
Theorem C81_written :
  ∀ ms order, writable ms → NoDup ms.*1 → NoDup ms.*2 → (∀ m, map_order m (order m)) →
  ∃ v, from_json_bytes (encode (write_document ms)) order = Ok v ∧ consistent v ∧ v_size v = zlen ms
  ∧ ∀ t z, get_id v t = Some z ↔ ∃ k, t = encode k ∧ (k, z) ∈ ms.
Proof. exact written_vocab. Qed.
Print Assumptions C81_written.
(** The terms quote, "é" and a line break, under 5, -1 and 0. *)
Example C81_written_example :
  let ms := [([34], 5); ([0xE9], -1); ([10], 0)] in
  encode (write_document ms) = [123; 34; 92; 34; 34; 58; 53; 44; 34; 0xC3; 0xA9; 34; 58; 45; 49; 44; 34; 92; 117; 48; 48; 48; 97; 34; 58; 48; 125]
  ∧ writable ms ∧ NoDup ms.*1 ∧ NoDup ms.*2
  ∧ match from_json_bytes (encode (write_document ms)) map_to_list with
    | Ok v => (get_id v [34], get_id v [0xC3; 0xA9], get_id v [10], get_string v (-1), v_size v) = (Some 5, Some (-1), Some 0, Some [0xC3; 0xA9], 3)
    | Err _ => False
    end.
Proof.
  split; [done|]. split; [by repeat constructor|]. split; [by apply (bool_decide_unpack _)|]. split; [by apply (bool_decide_unpack _)|]. vm_compute. done.
Qed.

(** The vocabulary depends on what the document says and not on white space, escapes or the order of members, nor on the
    order of iteration, if no two terms have the same ID. *)
Theorem C81_layout :
  ∀ raw raw' order order' d d', bytes raw → bytes raw' → (∀ m, map_order m (order m)) → (∀ m, map_order m (order' m)) →
  document_of (runes raw) d → document_of (runes raw') d' → (d = None ↔ d' = None) →
  (∀ k z, says d k z ↔ says d' k z) → (∀ k k' z, says d k z → says d k' z → k = k') →
  ∃ v, from_json_bytes raw order = Ok v ∧ from_json_bytes raw' order' = Ok v.
Proof. exact layout_free. Qed.
Print Assumptions C81_layout.
(** {"a":1,"b":2} and { "\u0062" : 2, "a" : 7, "a" : 1 } *)
Example C81_layout_example :
  let view r := match r with Ok v => Some (map_to_list (v_ids v), map_to_list (v_terms v)) | Err _ => None end in
  view (from_json_bytes [123; 34; 97; 34; 58; 49; 44; 34; 98; 34; 58; 50; 125] map_to_list) = Some ([([97], 1); ([98], 2)], [(1, [97]); (2, [98])])
  ∧ view (from_json_bytes [123; 32; 34; 92; 117; 48; 48; 54; 50; 34; 32; 58; 32; 50; 44; 34; 97; 34; 58; 55; 44; 34; 97; 34; 58; 49; 32; 125] (λ m, rev (map_to_list m)))
    = Some ([([97], 1); ([98], 2)], [(1, [97]); (2, [98])]).
Proof. vm_compute. done. Qed.

(** * C82 *)
(** From a vocabulary file and a merges file to the tokens of a BPE model: if the document gives distinct IDs to distinct
    terms and knows the characters of the text, the tokens spell the text, and each ID is the one the document gives to
    the text of the token; for any dropout. *)
Theorem C82_bpe :
  ∀ raw order d, bytes raw → (∀ m, map_order m (order m)) →
  document_of (runes raw) d → (∀ k k' z, says d k z → says d k' z → k = k') →
  ∃ v, from_json_bytes raw order = Ok v ∧
  ∀ file mm, merge_map_from_file file v 0 = Ret (Ok mm) →
  ∀ dropout cached draws rs, scalars rs → Forall (λ c, ∃ z, says d [c] z) rs →
  ∃ toks, bpe_tokenize (Bpe v mm dropout [] [] [] cached) (encode rs) draws = Some (Ret (Ok toks))
  ∧ concat (map t_value toks) = encode rs
  ∧ Forall (λ t, ∃ k, scalars k ∧ t_value t = encode k ∧ says d k (t_id t)) toks.
Proof.
  intros raw order d Hb Ho Hd Hi. destruct (layout_free raw raw order order d d) as (v & Hv & _); [done..|].
  exists v. split; [done|]. intros file mm Hf dropout cached draws rs Hs Hk.
  assert (Hid : ∀ t z, get_id v t = Some z ↔ ∃ k, scalars k ∧ t = encode k ∧ says d k z).
  { destruct (C81_load raw order v Hb Hv) as (d' & Hd' & _ & H). by rewrite (document_unique (runes raw) d d' (runes_scalars raw) Hd Hd'). }
  assert (Hc : consistent v).
  { unfold from_json_bytes in Hv. rewrite (unmarshal_complete raw d) in Hv by done. injection Hv as <-. apply from_json_consistent; [apply Ho|].
    intros t u i. rewrite !(document_map raw) by done. intros (k & _ & -> & H1) (k' & _ & -> & H2). f_equal. by eapply Hi. }
  destruct (C39_faithful (Bpe v mm dropout [] [] [] cached) file (encode rs) draws) as (toks & H1 & H2 & H3); [done|done|done|done|done|apply valid_utf8_encode| |].
  { rewrite runes_encode_scalars by done. apply Forall_forall. intros c Hin. rewrite Forall_forall in Hk. destruct (Hk c Hin) as [z Hz]. exists z. apply Hid.
    exists [c]. split; [constructor; [unfold scalars in Hs; rewrite Forall_forall in Hs; by apply Hs|constructor]|]. split; [|done]. unfold encode. cbn. by rewrite app_nil_r. }
  exists toks. split; [done|]. split; [done|]. eapply Forall_impl; [exact H3|]. intros t (_ & H4 & _). by apply Hid.
Qed.
Print Assumptions C82_bpe.

(** WordPiece: every token has the ID the document gives to its text, which is a piece of the text, with the prefix if it
    is not the first; or the answer is the one for unknown words. *)
Theorem C82_wordpiece :
  ∀ raw order d v, bytes raw → document_of (runes raw) d → from_json_bytes raw order = Ok v →
  ∀ unk prefix max s, bytes s → ∃ res, wp_tokenize (WordPiece v unk prefix max) s = Some (Ret res) ∧
  (unknown_answer (WordPiece v unk prefix max) s res
   ∨ ∃ toks, res = Ok toks ∧ toks_tile 0 toks (zlen s)
     ∧ Forall (λ t, ∃ x k, text_at s (o_start (t_offsets t)) (o_end (t_offsets t)) x
         ∧ t_value t = (if 0 <? o_start (t_offsets t) then prefix else []) ++ x
         ∧ scalars k ∧ t_value t = encode k ∧ says d k (t_id t)) toks).
Proof.
  intros raw order d v Hb Hd Hv unk prefix max s Hs.
  destruct (C81_load raw order v Hb Hv) as (d' & Hd' & _ & Hid). rewrite <- (document_unique (runes raw) d d' (runes_scalars raw) Hd Hd') in Hid.
  destruct (C43_tokens_tile (WordPiece v unk prefix max) s Hs) as (res & H1 & H2). exists res. split; [done|]. destruct H2 as [H2|(toks & H2 & H3 & H4)]; [by left|right].
  exists toks. split; [done|]. split; [done|]. eapply Forall_impl; [exact H4|]. intros t (x & G1 & G2 & (k & K1 & K2 & K3)%Hid). by exists x, k.
Qed.
Print Assumptions C82_wordpiece.

(** {"a":3,"é":1,"aé":2} and the merges file "a é"; "aéa" becomes "aé" and "a". *)
Example C82_example :
  let raw := encode (write_document [([97], 3); ([0xE9], 1); ([97; 0xE9], 2)]) in
  match from_json_bytes raw map_to_list with
  | Ok v =>
    match merge_map_from_file [97; 32; 0xC3; 0xA9; 10] v 0 with
    | Ret (Ok mm) => bpe_tokenize (Bpe v mm 0 [] [] [] false) [97; 0xC3; 0xA9; 97] (λ _, 0%Q)
        = Some (Ret (Ok [Token 2 [97; 0xC3; 0xA9] (Offsets 0 3); Token 3 [97] (Offsets 3 4)]))
    | _ => False
    end
    ∧ wp_tokenize (WordPiece v [] [] 100) [97; 0xC3; 0xA9; 97] = Some (Ret (Ok [Token 2 [97; 0xC3; 0xA9] (Offsets 0 3); Token 3 [97] (Offsets 3 4)]))
  | Err _ => False
  end.
Proof. vm_compute. done. Qed.

(** * C83 *)
(** "Every ID of the vocabulary is written in the file": false, null stands for 0. *)
Theorem C83_ids_refuted :
  ¬ ∀ raw order v t z, bytes raw → from_json_bytes raw order = Ok v → get_id v t = Some z → ∃ a b, raw = a ++ write_int z ++ b.
Proof.
  intros H. set (raw := [123; 34; 97; 34; 58; 110; 117; 108; 108; 125]). specialize (H raw map_to_list).
  assert (∃ v, from_json_bytes raw map_to_list = Ok v ∧ get_id v [97] = Some 0) as (v & H1 & H2) by (vm_compute; by eexists).
  destruct (H v [97] 0) as (a & b & E); [repeat constructor; lia|done|done|]. change (write_int 0) with [48] in E.
  assert (48 ∈ raw) as Hin by (rewrite E; apply elem_of_app; right; by left). unfold raw in Hin. rewrite !elem_of_cons, elem_of_nil in Hin. lia.
Qed.
Print Assumptions C83_ids_refuted.

(** "Two different strings of bytes without quotes, backslashes and control characters are two terms": false if they are
    not UTF-8, {"\xFE":0,"\xFF":1}. *)
Theorem C83_terms_refuted :
  ¬ ∀ a b order v, Forall (λ c, 32 <= c <= 255 ∧ c ≠ 34 ∧ c ≠ 92) a → Forall (λ c, 32 <= c <= 255 ∧ c ≠ 34 ∧ c ≠ 92) b → a ≠ b →
    from_json_bytes ([123; 34] ++ a ++ [34; 58; 48; 44; 34] ++ b ++ [34; 58; 49; 125]) order = Ok v → v_size v = 2.
Proof.
  intros H. specialize (H [0xFE] [0xFF] map_to_list).
  assert (∃ v, from_json_bytes ([123; 34] ++ [0xFE] ++ [34; 58; 48; 44; 34] ++ [0xFF] ++ [34; 58; 49; 125]) map_to_list = Ok v ∧ v_size v = 1) as (v & H1 & H2) by (vm_compute; by eexists).
  assert (v_size v = 2); [|lia]. apply H; [repeat constructor; lia|repeat constructor; lia|done|done].
Qed.
Print Assumptions C83_terms_refuted.

(** What holds: if the word null does not occur in the file, every ID is written in it, as an integer literal. *)
Theorem C83_ids_partial :
  ∀ raw order v t z, bytes raw → from_json_bytes raw order = Ok v → get_id v t = Some z →
  (¬ ∃ a b, raw = a ++ null ++ b) → ∃ a l b, raw = a ++ l ++ b ∧ integer_of l z.
Proof.
  intros raw order v t z Hb Hv Ht Hn. destruct (C81_load raw order v Hb Hv) as (d & Hd & _ & Hid). destruct (proj1 (Hid t z) Ht) as (k & _ & _ & Hs).
  destruct (id_written raw d k z Hb Hd Hs) as (a & l & b & E & Hl). destruct Hl as [El|Hl]; [|by exists a, l, b].
  destruct Hn. exists a, b. by rewrite <- El.
Qed.
Print Assumptions C83_ids_partial.

(** And if the file is UTF-8 without backslashes, the terms are written in it between quotes, byte for byte. *)
Theorem C83_terms_partial :
  ∀ raw order v t z, bytes raw → valid_utf8 raw = true → 92 ∉ raw → from_json_bytes raw order = Ok v → get_id v t = Some z →
  ∃ a b, raw = a ++ [34] ++ t ++ [34] ++ b.
Proof.
  intros raw order v t z Hb Hu Hn Hv Ht. destruct (C81_load raw order v Hb Hv) as (d & Hd & _ & Hid). destruct (proj1 (Hid t z) Ht) as (k & _ & E & Hs).
  subst t. by apply (term_written raw d k z).
Qed.
Print Assumptions C83_terms_partial.

(** For every file: term and ID stand next to each other in it, the term as a string that denotes it, the ID as an integer, or
    as null if it is 0. *)
Theorem C83_written_partial :
  ∀ raw order v t z, bytes raw → from_json_bytes raw order = Ok v → get_id v t = Some z →
  ∃ a q k w w' l b, runes raw = a ++ [34] ++ q ++ [34] ++ w ++ [58] ++ w' ++ l ++ b
    ∧ string_of q k ∧ t = encode k ∧ blank w ∧ blank w' ∧ (integer_of l z ∨ l = null ∧ z = 0).
Proof.
  intros raw order v t z Hb Hv Ht. destruct (C81_load raw order v Hb Hv) as (d & Hd & _ & Hid). destruct (proj1 (Hid t z) Ht) as (k & _ & -> & Hs).
  destruct (document_in _ _ _ _ Hd Hs) as (a & u & b & E & w1 & q & w2 & w3 & l & w4 & -> & _ & H2 & H3 & _ & Hq & Hl). cbn [fst snd] in Hq, Hl.
  exists (a ++ w1), q, k, w2, w3, l, (w4 ++ b). split; [by rewrite E, <- !app_assoc|]. split_and!; try done.
  destruct Hl as [[-> ->]|[Hl _]]; [by right|by left].
Qed.
Print Assumptions C83_written_partial.

Example C83_example :
  let raw := encode (write_document [([97], 30); ([0xE9; 32], -4)]) in
  match from_json_bytes raw map_to_list with
  | Ok v => get_id v (encode [0xE9; 32]) = Some (-4) ∧ get_id v [97] = Some 30
  | Err _ => False
  end ∧ valid_utf8 raw = true ∧ bool_decide (92 ∈ raw) = false ∧ bool_decide (110 ∈ raw) = false
  ∧ raw = [123; 34; 97; 34; 58; 51; 48; 44] ++ [34] ++ encode [0xE9; 32] ++ [34] ++ [58; 45; 52; 125].
Proof. vm_compute. auto. Qed.
