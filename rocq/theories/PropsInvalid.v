(** Property theorem C65: strings that are not valid UTF-8. *)
From Coq Require Import ZifyBool String.
From Verif Require Import GoBase Utf8Facts Strutils SplitPattern NormString Bpe PreTokString Normalizers PreTokenizers SpecText SpecNorm SpecNormalizers SpecInvalid SpecShift
  SliceFacts PatternFacts NormFacts InvalidFacts InvalidAppend InvalidPatterns MendFacts PropsNormalizers Lit.
Import GoBase NormString SpecNorm.
#[local] Open Scope Z_scope.

(** * FromString: one alignment per byte exactly for valid UTF-8 *)
Theorem C65_from_string_refuted : ¬ ∀ s, one_per_byte (from_string s).
Proof. intros H. specialize (H [255]). discriminate H. Qed.
Print Assumptions C65_from_string_refuted.

Theorem C65_from_string_partial :
  ∀ s, zlen (ns_al (from_string s)) = zlen (ns_norm (from_string s)) + 2 * bad_bytes s
     ∧ (one_per_byte (from_string s) ↔ valid_utf8 s = true).
Proof.
  intros s. assert (H : zlen (ns_al (from_string s)) = zlen (ns_norm (from_string s)) + 2 * bad_bytes s).
  { cbn [from_string ns_al ns_norm]. rewrite alignments_spread, zlen_spans. unfold alen. rewrite spread_chars. apply encode_runes_zlen. }
  split; [done|]. unfold one_per_byte. rewrite H, <- bad_valid. lia.
Qed.
Print Assumptions C65_from_string_partial.

(** "a", a lone continuation byte, "é" cut short: two bad bytes. *)
Example C65_from_string_example :
  ns_al (from_string [97; 128; 195]) = [(0, 1); (1, 4); (1, 4); (1, 4); (2, 5); (2, 5); (2, 5)] ∧ bad_bytes [97; 128; 195] = 2.
Proof. vm_compute. auto. Qed.

(** * Function patterns *)
Theorem C65_func_pattern_refuted : ¬ ∀ f s, ∃ cs, func_pattern f s = Ret (Ok cs) ∧ covers 0 cs (zlen s).
Proof. intros H. destruct (H (λ _, false) [255]) as (cs & [= <-] & _ & _ & E). discriminate E. Qed.
Print Assumptions C65_func_pattern_refuted.

(** A function that rejects U+FFFD gets captures that cover the string exactly if the string does not
    end in an undecodable byte; else they run two bytes past its end. They never panic or fail. *)
Theorem C65_func_pattern_partial :
  ∀ f s, f rune_error = false →
  ∃ cs len, func_pattern f s = Ret (Ok cs) ∧ covers 0 cs len
    ∧ (bad_end s → len = zlen s + 2) ∧ (¬ bad_end s → len = zlen s).
Proof.
  intros f s Hf. unfold func_pattern. destruct (Z.eqb_spec (zlen s) 0) as [E|E].
  { destruct s; [|rewrite zlen_cons in E; pose proof (zlen_nonneg s); lia]. exists [Capture 0 0 false], 0. split; [done|]. split; [done|]. split; [done|]. done. }
  pose proof (func_loop_bad f (decode s) 0 0 0 Hf (decode_props s)) as H. exists (func_loop f (range_str s) 0 0). unfold range_str. eexists. split; [done|]. split; [apply H; lia|].
  unfold bad_end. destruct (last (decode s)) as [x|] eqn:Hl.
  - rewrite decode_widths. split; [intros [= ->]; rewrite decide_True by done; lia|]. intros Hn. rewrite decide_False; [lia|]. congruence.
  - apply last_None, decode_nil in Hl as ->. done.
Qed.
Print Assumptions C65_func_pattern_partial.

(** The exact condition, for every function: there is no undecodable byte, or none is accepted and none is the last. *)
Theorem C65_func_pattern_iff :
  ∀ f s cs, s ≠ [] → func_pattern f s = Ret (Ok cs) →
  right_captures f s cs ↔ valid_utf8 s = true ∨ (f rune_error = false ∧ ¬ bad_end s).
Proof. exact func_pattern_right. Qed.
Print Assumptions C65_func_pattern_iff.

(** With a function that accepts U+FFFD, captures overlap. *)
Example C65_func_pattern_example :
  func_pattern (λ c, c =? 32) [255; 32; 97] = Ret (Ok [Capture 0 1 false; Capture 1 2 true; Capture 2 3 false])
  ∧ func_pattern (λ c, c =? 32) [97; 32; 255] = Ret (Ok [Capture 0 1 false; Capture 1 2 true; Capture 2 5 false])
  ∧ func_pattern (λ c, c =? rune_error) [255; 255; 97] = Ret (Ok [Capture 0 3 true; Capture 1 4 true]).
Proof. vm_compute. auto. Qed.

(** * Rune-indexed engine answers (regexp2) *)
(** The engine finds "a" at rune 1; it is at byte 1, and is reported at byte 3. *)
Theorem C65_regexp2_refuted :
  ¬ ∀ s ms cs, Forall (λ m : Z * list Z, ∃ a x b, runes s = a ++ x ++ b ∧ m.1 = zlen a ∧ m.2 = encode x) ms →
    regexp2_pattern (λ _, (ms, None)) s = Ret (Ok cs) → covers 0 cs (zlen s).
Proof.
  intros H. specialize (H [255; 97] [(1, [97])] [Capture 0 3 false; Capture 3 4 true; Capture 4 2 false]).
  destruct H as (_ & _ & _ & _ & _ & Hc & _); [|done|discriminate Hc || (cbn in Hc; lia)].
  repeat constructor. exists [rune_error], [97], []. done.
Qed.
Print Assumptions C65_regexp2_refuted.

(** The exact condition on the matches of the engine: no undecodable byte in them or in front of them. *)
Theorem C65_regexp2_iff :
  ∀ engine s ms, s ≠ [] → engine s = (ms, None) → matches2_ok (runes s) 0 ms →
  ∃ cs, regexp2_pattern engine s = Ret (Ok cs)
  ∧ (covers 0 cs (zlen s) ∧ ranges_of true cs = map (match_place s) ms
     ↔ Forall (λ m : Z * list Z, Forall (λ p, p ≠ (rune_error, 1)) (take (Z.to_nat (m.1 + zlen (runes m.2))) (decode s))) ms).
Proof. exact regexp2_right. Qed.
Print Assumptions C65_regexp2_iff.

(** "a", a space, an undecodable byte, "b": right for the match "a", wrong for "b" and for the undecodable byte. A predicate
    that accepts that byte covers the string with captures that are wrong nevertheless if two more bytes follow. *)
Example C65_patterns_example :
  matches2_ok (runes [97; 32; 255; 98]) 0 [(0, [97])] ∧ matches2_ok (runes [97; 32; 255; 98]) 0 [(3, [98])]
  ∧ regexp2_pattern (λ _, ([(0, [97])], None)) [97; 32; 255; 98] = Ret (Ok [Capture 0 1 true; Capture 1 4 false])
  ∧ match_place [97; 32; 255; 98] (3, [98]) = (3, 4)
  ∧ regexp2_pattern (λ _, ([(3, [98])], None)) [97; 32; 255; 98] = Ret (Ok [Capture 0 5 false; Capture 5 6 true; Capture 6 4 false])
  ∧ func_pattern (λ c, c =? rune_error) [255; 97; 98; 99] = Ret (Ok [Capture 0 3 true; Capture 3 4 false])
  ∧ (base.filter (λ x, (x.1 =? rune_error) = true) (places 0 (decode [255; 97; 98; 99]))).*2 = [(0, 1)].
Proof.
  split; [exists [], [97], [32; rune_error; 98]; repeat split; done|].
  split; [exists [97; 32; rune_error], [98], []; repeat split; done|]. vm_compute. repeat split; reflexivity.
Qed.

(** * String patterns and patterns of package regexp *)

(** A literal without U+FFFD (which package regexp finds in undecodable bytes as well: see
    [find_literal]): any bytes are covered, and the matches are the leftmost occurrences. *)
Theorem C65_string_pattern :
  ∀ p s, valid_utf8 p = true → p ≠ [] → s ≠ [] → rune_error ∉ runes p →
  ∃ cs, string_pattern p s = Ret (Ok cs) ∧ covers 0 cs (zlen s)
      ∧ leftmost_occurrences p s 0 (ranges_of true cs)
      ∧ Forall (λ c, c_match c = false → c_start c < c_end c) cs.
Proof. intros p s Hv Hp Hs _. by apply string_pattern_any. Qed.
Print Assumptions C65_string_pattern.

(** The empty literal: right where there are as many characters as bytes. *)
Theorem C65_string_pattern_empty_iff :
  ∀ s cs, string_pattern [] s = Ret (Ok cs) → covers 0 cs (zlen s) ↔ zlen (runes s) = zlen s.
Proof. intros s cs [= <-]. cbn [covers c_start c_end]. pose proof (zlen_nonneg (runes s)). lia. Qed.
Print Assumptions C65_string_pattern_empty_iff.

Theorem C65_regexp_pattern :
  ∀ (engine : list Z → list (Z * Z)) s, s ≠ [] → ordered_ranges 0 (engine s) (zlen s) →
  ∃ cs, regexp_pattern engine s = Ret (Ok cs) ∧ covers 0 cs (zlen s) ∧ ranges_of true cs = engine s.
Proof. intros engine s Hs Ho. destruct (regexp_pattern_spec engine s Hs Ho) as (cs & H1 & H2 & H3 & _). by exists cs. Qed.
Print Assumptions C65_regexp_pattern.

(** "é" between two lone bytes of itself; the empty literal on a bad byte. *)
Example C65_string_example :
  string_pattern [195; 169] [195; 195; 169; 169] = Ret (Ok [Capture 0 1 false; Capture 1 3 true; Capture 3 4 false])
  ∧ string_pattern [] [255; 97] = Ret (Ok [Capture 0 2 false])
  ∧ string_pattern [] [195; 169; 97] = Ret (Ok [Capture 0 2 false]).
Proof. vm_compute. auto. Qed.

(** * Prepend *)
Theorem C65_prepend_refuted : ¬ ∀ s p, prepend (from_string s) p ≠ Panic.
Proof. intros H. by apply (H [255] [32]). Qed.
Print Assumptions C65_prepend_refuted.

(** Prepending works exactly if the text does not start with an undecodable byte. If it does, Prepend
    panics on texts shorter than three bytes, and deletes the two following bytes of longer ones. *)
Theorem C65_prepend_partial :
  ∀ s p, s ≠ [] → p ≠ [] →
  (¬ bad_start s → ∃ n', prepend (from_string s) p = Ret n' ∧ ns_norm n' = encode (runes p) ++ s
                       ∧ zlen (ns_al n') = zlen (ns_norm n') + 2 * bad_bytes s)
  ∧ (bad_start s → zlen s < 3 → prepend (from_string s) p = Panic)
  ∧ (bad_start s → 3 <= zlen s → ∃ n', prepend (from_string s) p = Ret n' ∧ ns_norm n' = encode (runes p) ++ [0xEF; 0xBF; 0xBD] ++ drop 3 s).
Proof.
  intros s p Hs Hp. split; [intros Hb; by apply prepend_good|]. split; intros Hb Hl; pose proof (prepend_bad s p Hb Hp) as H.
  - destruct (Z.ltb_spec (zlen s) 3); [done|lia].
  - destruct (Z.ltb_spec (zlen s) 3); [lia|]. exact H.
Qed.
Print Assumptions C65_prepend_partial.

Example C65_prepend_example :
  match prepend (from_string [255; 97; 98; 99]) [95] with Ret n => ns_norm n = [95; 0xEF; 0xBF; 0xBD; 99] | Panic => False end
  ∧ match prepend (from_string [97; 255]) [95] with Ret n => ns_norm n = [95; 97; 255] | Panic => False end.
Proof. vm_compute. auto. Qed.

(** * Append *)
(** The last of n characters is taken to begin at byte n - 1. Append panics exactly if the string is valid and fewer than 3 bytes
    follow there, in the middle of a character; so never on invalid UTF-8. Otherwise what follows is replaced, and 2 alignments
    too many per undecodable byte stay. *)
Theorem C65_append_partial :
  ∀ s p cs c, runes s = cs ++ [c] → p ≠ [] →
  let front := take (length cs) s in let rest := drop (length cs) s in
  (append (from_string s) p = Panic ↔ valid_utf8 s = true ∧ bad_start rest ∧ zlen rest < 3)
  ∧ ∀ n', append (from_string s) p = Ret n' → ns_norm n' = front ++ encode_rune c ++ encode (runes p)
      ∧ zlen (ns_al n') = zlen (ns_norm n') + 2 * bad_bytes s.
Proof.
  intros s p cs c Hr Hp front rest.
  assert (Hs : s ≠ []) by (intros ->; change (runes []) with (@nil Z) in Hr; by destruct cs).
  assert (Hk : Z.of_nat (length cs) = zlen (runes s) - 1) by (rewrite Hr; unfold zlen; rewrite app_length; cbn [length]; lia).
  assert (Hc : idx (runes s) (Z.of_nat (length cs)) = Ret c) by (rewrite Hr; apply idx_Ret; by exists cs, []).
  destruct (append_any s p c _ Hs Hp Hk Hc) as [H1 H2]. rewrite Nat2Z.id in H1, H2. fold rest front in H1, H2.
  assert (Hd : Decision (bad_start rest ∧ valid_utf8 s = true ∧ zlen rest < 3)) by (unfold bad_start; apply _). destruct Hd as [H|H].
  - rewrite H1 by done. split; [|done]. split; [|done]. intros _. tauto.
  - destruct (H2 H) as (n' & E & E1 & E2). rewrite E. split; [|by intros ? [= <-]]. split; [done|]. intros (? & ? & ?). tauto.
Qed.
Print Assumptions C65_append_partial.
(** The text is right exactly if all characters but the last are of one byte and the last one is not undecodable. *)
Theorem C65_append_text_iff :
  ∀ s p cs c n', runes s = cs ++ [c] → p ≠ [] → append (from_string s) p = Ret n' →
  ns_norm n' = s ++ encode (runes p) ↔ Forall (λ x : Z * Z, x.2 = 1) (take (length cs) (decode s)) ∧ ¬ bad_end s.
Proof.
  intros s p cs c n' Hr Hp H. destruct (C65_append_partial s p cs c Hr Hp) as [_ H']. destruct (H' n' H) as [-> _]. rewrite <- (append_right s cs c Hr).
  rewrite app_assoc. split; [intros E; by apply app_inv_tail in E|by intros ->].
Qed.
Print Assumptions C65_append_text_iff.
(** Right only where every character in front takes one byte: "a", an undecodable byte and "b". An undecodable byte at the end
    becomes U+FFFD; "é" and an undecodable byte lose a byte of "é"; "é" and "b", which is valid, panics. *)
Example C65_append_example :
  map (λ s, match append (from_string s) [95] with Ret n => Some (ns_norm n, zlen (ns_al n)) | Panic => None end)
    [ [97; 255; 98]; [97; 255]; [195; 169; 255]; [195; 169; 98] ]
  = [Some ([97; 255; 98; 95], 6); Some ([97; 239; 191; 189; 95], 7); Some ([195; 239; 191; 189; 95], 7); None].
Proof. vm_compute. reflexivity. Qed.

(** * Map (lower- and upper-casing) *)
Theorem C65_map_refuted : ¬ ∀ s f n', map_runes (from_string s) f = Ret n' → one_per_byte n'.
Proof. intros H. specialize (H [255] (λ c, c) _ eq_refl). discriminate H. Qed.
Print Assumptions C65_map_refuted.

Theorem C65_map_partial :
  ∀ s f, ∃ n', map_runes (from_string s) f = Ret n' ∧ ns_orig n' = s ∧ ns_norm n' = encode (map f (runes s))
    ∧ (one_per_byte n' ↔ valid_utf8 s = true).
Proof.
  intros s f. destruct (map_fresh s f) as (al & -> & Hal). eexists. split; [done|]. split; [done|]. split; [done|].
  unfold one_per_byte. cbn [ns_al ns_norm]. rewrite <- bad_valid. lia.
Qed.
Print Assumptions C65_map_partial.

Example C65_map_example :
  map_runes (from_string [97; 255]) (λ c, if c =? 97 then 65 else c)
  = Ret (NS [97; 255] [65; 0xEF; 0xBF; 0xBD] [(0, 1); (1, 4); (1, 4); (1, 4); (1, 4); (1, 4)] 0).
Proof. vm_compute. reflexivity. Qed.

(** * Everything that is made of Transform *)
(** FromString gives the string as Go reads it, but for its bytes: with the same alignments, or, if these do not matter,
    FromString of that string. *)
Theorem C65_fresh :
  ∀ s, like eq (2 * bad_bytes s) (from_string s) (NS s (mended s) (ns_al (from_string s)) 0)
     ∧ like (λ _ _, True) (2 * bad_bytes s) (from_string s) (from_string (mended s)).
Proof. intros s. split; [apply from_string_like|apply from_string_like_any]. Qed.
Print Assumptions C65_fresh.

(** Transform does to both the same, if the bytes left out in front are whole characters; the alignments that are too many stay. *)
Theorem C65_transform :
  ∀ (R : Z * Z → Z * Z → Prop) k n n0 dest o, R (0, 0) (0, 0) → like R k n n0 → characters_first o (ns_norm n) →
  both R k (transform n dest o) (transform n0 dest o).
Proof. intros R k n n0 dest o R0. by apply transform_like. Qed.
Print Assumptions C65_transform.

Theorem C65_filter_partial :
  ∀ (R : Z * Z → Z * Z → Prop) k n n0 keep, R (0, 0) (0, 0) → like R k n n0 →
  (Exists (λ r, keep r = true) (runes (ns_norm n)) → characters_first (Z.of_nat (leading keep (runes (ns_norm n)))) (ns_norm n)) →
  both R k (filter_runes n keep) (filter_runes n0 keep).
Proof. intros R k n n0 keep R0. by apply filter_like. Qed.
Print Assumptions C65_filter_partial.

Theorem C65_trim_partial :
  ∀ (R : Z * Z → Z * Z → Prop) k n n0 left right, R (0, 0) (0, 0) → like R k n n0 →
  (left = true → characters_first (count_leading (runes (ns_norm n))) (ns_norm n)) →
  both R k (trim_left_right n left right) (trim_left_right n0 left right).
Proof. intros R k n n0 left right R0. by apply trim_like. Qed.
Print Assumptions C65_trim_partial.

(** Undecodable bytes may be removed in front as well: the text is right, where Filter of the string as Go reads it panics. *)
Theorem C65_filter_front_partial :
  ∀ s keep, Forall (λ x, x.2 = 1) (take (leading keep (runes s)) (decode s)) →
  ∃ n', filter_runes (from_string s) keep = Ret n' ∧ ns_norm n' = encode (base.filter (λ r, keep r = true) (runes s))
    ∧ zlen (ns_al n') = zlen (ns_norm n') + 2 * bad_bytes s.
Proof. exact filter_front. Qed.
Print Assumptions C65_filter_front_partial.

(** Otherwise it may panic, as on valid strings (C08). *)
Theorem C65_filter_refuted : ¬ ∀ s keep, valid_utf8 s = false → filter_runes (from_string s) keep ≠ Panic.
Proof. intros H. apply (H [0xF0; 0x90; 0x80; 0x80; 97; 255; 98; 99; 100; 101] (λ r, negb (r =? 0x10000)) eq_refl). vm_compute. reflexivity. Qed.
Print Assumptions C65_filter_refuted.

(** BERT normalization, if the first character is kept: the text is that of the string as Go reads it. *)
Theorem C65_bert_partial :
  ∀ u o s x rs, runes s = x :: rs → ¬ cleaned_away u x → u_mn u x = false → u_mn u 32 = false →
  ∃ n', bert_normalizer u o (from_string s) = Ret (n', None) ∧ mended (ns_norm n') = encode (bert_text u o (runes s))
    ∧ zlen (ns_al n') = zlen (ns_norm n') + 2 * bad_bytes s.
Proof.
  intros u o s x rs Hx Hc Hm H32.
  assert (Hkeep : (x =? 0) || (x =? rune_error) || is_control u x = false).
  { apply not_true_is_false. intros E. apply Hc. unfold cleaned_away. unfold is_control in E. change rune_error with 0xFFFD in E.
    destruct ((x =? 9) || (x =? 10) || (x =? 13)) eqn:E1; [lia|]. destruct (u_other u x); [|lia]. right. right. split; [done|lia]. }
  pose proof (runes_scalars s) as Hs. pose proof (from_string_wf (runes s) Hs) as Hwf. fold (mended s) in Hwf.
  pose proof (bert_like u o (λ _ _, True) (2 * bad_bytes s) _ _ x rs I (from_string_like_any s) Hx Hkeep Hm H32) as HB.
  assert (Hr : ∃ a v, fresh 0 (runes s) = (x, a) :: v). { rewrite Hx. cbn [fresh]. by eexists _, _. }
  destruct Hr as (a & v & Hf). pose proof Hwf as [Hrepr _]. rewrite Hf in Hrepr.
  destruct (C60_first_kept_partial u o _ x a v Hrepr Hc Hm H32) as (n0 & Hn0 & _).
  pose proof (C60_text_partial u o _ _ n0 None Hwf Hn0) as (_ & Ht & _). rewrite fresh_chars in Ht.
  unfold bert_normalizer, no_error in *. apply bind_Ret in Hn0 as (n1 & Hn1 & [= ->]). rewrite Hn1 in HB.
  destruct (bert_normalize u o (from_string s)) as [n'|]; [|done]. cbn [mbind outcome_bind both] in *. exists n'. split; [done|].
  destruct HB as (H1 & _ & H2 & _). split; [|done]. unfold mended. by rewrite <- H1, Ht.
Qed.
Print Assumptions C65_bert_partial.

(** An undecodable byte in front of "abc": Filter removes it, from the string as Go reads it it cannot; a white space in
    front of an undecodable byte. *)
Example C65_filter_example :
  let bad r := negb (r =? rune_error) in
  filter_runes (from_string [255; 97; 98; 99]) bad = Ret (NS [255; 97; 98; 99] [97; 98; 99] [(0, 3); (0, 3); (1, 2); (2, 3); (3, 4)] 0)
  ∧ filter_runes (from_string (mended [255; 97; 98; 99])) bad = Panic
  ∧ filter_runes (from_string [97; 255; 98]) bad = Ret (NS [97; 255; 98] [97; 98] [(0, 1); (2, 3); (1, 4); (2, 3)] 0)
  ∧ trim_left_right (from_string [32; 255]) true true = Ret (NS [32; 255] [0xEF; 0xBF; 0xBD] [(1, 4); (1, 4); (1, 4); (1, 4); (1, 4)] 0)
  ∧ (let u := Unicode (λ _, false) (λ _, false) (λ _, false) (λ c, c) (λ c, c) in
     match bert_normalizer u default_bert (from_string [97; 255; 32; 98]) with Ret (n, None) => ns_norm n = [97; 32; 98] ∧ zlen (ns_al n) = 5 | _ => False end).
Proof. vm_compute. auto 10. Qed.

(** * White-space splitting *)
(** Panic on one text, wrong offsets on another: "a" is at 2..3. *)
Theorem C65_split_refuted :
  whitespace_split (pts_from_string [255; 32]) = Panic
  ∧ match whitespace_split (pts_from_string [255; 32; 97]) with
    | Ret (p, None) => map (λ b, (bs_string b, bs_offsets b)) (original_byte_splits p) = [([255], Offsets 0 3); ([97], Offsets 0 3)]
    | _ => False
    end.
Proof. vm_compute. auto. Qed.
Print Assumptions C65_split_refuted.
