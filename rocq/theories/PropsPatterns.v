(** Property theorems C01, C02, C23-C27 (strutils, split patterns). *)
From Verif Require Import GoBase Utf8Facts Strutils SplitPattern SpecText SliceFacts StrutilsFacts PatternFacts.

(** C01: on valid UTF-8, IsRuneBoundary answers for every integer, and answers "is a boundary". *)
Theorem C01_rune_boundary :
  ∀ (rs : list Z) (i : Z), scalars rs →
  ∃ b, is_rune_boundary (encode rs) i = Ret b ∧ (b = true ↔ boundary (encode rs) i).
Proof. exact rune_boundary_C01. Qed.
Print Assumptions C01_rune_boundary.

(** On any byte string whatever, no panic. *)
Theorem C01_never_panics : ∀ (s : list Z) (i : Z), is_rune_boundary s i ≠ Panic.
Proof. exact rune_boundary_no_panic. Qed.
Print Assumptions C01_never_panics.

(** "aé野𝕠": boundaries 0 1 3 6 10, and no others. *)
Example C01_example :
  let s := encode [97; 0xE9; 0x91CE; 0x1D560] in
  scalars [97; 0xE9; 0x91CE; 0x1D560] ∧
  map (is_rune_boundary s) [-1; 0; 1; 2; 3; 4; 5; 6; 7; 9; 10; 11]
  = map Ret [false; true; true; false; true; false; false; true; false; false; true; false]
  ∧ map (is_rune_boundary (encode [0xFF; 0xC0])) [0; 1; 2; 3; 4] = map Ret [true; false; true; false; true].
Proof. split; [by repeat constructor|vm_compute; auto]. Qed.

(** C02, full statement: for boundary offsets of a valid string, Convert returns character counts.
    It is false: (2, 3) in "éa" is characters 1..2 but Convert answers 2..3. *)
Theorem C02_convert_refuted :
  ¬ (∀ a b c, scalars (a ++ b ++ c) →
     convert (new_converter (encode (a ++ b ++ c))) (Offsets (zlen (encode a)) (zlen (encode (a ++ b))))
     = Ret (Offsets (zlen a) (zlen (a ++ b)))).
Proof. exact convert_refuted. Qed.
Print Assumptions C02_convert_refuted.

(** It even panics on the empty range at the end of the text (here "a", offsets (1, 1)). *)
Theorem C02_convert_panics_refuted :
  ∃ a b c, scalars (a ++ b ++ c) ∧
  convert (new_converter (encode (a ++ b ++ c))) (Offsets (zlen (encode a)) (zlen (encode (a ++ b)))) = Panic.
Proof. exact convert_panics. Qed.
Print Assumptions C02_convert_panics_refuted.

(** What holds: text whose characters, except possibly the last one, are ASCII, and a range that
    starts before the end of the text. Missing: all other texts (see the refutations). *)
Theorem C02_convert_partial :
  ∀ init x a b c,
  Forall (λ r, 0 <= r < 128) init → scalar x = true →
  init ++ [x] = a ++ b ++ c → b ++ c ≠ [] →
  convert (new_converter (encode (init ++ [x]))) (Offsets (zlen (encode a)) (zlen (encode (a ++ b))))
  = Ret (Offsets (zlen a) (zlen (a ++ b))).
Proof. exact convert_ascii. Qed.
Print Assumptions C02_convert_partial.

(** "ab野", bytes 1..5, is characters 1..3. *)
Example C02_example :
  Forall (λ r, 0 <= r < 128) [97; 98] ∧ scalar 0x91CE = true ∧ [97; 98] ++ [0x91CE] = [97] ++ [98; 0x91CE] ++ []
  ∧ convert (new_converter (encode [97; 98; 0x91CE])) (Offsets 1 5) = Ret (Offsets 1 3).
Proof. repeat split; try (vm_compute; reflexivity). repeat constructor; lia. Qed.

(** C23: FromFunc covers the text with single accepted characters and maximal runs of others. *)
Theorem C23_func_pattern :
  ∀ (f : Z → bool) (rs : list Z), scalars rs →
  ∃ segs, func_pattern f (encode rs) = Ret (Ok (place 0 segs)) ∧ concat segs.*1 = rs
        ∧ (if decide (rs = []) then segs = [([], false)] else rune_segmented f segs).
Proof. exact func_pattern_spec. Qed.
Print Assumptions C23_func_pattern.

(** In terms of offsets: contiguous, ordered, on character boundaries, from 0 to the length. *)
Theorem C23_func_pattern_covers :
  ∀ (f : Z → bool) (rs : list Z), scalars rs →
  ∃ cs, func_pattern f (encode rs) = Ret (Ok cs) ∧ boundary_cover (encode rs) cs.
Proof. exact func_pattern_cover. Qed.
Print Assumptions C23_func_pattern_covers.

(** The segmentation of C23 is determined by the text. *)
Theorem C23_segmentation_unique :
  ∀ f segs segs', rune_segmented f segs → rune_segmented f segs' →
  concat segs.*1 = concat segs'.*1 → segs = segs'.
Proof. exact rune_segmented_unique. Qed.
Print Assumptions C23_segmentation_unique.

(** The matches are exactly the accepted characters. *)
Theorem C23_matches :
  ∀ (f : Z → bool) (rs : list Z), scalars rs →
  ∃ cs, func_pattern f (encode rs) = Ret (Ok cs) ∧
  ∀ a b, (a, b) ∈ ranges_of true cs ↔ ∃ l x r, rs = l ++ x :: r ∧ f x = true ∧ a = zlen (encode l) ∧ b = a + rune_len x.
Proof.
  intros f rs Hs. destruct (func_pattern_spec f rs Hs) as (segs & H1 & <- & H2). eexists. split; [exact H1|]. intros a b.
  destruct (decide _) as [E|_]; [|by rewrite segmented_ranges].
  rewrite H2. cbn. split; [by intros ?%elem_of_nil|]. by intros ([|] & x & r & ? & _).
Qed.
Print Assumptions C23_matches.

(** FromRune(r): the occurrences of r, and maximal runs of other characters between them. *)
Theorem C23_rune_pattern :
  ∀ (r : Z) (rs : list Z), scalars rs →
  ∃ cs, rune_pattern r (encode rs) = Ret (Ok cs) ∧ boundary_cover (encode rs) cs
  ∧ (∀ a b, (a, b) ∈ ranges_of true cs ↔ ∃ l r', rs = l ++ r :: r' ∧ a = zlen (encode l) ∧ b = a + rune_len r)
  ∧ (∀ cs1 c1 c2 cs2, cs = cs1 ++ c1 :: c2 :: cs2 → c_match c1 = true ∨ c_match c2 = true).
Proof.
  intros r rs Hs. destruct (func_pattern_cover (λ x, x =? r) rs Hs) as (cs & H1 & H2). exists cs. split; [done|]. split; [done|].
  destruct (C23_matches (λ x, x =? r) rs Hs) as (cs' & H3 & H4). rewrite H1 in H3. injection H3 as <-. split.
  - intros a b. rewrite H4. split.
    + intros (l & x & r' & -> & Hx & Ha & Hb). assert (x = r) as -> by lia. by exists l, r'.
    + intros (l & r' & -> & Ha & Hb). exists l, r, r'. split; [done|]. split; [lia|done].
  - destruct (func_pattern_spec (λ x, x =? r) rs Hs) as (segs & H5 & _ & H6). rewrite H1 in H5. injection H5 as ->.
    destruct (decide (rs = [])) as [_|_].
    { subst segs. intros [|? [|? ?]] c1 c2 cs2 E; cbn in E; simplify_eq. }
    clear -H6. generalize 0 as i. induction segs as [|[t m] segs IH]; intros i cs1 c1 c2 cs2 E; cbn [place] in E.
    { by destruct cs1. }
    destruct H6 as [Ht Hs]. destruct cs1 as [|c cs1]; cbn [app] in E; injection E as E1 E2.
    + destruct segs as [|[t' m'] segs]; [done|]. cbn [place] in E2. injection E2 as E2 _. subst c1 c2. cbn [c_match].
      destruct m; [by left|]. destruct Ht as (_ & _ & Hm). destruct m'; [by right|done].
    + by eapply IH.
Qed.
Print Assumptions C23_rune_pattern.

(** "é-野": one match of one byte between two runs. *)
Example C23_example :
  scalars [0xE9; 45; 45; 0x91CE; 97] ∧
  func_pattern (λ r, r =? 45) (encode [0xE9; 45; 45; 0x91CE; 97])
  = Ret (Ok [Capture 0 2 false; Capture 2 3 true; Capture 3 4 true; Capture 4 8 false])
  ∧ func_pattern (λ r, r =? 0xE9) (encode [0xE9; 45]) = Ret (Ok [Capture 0 2 true; Capture 2 3 false])
  ∧ func_pattern (λ r, r =? 45) [] = Ret (Ok [Capture 0 0 false]).
Proof. split; [by repeat constructor|vm_compute; auto]. Qed.

(** C24: FromRegexp, for every answer of the engine that is an ordered list of disjoint ranges. *)
Theorem C24_regexp_pattern :
  ∀ (engine : list Z → list (Z * Z)) (s : list Z),
  s ≠ [] → ordered_ranges 0 (engine s) (zlen s) →
  ∃ cs, regexp_pattern engine s = Ret (Ok cs)
      ∧ covers 0 cs (zlen s) ∧ ranges_of true cs = engine s
      ∧ Forall (λ c, c_match c = false → c_start c < c_end c) cs.
Proof. exact regexp_pattern_spec. Qed.
Print Assumptions C24_regexp_pattern.

Theorem C24_regexp_pattern_boundaries :
  ∀ (engine : list Z → list (Z * Z)) (rs : list Z),
  scalars rs → ordered_ranges 0 (engine (encode rs)) (zlen (encode rs)) →
  Forall (λ m, boundary (encode rs) m.1 ∧ boundary (encode rs) m.2) (engine (encode rs)) →
  ∃ cs, regexp_pattern engine (encode rs) = Ret (Ok cs) ∧ boundary_cover (encode rs) cs.
Proof. exact regexp_pattern_boundary. Qed.
Print Assumptions C24_regexp_pattern_boundaries.

Theorem C24_regexp_pattern_empty :
  ∀ (engine : list Z → list (Z * Z)), regexp_pattern engine [] = Ret (Ok [Capture 0 0 false]).
Proof. exact (λ e, eq_refl). Qed.
Print Assumptions C24_regexp_pattern_empty.

Example C24_example :
  ordered_ranges 0 [(1, 2); (2, 2); (3, 5)] 6 ∧
  regexp_pattern (λ _, [(1, 2); (2, 2); (3, 5)]) [97; 98; 99; 100; 101; 102]
  = Ret (Ok [Capture 0 1 false; Capture 1 2 true; Capture 2 2 true; Capture 2 3 false; Capture 3 5 true; Capture 5 6 false]).
Proof. split; [cbn; lia|vm_compute; reflexivity]. Qed.

(** C25: FromRegexp2, whose engine counts runes. *)
Theorem C25_regexp2_pattern :
  ∀ (engine : engine2) (rs : list Z) (ms : list (Z * list Z)),
  scalars rs → rs ≠ [] → engine (encode rs) = (ms, None) → matches2_ok rs 0 ms →
  ∃ cs, regexp2_pattern engine (encode rs) = Ret (Ok cs)
      ∧ boundary_cover (encode rs) cs
      ∧ ranges_of true cs = map (match2_range rs) ms
      ∧ Forall (λ c, c_match c = false → c_start c < c_end c) cs.
Proof. exact regexp2_pattern_spec. Qed.
Print Assumptions C25_regexp2_pattern.

Theorem C25_regexp2_pattern_error :
  ∀ (engine : engine2) (rs : list Z) (ms : list (Z * list Z)) (e : err),
  scalars rs → rs ≠ [] → engine (encode rs) = (ms, Some e) → matches2_ok rs 0 ms →
  regexp2_pattern engine (encode rs) = Ret (Err e).
Proof. exact regexp2_pattern_err. Qed.
Print Assumptions C25_regexp2_pattern_error.

(** "é野 a", matches at runes 1..2 and 3..4. *)
Example C25_example :
  let rs := [0xE9; 0x91CE; 32; 97] in
  scalars rs ∧ matches2_ok rs 0 [(1, encode [0x91CE]); (3, [97])]
  ∧ regexp2_pattern (λ _, ([(1, encode [0x91CE]); (3, [97])], None)) (encode rs)
    = Ret (Ok [Capture 0 2 false; Capture 2 5 true; Capture 5 6 false; Capture 6 7 true])
  ∧ regexp2_pattern (λ _, ([(1, encode [0x91CE])], Some EBadSplit)) (encode rs) = Ret (Err EBadSplit).
Proof.
  split; [by repeat constructor|]. split; [|vm_compute; auto].
  exists [0xE9], [0x91CE], [32; 97]. repeat split; [lia|].
  exists [0xE9; 0x91CE; 32], [97], []. repeat split; by vm_compute.
Qed.

(** C26, full statement: FromString(p) covers the text. False for the empty p on non-ASCII text:
    the only capture of "é" is 0..1. *)
Theorem C26_string_pattern_refuted :
  ¬ (∀ ps rs, scalars ps → scalars rs →
     ∃ cs, string_pattern (encode ps) (encode rs) = Ret (Ok cs) ∧ covers 0 cs (zlen (encode rs))).
Proof. exact string_pattern_refuted. Qed.
Print Assumptions C26_string_pattern_refuted.

(** What holds: every non-empty p, and the empty p on ASCII text. *)
Theorem C26_string_pattern_partial :
  ∀ ps rs, scalars ps → scalars rs → ps ≠ [] → rs ≠ [] →
  ∃ cs, string_pattern (encode ps) (encode rs) = Ret (Ok cs)
      ∧ boundary_cover (encode rs) cs
      ∧ leftmost_occurrences (encode ps) (encode rs) 0 (ranges_of true cs)
      ∧ Forall (λ c, c_match c = false → c_start c < c_end c) cs.
Proof. exact string_pattern_spec. Qed.
Print Assumptions C26_string_pattern_partial.

Theorem C26_empty_pattern_partial :
  ∀ rs, Forall (λ r, 0 <= r < 128) rs →
  ∃ cs, string_pattern [] (encode rs) = Ret (Ok cs) ∧ covers 0 cs (zlen (encode rs)) ∧ ranges_of true cs = [].
Proof. exact string_pattern_empty_ascii. Qed.
Print Assumptions C26_empty_pattern_partial.

(** "aéaéaéb" with p = "aéa": overlapping occurrences, the leftmost is taken. *)
Example C26_example :
  let p := [97; 0xE9; 97] in let s := [97; 0xE9; 97; 0xE9; 97; 0xE9; 98] in
  scalars p ∧ scalars s ∧
  string_pattern (encode p) (encode s) = Ret (Ok [Capture 0 4 true; Capture 4 10 false])
  ∧ string_pattern [97; 97] [98; 97; 97; 97; 97; 97; 99; 97; 97]
    = Ret (Ok [Capture 0 1 false; Capture 1 3 true; Capture 3 5 true; Capture 5 7 false; Capture 7 9 true]).
Proof. split; [by repeat constructor|]. split; [by repeat constructor|vm_compute; auto]. Qed.

(** C27: Invert keeps offsets and errors and changes every flag; twice it is the identity. *)
Theorem C27_invert :
  ∀ (sp : pattern) (s : list Z),
  (∀ cs, sp s = Ret (Ok cs) → ∃ cs', invert sp s = Ret (Ok cs')
     ∧ Forall2 (λ c c', c_start c' = c_start c ∧ c_end c' = c_end c ∧ c_match c' ≠ c_match c) cs cs')
  ∧ (∀ e, invert sp s = Ret (Err e) ↔ sp s = Ret (Err e)) ∧ (invert sp s = Panic ↔ sp s = Panic).
Proof.
  intros sp s. rewrite invert_spec. split; [|split].
  - intros cs ->. eexists. split; [done|]. induction cs as [|[a b m] cs IH]; constructor; [|done]. split; [done|]. split; [done|]. by destruct m.
  - intros e. by destruct (sp s) as [[cs|er]|].
  - by destruct (sp s) as [[cs|er]|].
Qed.
Print Assumptions C27_invert.

Theorem C27_invert_twice : ∀ (sp : pattern) (s : list Z), invert (invert sp) s = sp s.
Proof. exact invert_invert. Qed.
Print Assumptions C27_invert_twice.

Theorem C27_invert_ranges :
  ∀ (sp : pattern) (s : list Z) (cs cs' : list capture) (kind : bool),
  sp s = Ret (Ok cs) → invert sp s = Ret (Ok cs') → ranges_of kind cs' = ranges_of (negb kind) cs.
Proof. exact invert_ranges. Qed.
Print Assumptions C27_invert_ranges.

Example C27_example :
  invert (rune_pattern 45) [97; 45; 98] = Ret (Ok [Capture 0 1 true; Capture 1 2 false; Capture 2 3 true]).
Proof. vm_compute. reflexivity. Qed.
