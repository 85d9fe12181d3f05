(** Unit tests of /repo replayed on the model (tests of the model, no proofs of properties).
    The regexp-based expectations are replayed with the match lists the engines give. *)
From Coq Require Import String QArith.
From Verif Require Import GoBase Strutils SplitPattern NormString Vocab MergeMap Heap Bpe WordPiece
  Encodings PreTokString Normalizers PreTokenizers Regex Defaults Lit.
Import NormString.
#[local] Instance merge_value_eq_dec : EqDecision merge_value.
Proof. solve_decision. Defined.
Open Scope Q_scope. Open Scope string_scope. Open Scope list_scope. Open Scope Z_scope.


(** * normalizedstring_test.go *)
Example test_001 : from_string (bytes_of "") = NS (bytes_of "") (bytes_of "") [] 0.
Proof. vm_compute. reflexivity. Qed.
Example test_002 : from_string (bytes_of "a") = NS (bytes_of "a") (bytes_of "a") [(0, 1)] 0.
Proof. vm_compute. reflexivity. Qed.
Example test_003 : from_string (bytes_of "Foo") = NS (bytes_of "Foo") (bytes_of "Foo") [(0, 1); (1, 2); (2, 3)] 0.
Proof. vm_compute. reflexivity. Qed.
Example test_004 : from_string (bytes_of "ß") = NS (bytes_of "ß") (bytes_of "ß") [(0, 2); (0, 2)] 0.
Proof. vm_compute. reflexivity. Qed.
Example test_005 : from_string (bytes_of "ℝ") = NS (bytes_of "ℝ") (bytes_of "ℝ") [(0, 3); (0, 3); (0, 3)] 0.
Proof. vm_compute. reflexivity. Qed.
Example test_006 : from_string (bytes_of "💣") = NS (bytes_of "💣") (bytes_of "💣") [(0, 4); (0, 4); (0, 4); (0, 4)] 0.
Proof. vm_compute. reflexivity. Qed.
Example test_007 : from_string (bytes_of "aßz") = NS (bytes_of "aßz") (bytes_of "aßz") [(0, 1); (1, 3); (1, 3); (3, 4)] 0.
Proof. vm_compute. reflexivity. Qed.
Example test_008 : from_string (bytes_of "ßxß") = NS (bytes_of "ßxß") (bytes_of "ßxß") [(0, 2); (0, 2); (2, 3); (3, 5); (3, 5)] 0.
Proof. vm_compute. reflexivity. Qed.
Example test_009 : original_offsets (NS (bytes_of "ℝ") [] [] 42) = Offsets 42 45.
Proof. vm_compute. reflexivity. Qed.
Example test_010 : prepend (from_string (bytes_of "there")) (bytes_of "Hey ") = Ret (NS (bytes_of "there") (bytes_of "Hey there") [(0, 1); (0, 1); (0, 1); (0, 1); (0, 1); (1, 2); (2, 3); (3, 4); (4, 5)] 0).
Proof. vm_compute. reflexivity. Qed.
Example test_011 : append (from_string (bytes_of "Hey")) (bytes_of " there") = Ret (NS (bytes_of "Hey") (bytes_of "Hey there") [(0, 1); (1, 2); (2, 3); (2, 3); (2, 3); (2, 3); (2, 3); (2, 3); (2, 3)] 0).
Proof. vm_compute. reflexivity. Qed.
Example test_012 : (n ← append (from_string (bytes_of "Hey")) (bytes_of " there"); coerce_to_orig n (NRange 3 6)) = Ret ((2, 3), true).
Proof. vm_compute. reflexivity. Qed.
Example test_013 : filter_runes (from_string (bytes_of "élégant")) (λ r, negb (r =? 110)) = Ret (NS (bytes_of "élégant") (bytes_of "élégat") [(0, 2); (0, 2); (2, 3); (3, 5); (3, 5); (5, 6); (6, 7); (8, 9)] 0).
Proof. vm_compute. reflexivity. Qed.
Example test_014 : (n ← filter_runes (from_string (bytes_of "élégant")) (λ r, negb (r =? 110)); original_alignments n) = Ret [(0, 2); (0, 2); (2, 3); (3, 5); (3, 5); (5, 6); (6, 7); (7, 7); (7, 8)].
Proof. vm_compute. reflexivity. Qed.
Example test_015 : (ns_norm <$> filter_runes (from_string (bytes_of "     Hello")) (λ r, negb (white_space r))) = Ret (bytes_of "Hello").
Proof. vm_compute. reflexivity. Qed.
Example test_016 : (n ← filter_runes (from_string (bytes_of "     Hello")) (λ r, negb (white_space r)); get_original_range n (NRange 1 5)) = Ret (Some (bytes_of "ello")).
Proof. vm_compute. reflexivity. Qed.
Example test_017 : (n ← filter_runes (from_string (bytes_of "     Hello")) (λ r, negb (white_space r)); get_original_range n (NRange 0 5)) = Ret (Some (bytes_of "Hello")).
Proof. vm_compute. reflexivity. Qed.
Example test_018 : (ns_norm <$> filter_runes (from_string (bytes_of "Hello    ")) (λ r, negb (white_space r))) = Ret (bytes_of "Hello").
Proof. vm_compute. reflexivity. Qed.
Example test_019 : (n ← filter_runes (from_string (bytes_of "Hello    ")) (λ r, negb (white_space r)); get_original_range n (NRange 0 4)) = Ret (Some (bytes_of "Hell")).
Proof. vm_compute. reflexivity. Qed.
Example test_020 : (n ← filter_runes (from_string (bytes_of "Hello    ")) (λ r, negb (white_space r)); get_original_range n (NRange 0 5)) = Ret (Some (bytes_of "Hello")).
Proof. vm_compute. reflexivity. Qed.
Example test_021 : (ns_norm <$> filter_runes (from_string (bytes_of "  Hello  ")) (λ r, negb (white_space r))) = Ret (bytes_of "Hello").
Proof. vm_compute. reflexivity. Qed.
Example test_022 : (n ← filter_runes (from_string (bytes_of "  Hello  ")) (λ r, negb (white_space r)); get_original_range n (NRange 0 5)) = Ret (Some (bytes_of "Hello")).
Proof. vm_compute. reflexivity. Qed.
Example test_023 : (n ← filter_runes (from_string (bytes_of "  Hello  ")) (λ r, negb (white_space r)); get_original_range n (NRange 0 4)) = Ret (Some (bytes_of "Hell")).
Proof. vm_compute. reflexivity. Qed.
Definition ascii_lower (r : Z) : Z := if byte_in 65 90 r then r + 32 else r.
Definition conv_ns : outcome ns :=
  n ← filter_runes (from_string (bytes_of "    __Hello__   ")) (λ r, negb (white_space r)); map_runes n ascii_lower.
Example test_024 : (n ← conv_ns; Ret (coerce_to_norm n (ORange 6 11))) = Ret ((2, 7), true).
Proof. vm_compute. reflexivity. Qed.
Example test_025 : (n ← conv_ns; get_range n (NRange 2 7)) = Ret (Some (bytes_of "hello")).
Proof. vm_compute. reflexivity. Qed.
Example test_026 : (n ← conv_ns; get_original_range n (NRange 2 7)) = Ret (Some (bytes_of "Hello")).
Proof. vm_compute. reflexivity. Qed.
Example test_027 : (n ← conv_ns; get_range n (ORange 6 11)) = Ret (Some (bytes_of "hello")).
Proof. vm_compute. reflexivity. Qed.
Example test_028 : (n ← conv_ns; get_original_range n (ORange 6 11)) = Ret (Some (bytes_of "Hello")).
Proof. vm_compute. reflexivity. Qed.
Example test_029 : (n ← conv_ns; Ret (coerce_to_norm n (ORange 0 0))) = Ret ((0, 0), true).
Proof. vm_compute. reflexivity. Qed.
Example test_030 : (n ← conv_ns; Ret (coerce_to_norm n (ORange 3 3))) = Ret ((3, 3), true).
Proof. vm_compute. reflexivity. Qed.
Example test_031 : (n ← conv_ns; Ret (coerce_to_norm n (ORange 15 16))) = Ret ((9, 9), true).
Proof. vm_compute. reflexivity. Qed.
Example test_032 : (n ← conv_ns; Ret (coerce_to_norm n (ORange 16 16))) = Ret ((16, 16), true).
Proof. vm_compute. reflexivity. Qed.
Example test_033 : (n ← conv_ns; Ret (coerce_to_norm n (ORange 17 16))) = Ret ((0, 0), false).
Proof. vm_compute. reflexivity. Qed.
Example test_034 : (n ← conv_ns; coerce_to_orig n (NRange 0 0)) = Ret ((0, 0), true).
Proof. vm_compute. reflexivity. Qed.
Example test_035 : (n ← conv_ns; coerce_to_orig n (NRange 3 3)) = Ret ((3, 3), true).
Proof. vm_compute. reflexivity. Qed.
Example test_036 : (n ← conv_ns; coerce_to_orig n (NRange 9 9)) = Ret ((9, 9), true).
Proof. vm_compute. reflexivity. Qed.
Example test_037 : (n ← conv_ns; coerce_to_orig n (NRange 10 9)) = Ret ((0, 0), false).
Proof. vm_compute. reflexivity. Qed.
Definition orig_ns : outcome ns :=
  n ← filter_runes (from_string (bytes_of "Hello_______ World!")) (λ r, negb (r =? 95)); map_runes n ascii_lower.
Example test_038 : (n ← orig_ns; get_range n (NRange 6 11)) = Ret (Some (bytes_of "world")).
Proof. vm_compute. reflexivity. Qed.
Example test_039 : (n ← orig_ns; get_original_range n (NRange 6 11)) = Ret (Some (bytes_of "World")).
Proof. vm_compute. reflexivity. Qed.
Example test_040 : (n ← orig_ns; get_range n (ORange 13 18)) = Ret (Some (bytes_of "world")).
Proof. vm_compute. reflexivity. Qed.
Example test_041 : (n ← orig_ns; get_original_range n (ORange 13 18)) = Ret (Some (bytes_of "World")).
Proof. vm_compute. reflexivity. Qed.
Example test_042 : (n ← orig_ns; coerce_to_orig n (NRange 6 11)) = Ret ((13, 18), true).
Proof. vm_compute. reflexivity. Qed.
Example test_043 : transform (from_string (bytes_of "野口 No")) (flat_map (λ r, if 0x4E00 <? r then [(32, 0); (r, 1); (32, 1)] else [(r, 0)]) (runes (bytes_of "野口 No"))) 0 = Ret (NS (bytes_of "野口 No") (bytes_of " 野  口  No") [(0, 3); (0, 3); (0, 3); (0, 3); (0, 3); (3, 6); (3, 6); (3, 6); (3, 6); (3, 6); (6, 7); (7, 8); (8, 9)] 0).
Proof. vm_compute. reflexivity. Qed.
Example test_044 : (n ← transform (from_string (bytes_of "野口 No")) (flat_map (λ r, if 0x4E00 <? r then [(32, 0); (r, 1); (32, 1)] else [(r, 0)]) (runes (bytes_of "野口 No"))) 0; original_alignments n) = Ret [(0, 5); (0, 5); (0, 5); (5, 10); (5, 10); (5, 10); (10, 11); (11, 12); (12, 13)].
Proof. vm_compute. reflexivity. Qed.
Example test_045 : (ns_norm <$> transform (from_string (bytes_of "Hello")) [(32, 1); (72, 0); (101, 0); (108, 0); (108, 0); (111, 0); (32, 1)] 0) = Ret (bytes_of " Hello ").
Proof. vm_compute. reflexivity. Qed.
Example test_046 : (n ← transform (from_string (bytes_of "Hello")) [(32, 1); (72, 0); (101, 0); (108, 0); (108, 0); (111, 0); (32, 1)] 0; get_original_range n (NRange 1 6)) = Ret (Some (bytes_of "Hello")).
Proof. vm_compute. reflexivity. Qed.
Definition texts (r : outcome (result (list ns))) : outcome (result (list (list Z))) :=
  x ← r; Ret (match x with Ok l => Ok (map ns_norm l) | Err e => Err e end).
Example test_047 : texts (split (from_string (bytes_of "The-final--countdown")) (rune_pattern 45) Removed) = Ret (Ok [(bytes_of "The"); (bytes_of "final"); (bytes_of "countdown")]).
Proof. vm_compute. reflexivity. Qed.
Example test_048 : texts (split (from_string (bytes_of "The-final--countdown")) (rune_pattern 45) Isolated) = Ret (Ok [(bytes_of "The"); (bytes_of "-"); (bytes_of "final"); (bytes_of "-"); (bytes_of "-"); (bytes_of "countdown")]).
Proof. vm_compute. reflexivity. Qed.
Example test_049 : texts (split (from_string (bytes_of "The-final--countdown")) (rune_pattern 45) MergedWithPrevious) = Ret (Ok [(bytes_of "The-"); (bytes_of "final-"); (bytes_of "-"); (bytes_of "countdown")]).
Proof. vm_compute. reflexivity. Qed.
Example test_050 : texts (split (from_string (bytes_of "The-final--countdown")) (rune_pattern 45) MergedWithNext) = Ret (Ok [(bytes_of "The"); (bytes_of "-final"); (bytes_of "-"); (bytes_of "-countdown")]).
Proof. vm_compute. reflexivity. Qed.
Example test_051 : texts (split (from_string (bytes_of "The-final--countdown")) (rune_pattern 45) Contiguous) = Ret (Ok [(bytes_of "The"); (bytes_of "-"); (bytes_of "final"); (bytes_of "--"); (bytes_of "countdown")]).
Proof. vm_compute. reflexivity. Qed.
Definition text (r : outcome (result ns)) : outcome (result (list Z)) :=
  x ← r; Ret (match x with Ok n => Ok (ns_norm n) | Err e => Err e end).
Example test_052 : text (replace (from_string (bytes_of " Hello   friend ")) (rune_pattern 32) (bytes_of "_")) = Ret (Ok (bytes_of "_Hello___friend_")).
Proof. vm_compute. reflexivity. Qed.
Example test_053 : text (replace (from_string (bytes_of "aaaab")) (rune_pattern 97) (bytes_of "b")) = Ret (Ok (bytes_of "bbbbb")).
Proof. vm_compute. reflexivity. Qed.
Example test_054 : text (replace (from_string (bytes_of "aaaab")) (string_pattern (bytes_of "aaa")) (bytes_of "b")) = Ret (Ok (bytes_of "bab")).
Proof. vm_compute. reflexivity. Qed.
Example test_055 : text (replace (from_string (bytes_of " Hello   friend ")) (regexp_pattern (λ _, [(0,1); (6,9); (15,16)])) (bytes_of "_")) = Ret (Ok (bytes_of "_Hello_friend_")).
Proof. vm_compute. reflexivity. Qed.
Example test_056 : transform_range (from_string (bytes_of "Hello friend")) (ORange 0 4) [(89, 0)] 3 = Ret (NS (bytes_of "Hello friend") (bytes_of "Yo friend") [(3, 4); (4, 5); (5, 6); (6, 7); (7, 8); (8, 9); (9, 10); (10, 11); (11, 12)] 0).
Proof. vm_compute. reflexivity. Qed.
Example test_057 : (n ← transform_range (from_string (bytes_of "Hello friend")) (ORange 0 4) [(89, 0)] 3; original_alignments n) = Ret [(0, 0); (0, 0); (0, 0); (0, 1); (1, 2); (2, 3); (3, 4); (4, 5); (5, 6); (6, 7); (7, 8); (8, 9)].
Proof. vm_compute. reflexivity. Qed.
Example test_058 : transform_range (from_string (bytes_of "Hello friend")) (ORange 3 10) [(95, 0); (70, 0); (82, -2)] 2 = Ret (NS (bytes_of "Hello friend") (bytes_of "Hel_FRnd") [(0, 1); (1, 2); (2, 3); (5, 6); (6, 7); (7, 8); (10, 11); (11, 12)] 0).
Proof. vm_compute. reflexivity. Qed.
Example test_059 : (n ← transform_range (from_string (bytes_of "Hello friend")) (ORange 3 10) [(95, 0); (70, 0); (82, -2)] 2; original_alignments n) = Ret [(0, 1); (1, 2); (2, 3); (3, 3); (3, 3); (3, 4); (4, 5); (5, 6); (6, 6); (6, 6); (6, 7); (7, 8)].
Proof. vm_compute. reflexivity. Qed.
Example test_060 : transform_range (from_string (bytes_of "Hello friend")) (ORange 5 12) [(95, 0); (70, -5)] 0 = Ret (NS (bytes_of "Hello friend") (bytes_of "Hello_F") [(0, 1); (1, 2); (2, 3); (3, 4); (4, 5); (5, 6); (6, 7)] 0).
Proof. vm_compute. reflexivity. Qed.
Example test_061 : (n ← transform_range (from_string (bytes_of "Hello friend")) (ORange 5 12) [(95, 0); (70, -5)] 0; original_alignments n) = Ret [(0, 1); (1, 2); (2, 3); (3, 4); (4, 5); (5, 6); (6, 7); (7, 7); (7, 7); (7, 7); (7, 7); (7, 7)].
Proof. vm_compute. reflexivity. Qed.
Example test_062 : transform_range (from_string (bytes_of "Hello friend")) (ORange 0 1) [(72, 1); (72, 0)] 0 = Ret (NS (bytes_of "Hello friend") (bytes_of "HHello friend") [(0, 0); (0, 1); (1, 2); (2, 3); (3, 4); (4, 5); (5, 6); (6, 7); (7, 8); (8, 9); (9, 10); (10, 11); (11, 12)] 0).
Proof. vm_compute. reflexivity. Qed.
Example test_063 : (n ← transform_range (from_string (bytes_of "Hello friend")) (ORange 0 1) [(72, 1); (72, 0)] 0; original_alignments n) = Ret [(1, 2); (2, 3); (3, 4); (4, 5); (5, 6); (6, 7); (7, 8); (8, 9); (9, 10); (10, 11); (11, 12); (12, 13)].
Proof. vm_compute. reflexivity. Qed.
Example test_064 : transform_range (from_string (bytes_of "Hello friend")) (ORange 0 0) [(72, 1)] 0 = Ret (NS (bytes_of "Hello friend") (bytes_of "HHello friend") [(0, 0); (0, 1); (1, 2); (2, 3); (3, 4); (4, 5); (5, 6); (6, 7); (7, 8); (8, 9); (9, 10); (10, 11); (11, 12)] 0).
Proof. vm_compute. reflexivity. Qed.
Example test_065 : (n ← transform_range (from_string (bytes_of "Hello friend")) (ORange 0 0) [(72, 1)] 0; original_alignments n) = Ret [(1, 2); (2, 3); (3, 4); (4, 5); (5, 6); (6, 7); (7, 8); (8, 9); (9, 10); (10, 11); (11, 12); (12, 13)].
Proof. vm_compute. reflexivity. Qed.
Example test_066 : transform_range (from_string (bytes_of "Hello friend")) (ORange 0 1) [(72, 0); (72, 1)] 0 = Ret (NS (bytes_of "Hello friend") (bytes_of "HHello friend") [(0, 1); (0, 1); (1, 2); (2, 3); (3, 4); (4, 5); (5, 6); (6, 7); (7, 8); (8, 9); (9, 10); (10, 11); (11, 12)] 0).
Proof. vm_compute. reflexivity. Qed.
Example test_067 : (n ← transform_range (from_string (bytes_of "Hello friend")) (ORange 0 1) [(72, 0); (72, 1)] 0; original_alignments n) = Ret [(0, 2); (2, 3); (3, 4); (4, 5); (5, 6); (6, 7); (7, 8); (8, 9); (9, 10); (10, 11); (11, 12); (12, 13)].
Proof. vm_compute. reflexivity. Qed.
Example test_068 : transform_range (from_string (bytes_of "Hello friend")) (ORange 5 6) [(95, 0); (109, 1); (121, 1); (95, 1)] 0 = Ret (NS (bytes_of "Hello friend") (bytes_of "Hello_my_friend") [(0, 1); (1, 2); (2, 3); (3, 4); (4, 5); (5, 6); (5, 6); (5, 6); (5, 6); (6, 7); (7, 8); (8, 9); (9, 10); (10, 11); (11, 12)] 0).
Proof. vm_compute. reflexivity. Qed.
Example test_069 : (n ← transform_range (from_string (bytes_of "Hello friend")) (ORange 5 6) [(95, 0); (109, 1); (121, 1); (95, 1)] 0; original_alignments n) = Ret [(0, 1); (1, 2); (2, 3); (3, 4); (4, 5); (5, 9); (9, 10); (10, 11); (11, 12); (12, 13); (13, 14); (14, 15)].
Proof. vm_compute. reflexivity. Qed.
Example test_070 : transform_range (from_string (bytes_of "Hello friend")) (ORange 11 12) [(100, 0); (95, 1); (33, 1)] 0 = Ret (NS (bytes_of "Hello friend") (bytes_of "Hello friend_!") [(0, 1); (1, 2); (2, 3); (3, 4); (4, 5); (5, 6); (6, 7); (7, 8); (8, 9); (9, 10); (10, 11); (11, 12); (11, 12); (11, 12)] 0).
Proof. vm_compute. reflexivity. Qed.
Example test_071 : (n ← transform_range (from_string (bytes_of "Hello friend")) (ORange 11 12) [(100, 0); (95, 1); (33, 1)] 0; original_alignments n) = Ret [(0, 1); (1, 2); (2, 3); (3, 4); (4, 5); (5, 6); (6, 7); (7, 8); (8, 9); (9, 10); (10, 11); (11, 14)].
Proof. vm_compute. reflexivity. Qed.
Example test_072 : transform_range (from_string (bytes_of "𝔾𝕠𝕠𝕕")) (ORange 0 9) [(71, -1)] 0 = Ret (NS (bytes_of "𝔾𝕠𝕠𝕕") (bytes_of "G𝕠𝕕") [(0, 4); (8, 12); (8, 12); (8, 12); (8, 12); (12, 16); (12, 16); (12, 16); (12, 16)] 0).
Proof. vm_compute. reflexivity. Qed.
Example test_073 : (n ← transform_range (from_string (bytes_of "𝔾𝕠𝕠𝕕")) (ORange 0 9) [(71, -1)] 0; original_alignments n) = Ret [(0, 1); (0, 1); (0, 1); (0, 1); (1, 1); (1, 1); (1, 1); (1, 1); (1, 5); (1, 5); (1, 5); (1, 5); (5, 9); (5, 9); (5, 9); (5, 9)].
Proof. vm_compute. reflexivity. Qed.
Example test_074 : (n ← transform_range (from_string (bytes_of "𝔾𝕠𝕠𝕕")) (ORange 0 9) [(71, -1)] 0; get_range n (ORange 0 8)) = Ret (Some (bytes_of "G")).
Proof. vm_compute. reflexivity. Qed.
Example test_075 : (n ← transform_range (from_string (bytes_of "𝔾𝕠𝕠𝕕")) (ORange 0 9) [(71, -1)] 0; get_range n (ORange 0 4)) = Ret (Some (bytes_of "G")).
Proof. vm_compute. reflexivity. Qed.
Example test_076 : (n ← transform_range (from_string (bytes_of "𝔾𝕠𝕠𝕕")) (ORange 0 9) [(71, -1)] 0; get_original_range n (ORange 0 4)) = Ret (Some (bytes_of "𝔾")).
Proof. vm_compute. reflexivity. Qed.
Example test_077 : (n ← transform_range (from_string (bytes_of "𝔾𝕠𝕠𝕕")) (ORange 0 9) [(71, -1)] 0; get_original_range n (ORange 0 8)) = Ret (Some (bytes_of "𝔾𝕠")).
Proof. vm_compute. reflexivity. Qed.
Example test_078 : transform_range (from_string (bytes_of "𝔾𝕠𝕠𝕕")) (ORange 4 12) [(111, -1)] 0 = Ret (NS (bytes_of "𝔾𝕠𝕠𝕕") (bytes_of "𝔾o𝕕") [(0, 4); (0, 4); (0, 4); (0, 4); (4, 8); (12, 16); (12, 16); (12, 16); (12, 16)] 0).
Proof. vm_compute. reflexivity. Qed.
Example test_079 : (n ← transform_range (from_string (bytes_of "𝔾𝕠𝕠𝕕")) (ORange 4 12) [(111, -1)] 0; original_alignments n) = Ret [(0, 4); (0, 4); (0, 4); (0, 4); (4, 5); (4, 5); (4, 5); (4, 5); (5, 5); (5, 5); (5, 5); (5, 5); (5, 9); (5, 9); (5, 9); (5, 9)].
Proof. vm_compute. reflexivity. Qed.
Example test_080 : transform_range (from_string (bytes_of "𝔾𝕠𝕠𝕕")) (ORange 12 16) [(100, 0); (33, 1)] 0 = Ret (NS (bytes_of "𝔾𝕠𝕠𝕕") (bytes_of "𝔾𝕠𝕠d!") [(0, 4); (0, 4); (0, 4); (0, 4); (4, 8); (4, 8); (4, 8); (4, 8); (8, 12); (8, 12); (8, 12); (8, 12); (12, 16); (12, 16)] 0).
Proof. vm_compute. reflexivity. Qed.
Example test_081 : transform_range (from_string (bytes_of "𝔾𝕠𝕠𝕕")) (ORange 0 4) [(95, 1); (120126, 0)] 0 = Ret (NS (bytes_of "𝔾𝕠𝕠𝕕") (bytes_of "_𝔾𝕠𝕠𝕕") [(0, 0); (0, 4); (0, 4); (0, 4); (0, 4); (4, 8); (4, 8); (4, 8); (4, 8); (8, 12); (8, 12); (8, 12); (8, 12); (12, 16); (12, 16); (12, 16); (12, 16)] 0).
Proof. vm_compute. reflexivity. Qed.
Example test_082 : (n ← transform_range (from_string (bytes_of "𝔾𝕠𝕠𝕕")) (ORange 0 4) [(95, 1); (120126, 0)] 0; original_alignments n) = Ret [(1, 5); (1, 5); (1, 5); (1, 5); (5, 9); (5, 9); (5, 9); (5, 9); (9, 13); (9, 13); (9, 13); (9, 13); (13, 17); (13, 17); (13, 17); (13, 17)].
Proof. vm_compute. reflexivity. Qed.
Example test_083 : (n ← transform_range (from_string (bytes_of "𝔾𝕠𝕠𝕕")) (ORange 0 4) [(95, 1); (120126, 0)] 0; get_range n (ORange 0 8)) = Ret (Some (bytes_of "𝔾𝕠")).
Proof. vm_compute. reflexivity. Qed.
Example test_084 : (n ← transform_range (from_string (bytes_of "𝔾𝕠𝕠𝕕")) (ORange 0 4) [(95, 1); (120126, 0)] 0; get_range n (ORange 0 4)) = Ret (Some (bytes_of "𝔾")).
Proof. vm_compute. reflexivity. Qed.
Example test_085 : (n ← transform_range (from_string (bytes_of "𝔾𝕠𝕠𝕕")) (ORange 0 4) [(95, 1); (120126, 0)] 0; get_original_range n (ORange 0 4)) = Ret (Some (bytes_of "𝔾")).
Proof. vm_compute. reflexivity. Qed.
Example test_086 : (n ← transform_range (from_string (bytes_of "𝔾𝕠𝕠𝕕")) (ORange 0 4) [(95, 1); (120126, 0)] 0; get_original_range n (ORange 0 8)) = Ret (Some (bytes_of "𝔾𝕠")).
Proof. vm_compute. reflexivity. Qed.
Example test_087 : transform_range (from_string (bytes_of "𝔾𝕠𝕠𝕕")) (ORange 0 0) [(95, 1)] 0 = Ret (NS (bytes_of "𝔾𝕠𝕠𝕕") (bytes_of "_𝔾𝕠𝕠𝕕") [(0, 0); (0, 4); (0, 4); (0, 4); (0, 4); (4, 8); (4, 8); (4, 8); (4, 8); (8, 12); (8, 12); (8, 12); (8, 12); (12, 16); (12, 16); (12, 16); (12, 16)] 0).
Proof. vm_compute. reflexivity. Qed.
Example test_088 : (n ← transform_range (from_string (bytes_of "𝔾𝕠𝕠𝕕")) (ORange 0 0) [(95, 1)] 0; original_alignments n) = Ret [(1, 5); (1, 5); (1, 5); (1, 5); (5, 9); (5, 9); (5, 9); (5, 9); (9, 13); (9, 13); (9, 13); (9, 13); (13, 17); (13, 17); (13, 17); (13, 17)].
Proof. vm_compute. reflexivity. Qed.
Example test_089 : (n ← transform_range (from_string (bytes_of "𝔾𝕠𝕠𝕕")) (ORange 0 0) [(95, 1)] 0; get_range n (ORange 0 8)) = Ret (Some (bytes_of "𝔾𝕠")).
Proof. vm_compute. reflexivity. Qed.
Example test_090 : (n ← transform_range (from_string (bytes_of "𝔾𝕠𝕠𝕕")) (ORange 0 0) [(95, 1)] 0; get_range n (ORange 0 4)) = Ret (Some (bytes_of "𝔾")).
Proof. vm_compute. reflexivity. Qed.
Example test_091 : (n ← transform_range (from_string (bytes_of "𝔾𝕠𝕠𝕕")) (ORange 0 0) [(95, 1)] 0; get_original_range n (ORange 0 4)) = Ret (Some (bytes_of "𝔾")).
Proof. vm_compute. reflexivity. Qed.
Example test_092 : (n ← transform_range (from_string (bytes_of "𝔾𝕠𝕠𝕕")) (ORange 0 0) [(95, 1)] 0; get_original_range n (ORange 0 8)) = Ret (Some (bytes_of "𝔾𝕠")).
Proof. vm_compute. reflexivity. Qed.
Example test_093 : transform_range (from_string (bytes_of "𝔾𝕠𝕠𝕕")) (ORange 0 4) [(120126, 0); (111, 1)] 0 = Ret (NS (bytes_of "𝔾𝕠𝕠𝕕") (bytes_of "𝔾o𝕠𝕠𝕕") [(0, 4); (0, 4); (0, 4); (0, 4); (0, 4); (4, 8); (4, 8); (4, 8); (4, 8); (8, 12); (8, 12); (8, 12); (8, 12); (12, 16); (12, 16); (12, 16); (12, 16)] 0).
Proof. vm_compute. reflexivity. Qed.
Example test_094 : (n ← transform_range (from_string (bytes_of "𝔾𝕠𝕠𝕕")) (ORange 0 4) [(120126, 0); (111, 1)] 0; original_alignments n) = Ret [(0, 5); (0, 5); (0, 5); (0, 5); (5, 9); (5, 9); (5, 9); (5, 9); (9, 13); (9, 13); (9, 13); (9, 13); (13, 17); (13, 17); (13, 17); (13, 17)].
Proof. vm_compute. reflexivity. Qed.
Example test_095 : (n ← transform_range (from_string (bytes_of "𝔾𝕠𝕠𝕕")) (ORange 0 4) [(120126, 0); (111, 1)] 0; get_range n (ORange 0 8)) = Ret (Some (bytes_of "𝔾o𝕠")).
Proof. vm_compute. reflexivity. Qed.
Example test_096 : (n ← transform_range (from_string (bytes_of "𝔾𝕠𝕠𝕕")) (ORange 0 4) [(120126, 0); (111, 1)] 0; get_range n (ORange 0 4)) = Ret (Some (bytes_of "𝔾o")).
Proof. vm_compute. reflexivity. Qed.
Example test_097 : (n ← transform_range (from_string (bytes_of "𝔾𝕠𝕠𝕕")) (ORange 0 4) [(120126, 0); (111, 1)] 0; get_original_range n (ORange 0 4)) = Ret (Some (bytes_of "𝔾")).
Proof. vm_compute. reflexivity. Qed.
Example test_098 : (n ← transform_range (from_string (bytes_of "𝔾𝕠𝕠𝕕")) (ORange 0 4) [(120126, 0); (111, 1)] 0; get_original_range n (ORange 0 8)) = Ret (Some (bytes_of "𝔾𝕠")).
Proof. vm_compute. reflexivity. Qed.
Example test_099 : transform_range (from_string (bytes_of "𝔾𝕠𝕠𝕕")) (ORange 4 8) [(120160, 0); (111, 1); (111, 1); (111, 1)] 0 = Ret (NS (bytes_of "𝔾𝕠𝕠𝕕") (bytes_of "𝔾𝕠ooo𝕠𝕕") [(0, 4); (0, 4); (0, 4); (0, 4); (4, 8); (4, 8); (4, 8); (4, 8); (4, 8); (4, 8); (4, 8); (8, 12); (8, 12); (8, 12); (8, 12); (12, 16); (12, 16); (12, 16); (12, 16)] 0).
Proof. vm_compute. reflexivity. Qed.
Example test_100 : (n ← transform_range (from_string (bytes_of "𝔾𝕠𝕠𝕕")) (ORange 4 8) [(120160, 0); (111, 1); (111, 1); (111, 1)] 0; original_alignments n) = Ret [(0, 4); (0, 4); (0, 4); (0, 4); (4, 11); (4, 11); (4, 11); (4, 11); (11, 15); (11, 15); (11, 15); (11, 15); (15, 19); (15, 19); (15, 19); (15, 19)].
Proof. vm_compute. reflexivity. Qed.
Example test_101 : transform_range (from_string (bytes_of "𝔾𝕠𝕠𝕕")) (ORange 16 16) [(33, 1)] 0 = Ret (NS (bytes_of "𝔾𝕠𝕠𝕕") (bytes_of "𝔾𝕠𝕠𝕕!") [(0, 4); (0, 4); (0, 4); (0, 4); (4, 8); (4, 8); (4, 8); (4, 8); (8, 12); (8, 12); (8, 12); (8, 12); (12, 16); (12, 16); (12, 16); (12, 16); (12, 16)] 0).
Proof. vm_compute. reflexivity. Qed.
Example test_102 : (n ← transform_range (from_string (bytes_of "𝔾𝕠𝕠𝕕")) (ORange 16 16) [(33, 1)] 0; original_alignments n) = Ret [(0, 4); (0, 4); (0, 4); (0, 4); (4, 8); (4, 8); (4, 8); (4, 8); (8, 12); (8, 12); (8, 12); (8, 12); (12, 17); (12, 17); (12, 17); (12, 17)].
Proof. vm_compute. reflexivity. Qed.

(** * splitpattern/*_test.go *)
Example test_103 : func_pattern (λ r, r =? 98) (bytes_of "aba") = Ret (Ok [Capture 0 1 false; Capture 1 2 true; Capture 2 3 false]).
Proof. vm_compute. reflexivity. Qed.
Example test_104 : func_pattern (λ r, r =? 98) (bytes_of "aaaab") = Ret (Ok [Capture 0 4 false; Capture 4 5 true]).
Proof. vm_compute. reflexivity. Qed.
Example test_105 : func_pattern (λ r, r =? 98) (bytes_of "bbaaa") = Ret (Ok [Capture 0 1 true; Capture 1 2 true; Capture 2 5 false]).
Proof. vm_compute. reflexivity. Qed.
Example test_106 : func_pattern (λ r, r =? 98) (bytes_of "") = Ret (Ok [Capture 0 0 false]).
Proof. vm_compute. reflexivity. Qed.
Example test_107 : func_pattern (λ r, r =? 98) (bytes_of "aaa") = Ret (Ok [Capture 0 3 false]).
Proof. vm_compute. reflexivity. Qed.
Example test_108 : invert (rune_pattern 97) (bytes_of "aba") = Ret (Ok [Capture 0 1 false; Capture 1 2 true; Capture 2 3 false]).
Proof. vm_compute. reflexivity. Qed.
Example test_109 : rune_pattern 97 (bytes_of "aba") = Ret (Ok [Capture 0 1 true; Capture 1 2 false; Capture 2 3 true]).
Proof. vm_compute. reflexivity. Qed.
Example test_110 : rune_pattern 97 (bytes_of "bbbba") = Ret (Ok [Capture 0 4 false; Capture 4 5 true]).
Proof. vm_compute. reflexivity. Qed.
Example test_111 : rune_pattern 97 (bytes_of "aabbb") = Ret (Ok [Capture 0 1 true; Capture 1 2 true; Capture 2 5 false]).
Proof. vm_compute. reflexivity. Qed.
Example test_112 : rune_pattern 97 (bytes_of "") = Ret (Ok [Capture 0 0 false]).
Proof. vm_compute. reflexivity. Qed.
Example test_113 : rune_pattern 97 (bytes_of "bbb") = Ret (Ok [Capture 0 3 false]).
Proof. vm_compute. reflexivity. Qed.
Example test_114 : string_pattern (bytes_of "a") (bytes_of "aba") = Ret (Ok [Capture 0 1 true; Capture 1 2 false; Capture 2 3 true]).
Proof. vm_compute. reflexivity. Qed.
Example test_115 : string_pattern (bytes_of "a") (bytes_of "bbbba") = Ret (Ok [Capture 0 4 false; Capture 4 5 true]).
Proof. vm_compute. reflexivity. Qed.
Example test_116 : string_pattern (bytes_of "a") (bytes_of "aabbb") = Ret (Ok [Capture 0 1 true; Capture 1 2 true; Capture 2 5 false]).
Proof. vm_compute. reflexivity. Qed.
Example test_117 : string_pattern (bytes_of "ab") (bytes_of "aabbb") = Ret (Ok [Capture 0 1 false; Capture 1 3 true; Capture 3 5 false]).
Proof. vm_compute. reflexivity. Qed.
Example test_118 : string_pattern (bytes_of "ab") (bytes_of "aabbab") = Ret (Ok [Capture 0 1 false; Capture 1 3 true; Capture 3 4 false; Capture 4 6 true]).
Proof. vm_compute. reflexivity. Qed.
Example test_119 : string_pattern [] (bytes_of "") = Ret (Ok [Capture 0 0 false]).
Proof. vm_compute. reflexivity. Qed.
Example test_120 : string_pattern [] (bytes_of "aaa") = Ret (Ok [Capture 0 3 false]).
Proof. vm_compute. reflexivity. Qed.
Example test_121 : string_pattern (bytes_of "b") (bytes_of "aaa") = Ret (Ok [Capture 0 3 false]).
Proof. vm_compute. reflexivity. Qed.
Example test_122 : regexp_pattern (λ _, [(16, 17)]) (bytes_of "𝔾𝕠𝕠𝕕 𝕞𝕠𝕣𝕟𝕚𝕟𝕘") = Ret (Ok [Capture 0 16 false; Capture 16 17 true; Capture 17 45 false]).
Proof. vm_compute. reflexivity. Qed.
Example test_123 : regexp2_pattern (λ _, ([(4, [32])], None)) (bytes_of "𝔾𝕠𝕠𝕕 𝕞𝕠𝕣𝕟𝕚𝕟𝕘") = Ret (Ok [Capture 0 16 false; Capture 16 17 true; Capture 17 45 false]).
Proof. vm_compute. reflexivity. Qed.
Example test_124 : regexp_pattern (λ _, [(0,3); (4,7); (8,11)]) (bytes_of "   a   b   ") = Ret (Ok [Capture 0 3 true; Capture 3 4 false; Capture 4 7 true; Capture 7 8 false; Capture 8 11 true]).
Proof. vm_compute. reflexivity. Qed.
Example test_125 : regexp2_pattern (λ _, ([(0,[32;32;32]); (4,[32;32;32]); (8,[32;32;32])], None)) (bytes_of "   a   b   ") = Ret (Ok [Capture 0 3 true; Capture 3 4 false; Capture 4 7 true; Capture 7 8 false; Capture 8 11 true]).
Proof. vm_compute. reflexivity. Qed.

(** * strutils_test.go *)
Example test_126 : is_rune_boundary (bytes_of "Löwe 老虎 Léopard") (0) = Ret true.
Proof. vm_compute. reflexivity. Qed.
Example test_127 : is_rune_boundary (bytes_of "Löwe 老虎 Léopard") (21) = Ret true.
Proof. vm_compute. reflexivity. Qed.
Example test_128 : is_rune_boundary (bytes_of "Löwe 老虎 Léopard") (-1) = Ret false.
Proof. vm_compute. reflexivity. Qed.
Example test_129 : is_rune_boundary (bytes_of "Löwe 老虎 Léopard") (1000) = Ret false.
Proof. vm_compute. reflexivity. Qed.
Example test_130 : is_rune_boundary (bytes_of "Löwe 老虎 Léopard") (6) = Ret true.
Proof. vm_compute. reflexivity. Qed.
Example test_131 : is_rune_boundary (bytes_of "Löwe 老虎 Léopard") (2) = Ret false.
Proof. vm_compute. reflexivity. Qed.
Example test_132 : is_rune_boundary (bytes_of "Löwe 老虎 Léopard") (8) = Ret false.
Proof. vm_compute. reflexivity. Qed.

(** * vocabulary_test.go *)
Definition vocab_json : list (list Z * Z) := [((bytes_of "foo"), 0); ((bytes_of "bar"), 1); ((bytes_of "baz"), 2)].
Definition json_vocab : vocab := from_json (Some vocab_json) vocab_json.
Example test_133 : v_size json_vocab = 3.
Proof. vm_compute. reflexivity. Qed.
Example test_134 : get_id json_vocab (bytes_of "foo") = Some 0.
Proof. vm_compute. reflexivity. Qed.
Example test_135 : get_string json_vocab 0 = Some (bytes_of "foo").
Proof. vm_compute. reflexivity. Qed.
Example test_136 : get_id json_vocab (bytes_of "bar") = Some 1.
Proof. vm_compute. reflexivity. Qed.
Example test_137 : get_string json_vocab 1 = Some (bytes_of "bar").
Proof. vm_compute. reflexivity. Qed.
Example test_138 : get_id json_vocab (bytes_of "baz") = Some 2.
Proof. vm_compute. reflexivity. Qed.
Example test_139 : get_string json_vocab 2 = Some (bytes_of "baz").
Proof. vm_compute. reflexivity. Qed.

(** * mergemap_test.go *)
Definition add_terms (ts : list (list Z)) : outcome vocab :=
  foldl (λ v t, v' ← v; add_term v' t) (Ret new_vocab) ts.
Definition merges_txt : list Z := [35; 118; 101; 114; 115; 105; 111; 110; 58; 32; 48; 46; 50; 10; 97; 98; 32; 99; 100; 10; 101; 102; 103; 32; 104; 105; 106; 10; 107; 108; 109; 110; 32; 111; 112; 113; 114; 10].
Definition pairs (r : outcome (result merge_map)) : outcome (result (list (Z * Z * merge_value))) :=
  x ← r; Ret (match x with Ok m => Ok (map_to_list m) | Err e => Err e end).
Example test_140 : (v ← add_terms [(bytes_of "ab"); (bytes_of "cd"); (bytes_of "efg"); (bytes_of "hij"); (bytes_of "klmn"); (bytes_of "opqr"); (bytes_of "abcd"); (bytes_of "efghij"); (bytes_of "klmnopqr")]; r ← merge_map_from_file merges_txt v 0; Ret (match r with Ok m => bool_decide (m = {[ (0,1) := MergeValue 0 6; (2,3) := MergeValue 1 7; (4,5) := MergeValue 2 8 ]}) | Err _ => false end)) = Ret true.
Proof. vm_compute. reflexivity. Qed.
Example test_141 : (v ← add_terms [(bytes_of "ab"); (bytes_of "cd"); (bytes_of "efg"); (bytes_of "hij"); (bytes_of "klmn"); (bytes_of "opqr"); (bytes_of "abd"); (bytes_of "efgij"); (bytes_of "klmnpqr")]; r ← merge_map_from_file merges_txt v 1; Ret (match r with Ok m => bool_decide (m = {[ (0,1) := MergeValue 0 6; (2,3) := MergeValue 1 7; (4,5) := MergeValue 2 8 ]}) | Err _ => false end)) = Ret true.
Proof. vm_compute. reflexivity. Qed.

(** * word_test.go *)
Example test_142 : word_add (word_add (word_add [] 11 2) 22 3) 33 4 = [WSym 11 2 (-1) 1; WSym 22 3 0 2; WSym 33 4 1 (-1)].
Proof. vm_compute. reflexivity. Qed.

(** TestSymbolMergeWith: MergeWith as called in MergeAll, the absorbed symbol has length 0 after. *)
Example test_merge_with : do_merge [WSym 1 2 3 4; WSym 10 20 30 40] 0 1 (WSym 10 20 30 40) 100 = Ret [WSym 100 22 3 40; WSym 10 0 30 40].
Proof. vm_compute. reflexivity. Qed.

(** * bpemodel_test.go *)
Definition bpe_terms : list (list Z) := [(bytes_of "u"); (bytes_of "n"); (bytes_of "r"); (bytes_of "e"); (bytes_of "l"); (bytes_of "a"); (bytes_of "t"); (bytes_of "d"); (bytes_of "re"); (bytes_of "at"); (bytes_of "ed"); (bytes_of "un"); (bytes_of "ated"); (bytes_of "rel"); (bytes_of "related"); (bytes_of "unrelated")].
Definition bpe_merges : merge_map := {[ (2, 3) := MergeValue 1 8; (5, 6) := MergeValue 2 9; (3, 7) := MergeValue 3 10; (0, 1) := MergeValue 4 11; (9, 10) := MergeValue 5 12; (8, 4) := MergeValue 6 13; (13, 12) := MergeValue 7 14; (11, 14) := MergeValue 8 15 ]}.
Definition bpe_test (dropout : Q) (draws : nat → Q) : outcome (option (outcome (result (list token)))) :=
  v ← add_terms bpe_terms;
  Ret (bpe_tokenize (Bpe v bpe_merges dropout [] [] [] false) (bytes_of "unrelated") draws).
Example test_143 : bpe_test 0 (λ _, 0%Q) = Ret (Some (Ret (Ok [Token 15 (bytes_of "unrelated") (Offsets 0 9)]))).
Proof. vm_compute. reflexivity. Qed.
Example test_144 : bpe_test 1 (λ _, (9#10)%Q) = Ret (Some (Ret (Ok [Token 0 (bytes_of "u") (Offsets 0 1); Token 1 (bytes_of "n") (Offsets 1 2); Token 2 (bytes_of "r") (Offsets 2 3); Token 3 (bytes_of "e") (Offsets 3 4); Token 4 (bytes_of "l") (Offsets 4 5); Token 5 (bytes_of "a") (Offsets 5 6); Token 6 (bytes_of "t") (Offsets 6 7); Token 3 (bytes_of "e") (Offsets 7 8); Token 7 (bytes_of "d") (Offsets 8 9)]))).
Proof. vm_compute. reflexivity. Qed.

(** * wordpiecemodel_test.go *)
Definition wp_test (s : list Z) : outcome (option (outcome (result (list token)))) :=
  v ← add_terms [(bytes_of "[UNK]"); (bytes_of "foo"); (bytes_of "##foo"); (bytes_of "bar"); (bytes_of "##bar"); (bytes_of "baz"); (bytes_of "##baz"); (bytes_of "alpha"); (bytes_of "##alpha"); (bytes_of "gamma"); (bytes_of "##gamma"); (bytes_of "veryverylongterm")];
  Ret (wp_tokenize (WordPiece v (bytes_of "[UNK]") (bytes_of "##") 15) s).
Example test_145 : wp_test (bytes_of "foo") = Ret (Some (Ret (Ok [Token 1 (bytes_of "foo") (Offsets 0 3)]))).
Proof. vm_compute. reflexivity. Qed.
Example test_146 : wp_test (bytes_of "barbaz") = Ret (Some (Ret (Ok [Token 3 (bytes_of "bar") (Offsets 0 3); Token 6 (bytes_of "##baz") (Offsets 3 6)]))).
Proof. vm_compute. reflexivity. Qed.
Example test_147 : wp_test (bytes_of "alphabetagamma") = Ret (Some (Ret (Ok [Token 0 (bytes_of "[UNK]") (Offsets 0 14)]))).
Proof. vm_compute. reflexivity. Qed.
Example test_148 : wp_test (bytes_of "foobarbaz") = Ret (Some (Ret (Ok [Token 1 (bytes_of "foo") (Offsets 0 3); Token 4 (bytes_of "##bar") (Offsets 3 6); Token 6 (bytes_of "##baz") (Offsets 6 9)]))).
Proof. vm_compute. reflexivity. Qed.
Example test_149 : wp_test (bytes_of "qux") = Ret (Some (Ret (Ok [Token 0 (bytes_of "[UNK]") (Offsets 0 3)]))).
Proof. vm_compute. reflexivity. Qed.
Example test_150 : wp_test (bytes_of "veryverylongterm") = Ret (Some (Ret (Ok [Token 0 (bytes_of "[UNK]") (Offsets 0 16)]))).
Proof. vm_compute. reflexivity. Qed.

(** * pre-tokenizers *)
Definition views (bs : list byte_split) : list (list Z * Z * Z) :=
  map (λ b, (bs_string b, o_start (bs_offsets b), o_end (bs_offsets b))) bs.
Definition orig_view (r : outcome (pts * option err)) : outcome (list (list Z * Z * Z)) :=
  x ← r; Ret (views (original_byte_splits x.1)).
Definition norm_view (r : outcome (pts * option err)) : outcome (list (list Z * Z * Z)) :=
  x ← r; Ret (views (normalized_byte_splits x.1)).
Definition test_unicode : unicode := {|
  u_other := λ r, byte_in 0 31 r || (r =? 127);
  u_mn := λ r, byte_in 0x300 0x36F r;
  u_punct := λ r, byte_in 33 35 r || byte_in 37 42 r || byte_in 44 47 r || byte_in 58 59 r || byte_in 63 64 r;
  u_lower := λ r, if r =? 0xDC then 0xFC else if r =? 0x1E9E then 0xDF else ascii_lower r;
  u_upper := λ r, if byte_in 97 122 r then r - 32 else r |}.
Example test_151 : orig_view (bert_pretokenizer test_unicode (pts_from_string (bytes_of "Hey friend!     How are you?!?"))) = Ret [((bytes_of "Hey"), 0, 3); ((bytes_of "friend"), 4, 10); ((bytes_of "!"), 10, 11); ((bytes_of "How"), 16, 19); ((bytes_of "are"), 20, 23); ((bytes_of "you"), 24, 27); ((bytes_of "?"), 27, 28); ((bytes_of "!"), 28, 29); ((bytes_of "?"), 29, 30)].
Proof. vm_compute. reflexivity. Qed.
Example test_152 : orig_view (n ← handle_chinese (from_string (bytes_of "野口里佳 Noguchi Rika")); bert_pretokenizer test_unicode (pts_from_ns n)) = Ret [((bytes_of "野"), 0, 3); ((bytes_of "口"), 3, 6); ((bytes_of "里"), 6, 9); ((bytes_of "佳"), 9, 12); ((bytes_of "Noguchi"), 13, 20); ((bytes_of "Rika"), 21, 25)].
Proof. vm_compute. reflexivity. Qed.
Example test_153 : orig_view (metaspace 0x2581 true (pts_from_string (bytes_of "Hey friend!"))) = Ret [((bytes_of "▁Hey"), 0, 3); ((bytes_of "▁friend!"), 3, 11)].
Proof. vm_compute. reflexivity. Qed.
Example test_154 : norm_view (metaspace 0x2581 true (pts_from_string (bytes_of "Hey friend!"))) = Ret [((bytes_of "▁Hey"), 0, 6); ((bytes_of "▁friend!"), 6, 16)].
Proof. vm_compute. reflexivity. Qed.
Example test_155 : orig_view (metaspace 0x2581 true (pts_from_string (bytes_of "Hey   friend!"))) = Ret [((bytes_of "▁Hey"), 0, 3); ((bytes_of "▁"), 3, 4); ((bytes_of "▁"), 4, 5); ((bytes_of "▁friend!"), 5, 13)].
Proof. vm_compute. reflexivity. Qed.
Example test_156 : norm_view (metaspace 0x2581 true (pts_from_string (bytes_of "Hey   friend!"))) = Ret [((bytes_of "▁Hey"), 0, 6); ((bytes_of "▁"), 6, 9); ((bytes_of "▁"), 9, 12); ((bytes_of "▁friend!"), 12, 22)].
Proof. vm_compute. reflexivity. Qed.
Example test_157 : orig_view (rune_delimiter 0x1B1 (pts_from_string (bytes_of ""))) = Ret [].
Proof. vm_compute. reflexivity. Qed.
Example test_158 : orig_view (rune_delimiter 0x1B1 (pts_from_string (bytes_of "Ʊ"))) = Ret [].
Proof. vm_compute. reflexivity. Qed.
Example test_159 : orig_view (rune_delimiter 0x1B1 (pts_from_string (bytes_of "ƱƱ"))) = Ret [].
Proof. vm_compute. reflexivity. Qed.
Example test_160 : orig_view (rune_delimiter 0x1B1 (pts_from_string (bytes_of " "))) = Ret [((bytes_of " "), 0, 1)].
Proof. vm_compute. reflexivity. Qed.
Example test_161 : orig_view (rune_delimiter 0x1B1 (pts_from_string [32; 10; 9])) = Ret [([32; 10; 9], 0, 3)].
Proof. vm_compute. reflexivity. Qed.
Example test_162 : orig_view (rune_delimiter 0x1B1 (pts_from_string (bytes_of "x"))) = Ret [((bytes_of "x"), 0, 1)].
Proof. vm_compute. reflexivity. Qed.
Example test_163 : orig_view (rune_delimiter 0x1B1 (pts_from_string (bytes_of "foo bar"))) = Ret [((bytes_of "foo bar"), 0, 7)].
Proof. vm_compute. reflexivity. Qed.
Example test_164 : orig_view (rune_delimiter 0x1B1 (pts_from_string (bytes_of "fooƱbarƱbaz"))) = Ret [((bytes_of "foo"), 0, 3); ((bytes_of "bar"), 5, 8); ((bytes_of "baz"), 10, 13)].
Proof. vm_compute. reflexivity. Qed.
Example test_165 : orig_view (rune_delimiter 0x1B1 (pts_from_string (bytes_of "Ʊfoo"))) = Ret [((bytes_of "foo"), 2, 5)].
Proof. vm_compute. reflexivity. Qed.
Example test_166 : orig_view (rune_delimiter 0x1B1 (pts_from_string (bytes_of "fooƱ"))) = Ret [((bytes_of "foo"), 0, 3)].
Proof. vm_compute. reflexivity. Qed.
Example test_167 : orig_view (rune_delimiter 0x1B1 (pts_from_string (bytes_of "ƱSüßƱCafé!?Ʊ"))) = Ret [((bytes_of "Süß"), 2, 7); ((bytes_of "Café!?"), 9, 16)].
Proof. vm_compute. reflexivity. Qed.
Example test_168 : orig_view (whitespace_split (pts_from_string (bytes_of "Hey man!"))) = Ret [((bytes_of "Hey"), 0, 3); ((bytes_of "man!"), 4, 8)].
Proof. vm_compute. reflexivity. Qed.
Example test_169 : orig_view (whitespace_split (pts_from_string (bytes_of "Hey, man, Good?"))) = Ret [((bytes_of "Hey,"), 0, 4); ((bytes_of "man,"), 5, 9); ((bytes_of "Good?"), 10, 15)].
Proof. vm_compute. reflexivity. Qed.

(** * normalizers *)
Example test_170 : (ns_norm <$> bert_normalize test_unicode (BertOptions true true true true) (from_string [40; 10; 9; 41; 32; 40; 7; 8; 41; 32; 40; 229; 146; 150; 229; 149; 161; 41; 32; 40; 111; 204; 130; 41; 32; 40; 66; 65; 82; 41])) = Ret (bytes_of "(  ) () ( 咖  啡 ) (o) (bar)").
Proof. vm_compute. reflexivity. Qed.
Example test_171 : (ns_norm <$> bert_normalize test_unicode (BertOptions false false false false) (from_string [40; 10; 9; 41; 32; 40; 7; 8; 41; 32; 40; 229; 146; 150; 229; 149; 161; 41; 32; 40; 111; 204; 130; 41; 32; 40; 66; 65; 82; 41])) = Ret [40; 10; 9; 41; 32; 40; 7; 8; 41; 32; 40; 229; 146; 150; 229; 149; 161; 41; 32; 40; 111; 204; 130; 41; 32; 40; 66; 65; 82; 41].
Proof. vm_compute. reflexivity. Qed.
Example test_172 : (ns_norm <$> bert_normalize test_unicode (BertOptions true false false false) (from_string [40; 10; 9; 41; 32; 40; 7; 8; 41; 32; 40; 229; 146; 150; 229; 149; 161; 41; 32; 40; 111; 204; 130; 41; 32; 40; 66; 65; 82; 41])) = Ret (bytes_of "(  ) () (咖啡) (ô) (BAR)").
Proof. vm_compute. reflexivity. Qed.
Example test_173 : (ns_norm <$> bert_normalize test_unicode (BertOptions false true false false) (from_string [40; 10; 9; 41; 32; 40; 7; 8; 41; 32; 40; 229; 146; 150; 229; 149; 161; 41; 32; 40; 111; 204; 130; 41; 32; 40; 66; 65; 82; 41])) = Ret [40; 10; 9; 41; 32; 40; 7; 8; 41; 32; 40; 32; 229; 146; 150; 32; 32; 229; 149; 161; 32; 41; 32; 40; 111; 204; 130; 41; 32; 40; 66; 65; 82; 41].
Proof. vm_compute. reflexivity. Qed.
Example test_174 : (ns_norm <$> bert_normalize test_unicode (BertOptions false false true false) (from_string [40; 10; 9; 41; 32; 40; 7; 8; 41; 32; 40; 229; 146; 150; 229; 149; 161; 41; 32; 40; 111; 204; 130; 41; 32; 40; 66; 65; 82; 41])) = Ret [40; 10; 9; 41; 32; 40; 7; 8; 41; 32; 40; 229; 146; 150; 229; 149; 161; 41; 32; 40; 111; 41; 32; 40; 66; 65; 82; 41].
Proof. vm_compute. reflexivity. Qed.
Example test_175 : (ns_norm <$> bert_normalize test_unicode (BertOptions false false false true) (from_string [40; 10; 9; 41; 32; 40; 7; 8; 41; 32; 40; 229; 146; 150; 229; 149; 161; 41; 32; 40; 111; 204; 130; 41; 32; 40; 66; 65; 82; 41])) = Ret [40; 10; 9; 41; 32; 40; 7; 8; 41; 32; 40; 229; 146; 150; 229; 149; 161; 41; 32; 40; 111; 204; 130; 41; 32; 40; 98; 97; 114; 41].
Proof. vm_compute. reflexivity. Qed.
Example test_176 : (x ← lowercase_normalizer test_unicode (from_string (bytes_of "Foo Bar SÜẞ")); Ret (ns_norm x.1, x.2)) = Ret ((bytes_of "foo bar süß"), None).
Proof. vm_compute. reflexivity. Qed.
Example test_177 : (x ← sequence_normalizer [lowercase_normalizer test_unicode; strip_normalizer true true] (from_string (bytes_of "  Foo Bar SÜẞ  ")); Ret (ns_norm x.1, x.2)) = Ret ((bytes_of "foo bar süß"), None).
Proof. vm_compute. reflexivity. Qed.
Example test_178 : (x ← sequence_normalizer [strip_normalizer true true] (from_string (bytes_of "  foo  ")); Ret (ns_norm x.1, x.2)) = Ret ((bytes_of "foo"), None).
Proof. vm_compute. reflexivity. Qed.
Example test_179 : (x ← sequence_normalizer [] (from_string (bytes_of "  foo  ")); Ret (ns_norm x.1, x.2)) = Ret ((bytes_of "  foo  "), None).
Proof. vm_compute. reflexivity. Qed.
(** TestSequenceNormalizerReturnsTheFirstErrorEncountered *)
Example test_sequence_error : (x ← sequence_normalizer [lowercase_normalizer test_unicode; (λ n, Ret (n, Some (EExternal 7))); strip_normalizer true true] (from_string (bytes_of "Foo")); Ret (x.2)) = Ret (Some (EExternal 7)).
Proof. vm_compute. reflexivity. Qed.
Example test_180 : (x ← strip_normalizer true false (from_string [32; 10; 9; 102; 111; 111; 9; 10; 32]); Ret (ns_norm x.1, x.2)) = Ret ([102; 111; 111; 9; 10; 32], None).
Proof. vm_compute. reflexivity. Qed.
Example test_181 : (x ← strip_normalizer false true (from_string [32; 10; 9; 102; 111; 111; 9; 10; 32]); Ret (ns_norm x.1, x.2)) = Ret ([32; 10; 9; 102; 111; 111], None).
Proof. vm_compute. reflexivity. Qed.
Example test_182 : (x ← strip_normalizer true true (from_string [32; 10; 9; 102; 111; 111; 9; 10; 32]); Ret (ns_norm x.1, x.2)) = Ret ((bytes_of "foo"), None).
Proof. vm_compute. reflexivity. Qed.
Example test_183 : (x ← strip_normalizer false false (from_string [32; 10; 9; 102; 111; 111; 9; 10; 32]); Ret (ns_norm x.1, x.2)) = Ret ([32; 10; 9; 102; 111; 111; 9; 10; 32], None).
Proof. vm_compute. reflexivity. Qed.

(** * bytelevelpretokenizer_test.go, whitespacepretokenizer_test.go, with the default regular expressions as read in Regex.v; Latin letters and digits *)
Definition test_letter (c : Z) : bool := byte_in 65 90 c || byte_in 97 122 c.
Definition test_digit (c : Z) : bool := byte_in 48 57 c.
Definition test_byte_level (prefixSpace : bool) : pretokenizer :=
  byte_level_new (engine_of (splitting_re ascii_lower test_letter test_digit white_space)) prefixSpace true.
Definition test_whitespace : pretokenizer := whitespace_default (λ c, test_letter c || test_digit c || (c =? 95)) white_space.
Example test_184 : orig_view (test_byte_level false (pts_from_string (bytes_of "Hello my friend, how is your day going?"))) = Ret [((bytes_of "Hello"), 0, 5); ((bytes_of "Ġmy"), 5, 8); ((bytes_of "Ġfriend"), 8, 15); ((bytes_of ","), 15, 16); ((bytes_of "Ġhow"), 16, 20); ((bytes_of "Ġis"), 20, 23); ((bytes_of "Ġyour"), 23, 28); ((bytes_of "Ġday"), 28, 32); ((bytes_of "Ġgoing"), 32, 38); ((bytes_of "?"), 38, 39)].
Proof. vm_compute. reflexivity. Qed.
Example test_185 : norm_view (test_byte_level true (pts_from_string (bytes_of " Hello my friend, how is your day going?"))) = Ret [((bytes_of "ĠHello"), 0, 7); ((bytes_of "Ġmy"), 7, 11); ((bytes_of "Ġfriend"), 11, 19); ((bytes_of ","), 19, 20); ((bytes_of "Ġhow"), 20, 25); ((bytes_of "Ġis"), 25, 29); ((bytes_of "Ġyour"), 29, 35); ((bytes_of "Ġday"), 35, 40); ((bytes_of "Ġgoing"), 40, 47); ((bytes_of "?"), 47, 48)].
Proof. vm_compute. reflexivity. Qed.
Example test_186 : norm_view (test_byte_level true (pts_from_string (bytes_of "Hello my friend, how is your day going?"))) = Ret [((bytes_of "ĠHello"), 0, 7); ((bytes_of "Ġmy"), 7, 11); ((bytes_of "Ġfriend"), 11, 19); ((bytes_of ","), 19, 20); ((bytes_of "Ġhow"), 20, 25); ((bytes_of "Ġis"), 25, 29); ((bytes_of "Ġyour"), 29, 35); ((bytes_of "Ġday"), 35, 40); ((bytes_of "Ġgoing"), 40, 47); ((bytes_of "?"), 47, 48)].
Proof. vm_compute. reflexivity. Qed.
Example test_187 : orig_view (test_byte_level false (pts_from_string [72; 101; 108; 108; 111; 32; 116; 104; 101; 114; 101; 10; 72; 101; 108; 108; 111; 32; 116; 104; 101; 114; 101])) = Ret [((bytes_of "Hello"), 0, 5); ((bytes_of "Ġthere"), 5, 11); ((bytes_of "Ċ"), 11, 12); ((bytes_of "Hello"), 12, 17); ((bytes_of "Ġthere"), 17, 23)].
Proof. vm_compute. reflexivity. Qed.
Example test_188 : orig_view (test_byte_level false (pts_from_string (bytes_of "Hello there       dear"))) = Ret [((bytes_of "Hello"), 0, 5); ((bytes_of "Ġthere"), 5, 11); ((bytes_of "ĠĠĠĠĠĠ"), 11, 17); ((bytes_of "Ġdear"), 17, 22)].
Proof. vm_compute. reflexivity. Qed.
Example test_189 : orig_view (test_byte_level false (pts_from_string (bytes_of "i⭢j"))) = Ret [((bytes_of "i"), 0, 1); ((bytes_of "âŃ¢"), 1, 4); ((bytes_of "j"), 4, 5)].
Proof. vm_compute. reflexivity. Qed.
Example test_190 : norm_view (test_byte_level false (pts_from_string (bytes_of "i⭢j"))) = Ret [((bytes_of "i"), 0, 1); ((bytes_of "âŃ¢"), 1, 7); ((bytes_of "j"), 7, 8)].
Proof. vm_compute. reflexivity. Qed.
Example test_191 : orig_view (test_whitespace (pts_from_string (bytes_of "Hey man!"))) = Ret [((bytes_of "Hey"), 0, 3); ((bytes_of "man"), 4, 7); ((bytes_of "!"), 7, 8)].
Proof. vm_compute. reflexivity. Qed.
Example test_192 : orig_view (test_whitespace (pts_from_string (bytes_of "How are you doing?"))) = Ret [((bytes_of "How"), 0, 3); ((bytes_of "are"), 4, 7); ((bytes_of "you"), 8, 11); ((bytes_of "doing"), 12, 17); ((bytes_of "?"), 17, 18)].
Proof. vm_compute. reflexivity. Qed.
