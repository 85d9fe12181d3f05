(** C94: characters and bytes, slices, white space: what the theorems take from Go. *)
From Coq Require Import String.
From Verif Require Import GoBase SpecUtf8 Utf8Facts SliceFacts CodecFacts.
Import GoBase.
#[local] Open Scope Z_scope.

(** [string(r)]: the bytes of the character, or of U+FFFD if [r] is no character. *)
Theorem C94_encode r : (char r → utf8 r (encode_rune r)) ∧ (¬ char r → utf8 0xFFFD (encode_rune r)).
Proof. split; [apply utf8_encode|apply encode_bad]. Qed.
Print Assumptions C94_encode.
(** A character has one encoding, and no encoding is the start of another. *)
Theorem C94_prefix_free r r' bs bs' t t' : utf8 r bs → utf8 r' bs' → bs ++ t = bs' ++ t' → r = r' ∧ bs = bs' ∧ t = t'.
Proof.
  intros H H' E. pose proof (utf8_scalar _ _ H) as Hc%char_scalar. pose proof (utf8_scalar _ _ H') as Hc'%char_scalar.
  apply utf8_rune in H as ->. apply utf8_rune in H' as ->. pose proof (f_equal decode E) as Ed.
  rewrite !decode_encode_rune, !sanitize_id in Ed by done. injection Ed as <- _ _. by apply app_inv_head in E as <-.
Qed.
Print Assumptions C94_prefix_free.
(** [for _, r := range s], with the number of bytes of each round. *)
Theorem C94_decode s l : decode s = l ↔ read s l.
Proof. split; [intros <-; apply decode_read|apply read_decode]. Qed.
Print Assumptions C94_decode.
(** [for i, r := range s] and [[]rune(s)]: the index of a character is the number of bytes before it. *)
Theorem C94_range s l : read s l → runes s = l.*1 ∧ (range_str s).*2 = l.*1
  ∧ ∀ i k, (range_str s).*1 !! i = Some k → k = foldr Z.add 0 (take i (l.*2)).
Proof.
  intros <-%read_decode. split; [done|]. unfold range_str.
  assert (∀ d j, (positions j d).*2 = d.*1 ∧ ∀ i k, (positions j d).*1 !! i = Some k → k = j + foldr Z.add 0 (take i (d.*2))) as H.
  { induction d as [|[r w] d IH]; intros j; [done|]. cbn [positions]. rewrite !fmap_cons. destruct (IH (j + w)) as [H1 H2].
    split; [by rewrite H1|]. intros [|i] k; cbn; [intros [= <-]; lia|]. intros Hk%H2. lia. }
  destruct (H (decode s) 0) as [H1 H2]. split; [done|]. intros i k Hk%H2. lia.
Qed.
Print Assumptions C94_range.
(** Valid strings are the sequences of characters. *)
Theorem C94_valid s : valid_utf8 s = true ↔ ∃ cs, Forall (λ c : Z * list Z, utf8 c.1 c.2) cs ∧ s = concat (cs.*2).
Proof.
  rewrite valid_utf8_spec. split.
  - intros (rs & Hs & ->). exists (map (λ r, (r, encode_rune r)) rs). induction Hs as [|r rs Hr _ [IH1 IH2]]; [by split; [constructor|]|].
    cbn [map]. split; [constructor; [|done]|by rewrite encode_cons, IH2]. by apply utf8_encode, char_scalar.
  - intros (cs & Hc & ->). exists (cs.*1). induction Hc as [|[r bs] cs Hr _ [IH1 IH2]]; [by split; [constructor|]|]. rewrite !fmap_cons. cbn in Hr |- *.
    split; [constructor; [by apply char_scalar, (utf8_scalar _ bs)|done]|]. rewrite IH2. f_equal. by apply utf8_rune.
Qed.
Print Assumptions C94_valid.
(** [l[i:j]] and [l[i]]. *)
Theorem C94_slice {A} (l : list A) i j x : sub l i j = Ret x ↔ ∃ a b, l = a ++ x ++ b ∧ i = Z.of_nat (length a) ∧ j = Z.of_nat (length (a ++ x)).
Proof.
  rewrite sub_Ret. unfold zlen. setoid_rewrite app_length. split; intros (a & b & H1 & H2 & H3); exists a, b; (split; [done|lia]).
Qed.
Print Assumptions C94_slice.
Theorem C94_index {A} (l : list A) i x : idx l i = Ret x ↔ ∃ a b, l = a ++ x :: b ∧ i = Z.of_nat (length a).
Proof.
  rewrite idx_lookup. split.
  - intros [Hi Hx]. exists (take (Z.to_nat i) l), (drop (S (Z.to_nat i)) l). rewrite take_drop_middle by done. split; [done|].
    apply lookup_lt_Some in Hx. rewrite take_length. lia.
  - intros (a & b & -> & ->). split; [lia|]. rewrite Nat2Z.id. by rewrite list_lookup_middle.
Qed.
Print Assumptions C94_index.
(** [unicode.White_Space]. *)
Theorem C94_white_space r : white_space r = true ↔ r ∈ white.
Proof. apply white_spec. Qed.
Print Assumptions C94_white_space.

(** One character of each length; a surrogate and a number beyond Unicode; a character cut off after two of
    three bytes, an overlong encoding, an encoded surrogate, and one past U+10FFFF: each byte by itself. *)
Example C94_example :
  let bad := (0xFFFD, 1) in
  encode [0x61; 0xE9; 0x20AC; 0x1F600; 0xD800; 0x110000]
    = [0x61; 0xC3; 0xA9; 0xE2; 0x82; 0xAC; 0xF0; 0x9F; 0x98; 0x80; 0xEF; 0xBF; 0xBD; 0xEF; 0xBF; 0xBD]
  ∧ decode [0xE2; 0x82; 0x61; 0xC1; 0x80; 0xC2; 0x80; 0xED; 0xA0; 0x80; 0xF4; 0x90; 0x80; 0x80; 0xF4; 0x8F; 0xBF; 0xBF; 0xE0; 0x9F; 0x80; 0xE0; 0xA0; 0x80; 0xF0; 0x90; 0x80; 0x80; 0xF0; 0x8F; 0xBF; 0xBF; 0xED; 0x9F; 0xBF; 0xEE; 0x80; 0x80; 0xF5; 0x80; 0x80; 0x80; 0xF0; 0x90; 0x80; 0xC0; 0x61; 0xF1; 0x80; 0x7F; 0x80; 0xE1; 0xC0; 0x80; 0xE1; 0x80; 0x7F; 0xDF; 0xC0]
    = [bad; bad; (0x61, 1); bad; bad; (0x80, 2); bad; bad; bad; bad; bad; bad; bad; (0x10FFFF, 4); bad; bad; bad; (0x800, 3); (0x10000, 4);
       bad; bad; bad; bad; (0xD7FF, 3); (0xE000, 3); bad; bad; bad; bad; bad; bad; bad; bad; (0x61, 1); bad; bad; (0x7F, 1); bad; bad; bad; bad; bad; bad; (0x7F, 1); bad; bad]
  ∧ range_str [0x61; 0xC3; 0xA9; 0xFF; 0xE2; 0x82; 0xAC; 0x62] = [(0, 0x61); (1, 0xE9); (3, 0xFFFD); (4, 0x20AC); (7, 0x62)]
  ∧ valid_utf8 [0xEF; 0xBF; 0xBD; 0x61] = true ∧ valid_utf8 [0x61; 0xBF] = false
  ∧ sub [1; 2; 3; 4] 1 3 = Ret [2; 3] ∧ sub [1; 2] 2 2 = Ret [] ∧ sub [1; 2] 1 3 = Panic ∧ sub [1; 2; 3] 2 1 = Panic ∧ sub [1] (-1) 1 = Panic
  ∧ idx [1; 2; 3] 2 = Ret 3 ∧ idx [1] 1 = Panic ∧ idx [1] (-1) = Panic
  ∧ map white_space [0x8; 0x9; 0xD; 0xE; 0x20; 0x85; 0xA0; 0x180E; 0x1680; 0x1FFF; 0x2000; 0x200A; 0x200B; 0x2028; 0x2029; 0x202F; 0x205F; 0x2060; 0x3000; 0xFEFF]
    = [false; true; true; false; true; true; true; false; true; false; true; true; false; true; true; true; true; false; true; false].
Proof. vm_compute. auto 20. Qed.
