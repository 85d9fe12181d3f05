(** Property theorems C96: Filter, Trim and the normalizers made of them, in every case; C11: Append in every case. *)
From Coq Require Import ZifyBool.
From Verif Require Import GoBase Utf8Facts Strutils SplitPattern NormString Normalizers SpecText SpecNorm SpecNormalizers SliceFacts NormFacts
  SpecShift ShiftFacts.
Import GoBase SpecNorm.
#[local] Open Scope Z_scope.

(** * C96 *)
(** [filtered] says what becomes of the text and its spans, and when Filter panics. *)
Theorem C96_filter :
  ∀ n v keep, repr n v →
  match filtered keep v with
  | Some w => ∃ n', filter_runes n keep = Ret n' ∧ repr n' w ∧ same_origin n n'
  | None => filter_runes n keep = Panic
  end.
Proof. exact filter_found. Qed.
Print Assumptions C96_filter.

(** It panics if and only if the byte where the span of a character kept is looked for is beyond the end. *)
Theorem C96_filter_panics_iff :
  ∀ n v keep, repr n v →
  let k := leading keep v.*1 in
  filter_runes n keep = Panic ↔
  ∃ p c, drop k v.*1 !! p = Some c ∧ keep c = true ∧ zlen (encode v.*1) <= found_at v (Z.of_nat k) p.
Proof.
  intros n v keep Hr k. unfold k. rewrite <- filtered_None. pose proof (filter_found n v keep Hr) as H. destruct (filtered keep v).
  - destruct H as (n' & -> & _). done.
  - done.
Qed.
Print Assumptions C96_filter_panics_iff.

(** The spans are those of the characters themselves if what is removed at the front takes a byte each. *)
Theorem C96_filter_ascii :
  ∀ keep v, Forall (λ r, r < 128) (take (leading keep v.*1) v.*1) → scalars v.*1 →
  filtered keep v = Some (base.filter (λ p, keep p.1 = true) v).
Proof.
  intros keep v Hl Hs. unfold filtered. set (k := leading keep v.*1) in *. pose proof (leading_le keep v.*1) as Hk. fold k in Hk. rewrite fmap_length in Hk.
  pose proof (with_found_right (take k v) (drop k v) (λ c, keep c = true)) as H. rewrite take_drop in H.
  assert (zlen (take k v) = Z.of_nat k) as Hz by (unfold zlen; rewrite take_length; lia). rewrite Hz, fmap_drop in H. rewrite H.
  - f_equal. rewrite <- (take_drop k v) at 2. rewrite filter_app. rewrite (filter_none _ (take k v)); [done|]. unfold k. clear. induction v as [|[x a] v IH]; [intros ? ?%elem_of_nil; done|].
    intros y. rewrite fmap_cons. cbn [leading fst]. destruct (keep x) eqn:E; [intros ?%elem_of_nil; done|]. cbn [take]. intros [->|Hy]%elem_of_cons; [cbn; by rewrite E|]. by apply IH.
  - rewrite fmap_take. rewrite encode_ascii.
    + unfold zlen. rewrite take_length, fmap_length. lia.
    + apply Forall_forall. intros x Hx. pose proof (proj1 (Forall_forall _ _) Hl x Hx). cbn in H0. apply (Forall_take _ k) in Hs. pose proof (proj1 (Forall_forall _ _) Hs x Hx) as Hsc. cbn in Hsc.
      apply scalar_spec in Hsc. lia.
Qed.
Print Assumptions C96_filter_ascii.

(** One character of two or more bytes, removed in front of kept ASCII text: from a certain length of the text on,
    Filter panics. That is two characters after a character of two bytes, three after one of three or four. *)
Theorem C96_mark :
  ∀ n keep c a rest, repr n ((c, a) :: rest) → keep c = false → 128 <= c →
  Forall (λ p, 0 <= p.1 < 128 ∧ keep p.1 = true) rest →
  filter_runes n keep = Panic ↔ rune_len c + 2 <= 2 * zlen rest.
Proof.
  intros n keep c a rest Hr Hc H1 Hk. pose proof Hr as (Hs & _). rewrite fmap_cons in Hs. apply Forall_cons in Hs as [Hs _].
  rewrite <- (mark_None keep c a rest) by done. pose proof (filter_found n _ keep Hr) as H. destruct (filtered keep _).
  - destruct H as (n' & -> & _). done.
  - done.
Qed.
Print Assumptions C96_mark.

(** Trim, of white space [lead] and [trail] around [mid]. *)
Theorem C96_trim :
  ∀ n left right lead mid trail, repr n (lead ++ mid ++ trail) → trimmed left right lead mid trail →
  match with_found (lead ++ mid ++ trail) (zlen lead) (imap pair mid.*1) with
  | Some w => ∃ n', trim_left_right n left right = Ret n' ∧ repr n' w ∧ same_origin n n'
  | None => trim_left_right n left right = Panic
  end.
Proof. exact trim_found. Qed.
Print Assumptions C96_trim.

Theorem C96_trim_panics_iff :
  ∀ n left right lead mid trail, repr n (lead ++ mid ++ trail) → trimmed left right lead mid trail →
  trim_left_right n left right = Panic ↔
  ∃ p, (p < length mid)%nat ∧ zlen (encode (lead ++ mid ++ trail).*1) <= found_at (lead ++ mid ++ trail) (zlen lead) p.
Proof.
  intros n left right lead mid trail Hr Ht. pose proof (trim_found n left right lead mid trail Hr Ht) as H.
  assert (E : trim_left_right n left right = Panic ↔ with_found (lead ++ mid ++ trail) (zlen lead) (imap pair mid.*1) = None).
  { destruct (with_found _ _ _); [destruct H as (n' & -> & _)|]; done. }
  rewrite E, with_found_None by apply zlen_nonneg. split.
  - intros (p & c & Hin & Hx). exists p. split; [|done]. apply elem_of_lookup_imap in Hin as (i & y & [= -> ->] & Hy%lookup_lt_Some). by rewrite fmap_length in Hy.
  - intros (p & Hp & Hx). destruct (lookup_lt_is_Some_2 mid p Hp) as [[c a] Hc]. exists p, c. split; [|done]. apply elem_of_lookup_imap. exists p, c. split; [done|].
    by rewrite list_lookup_fmap, Hc.
Qed.
Print Assumptions C96_trim_panics_iff.

Theorem C96_strip :
  ∀ n left right lead mid trail, repr n (lead ++ mid ++ trail) → trimmed left right lead mid trail →
  match with_found (lead ++ mid ++ trail) (zlen lead) (imap pair mid.*1) with
  | Some w => ∃ n', strip_normalizer left right n = Ret (n', None) ∧ repr n' w ∧ same_origin n n'
  | None => strip_normalizer left right n = Panic
  end.
Proof.
  intros n left right lead mid trail Hr Ht. pose proof (trim_found n left right lead mid trail Hr Ht) as H. unfold strip_normalizer, no_error.
  destruct (with_found _ _ _) as [w|]; [|by rewrite H]. destruct H as (n' & -> & H). by exists n'.
Qed.
Print Assumptions C96_strip.

(** The BERT normalizer: all options, all characters. *)
Theorem C96_bert :
  ∀ u o n v, repr n v →
  match bert_found u o v with
  | Some w => ∃ n', bert_normalizer u o n = Ret (n', None) ∧ repr n' w ∧ same_origin n n'
  | None => bert_normalizer u o n = Panic
  end.
Proof.
  intros u o n v Hr. pose proof (bert_found_spec u o n v Hr) as H. unfold bert_normalizer, no_error.
  destruct (bert_found u o v) as [w|]; [|by rewrite H]. destruct H as (n' & -> & H). by exists n'.
Qed.
Print Assumptions C96_bert.

(** A byte order mark, or any other character of three or four bytes that cleaning removes, in front of three or
    more printable ASCII characters: the normalizer panics, whatever its other options. *)
Theorem C96_bert_mark :
  ∀ u o c rest, bo_clean o = true → cleaned_away u c → scalar c = true → 0x800 <= c →
  Forall (λ r, 0 <= r < 128 ∧ ¬ cleaned_away u r) rest → 3 <= zlen rest →
  bert_normalizer u o (from_string (encode (c :: rest))) = Panic.
Proof.
  intros u o c rest Ho Hc Hs H8 Hr Hl.
  assert (Hrep : repr (from_string (encode (c :: rest))) ((c, (0, 0 + rune_len c)) :: fresh (0 + rune_len c) rest)).
  { apply (from_string_repr (c :: rest)). constructor; [done|]. eapply Forall_impl; [exact Hr|]. intros r [Hb _]. apply scalar_spec. cbn in Hb. lia. }
  pose proof (C96_bert u o _ _ Hrep) as H. unfold bert_found in H. rewrite Ho in H. cbn [if_asked] in H.
  assert (E : filtered (λ r, negb (bool_decide (cleaned_away u r))) ((c, (0, 0 + rune_len c)) :: fresh (0 + rune_len c) rest) = None).
  { apply mark_None.
    - by rewrite bool_decide_true.
    - lia.
    - done.
    - assert (Hf : Forall (λ r, 0 <= r < 128 ∧ negb (bool_decide (cleaned_away u r)) = true) (fresh (0 + rune_len c) rest).*1).
      { rewrite fresh_chars. eapply Forall_impl; [exact Hr|]. intros r [Hb Hk]. split; [done|]. by rewrite bool_decide_false. }
      rewrite Forall_fmap in Hf. exact Hf.
    - assert (zlen (fresh (0 + rune_len c) rest) = zlen rest) as ->. { rewrite <- (fresh_chars (0 + rune_len c) rest) at 2. unfold zlen. by rewrite fmap_length. }
      pose proof (rune_len_bounds c). lia. }
  rewrite E in H. exact H.
Qed.
Print Assumptions C96_bert_mark.

(** The byte order mark before "a", before "ab" and before "abc"; U+0301 before "a" and before "ab"; several
    removed characters, of which the code skips as many bytes; one more removed character inside. *)
Example C96_example :
  let keep := λ r, (r <? 128) || (0x4E00 <=? r) && (r <? 0xA000) in
  let run rs := (n ← filter_runes (from_string (encode rs)) keep; Ret (ns_norm n, ns_al n)) in
  filtered keep (fresh 0 [0xFEFF; 97]) = Some [(97, (0, 3))] ∧ run [0xFEFF; 97] = Ret ([97], [(0, 3)])
  ∧ filtered keep (fresh 0 [0xFEFF; 97; 98]) = Some [(97, (0, 3)); (98, (4, 5))] ∧ run [0xFEFF; 97; 98] = Ret ([97; 98], [(0, 3); (4, 5)])
  ∧ filtered keep (fresh 0 [0xFEFF; 97; 98; 99]) = None ∧ run [0xFEFF; 97; 98; 99] = Panic
  ∧ run [0x301; 97] = Ret ([97], [(0, 2)]) ∧ run [0x301; 97; 98] = Panic
  ∧ read_from 3 [0xE9; 0xEA; 0x4E8C; 97] = [0xFFFD; 0x4E8C; 97]
  ∧ filtered keep (fresh 0 [0xE9; 0xEA; 0xEB; 0x4E8C; 0xE9; 97; 98]) = Some [(0x4E8C, (2, 4)); (97, (6, 9)); (98, (11, 12))]
  ∧ filtered keep (fresh 0 [0xE9; 0xEA; 0x4E8C; 0xE9; 0x4E8C; 0x4E8D; 97]) = Some [(0x4E8C, (2, 4)); (0x4E8C, (7, 9)); (0x4E8D, (9, 12)); (97, (12, 15))]
  ∧ run [0xE9; 0xEA; 0x4E8C; 0xE9; 0x4E8C; 0x4E8D; 97]
    = Ret (encode [0x4E8C; 0x4E8C; 0x4E8D; 97], [(2, 4); (2, 4); (2, 4); (7, 9); (7, 9); (7, 9); (9, 12); (9, 12); (9, 12); (12, 15)])
  ∧ filtered keep (fresh 0 [0xE9; 0x301]) = Some [] ∧ run [0xE9; 0x301] = Ret ([], []).
Proof. vm_compute. auto 20. Qed.

Example C96_trim_example :
  let run rs := (n ← trim_left_right (from_string (encode rs)) true true; Ret (ns_norm n, ns_al n)) in
  with_found (fresh 0 [0x3000; 0xE9; 97; 0x3000]) 1 (imap pair [0xE9; 97]) = Some [(0xE9, (0, 3)); (97, (3, 5))]
  ∧ run [0x3000; 0xE9; 97; 0x3000] = Ret (encode [0xE9; 97], [(0, 3); (0, 3); (3, 5)])
  ∧ with_found (fresh 0 [0x3000; 97; 98; 99]) 1 (imap pair [97; 98; 99]) = None ∧ run [0x3000; 97; 98; 99] = Panic
  ∧ let u := Unicode (λ r, r =? 0xFEFF) (λ r, r =? 0x301) (λ _, false) (λ c, c) (λ c, c) in
    bert_found u default_bert (fresh 0 [0xFEFF; 0x301; 97]) = Some [(97, (0, 3))]
    ∧ (x ← bert_normalizer u default_bert (from_string (encode [0xFEFF; 0x301; 97])); Ret (ns_norm x.1, ns_al x.1)) = Ret ([97], [(0, 3)])
    ∧ cleaned_away u 0xFEFF ∧ bert_normalizer u default_bert (from_string (encode [0xFEFF; 97; 98; 99; 100])) = Panic.
Proof. do 4 (split; [vm_compute; reflexivity|]). intros u. split; [vm_compute; reflexivity|]. split; [vm_compute; reflexivity|]. split; [right; right; cbn; lia|vm_compute; reflexivity]. Qed.

(** * C11: Append, exactly *)
(** The text is cut after as many bytes as there are characters but one; the last character and the new text
    follow. The last character gets the span found at the cut, the new characters get the span at the end of the character
    read there. *)
Theorem C11_append_exact :
  ∀ n v x a p c cs, repr n (v ++ [(x, a)]) → read_from (zlen v) (v.*1 ++ [x]) = c :: cs →
  let s := encode (v.*1 ++ [x]) in let b := zlen v + rune_len c - 1 in
  if decide (p = [] ∨ b < zlen s) then
    ∃ a1 a2 n', append n p = Ret n' ∧ span_at (v ++ [(x, a)]) (zlen v) = Some a1 ∧ (p = [] ∨ span_at (v ++ [(x, a)]) b = Some a2)
      ∧ ns_norm n' = take (length v) s ++ encode (x :: runes p)
      ∧ ns_al n' = take (length v) (spans_of (v ++ [(x, a)])) ++ repeat a1 (length (encode_rune x)) ++ repeat a2 (length (encode (runes p)))
      ∧ same_origin n n'
  else append n p = Panic.
Proof. exact append_found. Qed.
Print Assumptions C11_append_exact.

(** It panics exactly on ASCII text, a character of two bytes and one more ASCII character, if there is something to append. *)
Theorem C11_append_panics_iff :
  ∀ n v x a p, repr n (v ++ [(x, a)]) →
  append n p = Panic ↔ p ≠ [] ∧ x < 128 ∧ ∃ w c, v.*1 = w ++ [c] ∧ Forall (λ r, r < 128) w ∧ 128 <= c < 0x800.
Proof. exact append_panic_iff. Qed.
Print Assumptions C11_append_panics_iff.

(** "aéb" with "!" appended, and with nothing; "éab", where é is left, and 野ab, where not even UTF-8 is. *)
Example C11_exact_example :
  let run rs := (n ← append (from_string (encode rs)) [33]; Ret (ns_norm n, ns_al n)) in
  run [97; 0xE9; 98] = Panic ∧ append (from_string (encode [97; 0xE9; 98])) [] = Ret (NS (encode [97; 0xE9; 98]) [97; 195; 98] [(0, 1); (1, 3); (1, 3)] 0)
  ∧ read_from 2 [97; 0xE9; 98] = [0xFFFD; 98]
  ∧ read_from 2 [0xE9; 97; 98] = [97; 98] ∧ run [0xE9; 97; 98] = Ret (encode [0xE9; 98; 33], [(0, 2); (0, 2); (2, 3); (2, 3)])
  ∧ run [0x91CE; 97; 98] = Ret ([0xE9; 0x87; 98; 33], [(0, 3); (0, 3); (0, 3); (4, 5)]).
Proof. vm_compute. auto 10. Qed.
