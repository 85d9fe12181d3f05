(** Property theorems C43-C46 (WordPiece). *)
From Coq Require Import ZifyBool String.
From Verif Require Import GoBase Strutils Vocab Bpe WordPiece SpecText SpecVocab SpecBpe SpecWordPiece Utf8Facts SliceFacts
  WordPieceFacts Lit.
Import GoBase.
#[local] Open Scope string_scope.
#[local] Open Scope list_scope.
#[local] Open Scope Z_scope.

Lemma unknown_spec m s res : wp_unknown m s = res ↔ unknown_answer m s res.
Proof.
  unfold wp_unknown, unknown_answer. destruct (get_id _ _) as [i|]; split.
  - intros <-. left. by exists i.
  - intros [(j & [= <-] & ->)|[? _]]; done.
  - intros <-. by right.
  - intros [(j & ? & _)|[_ ->]]; done.
Qed.
Lemma unknown_ex m s : ∃ res, wp_unknown m s = res ∧ unknown_answer m s res.
Proof. eexists. split; [done|]. by apply unknown_spec. Qed.

(** * C43 *)
Theorem C43_tokens_tile :
  ∀ m s, Forall (λ c, 0 <= c <= 255) s → ∃ res, wp_tokenize m s = Some (Ret res) ∧
  (unknown_answer m s res
   ∨ ∃ toks, res = Ok toks ∧ toks_tile 0 toks (zlen s)
       ∧ Forall (λ t, ∃ x, text_at s (o_start (t_offsets t)) (o_end (t_offsets t)) x
           ∧ t_value t = (if 0 <? o_start (t_offsets t) then w_prefix m else []) ++ x
           ∧ get_id (w_vocab m) (t_value t) = Some (t_id t)) toks).
Proof.
  intros m s Hb. destruct (wp_tokenize_spec m s Hb) as [(l & _ & -> & Hl)|(_ & ->)].
  - eexists. split; [done|]. right. exists l. apply tried_toks_tile in Hl as [H1 H2]. split; [done|]. split; [done|].
    eapply Forall_impl; [exact H2|]. intros t (x & G1 & G2 & G3). exists x. split; [done|]. split; [|done]. rewrite G2. unfold piece_term.
    apply text_at_le in G1. destruct (Z.eqb_spec (o_start (t_offsets t)) 0), (Z.ltb_spec 0 (o_start (t_offsets t))); try done; lia.
  - destruct (unknown_ex m s) as (res & -> & Hr). exists res. auto.
Qed.
Print Assumptions C43_tokens_tile.

Definition ex_vocab (ts : list string) : vocab :=
  match add_terms new_vocab (bytes_of <$> ts) with Ret v => v | Panic => new_vocab end.
Definition ex_wp (ts : list string) : wordpiece := WordPiece (ex_vocab ts) (bytes_of "[UNK]") (bytes_of "##") 100.

(** The first token carries no prefix, the others do; the offsets do not count it. *)
Example C43_example :
  wp_tokenize (ex_wp ["[UNK]"; "un"; "##aff"; "##able"; "##a"]) (bytes_of "unaffable")
  = Some (Ret (Ok [Token 1 (bytes_of "un") (Offsets 0 2); Token 2 (bytes_of "##aff") (Offsets 2 5);
                   Token 3 (bytes_of "##able") (Offsets 5 9)]))
  ∧ wp_tokenize (ex_wp ["[UNK]"; "un"; "##aff"; "##able"; "una"]) (bytes_of "unaffable")
  = Some (Ret (Ok [Token 0 (bytes_of "[UNK]") (Offsets 0 9)]))
  ∧ wp_tokenize (ex_wp ["a"]) [97; 255] = Some (Ret (Err EUnknownTokenOutOfVocabulary)).
Proof. vm_compute. auto. Qed.

(** * C44 *)
(** Exactly what is computed, for all byte strings: greedy longest-match-first over the ends reached from the end of
    the string by steps of one byte (over an ASCII byte) or two bytes (over any other byte). *)
Theorem C44_greedy_over_tried_ends :
  ∀ m s, Forall (λ c, 0 <= c <= 255) s → zlen (runes s) <= w_max m →
  (∃ toks, wp_tokenize m s = Some (Ret (Ok toks)) ∧ tried_toks (w_vocab m) (w_prefix m) s 0 toks)
  ∨ (∃ res, wp_tokenize m s = Some (Ret res) ∧ unknown_answer m s res ∧ ∀ toks, ¬ tried_toks (w_vocab m) (w_prefix m) s 0 toks).
Proof.
  intros m s Hb Hm. destruct (wp_tokenize_spec m s Hb) as [(l & _ & -> & Hl)|([Hc|Hc] & ->)]; [left; eauto|lia|].
  right. destruct (unknown_ex m s) as (res & -> & Hr). eauto.
Qed.
Print Assumptions C44_greedy_over_tried_ends.

(** The full claim holds for words in which no character but the first takes three bytes in UTF-8.
    Missing for the full claim: words with such characters, for which it is false (below). *)
Theorem C44_greedy_partial :
  ∀ m rs, scalars rs → zlen rs <= w_max m → valid_terms (w_vocab m) → valid_utf8 (w_prefix m) = true →
  Forall (λ r, rune_len r ≠ 3) (tail rs) →
  ∃ res, wp_tokenize m (encode rs) = Some (Ret res) ∧ greedy_answer m rs res.
Proof.
  intros m rs Hs Hm Hv Hp H3. pose proof (all_tried_no3 rs H3) as Ht.
  destruct (C44_greedy_over_tried_ends m (encode rs)) as [(toks & -> & Hl)|(res & -> & Hr & Hno)];
    [apply encode_bytes|by rewrite runes_encode_scalars|..].
  - eexists. split; [done|]. left. destruct (tried_greedy _ _ Hv Hp rs [] toks Hs Ht Hl) as (segs & G1 & G2). by exists segs, toks.
  - eexists. split; [done|]. right. split; [|done]. intros segs Hg.
    destruct (greedy_tried _ _ Hv Hp rs [] segs Hs Ht Hg) as (l & G & _). by apply (Hno l).
Qed.
Print Assumptions C44_greedy_partial.

(** There is at most one greedy segmentation. *)
Theorem C44_greedy_unique :
  ∀ v pre first rs s1 s2, greedy v pre first rs s1 → greedy v pre first rs s2 → s1 = s2.
Proof. exact greedy_fun. Qed.
Print Assumptions C44_greedy_unique.

(** One-, two- and four-byte characters, after a three-byte one. *)
Example C44_example :
  let m := ex_wp ["[UNK]"; "野"; "##é𝄞"; "##é"; "##a"; "##aa"] in
  wp_tokenize m (bytes_of "野é𝄞éaaa")
  = Some (Ret (Ok [Token 1 (bytes_of "野") (Offsets 0 3); Token 2 (bytes_of "##é𝄞") (Offsets 3 9);
                   Token 3 (bytes_of "##é") (Offsets 9 11); Token 5 (bytes_of "##aa") (Offsets 11 13); Token 4 (bytes_of "##a") (Offsets 13 14)])).
Proof. vm_compute. reflexivity. Qed.

(** The word 野口 with the terms 野 and ##口: there is a greedy segmentation, but it is not found. *)
Theorem C44_greedy_refuted :
  ¬ ∀ m rs, scalars rs → zlen rs <= w_max m → valid_terms (w_vocab m) → valid_utf8 (w_prefix m) = true →
  ∃ res, wp_tokenize m (encode rs) = Some (Ret res) ∧ greedy_answer m rs res.
Proof.
  intros H. specialize (H (ex_wp ["[UNK]"; "野"; "##口"]) [0x91CE; 0x53E3]).
  destruct H as (res & H & Hg).
  - repeat constructor.
  - vm_compute. discriminate.
  - intros t i Ht. assert (In (t, i) (map_to_list (v_ids (w_vocab (ex_wp ["[UNK]"; "野"; "##口"]))))) as Hin.
    { apply elem_of_list_In, elem_of_map_to_list. exact Ht. }
    vm_compute in Hin. destruct Hin as [[= <- _]|[[= <- _]|[[= <- _]|[]]]]; reflexivity.
  - reflexivity.
  - assert (greedy (w_vocab (ex_wp ["[UNK]"; "野"; "##口"])) (bytes_of "##") true [0x91CE; 0x53E3] [[0x91CE]; [0x53E3]]) as Hgr.
    { apply (greedy_cons _ _ true [0x91CE] [0x53E3]); [done|by eexists|..].
      - intros a' b' E Hl. destruct a' as [|x [|y [|z a']]]; cbn in Hl; try lia; injection E as <- <-; [reflexivity|by destruct a'].
      - apply (greedy_cons _ _ false [0x53E3] []); [done|by eexists|..|constructor].
        intros a' b' E Hl. destruct a' as [|x [|y a']]; cbn in Hl; try lia. discriminate. }
    destruct Hg as [(segs & toks & G1 & G2 & ->)|[G _]]; [|by apply (G _ Hgr)].
    rewrite (greedy_fun _ _ _ _ _ _ G1 Hgr) in G2. vm_compute in H. injection H as <-.
    inversion G2.
Qed.
Print Assumptions C44_greedy_refuted.

(** * C45 *)
Theorem C45_error_iff :
  ∀ m s e, Forall (λ c, 0 <= c <= 255) s →
  wp_tokenize m s = Some (Ret (Err e)) ↔
  e = EUnknownTokenOutOfVocabulary ∧ get_id (w_vocab m) (w_unk m) = None
  ∧ (w_max m < zlen (runes s) ∨ ∀ toks, ¬ tried_toks (w_vocab m) (w_prefix m) s 0 toks).
Proof.
  intros m s e Hb. destruct (wp_tokenize_spec m s Hb) as [(l & Hm & -> & Hl)|(Hc & ->)].
  - split; [discriminate|]. intros (_ & _ & [?|Hno]); [lia|]. by destruct (Hno l).
  - unfold wp_unknown. destruct (get_id _ _) as [i|]; split; try discriminate.
    + by intros (_ & ? & _).
    + intros [= <-]. auto.
    + by intros (-> & _).
Qed.
Print Assumptions C45_error_iff.

Theorem C45_too_long :
  ∀ m s, Forall (λ c, 0 <= c <= 255) s → w_max m < zlen (runes s) →
  ∃ res, wp_tokenize m s = Some (Ret res) ∧ unknown_answer m s res.
Proof.
  intros m s Hb Hm. destruct (wp_tokenize_spec m s Hb) as [(l & ? & _)|(_ & ->)]; [lia|].
  destruct (unknown_ex m s) as (res & -> & Hr). eauto.
Qed.
Print Assumptions C45_too_long.

(** The limit counts characters: two characters in four bytes are within the limit 2. *)
Example C45_example :
  wp_tokenize (WordPiece (ex_vocab ["éé"]) (bytes_of "?") [] 2) (bytes_of "éé") = Some (Ret (Ok [Token 0 (bytes_of "éé") (Offsets 0 4)]))
  ∧ wp_tokenize (WordPiece (ex_vocab ["éé"]) (bytes_of "?") [] 1) (bytes_of "éé") = Some (Ret (Err EUnknownTokenOutOfVocabulary))
  ∧ wp_tokenize (WordPiece (ex_vocab ["éé"; "?"]) (bytes_of "?") [] 1) (bytes_of "éé") = Some (Ret (Ok [Token 1 (bytes_of "?") (Offsets 0 4)])).
Proof. vm_compute. auto. Qed.

(** * C46 *)
Theorem C46_boundaries :
  ∀ m rs toks, scalars rs → valid_terms (w_vocab m) → valid_utf8 (w_prefix m) = true →
  wp_tokenize m (encode rs) = Some (Ret (Ok toks)) →
  Forall (λ t, boundary (encode rs) (o_start (t_offsets t)) ∧ boundary (encode rs) (o_end (t_offsets t))) toks.
Proof.
  intros m rs toks Hs Hv Hp H. destruct (wp_tokenize_spec m (encode rs) (encode_bytes rs)) as [(l & _ & H' & Hl)|(_ & H')].
  - rewrite H in H'. injection H' as <-. exact (tried_toks_boundary _ _ Hv Hp rs [] toks Hs Hl).
  - rewrite H in H'. injection H' as H'. symmetry in H'. apply unknown_spec in H' as [(i & _ & [= ->])|[_ [=]]].
    constructor; [|done]. cbn. split; [by apply boundary_0|by apply boundary_len].
Qed.
Print Assumptions C46_boundaries.

(** The search passes through the middle of 𝄞. With a term that is not UTF-8, a character is cut. *)
Example C46_example :
  wp_tokenize (ex_wp ["a"; "##𝄞"]) (bytes_of "a𝄞") = Some (Ret (Ok [Token 0 (bytes_of "a") (Offsets 0 1); Token 1 (bytes_of "##𝄞") (Offsets 1 5)]))
  ∧ let v := match add_terms new_vocab [[240; 157]; [35; 35; 132; 158]] with Ret v => v | Panic => new_vocab end in
    wp_tokenize (WordPiece v [] [35; 35] 9) (bytes_of "𝄞") = Some (Ret (Ok [Token 0 [240; 157] (Offsets 0 2); Token 1 [35; 35; 132; 158] (Offsets 2 4)])).
Proof. vm_compute. auto. Qed.
