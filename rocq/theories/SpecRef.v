(** Specification for C111 and C112: the tokens of the programs that the two default pipelines are meant to replace. *)
From stdpp Require Import list.
From Verif Require Import GoBase Vocab WordPiece NormString Encodings PreTokString Normalizers PreTokenizers SpecText SpecBpe SpecWordPiece SpecGpt2 SpecTrain SpecPretok SpecNormalizers SpecEnd SpecPipe.
Import GoBase NormString.
#[local] Open Scope Z_scope.

(** * GPT-2 (encoder.py) *)
(** [a] is followed by [b] somewhere. *)
Fixpoint adjacent (a b : list Z) (ts : list (list Z)) : Prop :=
  match ts with
  | x :: (y :: _) as t => (x = a ∧ y = b) ∨ adjacent a b t
  | _ => False
  end.
(** bpe(): as long as listed pairs are there, all occurrences of the one listed first are joined. *)
Inductive gpt2_bpe (pairs : list (list Z * list Z)) : list (list Z) → list (list Z) → Prop :=
| gpt2_done ts : (∀ p, p ∈ pairs → ¬ adjacent p.1 p.2 ts) → gpt2_bpe pairs ts ts
| gpt2_join before p after ts res :
    pairs = before ++ p :: after → (∀ q, q ∈ before → ¬ adjacent q.1 q.2 ts) → adjacent p.1 p.2 ts →
    gpt2_bpe pairs (join_pass p.1 p.2 ts) res → gpt2_bpe pairs ts res.
(** encode(): the pieces that the regular expression finds, the bytes of each as characters. The expression of GPT-2 respects case. *)
Definition tokens_by (fold : Z → Z) (letter number space : Z → bool) (pairs : list (list Z * list Z)) (text : list Z) (out : list (list Z)) : Prop :=
  ∃ ps parts, pieces fold letter number space text ps
    ∧ Forall2 (λ p, gpt2_bpe pairs (map (λ b, encode_rune (byte_char b)) (encode p))) ps parts
    ∧ out = concat parts.
Definition gpt2_tokens : (Z → bool) → (Z → bool) → (Z → bool) → list (list Z * list Z) → list Z → list (list Z) → Prop := tokens_by (λ c, c).
(** An apostrophe with one of the endings, but not as it is written there: "'T". *)
Definition capitalised (fold : Z → Z) (x : list Z) : Prop :=
  (∃ w, w ∈ endings ∧ map fold x = map fold (39 :: w)) ∧ ∀ w, w ∈ endings → x ≠ 39 :: w.
(** True of the tables of Unicode: nothing but the apostrophe is an apostrophe in another case, it is not a letter, and what is one of
    the letters of the endings in another case is a letter. *)
Definition letter_case (fold : Z → Z) (letter : Z → bool) : Prop :=
  (∀ c, fold c = fold 39 → c = 39) ∧ letter 39 = false ∧ ∀ w c d, w ∈ endings → d ∈ w → fold c = fold d → letter c = true.

(** * BERT (tokenization.py) *)
Section bert.
  (** White space, punctuation, control characters, combining marks, lower case, canonical decomposition. *)
  Context (white punct control mark : Z → bool) (lower : Z → Z) (decomposed : Z → list Z).

  (** _clean_text() *)
  Fixpoint clean_text (text : list Z) : list Z :=
    match text with
    | [] => []
    | c :: text' =>
      if (c =? 0) || (c =? 0xFFFD) || control c then clean_text text'
      else (if white c then 32 else c) :: clean_text text'
    end.
  (** _tokenize_chinese_chars() *)
  Fixpoint chinese_chars (chinese : Z → bool) (text : list Z) : list Z :=
    match text with
    | [] => []
    | c :: text' => (if chinese c then [32; c; 32] else [c]) ++ chinese_chars chinese text'
    end.
  (** whitespace_tokenize(); [word] is the word so far. *)
  Fixpoint words (word text : list Z) : list (list Z) :=
    match text with
    | [] => if decide (word = []) then [] else [word]
    | c :: text' => if white c then (if decide (word = []) then [] else [word]) ++ words [] text' else words (word ++ [c]) text'
    end.
  (** lower(), then _run_strip_accents() *)
  Definition fold_word (word : list Z) : list Z :=
    base.filter (λ c, mark c = false) (flat_map decomposed (map lower word)).
  (** _run_split_on_punc(): punctuation characters stand alone; [word] is the part so far. *)
  Fixpoint split_on_punc (part word : list Z) : list (list Z) :=
    match word with
    | [] => if decide (part = []) then [] else [part]
    | c :: word' => if punct c then (if decide (part = []) then [] else [part]) ++ [c] :: split_on_punc [] word' else split_on_punc (part ++ [c]) word'
    end.
  (** BasicTokenizer.tokenize() *)
  Definition basic_tokens (chinese : Z → bool) (text : list Z) : list (list Z) :=
    flat_map (split_on_punc []) (map fold_word (words [] (chinese_chars chinese (clean_text text)))).
End bert.

(** _is_control(): the categories C, but not these three. *)
Definition control_char (u : unicode) (c : Z) : bool := u_other u c && negb ((c =? 9) || (c =? 10) || (c =? 13)).
(** _is_punctuation(): the categories P, and all other ASCII characters that are not letters, digits, space or control. *)
Definition bert_punct (u : unicode) (c : Z) : bool :=
  ((33 <=? c) && (c <=? 47)) || ((58 <=? c) && (c <=? 64)) || ((91 <=? c) && (c <=? 96)) || ((123 <=? c) && (c <=? 126)) || u_punct u c.
(** _is_chinese_char() *)
Definition chinese_char (c : Z) : bool :=
  ((0x4E00 <=? c) && (c <=? 0x9FFF)) || ((0x3400 <=? c) && (c <=? 0x4DBF)) || ((0x20000 <=? c) && (c <=? 0x2A6DF)) || ((0x2A700 <=? c) && (c <=? 0x2B73F))
  || ((0x2B740 <=? c) && (c <=? 0x2B81F)) || ((0x2B820 <=? c) && (c <=? 0x2CEAF)) || ((0xF900 <=? c) && (c <=? 0xFAFF)) || ((0x2F800 <=? c) && (c <=? 0x2FA1F)).

(** WordpieceTokenizer.tokenize(), for one word *)
Inductive wordpiece_tokens (m : wordpiece) (word : list Z) : list (list Z) → Prop :=
| wordpiece_too_long : w_max m < zlen word → wordpiece_tokens m word [w_unk m]
| wordpiece_bad : zlen word <= w_max m → (∀ segs, ¬ greedy (w_vocab m) (w_prefix m) true word segs) → wordpiece_tokens m word [w_unk m]
| wordpiece_found a segs : zlen word <= w_max m → greedy (w_vocab m) (w_prefix m) true word (a :: segs) →
    wordpiece_tokens m word (encode a :: map (λ s, w_prefix m ++ encode s) segs).

(** FullTokenizer.tokenize() *)
Definition bert_tokens (u : unicode) (decomposed : Z → list Z) (m : wordpiece) (text : list Z) (out : list (list Z)) : Prop :=
  ∃ parts, Forall2 (wordpiece_tokens m) (basic_tokens white_space (bert_punct u) (control_char u) (u_mn u) (u_lower u) decomposed chinese_char text) parts
    ∧ out = concat parts.
(** The same without do_lower_case. *)
Definition bert_cased_tokens (u : unicode) (m : wordpiece) (text : list Z) (out : list (list Z)) : Prop :=
  ∃ parts, Forall2 (wordpiece_tokens m) (basic_tokens white_space (bert_punct u) (control_char u) (λ _, false) (λ c, c) (λ c, [c]) chinese_char text) parts
    ∧ out = concat parts.

(** What is true of the tables of Unicode: lower case is a character, makes and takes no white space and no mark; marks are not white space. *)
Record case_tables (u : unicode) : Prop := {
  ct_scalar : ∀ c, scalar c = true → scalar (u_lower u c) = true;
  ct_white : ∀ c, white_space (u_lower u c) = white_space c;
  ct_mark : ∀ c, u_mn u (u_lower u c) = u_mn u c;
  ct_apart : ∀ c, white_space c = true → u_mn u c = false;
}.
(** A character that the library treats as BERT does: its lower case is its own decomposition; it is punctuation by its category if it is
    for BERT; and it is not in the part of the CJK Extension E that is missing in the library. *)
Definition agreed_char (u : unicode) (decomposed : Z → list Z) (c : Z) : Prop :=
  decomposed (u_lower u c) = [u_lower u c] ∧ bert_punct u (u_lower u c) = u_punct u (u_lower u c) ∧ ¬ (0x2B820 <= c <= 0x2B91F).

(** The library gives the tokens of BERT. *)
Definition bert_agrees (u : unicode) (decomposed : Z → list Z) (m : wordpiece) (rs : list Z) : Prop :=
  ∃ e, encode_normalized (bert_normalizer u default_bert) (bert_pretokenizer u) (wp_model m) (encode rs) (-1) 0 = Ret (Ok e) ∧ bert_tokens u decomposed m rs (e_tokens e).
(** It does so for all texts, under the tables, with a vocabulary of valid terms that has the unknown token, if [also] holds. *)
Definition bert_claim (also : unicode → (Z → list Z) → list Z → Prop) : Prop :=
  ∀ u decomposed m rs, scalars rs → case_tables u → valid_terms (w_vocab m) → valid_utf8 (w_prefix m) = true → is_Some (get_id (w_vocab m) (w_unk m)) →
  also u decomposed rs → bert_agrees u decomposed m rs.
(** The conditions on the text. *)
Definition in_nfd (u : unicode) (decomposed : Z → list Z) (rs : list Z) : Prop := Forall (λ c, decomposed (u_lower u c) = [u_lower u c]) (32 :: rs).
Definition no_symbols (u : unicode) (rs : list Z) : Prop := Forall (λ c, bert_punct u (u_lower u c) = u_punct u (u_lower u c)) (32 :: rs).
Definition no_missing (rs : list Z) : Prop := Forall (λ c, ¬ (0x2B820 <= c <= 0x2B91F)) rs.
Definition no_panic (u : unicode) (rs : list Z) : Prop := bert_normalizer u default_bert (from_string (encode rs)) ≠ Panic.
Definition no_three (u : unicode) (decomposed : Z → list Z) (rs : list Z) : Prop :=
  Forall (λ w, Forall (λ c, rune_len c ≠ 3) (tail w)) (basic_tokens white_space (bert_punct u) (control_char u) (u_mn u) (u_lower u) decomposed chinese_char rs).

(** The words that the library hands to WordPiece, and those of BERT; [o]: the normalizer's options. *)
Definition library_words (u : unicode) (o : bert_options) (rs : list Z) : list (list Z) :=
  flat_map (split_on_punc (u_punct u) []) (words white_space [] (bert_text u o rs)).
Definition reference_words (u : unicode) (decomposed : Z → list Z) (rs : list Z) : list (list Z) :=
  basic_tokens white_space (bert_punct u) (control_char u) (u_mn u) (u_lower u) decomposed chinese_char rs.
Definition reference_cased_words (u : unicode) (rs : list Z) : list (list Z) :=
  basic_tokens white_space (bert_punct u) (control_char u) (λ _, false) (λ c, c) (λ c, [c]) chinese_char rs.
Definition cased_bert : bert_options := BertOptions true true false false.
(** The library gives the tokens of BERT without do_lower_case. *)
Definition bert_cased_agrees (u : unicode) (m : wordpiece) (rs : list Z) : Prop :=
  ∃ e, encode_normalized (bert_normalizer u cased_bert) (bert_pretokenizer u) (wp_model m) (encode rs) (-1) 0 = Ret (Ok e) ∧ bert_cased_tokens u m rs (e_tokens e).
(** True of the tables of Unicode: the letters of the endings are different letters. *)
Definition endings_apart (fold : Z → Z) : Prop := ∀ w w' d d', w ∈ endings → w' ∈ endings → d ∈ w → d' ∈ w' → fold d = fold d' → d = d'.
