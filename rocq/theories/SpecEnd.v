(** Specification vocabulary for whole pipelines. *)
From Coq Require Import Sorted QArith.
From Verif Require Import GoBase Strutils SplitPattern NormString Vocab Bpe WordPiece Encodings PreTokString Normalizers PreTokenizers Regex SpecText SpecNorm SpecBpe SpecWordPiece SpecPretok.
Import GoBase NormString SpecNorm.
#[local] Open Scope Z_scope.

(** * The program of a client
    There is no such function in the repository; the client calls the pre-tokenizer, then Tokenize with the
    model, then IntoEncoding, and stops at the first error. *)

(** A model as a client's function; the argument [k] numbers the calls (the random numbers a model draws
    may be other ones in each call). Running out of fuel counts as a panic. *)
Definition a_model : Type := nat → list Z → outcome (result (list token)).
Definition finished {A} (x : option (outcome A)) : outcome A := match x with Some y => y | None => Panic end.
Definition wp_model (m : wordpiece) : a_model := λ _ s, finished (wp_tokenize m s).
Definition bpe_model (m : bpe) (draws : nat → nat → Q) : a_model := λ k s, finished (bpe_tokenize m s (draws k)).

(** The function given to Tokenize: the model on the normalized text. *)
Definition calling (model : a_model) : nat → ns → outcome (nat * ns * result (list token)) :=
  λ k n, r ← model k (ns_norm n); Ret (S k, n, r).

(** From a string that may have been normalized before (FromNormalizedString), and from
    plain text. *)
Definition encode_ns (pre : pretokenizer) (model : a_model) (n : ns) (wordIndex typeID : Z)
    : outcome (result encoding) :=
  x ← pre (pts_from_ns n);
  match x.2 with
  | Some e => Ret (Err e)
  | None =>
    y ← pts_tokenize (calling model) O x.1;
    match y.2 with
    | Some e => Ret (Err e)
    | None => into_encoding y.1.2 wordIndex typeID
    end
  end.
Definition encode_text (pre : pretokenizer) (model : a_model) (text : list Z) : Z → Z → outcome (result encoding) :=
  encode_ns pre model (from_string text).

(** * Results *)
(** The encoding has the entries [l], none special, none masked. *)
Definition entries (e : encoding) (l : list enc_token) : Prop :=
  e = Encoding (map et_id l) (map et_type l) (map et_token l) (map et_word l) (map et_offsets l)
               (map (λ _, 0) l) (map (λ _, 1) l) [].

(** The entry [t] comes from the piece number [j], which is [w] and starts at byte [k] of the text: it
    stands for the bytes [a..b] of the piece, which are [x]. *)
Definition comes_from (pieces : list (Z * list Z)) (wordIndex : Z) (t : enc_token) (j : nat) (k : Z) (w : list Z) (a b : Z) (x : list Z) : Prop :=
  pieces !! j = Some (k, w) ∧ et_word t = (if wordIndex <? 0 then Z.of_nat j else wordIndex)
  ∧ et_offsets t = Offsets (k + a) (k + b) ∧ a < b ∧ text_at (encode w) a b x.

(** The ranges of the entries. *)
Definition ranges (l : list enc_token) : list (Z * Z) := map (λ t, (o_start (et_offsets t), o_end (et_offsets t))) l.

(** The entries cover exactly the characters of [rs] that are in [shown]: byte by byte. *)
Definition covers_only (shown : Z → bool) (rs : list Z) (l : list enc_token) : Prop :=
  ∀ a c b i, rs = a ++ c :: b → zlen (encode a) <= i < zlen (encode (a ++ [c])) →
    (shown c = true ↔ ∃ t, t ∈ l ∧ o_start (et_offsets t) <= i < o_end (et_offsets t)).

(** The pre-tokenizers that cut at delimiters, and their delimiters. *)
Inductive delimiting : pretokenizer → (Z → bool) → Prop :=
| delimiting_white : delimiting whitespace_split white_space
| delimiting_rune d : delimiting (rune_delimiter d) (λ c, c =? d).
(** The pieces they make: the runs without delimiters, in order. *)
Definition delimited_pieces (stop : Z → bool) (rs : list Z) (pieces : list (Z * list Z)) : Prop :=
  in_order pieces ∧ ∀ x, x ∈ pieces ↔ run_of stop rs x.
Definition bert_pieces_of (white punct : Z → bool) (rs : list Z) (pieces : list (Z * list Z)) : Prop :=
  in_order pieces ∧ ∀ x, x ∈ pieces ↔ bert_piece white punct rs x.

(** What the pre-tokenizers make of a text: pieces, which cover the characters in [shown]. *)
Inductive cuts : pretokenizer → list Z → (Z → bool) → list (Z * list Z) → Prop :=
| cuts_delimited pre stop rs pieces : delimiting pre stop → delimited_pieces stop rs pieces → cuts pre rs (λ c, negb (stop c)) pieces
| cuts_bert u rs pieces : bert_pieces_of white_space (u_punct u) rs pieces → cuts (bert_pretokenizer u) rs (λ c, negb (white_space c)) pieces
| cuts_words word space rs pieces : in_order pieces → (∀ x, x ∈ pieces ↔ kind_run word space rs x) →
    cuts (whitespace_pretokenizer (engine_of (word_re word space))) rs (λ c, word c || negb (space c)) pieces.

(** * Quotations *)
(** There is no greedy answer for the word: it is too long, or no sequence of terms spells it. *)
Definition unanswered (m : wordpiece) (w : list Z) : Prop :=
  w_max m < zlen w ∨ ∀ toks, ¬ tried_toks (w_vocab m) (w_prefix m) (encode w) 0 toks.

(** An entry quotes the text at its offsets, with the prefix unless it starts a piece; or it is the unknown
    token for a whole piece that has no answer. *)
Definition wp_quotes (m : wordpiece) (rs : list Z) (pieces : list (Z * list Z)) (wi ty : Z) (en : enc_token) : Prop :=
  et_type en = ty ∧ get_id (w_vocab m) (et_token en) = Some (et_id en)
  ∧ ∃ j k w a b x, comes_from pieces wi en j k w a b x
    ∧ text_at (encode rs) (o_start (et_offsets en)) (o_end (et_offsets en)) x
    ∧ (et_token en = (if 0 <? a then w_prefix m else []) ++ x
       ∨ (unanswered m w ∧ et_token en = w_unk m ∧ x = encode w)).

(** An entry quotes the text at its offsets. *)
Definition bpe_quotes (m : bpe) (rs : list Z) (pieces : list (Z * list Z)) (wi ty : Z) (en : enc_token) : Prop :=
  et_type en = ty ∧ get_id (b_vocab m) (et_token en) = Some (et_id en)
  ∧ text_at (encode rs) (o_start (et_offsets en)) (o_end (et_offsets en)) (et_token en)
  ∧ ∃ j k w a b, comes_from pieces wi en j k w a b (et_token en).

(** * Edited texts *)
(** [n] holds the characters [t], whose spans are byte positions in the whole text. *)
Definition holds_at (t : atext) (n : ns) : Prop := repr n (shift_spans (- ns_shift n) t).

(** The entry [en] comes from the piece number [j], of which it stands for the characters [t2]; its offsets
    are where these come from. *)
Definition comes_from_chars (pieces : list atext) (wordIndex : Z) (en : enc_token) (j : nat) (t1 t2 t3 : atext) : Prop :=
  pieces !! j = Some (t1 ++ t2 ++ t3) ∧ et_word en = (if wordIndex <? 0 then Z.of_nat j else wordIndex)
  ∧ t2 ≠ [] ∧ et_offsets en = Offsets (first_start t2) (last_end t2).
