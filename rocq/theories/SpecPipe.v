(** Specification vocabulary for pipelines that edit the text. *)
From Coq Require Import Sorted QArith.
From Verif Require Import GoBase Strutils SplitPattern NormString Vocab Bpe WordPiece Encodings PreTokString Normalizers PreTokenizers SpecText SpecNorm SpecBpe SpecWordPiece SpecPretok SpecEnd.
Import GoBase NormString SpecNorm.
#[local] Open Scope Z_scope.

(** The client's program with a normalizer in front. *)
Definition encode_normalized (norm : normalizer) (pre : pretokenizer) (model : a_model) (text : list Z) (wordIndex typeID : Z)
    : outcome (result encoding) :=
  x ← norm (from_string text);
  match x.2 with
  | Some e => Ret (Err e)
  | None => encode_ns pre model x.1 wordIndex typeID
  end.

(** The parts of the pieces, each with the number of its piece. *)
Fixpoint numbered {A} (i : nat) (parts : list (list A)) : list (nat * A) :=
  match parts with [] => [] | ps :: rest => map (pair i) ps ++ numbered (S i) rest end.

(** The entry stands for the part [jp.2] of the piece number [jp.1]: its offsets are where in the original
    text the characters of the part come from. *)
Definition stands_for (wordIndex typeID : Z) (jp : nat * atext) (en : enc_token) : Prop :=
  jp.2 ≠ [] ∧ et_word en = (if wordIndex <? 0 then Z.of_nat jp.1 else wordIndex) ∧ et_type en = typeID
  ∧ et_offsets en = Offsets (first_start jp.2) (last_end jp.2).

(** The entries, in order, stand for the parts into which the pieces are cut, without gaps. *)
Definition cut_up (pieces : list atext) (wordIndex typeID : Z) (parts : list (list atext)) (es : list enc_token) : Prop :=
  map (λ ps, concat ps) parts = pieces ∧ Forall2 (stands_for wordIndex typeID) (numbered 0 parts) es.

(** The token is the text of the part, and it has its ID. *)
Definition spelled (v : vocab) (jp : nat * atext) (en : enc_token) : Prop :=
  et_token en = encode jp.2.*1 ∧ get_id v (et_token en) = Some (et_id en).

(** The token is the text of the part, with the prefix unless the part is the first of its piece; or it is
    the unknown token for a whole piece that has no answer. *)
Definition wp_spelled (m : wordpiece) (pieces : list atext) (jp : nat * atext) (en : enc_token) : Prop :=
  get_id (w_vocab m) (et_token en) = Some (et_id en)
  ∧ ∃ t1 t3, pieces !! jp.1 = Some (t1 ++ jp.2 ++ t3)
    ∧ (et_token en = (if decide (t1 = []) then [] else w_prefix m) ++ encode jp.2.*1
       ∨ (t1 = [] ∧ t3 = [] ∧ unanswered m jp.2.*1 ∧ et_token en = w_unk m)).

(** The vocabulary has a term for each byte. *)
Definition has_bytes (v : vocab) : Prop := ∀ b, 0 <= b < 256 → is_Some (get_id v (encode_rune (byte_char b))).

(** The aligned text [t] is what stands at byte [x.1] of [v] and reads [x.2]. *)
Definition found_at (v : atext) (x : Z * list Z) (t : atext) : Prop :=
  ∃ l r, v = l ++ t ++ r ∧ alen l = x.1 ∧ t.*1 = x.2.

(** The bytes [c..d] are the smallest range of whole characters of [s] that contains the bytes [a..b]. *)
Definition smallest_chars (s : list Z) (a b c d : Z) : Prop :=
  boundary s c ∧ boundary s d ∧ c <= a ∧ b <= d ∧ ∀ i, boundary s i → (i <= a → i <= c) ∧ (b <= i → d <= i).

(** From byte [i] on, the entries spell the bytes of [text] to its end. [text] is the original text [s] with
    [p] bytes put before it; these bytes count as the first byte of [s]. *)
Fixpoint spell_bytes (s : list Z) (p : Z) (text : list Z) (i : Z) (es : list enc_token) : Prop :=
  match es with
  | [] => i = zlen text
  | en :: es' =>
    ∃ j bs, i < j ∧ text_at text i j bs ∧ et_token en = encode (map byte_char bs)
      ∧ smallest_chars s (Z.max 0 (i - p)) (Z.max 1 (j - p)) (o_start (et_offsets en)) (o_end (et_offsets en))
      ∧ spell_bytes s p text j es'
  end.

(** Text with meta symbols: [c] for each space, and one before the text if asked for and not there. *)
Definition meta_text (c : Z) (prefix : bool) (rs : list Z) : list Z :=
  map (λ x, if x =? 32 then c else x) (match rs with x :: _ => if prefix && negb (x =? c) then c :: rs else rs | [] => [] end).

(** The entries cover the bytes [a..b] one after the other. *)
Fixpoint chained (a : Z) (es : list enc_token) (b : Z) : Prop :=
  match es with
  | [] => a = b
  | en :: es' => o_start (et_offsets en) = a ∧ a < o_end (et_offsets en) ∧ chained (o_end (et_offsets en)) es' b
  end.
