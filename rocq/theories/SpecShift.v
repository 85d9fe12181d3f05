(** Specification vocabulary for C96: where a removal at the front of a text finds the spans of what it keeps. *)
From Verif Require Import GoBase Strutils SplitPattern NormString Normalizers SpecText SpecNorm SpecNormalizers.
#[local] Open Scope Z_scope.

(** The span of the character that byte [b] of the text belongs to; [None] outside the text. *)
Fixpoint span_at (v : atext) (b : Z) : option (Z * Z) :=
  match v with
  | [] => None
  | (c, a) :: v' => if b <? 0 then None else if b <? rune_len c then Some a else span_at v' (b - rune_len c)
  end.

(** What is read of the text [rs] from its byte [k] on: each byte left of a character that is cut in two
    reads as U+FFFD. *)
Fixpoint read_from (k : Z) (rs : list Z) : list Z :=
  match rs with
  | [] => []
  | c :: rs' =>
    if k <=? 0 then rs
    else if rune_len c <=? k then read_from (k - rune_len c) rs'
    else repeat 0xFFFD (Z.to_nat (rune_len c - k)) ++ rs'
  end.

(** After a removal of the [k] characters at the front of [v], the [p]-th character left is given the span at
    this byte of [v]: [k] bytes, and then the bytes of the first [p] characters read from there on. *)
Definition found_at (v : atext) (k : Z) (p : nat) : Z := k + zlen (encode (take p (read_from k v.*1))).
(** The characters [cs], each with its position among the characters left, with those spans; [None] if
    one of these bytes is beyond the end. *)
Definition with_found (v : atext) (k : Z) (cs : list (nat * Z)) : option atext :=
  mapM (λ pc : nat * Z, a ← span_at v (found_at v k pc.1); Some (pc.2, a)) cs.

(** The number of characters before the first one to keep. *)
Fixpoint leading (keep : Z → bool) (rs : list Z) : nat :=
  match rs with
  | [] => 0
  | r :: rs' => if keep r then 0 else S (leading keep rs')
  end.

(** Filtering; [None]: a panic. *)
Definition filtered (keep : Z → bool) (v : atext) : option atext :=
  let k := leading keep v.*1 in
  with_found v (Z.of_nat k) (base.filter (λ pc, keep pc.2 = true) (imap pair (drop k v.*1))).

(** BERT normalization; [None]: a panic. *)
Definition if_asked (b : bool) (f : atext → option atext) (v : atext) : option atext := if b then f v else Some v.
Definition bert_found (u : unicode) (o : bert_options) (v : atext) : option atext :=
  v1 ← if_asked (bo_clean o) (λ v, w ← filtered (λ r, negb (bool_decide (cleaned_away u r))) v;
                                Some (map (λ p, (if white_space p.1 then 32 else p.1, p.2)) w)) v;
  v2 ← if_asked (bo_accents o) (filtered (λ r, negb (u_mn u r))) (when (bo_chinese o) (aspaced_out is_chinese) v1);
  Some (when (bo_lower o) (alowered u) v2).
