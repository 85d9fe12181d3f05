(** Specification vocabulary for C100: encoding strings that need not be valid UTF-8. *)
From Verif Require Import GoBase Strutils NormString Bpe Encodings PreTokString PreTokenizers SpecInvalid.
#[local] Open Scope Z_scope.

(** Go's reading of a string is a list of characters with the number of bytes each was read from; an undecodable
    byte is U+FFFD of one byte. *)
Definition read_bytes (g : list (Z * Z)) : Z := foldr Z.add 0 g.*2.
(** Two bytes too many behind an undecodable byte. *)
Definition excess (g : list (Z * Z)) : Z := if decide (last g = Some (rune_error, 1)) then 2 else 0.

(** Groups of characters from byte [p] on: where each starts, and where it is said to end. *)
Fixpoint said_places (p : Z) (groups : list (list (Z * Z))) : list offsets :=
  match groups with
  | [] => []
  | g :: groups' => Offsets p (p + read_bytes g + excess g) :: said_places (p + read_bytes g) groups'
  end.
(** Where they are. *)
Fixpoint true_places (p : Z) (groups : list (list (Z * Z))) : list offsets :=
  match groups with
  | [] => []
  | g :: groups' => Offsets p (p + read_bytes g) :: true_places (p + read_bytes g) groups'
  end.

(** No pre-tokenizer: the text stays one piece. *)
Definition uncut : pretokenizer := λ p, Ret (p, None).

(** The span of byte [i] of the text as read, that is with U+FFFD (three bytes) for each undecodable byte. *)
Fixpoint read_span (p : Z) (d : list (Z * Z)) (i : Z) : Z * Z :=
  match d with
  | [] => (0, 0)
  | (r, w) :: d' => if i <? rune_len r then (p, p + rune_len r) else read_span (p + w) d' (i - rune_len r)
  end.
