(** Go run-time basics used by the model: panics, error returns, bounds-checked
    slicing, and UTF-8 exactly as Go's [range], [[]rune(s)] and [string(r)] do it.

    Go strings and byte slices are [list Z] (byte values), runes and ints are [Z]. *)
From Coq Require Export ZArith Lia.
From stdpp Require Export base tactics numbers list.
Export ListNotations.
#[global] Open Scope Z_scope.

(** A computation that may panic (run-time error: index or slice out of range,
    explicit [panic], write to a nil map). *)
Inductive outcome (A : Type) : Type :=
| Ret (a : A)
| Panic.
Arguments Ret {A} _.
Arguments Panic {A}.

#[global] Instance outcome_ret : MRet outcome := λ A x, Ret x.
#[global] Instance outcome_bind : MBind outcome := λ A B f m,
  match m with Ret a => f a | Panic => Panic end.
#[global] Instance outcome_fmap : FMap outcome := λ A B f m,
  match m with Ret a => Ret (f a) | Panic => Panic end.

(** Go error returns [(x, err)]: either a value with a nil error, or an error. *)
Inductive err : Type :=
| EUnknownTokenOutOfVocabulary               (* bpemodel.go:14, wordpiecemodel.go:14 *)
| EIDNotFound (id : Z)                       (* bpemodel.go:191 *)
| EMalformedMerges (line : Z)                (* mergemap.go:63 *)
| ELeftOOV (line : Z)                        (* mergemap.go:68 *)
| ERightOOV (line : Z)                       (* mergemap.go:72 *)
| EMergedOOV (line : Z)                      (* mergemap.go:78 *)
| ELineTooLong                               (* bufio.ErrTooLong, mergemap.go:84 *)
| EBadJSON                                   (* vocabulary.go:35-37, an error of encoding/json *)
| EBadSplit                                  (* normalizedstring.go:589 *)
| ENotTokenized                              (* pretokenizedstring.go:177 *)
| EExternal (code : Z).                      (* an error made by a caller-supplied function or engine *)

Inductive result (A : Type) : Type :=
| Ok (a : A)
| Err (e : err).
Arguments Ok {A} _.
Arguments Err {A} _.

(** [len(l)] as a Go int. *)
Definition zlen {A} (l : list A) : Z := Z.of_nat (length l).

(** The slice expression [l[i:j]] (capacity = length). *)
Definition sub {A} (l : list A) (i j : Z) : outcome (list A) :=
  if (0 <=? i) && (i <=? j) && (j <=? zlen l)
  then Ret (take (Z.to_nat (j - i)) (drop (Z.to_nat i) l))
  else Panic.

(** The index expression [l[i]]. *)
Definition idx {A} (l : list A) (i : Z) : outcome A :=
  if 0 <=? i then
    match l !! Z.to_nat i with Some x => Ret x | None => Panic end
  else Panic.

(** * UTF-8 *)

(** U+FFFD, Go's [utf8.RuneError] = [unicode.ReplacementChar]. *)
Definition rune_error : Z := 0xFFFD.

(** A Unicode scalar value: what Go encodes as itself. *)
Definition scalar (r : Z) : bool :=
  (0 <=? r) && (r <? 0xD800) || (0xE000 <=? r) && (r <=? 0x10FFFF).

(** Sequences of scalar values; used to state properties. *)
Definition scalars (rs : list Z) : Prop := Forall (λ r, scalar r = true) rs.

(** The UTF-8 bytes of a rune in range (div/mod instead of Go's shifts and masks). *)
Definition encode_scalar (r : Z) : list Z :=
  if r <? 0x80 then [r]
  else if r <? 0x800 then [0xC0 + r / 64; 0x80 + r mod 64]
  else if r <? 0x10000 then [0xE0 + r / 4096; 0x80 + (r / 64) mod 64; 0x80 + r mod 64]
  else [0xF0 + r / 262144; 0x80 + (r / 4096) mod 64; 0x80 + (r / 64) mod 64; 0x80 + r mod 64].

(** What remains of a rune after Go encodes it: an invalid one becomes U+FFFD. *)
Definition sanitize (r : Z) : Z := if scalar r then r else rune_error.

(** Go's conversion [string(r)]. *)
Definition encode_rune (r : Z) : list Z := encode_scalar (sanitize r).

(** [len(string(r))]. *)
Definition rune_len (r : Z) : Z := zlen (encode_rune r).

(** Go's conversion [string(runes)] of a rune slice. *)
Definition encode (rs : list Z) : list Z := flat_map encode_rune rs.

(** UTF-8 continuation byte in the range [lo..hi]. *)
Definition byte_in (lo hi b : Z) : bool := (lo <=? b) && (b <=? hi).

(** Well-formed multi-byte heads, per Go's unicode/utf8 [acceptRanges] table. *)
Definition head2 (b0 b1 : Z) : bool := byte_in 0xC2 0xDF b0 && byte_in 0x80 0xBF b1.
Definition head3 (b0 b1 b2 : Z) : bool :=
  byte_in 0xE0 0xEF b0
  && (if b0 =? 0xE0 then byte_in 0xA0 0xBF b1
      else if b0 =? 0xED then byte_in 0x80 0x9F b1
      else byte_in 0x80 0xBF b1)
  && byte_in 0x80 0xBF b2.
Definition head4 (b0 b1 b2 b3 : Z) : bool :=
  byte_in 0xF0 0xF4 b0
  && (if b0 =? 0xF0 then byte_in 0x90 0xBF b1
      else if b0 =? 0xF4 then byte_in 0x80 0x8F b1
      else byte_in 0x80 0xBF b1)
  && byte_in 0x80 0xBF b2 && byte_in 0x80 0xBF b3.

(** One rune decoded by [for i, r := range s]: the rune and how many bytes it took
    (an undecodable byte gives U+FFFD and takes one byte). *)
Fixpoint decode (s : list Z) : list (Z * Z) :=
  match s with
  | [] => []
  | b0 :: s1 =>
    if byte_in 0 0x7F b0 then (b0, 1) :: decode s1 else
    match s1 with
    | [] => (rune_error, 1) :: decode s1
    | b1 :: s2 =>
      if head2 b0 b1 then ((b0 - 0xC0) * 64 + (b1 - 0x80), 2) :: decode s2 else
      match s2 with
      | [] => (rune_error, 1) :: decode s1
      | b2 :: s3 =>
        if head3 b0 b1 b2
        then ((b0 - 0xE0) * 4096 + (b1 - 0x80) * 64 + (b2 - 0x80), 3) :: decode s3 else
        match s3 with
        | [] => (rune_error, 1) :: decode s1
        | b3 :: s4 =>
          if head4 b0 b1 b2 b3
          then ((b0 - 0xF0) * 262144 + (b1 - 0x80) * 4096 + (b2 - 0x80) * 64 + (b3 - 0x80), 4) :: decode s4
          else (rune_error, 1) :: decode s1
        end
      end
    end
  end.

(** Go's conversion [[]rune(s)]. *)
Definition runes (s : list Z) : list Z := (decode s).*1.

(** [for i, r := range s]: byte index and rune of each iteration. *)
Fixpoint positions (i : Z) (d : list (Z * Z)) : list (Z * Z) :=
  match d with
  | [] => []
  | (r, w) :: d' => (i, r) :: positions (i + w) d'
  end.
Definition range_str (s : list Z) : list (Z * Z) := positions 0 (decode s).

(** Go's [utf8.ValidString]: no undecodable byte. Used to state properties; the
    package itself never calls it. *)
Definition valid_utf8 (s : list Z) : bool :=
  forallb (λ '(r, w), negb ((r =? rune_error) && (w =? 1))) (decode s).

(** * Unicode White_Space (package unicode, table White_Space) *)
Definition white_space (r : Z) : bool :=
  byte_in 0x9 0xD r || (r =? 0x20) || (r =? 0x85) || (r =? 0xA0) || (r =? 0x1680)
  || byte_in 0x2000 0x200A r || (r =? 0x2028) || (r =? 0x2029) || (r =? 0x202F)
  || (r =? 0x205F) || (r =? 0x3000).
