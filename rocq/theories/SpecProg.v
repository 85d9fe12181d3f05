(** Specification vocabulary for C98 and C12: what programs of edits do to an aligned text. *)
From Verif Require Import GoBase Strutils SplitPattern NormString Normalizers SpecText SpecNorm SpecNormalizers SpecShift.
#[local] Open Scope Z_scope.

(** * Replace, exactly *)
(** What replaces the match [seg] behind [out]: the span of the character to which the byte of the match belongs whose
    number is the number of characters of the match, less one; for an empty match, the last span before it. *)
Definition match_span (out seg : atext) : Z * Z :=
  match seg with [] => last_span out | _ => default (0, 0) (span_at seg (zlen seg - 1)) end.
Fixpoint replacing (content : list Z) (out : atext) (segs : asegments) : atext :=
  match segs with
  | [] => out
  | (seg, false) :: segs' => replacing content (out ++ seg) segs'
  | (seg, true) :: segs' => replacing content (out ++ map (λ r, (r, match_span out seg)) content) segs'
  end.

(** * Programs of edits *)
Inductive step : Type :=
| SMap (f : Z → Z)
| SFilter (keep : Z → bool)
| STrim (left right : bool)
| SPrepend (p : list Z)
| SReplace (g : Z → bool) (content : list Z) (* of the characters that [g] accepts *)
| SBert (o : bert_options)
| SRewrite (i k j : nat) (dest : list (Z * Z)). (* TransformRange behind [i] characters: [k] removed, then [j] rewritten *)

(** The white space at the ends that is asked for, and the rest. *)
Definition not_white (r : Z) : bool := negb (white_space r).
Definition ends (left right : bool) (rs : list Z) : nat * nat :=
  let k := if left then leading not_white rs else O in
  (k, if right then leading not_white (rev (drop k rs)) else O).

(** What a step makes of an aligned text; [None]: a panic. *)
Definition meaning (u : unicode) (s : step) (v : atext) : option atext :=
  match s with
  | SMap f => Some (map (λ p, (sanitize (f p.1), p.2)) v)
  | SFilter keep => filtered keep v
  | STrim lf rt =>
    let '(k, j) := ends lf rt v.*1 in
    with_found v (Z.of_nat k) (imap pair (take (length v - k - j) (drop k v.*1)))
  | SPrepend p =>
    Some (match v with
          | [] => []
          | (x, a) :: w => if decide (p = []) then (x, (0, 0)) :: w else map (λ r, (r, a)) (runes p) ++ v
          end)
  | SReplace g content => Some (concat (map (λ p, if g p.1 then map (λ r, (sanitize r, p.2)) content else [p]) v))
  | SBert o => bert_found u o v
  | SRewrite i k j dest =>
    w ← rewrite_chars (last_span (take (i + k) v)) (take j (drop (i + k) v)) dest;
    Some (take i v ++ w ++ drop (i + k + j) v)
  end.
Fixpoint meanings (u : unicode) (l : list step) (v : atext) : option atext :=
  match l with
  | [] => Some v
  | s :: l' => w ← meaning u s v; meanings u l' w
  end.

(** The byte at which character number [i] of the text starts. *)
Definition start_byte (n : ns) (i : nat) : Z := zlen (encode (take i (runes (ns_norm n)))).

(** The calls. (Function patterns have no errors, C23.) *)
Definition call (u : unicode) (s : step) (n : ns) : outcome ns :=
  match s with
  | SMap f => map_runes n f
  | SFilter keep => filter_runes n keep
  | STrim lf rt => trim_left_right n lf rt
  | SPrepend p => prepend n p
  | SReplace g content => x ← replace n (func_pattern g) (encode content); Ret (match x with Ok n' => n' | Err _ => n end)
  | SBert o => bert_normalize u o n
  | SRewrite i k j dest =>
    transform_range n (NRange (start_byte n i) (start_byte n (i + k + j))) dest (start_byte n (i + k) - start_byte n i)
  end.
Fixpoint calls (u : unicode) (l : list step) (n : ns) : outcome ns :=
  match l with
  | [] => Ret n
  | s :: l' => n' ← call u s n; calls u l' n'
  end.

(** * The normalizers, and sequences of them, also nested *)
Inductive nz : Type := NLower | NStrip (left right : bool) | NBert (o : bert_options) | NSequence (l : list nz).
Fixpoint normalizer_of (u : unicode) (z : nz) : normalizer :=
  match z with
  | NLower => lowercase_normalizer u
  | NStrip lf rt => strip_normalizer lf rt
  | NBert o => bert_normalizer u o
  | NSequence l => sequence_normalizer (map (normalizer_of u) l)
  end.
Fixpoint steps_of (u : unicode) (z : nz) : list step :=
  match z with
  | NLower => [SMap (u_lower u)]
  | NStrip lf rt => [STrim lf rt]
  | NBert o => [SBert o]
  | NSequence l => concat (map (steps_of u) l)
  end.
