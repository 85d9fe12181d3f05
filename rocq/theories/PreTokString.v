(** Model of /repo/pretokenizedstring/{pretokenizedstring,split}.go.

    The function arguments (SplitFunc etc.) may have effects of their own: they carry a state [St]
    (call log, random numbers, ...), and they may modify the NormalizedString they get a pointer to.
    Each split holds its own NormalizedString here (no two splits share a pointer); Pointers.v has the
    version with pointers, and C90 relates the two. *)
From Verif Require Import GoBase Strutils SplitPattern NormString Bpe Encodings.

(** split.go:17-26 [Split]; [None] is the nil pointer. *)
Record psplit : Type := PSplit { sp_ns : ns; sp_tokens : option (list token) }.

(** pretokenizedstring.go:22-25 [PreTokenizedString]. *)
Record pts : Type := Pts { p_original : list Z; p_splits : list psplit }.

(** pretokenizedstring.go:31-41 [FromNormalizedString], 27-29 [FromString]. *)
Definition pts_from_ns (n : ns) : pts := Pts (ns_orig n) [PSplit n None].
Definition pts_from_string (s : list Z) : pts := pts_from_ns (from_string s).

(** split.go:48-54 [SplitsFromNormalizedStrings]. *)
Definition splits_from_ns (l : list ns) : list psplit := map (λ n, PSplit n None) l.

(** pretokenizedstring.go:55-58 [SplitFunc]. *)
Definition split_func (St : Type) : Type := St → Z → ns → outcome (St * ns * result (list psplit)).

(** pretokenizedstring.go:67-84: the loop of [Split]. Result: the function's state, the old splits (as
    the function may have modified them), and the new splits or the error. *)
Fixpoint split_loop {St} (f : split_func St) (st : St) (index : Z) (splits : list psplit)
    : outcome (St * list psplit * result (list psplit)) :=
  match splits with
  | [] => Ret (st, [], Ok [])
  | sp :: splits' =>
    match sp_tokens sp with
    | Some _ =>
      x ← split_loop f st (index + 1) splits';
      let '(st', old, new) := x in
      Ret (st', sp :: old, match new with Ok l => Ok (sp :: l) | Err e => Err e end)
    | None =>
      x ← f st index (sp_ns sp);
      let '(st1, n', r) := x in
      let sp' := PSplit n' None in
      match r with
      | Err e => Ret (st1, sp' :: splits', Err e)
      | Ok items =>
        y ← split_loop f st1 (index + 1) splits';
        let '(st', old, new) := y in
        Ret (st', sp' :: old,
             match new with
             | Ok l => Ok (filter (λ i, negb (ns_is_empty (sp_ns i))) items ++ l)
             | Err e => Err e
             end)
      end
    end
  end.

(** pretokenizedstring.go:63-88 [Split]: the new state of the receiver and the error, if any. *)
Definition pts_split {St} (f : split_func St) (st : St) (p : pts) : outcome (St * pts * option err) :=
  x ← split_loop f st 0 (p_splits p);
  let '(st', old, new) := x in
  Ret (match new with
       | Ok l => (st', Pts (p_original p) l, None)
       | Err e => (st', Pts (p_original p) old, Some e)
       end).

(** pretokenizedstring.go:92-105 [Normalize]: the loop. *)
Fixpoint normalize_loop {St} (f : St → ns → outcome (St * ns * option err)) (st : St)
    (splits : list psplit) : outcome (St * list psplit * option err) :=
  match splits with
  | [] => Ret (st, [], None)
  | sp :: splits' =>
    match sp_tokens sp with
    | Some _ =>
      x ← normalize_loop f st splits';
      let '(st', l, e) := x in Ret (st', sp :: l, e)
    | None =>
      x ← f st (sp_ns sp);
      let '(st1, n', e) := x in
      match e with
      | Some er => Ret (st1, PSplit n' None :: splits', Some er)
      | None =>
        y ← normalize_loop f st1 splits';
        let '(st', l, e') := y in Ret (st', PSplit n' None :: l, e')
      end
    end
  end.
Definition pts_normalize {St} (f : St → ns → outcome (St * ns * option err)) (st : St) (p : pts)
    : outcome (St * pts * option err) :=
  x ← normalize_loop f st (p_splits p);
  let '(st', l, e) := x in Ret (st', Pts (p_original p) l, e).

(** pretokenizedstring.go:109-123 [Tokenize]: the loop. *)
Fixpoint tokenize_loop {St} (f : St → ns → outcome (St * ns * result (list token))) (st : St)
    (splits : list psplit) : outcome (St * list psplit * option err) :=
  match splits with
  | [] => Ret (st, [], None)
  | sp :: splits' =>
    match sp_tokens sp with
    | Some _ =>
      x ← tokenize_loop f st splits';
      let '(st', l, e) := x in Ret (st', sp :: l, e)
    | None =>
      x ← f st (sp_ns sp);
      let '(st1, n', r) := x in
      match r with
      | Err er => Ret (st1, PSplit n' None :: splits', Some er)
      | Ok ts =>
        y ← tokenize_loop f st1 splits';
        let '(st', l, e') := y in Ret (st', PSplit n' (Some ts) :: l, e')
      end
    end
  end.
Definition pts_tokenize {St} (f : St → ns → outcome (St * ns * result (list token))) (st : St) (p : pts)
    : outcome (St * pts * option err) :=
  x ← tokenize_loop f st (p_splits p);
  let '(st', l, e) := x in Ret (st', Pts (p_original p) l, e).

(** split.go:28-44 [OriginalByteSplit], [NormalizedByteSplit]. *)
Record byte_split : Type := ByteSplit {
  bs_string : list Z; bs_offsets : offsets; bs_tokens : option (list token);
}.

(** pretokenizedstring.go:126-136 [GetOriginalByteSplits]. *)
Definition original_byte_splits (p : pts) : list byte_split :=
  map (λ sp, ByteSplit (ns_norm (sp_ns sp)) (original_offsets (sp_ns sp)) (sp_tokens sp)) (p_splits p).

(** pretokenizedstring.go:139-156 [GetNormalizedByteSplits]. *)
Fixpoint normalized_byte_splits_from (offset : Z) (l : list psplit) : list byte_split :=
  match l with
  | [] => []
  | sp :: l' =>
    let offset' := offset + ns_len (sp_ns sp) in
    ByteSplit (ns_norm (sp_ns sp)) (Offsets offset offset') (sp_tokens sp)
    :: normalized_byte_splits_from offset' l'
  end.
Definition normalized_byte_splits (p : pts) : list byte_split :=
  normalized_byte_splits_from 0 (p_splits p).

(** pretokenizedstring.go:217-224 [allSplitsHaveTokens]. *)
Definition all_have_tokens (l : list psplit) : bool :=
  forallb (λ sp, match sp_tokens sp with Some _ => true | None => false end) l.

(** pretokenizedstring.go:190-211: the tokens of one split. *)
Fixpoint encode_tokens (n : ns) (wordIdx typeID : Z) (ts : list token) : outcome (list enc_token) :=
  match ts with
  | [] => Ret []
  | t :: ts' =>
    c ← coerce_to_orig n (NRange (o_start (t_offsets t)) (o_end (t_offsets t)));
    let '((s, e), ok) := c in
    let offs := if (ok : bool) then Offsets (ns_shift n + s) (ns_shift n + e) else t_offsets t in
    rest ← encode_tokens n wordIdx typeID ts';
    Ret (EncToken (t_id t) (t_value t) offs wordIdx typeID :: rest)
  end.

(** pretokenizedstring.go:182-212: the loop over the splits. *)
Fixpoint encode_splits (wordIndex typeID splitIndex : Z) (l : list psplit) : outcome (list enc_token) :=
  match l with
  | [] => Ret []
  | sp :: l' =>
    let actual := if wordIndex <? 0 then splitIndex else wordIndex in
    ts ← encode_tokens (sp_ns sp) actual typeID (default [] (sp_tokens sp));
    rest ← encode_splits wordIndex typeID (splitIndex + 1) l';
    Ret (ts ++ rest)
  end.

(** pretokenizedstring.go:172-215 [IntoEncoding]. *)
Definition into_encoding (p : pts) (wordIndex typeID : Z) : outcome (result encoding) :=
  if zlen (p_splits p) =? 0 then Ret (Ok empty_encoding)
  else if negb (all_have_tokens (p_splits p)) then Ret (Err ENotTokenized)
  else
    ts ← encode_splits wordIndex typeID 0 (p_splits p);
    Ret (Ok (encoding_from_tokens ts)).
