(** Model of what [json.Unmarshal] of the Go standard library (package encoding/json, files scanner.go and
    decode.go) does where /repo calls it: vocabulary.go:33-37, decoding into a [map[string]int].

    All its errors are one here. A value that is neither an integer literal in range nor [null] is an error
    whatever follows (a type error or, if the rest is malformed, a syntax error), so nested values need not be read. *)
From Verif Require Import GoBase Vocab.

(** scanner.go [isSpace]. *)
Definition is_space (c : Z) : bool := (c =? 32) || (c =? 9) || (c =? 13) || (c =? 10).
Fixpoint skip_space (s : list Z) : list Z :=
  match s with
  | c :: s' => if is_space c then skip_space s' else s
  | [] => []
  end.

(** decode.go [getu4]: the value of a hexadecimal digit. *)
Definition hex (c : Z) : option Z :=
  if byte_in 48 57 c then Some (c - 48)
  else if byte_in 97 102 c then Some (c - 97 + 10)
  else if byte_in 65 70 c then Some (c - 65 + 10)
  else None.
Definition hex4 (a b c d : Z) : option Z :=
  match hex a, hex b, hex c, hex d with
  | Some a', Some b', Some c', Some d' => Some (((a' * 16 + b') * 16 + c') * 16 + d')
  | _, _, _, _ => None
  end.

(** scanner.go [stateInStringEsc]: the characters allowed after a backslash, other than [u]. *)
Definition simple_escape (c : Z) : bool :=
  (c =? 98) || (c =? 102) || (c =? 110) || (c =? 114) || (c =? 116) || (c =? 92) || (c =? 47) || (c =? 34).

(** scanner.go [stateInString], [stateInStringEsc], [stateInStringEscU] and the three after it: reads from behind
    the opening quote; gives what is between the quotes, and the rest. *)
Definition more (l : list Z) (r : option (list Z * list Z)) : option (list Z * list Z) :=
  match r with Some (raw, rest) => Some (l ++ raw, rest) | None => None end.
Fixpoint scan_string (s : list Z) : option (list Z * list Z) :=
  match s with
  | [] => None
  | c :: s1 =>
    if c =? 34 then Some ([], s1)
    else if c =? 92 then
      match s1 with
      | [] => None
      | e :: s2 =>
        if simple_escape e then more [c; e] (scan_string s2)
        else if e =? 117 then
          match s2 with
          | h1 :: h2 :: h3 :: h4 :: s3 =>
            match hex4 h1 h2 h3 h4 with
            | Some _ => more [c; e; h1; h2; h3; h4] (scan_string s3)
            | None => None
            end
          | _ => None
          end
        else None
      end
    else if c <? 32 then None
    else more [c] (scan_string s1)
  end.

(** decode.go [getu4]: [\uXXXX] at the start of [s], or nothing (Go: -1). *)
Definition getu4 (s : list Z) : option Z :=
  match s with
  | c :: e :: h1 :: h2 :: h3 :: h4 :: _ => if (c =? 92) && (e =? 117) then hex4 h1 h2 h3 h4 else None
  | _ => None
  end.

(** Package unicode/utf16 [IsSurrogate] and [DecodeRune]. *)
Definition is_surrogate (r : Z) : bool := (0xD800 <=? r) && (r <? 0xE000).
Definition decode_pair (r1 r2 : Z) : Z :=
  if (0xD800 <=? r1) && (r1 <? 0xDC00) && (0xDC00 <=? r2) && (r2 <? 0xE000)
  then (r1 - 0xD800) * 1024 + (r2 - 0xDC00) + 0x10000
  else rune_error.

(** decode.go [unquoteBytes], the switch on the character after a backslash. *)
Definition unescape (e : Z) : Z :=
  if e =? 98 then 8 else if e =? 102 then 12 else if e =? 110 then 10 else if e =? 114 then 13
  else if e =? 116 then 9 else e.

(** decode.go [unquoteBytes], its main loop (the path for strings without anything to replace is only faster).
    [fuel] is the number of bytes left, at least; each turn takes one at least. *)
Fixpoint unquote_loop (fuel : nat) (s : list Z) : list Z :=
  match fuel with
  | O => []
  | S fuel' =>
    match s with
    | [] => []
    | c :: s1 =>
      if c =? 92 then
        match s1 with
        | [] => []
        | e :: s2 =>
          if e =? 117 then
            match getu4 s with
            | None => []
            | Some r =>
              let s3 := drop 6 s in
              if is_surrogate r then
                let dec := match getu4 s3 with Some r1 => decode_pair r r1 | None => rune_error end in
                if negb (dec =? rune_error) then encode_rune dec ++ unquote_loop fuel' (drop 6 s3)
                else encode_rune rune_error ++ unquote_loop fuel' s3
              else encode_rune r ++ unquote_loop fuel' s3
            end
          else unescape e :: unquote_loop fuel' s2
        end
      else if c <? 0x80 then c :: unquote_loop fuel' s1
      else
        match GoBase.decode s with
        | (r, w) :: _ => encode_rune r ++ unquote_loop fuel' (drop (Z.to_nat w) s)
        | [] => []
        end
    end
  end.
Definition unquote (s : list Z) : list Z := unquote_loop (length s) s.

(** scanner.go [stateNeg], [state0], [state1]: digits, and their value as [strconv.ParseInt] reads them. *)
Fixpoint scan_digits (s : list Z) : list Z * list Z :=
  match s with
  | c :: s' => if byte_in 48 57 c then (c :: (scan_digits s').1, (scan_digits s').2) else ([], s)
  | [] => ([], [])
  end.
Definition parse_digits (ds : list Z) : Z := foldl (λ z d, z * 10 + (d - 48)) 0 ds.
Definition scan_int (s : list Z) : option (Z * list Z) :=
  let neg := match s with c :: _ => c =? 45 | [] => false end in
  let '(ds, rest) := scan_digits (if neg then drop 1 s else s) in
  match ds with
  | [] => None
  | d :: ds' =>
    if (d =? 48) && negb (match ds' with [] => true | _ => false end) then None
    else
      let z := if neg then - parse_digits ds else parse_digits ds in
      if (- 2 ^ 63 <=? z) && (z <? 2 ^ 63) then Some (z, rest) else None
  end.

(** The literal [null], 110 117 108 108. *)
Definition starts_null (s : list Z) : option (list Z) :=
  match s with
  | a :: b :: c :: d :: rest => if (a =? 110) && (b =? 117) && (c =? 108) && (d =? 108) then Some rest else None
  | _ => None
  end.

(** decode.go [literalStore] on an int: [null] leaves the element at zero. *)
Definition scan_value (s : list Z) : option (Z * list Z) :=
  match starts_null s with
  | Some rest => Some (0, rest)
  | None => scan_int s
  end.

(** decode.go [object] on a map, from behind the opening brace or a comma; [fuel] as above. *)
Definition expect (c : Z) (s : list Z) : option (list Z) :=
  match s with x :: s' => if x =? c then Some s' else None | [] => None end.
Fixpoint scan_members (fuel : nat) (s : list Z) : option (list (list Z * Z) * list Z) :=
  match fuel with
  | O => None
  | S fuel' =>
    s1 ← expect 34 (skip_space s);
    '(raw, s2) ← scan_string s1;
    s3 ← expect 58 (skip_space s2);
    '(z, s4) ← scan_value (skip_space s3);
    match skip_space s4 with
    | x :: s5 =>
      if x =? 125 then Some ([(unquote raw, z)], s5)
      else if x =? 44 then '(ms, s6) ← scan_members fuel' s5; Some ((unquote raw, z) :: ms, s6)
      else None
    | [] => None
    end
  end.

(** [json.Unmarshal] into a nil [map[string]int]: [None] is an error, [Some None] is [null], which leaves the map nil. *)
Definition at_end {A} (x : A) (s : list Z) : option A :=
  match skip_space s with [] => Some x | _ :: _ => None end.
Definition unmarshal (s : list Z) : option (option (list (list Z * Z))) :=
  let s0 := skip_space s in
  match starts_null s0 with
  | Some rest => at_end None rest
  | None =>
    s1 ← expect 123 s0;
    match expect 125 (skip_space s1) with
    | Some rest => at_end (Some []) rest
    | None => '(ms, rest) ← scan_members (length s1) s1; at_end (Some ms) rest
    end
  end.

(** vocabulary.go:27-45 [FromJSONFile], from the bytes of the file on; [order] gives the order in which [range] visits
    the map. *)
Definition from_json_bytes (raw : list Z) (order : gmap (list Z) Z → list (list Z * Z)) : result vocab :=
  match unmarshal raw with
  | None => Err EBadJSON
  | Some j => Ok (from_json j (order (json_map j)))
  end.
