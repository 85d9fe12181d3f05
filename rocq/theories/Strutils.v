(** Model of /repo/strutils/strutils.go *)
From Verif Require Import GoBase.

(** strutils.go:19-31 [IsRuneBoundary]. [int8(b)] is [b] below 128 and [b - 256] from 128 on. *)
Definition is_rune_boundary (s : list Z) (index : Z) : outcome bool :=
  if (index =? 0) || (index =? zlen s) then Ret true
  else if (index <? 0) || (zlen s <? index) then Ret false
  else b ← idx s index; Ret (-0x40 <=? (if b <? 128 then b else b - 256)).

(** strutils.go:34-39 [ByteOffsets], strutils.go:42-47 [RuneOffsets]. *)
Record offsets : Type := Offsets { o_start : Z; o_end : Z }.

(** strutils.go:53-61 [NewBytesToRuneOffsetConverter]: the field [mapping]. The variable the
    code calls [runeIndex] is the byte index that [range] gives. *)
Definition new_converter (sequence : list Z) : list Z :=
  flat_map (λ '(i, r), repeat i (length (encode_rune r))) (range_str sequence).

(** strutils.go:63-78 [Convert]. *)
Definition convert (mapping : list Z) (o : offsets) : outcome offsets :=
  if zlen mapping =? 0 then Ret (Offsets 0 0)
  else
    start ← idx mapping (o_start o);
    en ← (if o_end o =? zlen mapping
          then e ← idx mapping (o_end o - 1); Ret (e + 1)
          else idx mapping (o_end o));
    Ret (Offsets start en).
