(** Model of the functions of /repo/normalizedstring/normalizedstring.go that take slices of slices, with the rule of Go that
    the upper bound may reach up to the capacity: a slice is its elements and the array behind them, [spare]. (Where the upper
    bound is left out it is the length; strings have no spare capacity.) The other files stop at the length. *)
From Verif Require Import GoBase Strutils NormString.
Import GoBase.
#[local] Open Scope Z_scope.

(** The slice expression [l[i:j]]. *)
Definition sub_cap {A} (l spare : list A) (i j : Z) : outcome (list A) := sub (l ++ spare) i j.

(** normalizedstring.go:402-427 [CoerceRangeToOriginal]. *)
Definition coerce_to_orig_cap (n : ns) (spare : list (Z * Z)) (r : range) : outcome ((Z * Z) * bool) :=
  match r with
  | ORange s e => Ret ((s, e), true)
  | NRange s e =>
    if r_len r =? 0 then Ret ((s, e), true)
    else if e <? s then Ret ((0, 0), false)
    else if (zlen (ns_norm n) =? 0) && (s =? 0) && (e =? 0) then Ret ((0, ns_orig_len n), true)
    else
      als ← sub_cap (ns_al n) spare s e;
      first ← idx als 0;
      last ← idx als (zlen als - 1);
      Ret ((first.1, last.2), true)
  end.

(** normalizedstring.go:329-335 [GetOriginalRange]. *)
Definition get_original_range_cap (n : ns) (spare : list (Z * Z)) (r : range) : outcome (option (list Z)) :=
  c ← coerce_to_orig_cap n spare r;
  let '((s, e), ok) := c in
  if negb ok then Ret None else x ← sub (ns_orig n) s e; Ret (Some x).

(** normalizedstring.go:640-671 [Slice]. *)
Definition slice_cap (n : ns) (spare : list (Z * Z)) (r : range) : outcome (option ns) :=
  valid ← range_is_valid n r;
  if negb valid then Ret None else
  let '((n_s, n_e), nrOk) := coerce_to_norm n r in
  if negb nrOk then Ret None else
  o ← coerce_to_orig_cap n spare r;
  let '((o_s, o_e), orOk) := o in
  if negb orOk then Ret None else
  original ← get_original_range_cap n spare r;
  normalized ← get_range n r;
  als ← sub_cap (ns_al n) spare n_s n_e;
  Ret (Some (NS (default [] original) (default [] normalized)
                (map (λ a, (a.1 - o_s, a.2 - o_s)) als)
                (ns_shift n + o_s))).

(** normalizedstring.go:174-212, the loop of [TransformRange]; [rspare]: what is behind the runes. *)
Fixpoint tr_loop_cap (al : list (Z * Z)) (dest : list (Z * Z)) (offset : Z) (rs rspare : list Z)
    : outcome (list (Z * Z) * list Z) :=
  match dest with
  | [] => Ret ([], [])
  | (r, change) :: dest' =>
    a ← (if 1 <=? change
         then if offset <? 1 then Ret (0, 0) else idx al (offset - 1)
         else idx al offset);
    x ← (if change <=? 0
         then match rs with
              | [] => Panic
              | replaced :: rs' => Ret (rune_len replaced, rs')
              end
         else Ret (0, rs));
    let '(size, rs1) := x in
    y ← (if change <=? -1
         then removed ← sub_cap rs1 rspare 0 (- change);
              rest ← sub rs1 (- change) (zlen rs1);
              Ret (zlen (encode removed), rest)
         else Ret (0, rs1));
    let '(total, rs2) := y in
    z ← tr_loop_cap al dest' (offset + size + total) rs2 rspare;
    Ret (repeat a (length (encode_rune r)) ++ z.1, encode_rune r ++ z.2)
  end.

(** normalizedstring.go:152-229 [TransformRange]. Line 218 makes the new slice with the capacity that is the second component
    of the result; the appends of the lines 219 to 221 stay within it if the length is at most that. *)
Definition transform_range_cap (n : ns) (spare : list (Z * Z)) (rspare : list Z) (r : range) (dest : list (Z * Z))
    (initialOffset : Z) : outcome (ns * option Z) :=
  let '((s, e), ok) := coerce_to_norm n r in
  if negb ok then Ret (n, None) else
  replaced ← sub (ns_norm n) s e;
  removed0 ← sub replaced 0 initialOffset;
  rest ← sub replaced initialOffset (zlen replaced);
  x ← tr_loop_cap (ns_al n) dest (zlen removed0 + s) (runes rest) rspare;
  if zlen (ns_al n) - (e - s) + zlen x.1 <? 0 then Panic else
  al_before ← sub_cap (ns_al n) spare 0 s;
  al_after ← sub (ns_al n) e (zlen (ns_al n));
  norm_before ← sub (ns_norm n) 0 s;
  norm_after ← sub (ns_norm n) e (zlen (ns_norm n));
  Ret (NS (ns_orig n) (norm_before ++ x.2 ++ norm_after) (al_before ++ x.1 ++ al_after) (ns_shift n),
       Some (zlen (ns_al n) - (e - s) + zlen x.1)).
