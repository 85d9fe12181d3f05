(** What a JSON text means, at the level of code points, following the grammar of RFC 8259: for the documents
    that say which ID each term has. Independent of [Json.v]. *)
From Verif Require Import GoBase.
#[local] Open Scope Z_scope.

(** Bytes of a file. *)
Definition bytes (s : list Z) : Prop := Forall (λ b, 0 <= b <= 255) s.

(** White space between tokens. *)
Definition blank (s : list Z) : Prop := Forall (λ c, c = 32 ∨ c = 9 ∨ c = 10 ∨ c = 13) s.

(** ** Strings *)
(** Hexadecimal digits in either case, most significant first. *)
Definition hexdigit (c n : Z) : Prop :=
  48 <= c <= 57 ∧ n = c - 48 ∨ 97 <= c <= 102 ∧ n = c - 87 ∨ 65 <= c <= 70 ∧ n = c - 55.
(** [\uXXXX] for the UTF-16 code unit [k]. *)
Definition escaped_unit (t : list Z) (k : Z) : Prop :=
  ∃ a b c d x y z w, t = [92; 117; a; b; c; d] ∧ hexdigit a x ∧ hexdigit b y ∧ hexdigit c z ∧ hexdigit d w
  ∧ k = 4096 * x + 256 * y + 16 * z + w.
(** The short escapes: a backslash and a quote, a backslash, a slash, or one of b, f, n, r, t. *)
Definition short_escape (e c : Z) : Prop :=
  (e = 34 ∨ e = 92 ∨ e = 47) ∧ c = e ∨ e = 98 ∧ c = 8 ∨ e = 102 ∧ c = 12 ∨ e = 110 ∧ c = 10 ∨ e = 114 ∧ c = 13 ∨ e = 116 ∧ c = 9.
Definition high_surrogate (k : Z) : Prop := 0xD800 <= k < 0xDC00.
Definition low_surrogate (k : Z) : Prop := 0xDC00 <= k < 0xE000.

(** [string_of t s]: the characters [t] between quotes denote the string [s]. An unpaired surrogate denotes U+FFFD. *)
Inductive string_of : list Z → list Z → Prop :=
| so_end : string_of [] []
| so_plain c t s : 32 <= c → c ≠ 34 → c ≠ 92 → string_of t s → string_of (c :: t) (c :: s)
| so_short e c t s : short_escape e c → string_of t s → string_of (92 :: e :: t) (c :: s)
| so_unit h k t s : escaped_unit h k → ¬ high_surrogate k → ¬ low_surrogate k → string_of t s → string_of (h ++ t) (k :: s)
| so_pair h k h' k' t s : escaped_unit h k → escaped_unit h' k' → high_surrogate k → low_surrogate k' → string_of t s →
    string_of (h ++ h' ++ t) (0x10000 + (k - 0xD800) * 0x400 + (k' - 0xDC00) :: s)
| so_unpaired h k t s : escaped_unit h k → high_surrogate k ∨ low_surrogate k →
    (high_surrogate k → ¬ ∃ h' k' t', t = h' ++ t' ∧ escaped_unit h' k' ∧ low_surrogate k') →
    string_of t s → string_of (h ++ t) (0xFFFD :: s).

(** ** Integers *)
Fixpoint decimal_value (ds : list Z) : Z :=
  match ds with
  | [] => 0
  | d :: ds' => (d - 48) * 10 ^ Z.of_nat (length ds') + decimal_value ds'
  end.
Definition digit (c : Z) : Prop := 48 <= c <= 57.
Definition natural_of (ds : list Z) (n : Z) : Prop :=
  ds ≠ [] ∧ Forall digit ds ∧ (head ds = Some 48 → ds = [48]) ∧ n = decimal_value ds.
(** An optional minus sign, digits without superfluous zeros. *)
Definition integer_of (t : list Z) (z : Z) : Prop :=
  natural_of t z ∨ ∃ ds n, t = 45 :: ds ∧ natural_of ds n ∧ z = - n.
Definition null : list Z := [110; 117; 108; 108].
(** The IDs: integers of 64 bits; [null] stands for 0. *)
Definition id_of (t : list Z) (z : Z) : Prop :=
  t = null ∧ z = 0 ∨ integer_of t z ∧ - 2 ^ 63 <= z < 2 ^ 63.

(** ** Documents *)
Definition member_of (t : list Z) (kv : list Z * Z) : Prop :=
  ∃ w1 q w2 w3 v w4, t = w1 ++ [34] ++ q ++ [34] ++ w2 ++ [58] ++ w3 ++ v ++ w4
  ∧ blank w1 ∧ blank w2 ∧ blank w3 ∧ blank w4 ∧ string_of q kv.1 ∧ id_of v kv.2.
Inductive members_of : list Z → list (list Z * Z) → Prop :=
| mo_last t kv : member_of t kv → members_of t [kv]
| mo_more t kv t' ms : member_of t kv → members_of t' ms → members_of (t ++ [44] ++ t') (kv :: ms).
(** [document_of t d]: the text [t] is [null] ([d = None]), or an object with the members [ms] ([d = Some ms]). *)
Definition document_of (t : list Z) (d : option (list (list Z * Z))) : Prop :=
  ∃ w1 w2, blank w1 ∧ blank w2 ∧
  match d with
  | None => t = w1 ++ null ++ w2
  | Some [] => ∃ w, blank w ∧ t = w1 ++ [123] ++ w ++ [125] ++ w2
  | Some ms => ∃ m, members_of m ms ∧ t = w1 ++ [123] ++ m ++ [125] ++ w2
  end.

(** The terms as bytes. *)
Definition in_bytes (d : option (list (list Z * Z))) : option (list (list Z * Z)) :=
  (λ ms, map (λ kv, (encode kv.1, kv.2)) ms) <$> d.

(** ** A writer *)
(** The usual way to write a document: quotes, backslashes and control characters escaped, no white space. *)
Definition hexchar (n : Z) : Z := if n <? 10 then 48 + n else 87 + n.
Definition write_char (c : Z) : list Z :=
  if (c =? 34) || (c =? 92) then [92; c]
  else if c <? 32 then [92; 117; 48; 48; hexchar (c / 16); hexchar (c mod 16)]
  else [c].
Fixpoint write_digits (fuel : nat) (n : Z) : list Z :=
  match fuel with
  | O => []
  | S fuel' => if n <? 10 then [48 + n] else write_digits fuel' (n / 10) ++ [48 + n mod 10]
  end.
Definition write_int (z : Z) : list Z :=
  if z <? 0 then 45 :: write_digits (Z.to_nat (- z) + 1) (- z) else write_digits (Z.to_nat z + 1) z.
Definition write_member (kv : list Z * Z) : list Z := [34] ++ flat_map write_char kv.1 ++ [34; 58] ++ write_int kv.2.
Fixpoint write_members (ms : list (list Z * Z)) : list Z :=
  match ms with
  | [] => []
  | [kv] => write_member kv
  | kv :: ms' => write_member kv ++ [44] ++ write_members ms'
  end.
Definition write_document (ms : list (list Z * Z)) : list Z := [123] ++ write_members ms ++ [125].

(** ** What a document says *)
(** Of several members with the same name, the last counts. *)
Definition says (d : option (list (list Z * Z))) (k : list Z) (z : Z) : Prop :=
  ∃ ms1 ms2, d = Some (ms1 ++ (k, z) :: ms2) ∧ k ∉ ms2.*1.
(** Members that can be written: text of Unicode scalar values, IDs of 64 bits. *)
Definition writable (ms : list (list Z * Z)) : Prop := Forall (λ kv, scalars kv.1 ∧ - 2 ^ 63 <= kv.2 < 2 ^ 63) ms.
