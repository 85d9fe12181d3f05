(** Spec for C94: UTF-8 by bit patterns, and the white space of Unicode. *)
From stdpp Require Import list.
From Coq Require Import ZArith.
#[local] Open Scope Z_scope.

(** The code points that have an encoding. *)
Definition char (r : Z) : Prop := 0 <= r <= 0x10FFFF ∧ ¬ 0xD800 <= r <= 0xDFFF.

(** RFC 3629, section 3: the bytes of a character; [x >> n] and masks as in package unicode/utf8. *)
Inductive utf8 : Z → list Z → Prop :=
| utf8_1 r : 0 <= r <= 0x7F → utf8 r [r]
| utf8_2 r : 0x80 <= r <= 0x7FF →
    utf8 r [Z.lor 0xC0 (Z.shiftr r 6); Z.lor 0x80 (Z.land r 0x3F)]
| utf8_3 r : 0x800 <= r <= 0xFFFF → char r →
    utf8 r [Z.lor 0xE0 (Z.shiftr r 12); Z.lor 0x80 (Z.land (Z.shiftr r 6) 0x3F); Z.lor 0x80 (Z.land r 0x3F)]
| utf8_4 r : 0x10000 <= r <= 0x10FFFF →
    utf8 r [Z.lor 0xF0 (Z.shiftr r 18); Z.lor 0x80 (Z.land (Z.shiftr r 12) 0x3F);
            Z.lor 0x80 (Z.land (Z.shiftr r 6) 0x3F); Z.lor 0x80 (Z.land r 0x3F)].

(** The Go specification on [range] over a string and on the conversion to []rune: characters with
    their number of bytes; a byte with which no character starts gives U+FFFD and is passed alone. *)
Inductive read : list Z → list (Z * Z) → Prop :=
| read_nil : read [] []
| read_char r bs s l : utf8 r bs → read s l → read (bs ++ s) ((r, Z.of_nat (length bs)) :: l)
| read_bad b s l : (∀ r bs t, utf8 r bs → b :: s ≠ bs ++ t) → read s l → read (b :: s) ((0xFFFD, 1) :: l).

(** Unicode, PropList.txt: the characters with the property White_Space. *)
Definition white : list Z :=
  [0x09; 0x0A; 0x0B; 0x0C; 0x0D; 0x20; 0x85; 0xA0; 0x1680;
   0x2000; 0x2001; 0x2002; 0x2003; 0x2004; 0x2005; 0x2006; 0x2007; 0x2008; 0x2009; 0x200A;
   0x2028; 0x2029; 0x202F; 0x205F; 0x3000].
