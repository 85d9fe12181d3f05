(** Model of /repo/normalizers/*/*.go. A normalizer gives the modified NormalizedString and the error,
    if any. *)
From Verif Require Import GoBase NormString.

Definition normalizer : Type := ns → outcome (ns * option err).

(** Tables and mappings of Go's package unicode that the code uses, left open. *)
Record unicode : Type := Unicode {
  u_other : Z → bool;      (* unicode.Other *)
  u_mn : Z → bool;         (* unicode.Mn *)
  u_punct : Z → bool;      (* unicode.Punct *)
  u_lower : Z → Z;         (* unicode.ToLower *)
  u_upper : Z → Z;         (* unicode.ToUpper *)
}.

(** A normalizer that never returns an error. *)
Definition no_error (f : ns → outcome ns) : normalizer := λ n, n' ← f n; Ret (n', None).

(** lowercasenormalizer.go:24-27. *)
Definition lowercase_normalizer (u : unicode) : normalizer := no_error (λ n, map_runes n (u_lower u)).

(** stripnormalizer.go:25-28. *)
Definition strip_normalizer (left right : bool) : normalizer :=
  no_error (λ n, trim_left_right n left right).

(** sequencenormalizer.go:29-37. *)
Fixpoint sequence_normalizer (l : list normalizer) : normalizer := λ n,
  match l with
  | [] => Ret (n, None)
  | f :: l' =>
    x ← f n;
    let '(n', e) := x in
    match e with
    | Some er => Ret (n', Some er)
    | None => sequence_normalizer l' n'
    end
  end.

(** bertnormalizer.go:80-89 [isControlCharacter]. *)
Definition is_control (u : unicode) (r : Z) : bool :=
  if (r =? 9) || (r =? 10) || (r =? 13) then false else u_other u r.

(** bertnormalizer.go:92-98 [isWhitespace]. *)
Definition is_whitespace (r : Z) : bool :=
  if (r =? 9) || (r =? 10) || (r =? 13) then true else white_space r.

(** bertnormalizer.go:67-77 [cleanText]. *)
Definition clean_text (u : unicode) (n : ns) : outcome ns :=
  n1 ← filter_runes n (λ r, negb ((r =? 0) || (r =? rune_error) || is_control u r));
  map_runes n1 (λ r, if is_whitespace r then 32 else r).

(** bertnormalizer.go:111-124 [chineseCharacters], looked up with [unicode.In]. *)
Definition chinese_table : list (Z * Z) :=
  [(0x3400, 0x4dbf); (0x4e00, 0x9fff); (0xf900, 0xfaff);
   (0x20000, 0x2a6df); (0x2a700, 0x2b73f); (0x2b740, 0x2b81f); (0x2b920, 0x2ceaf); (0x2f800, 0x2fa1f)].
Definition is_chinese (r : Z) : bool := existsb (λ '(lo, hi), byte_in lo hi r) chinese_table.

(** bertnormalizer.go:128-143 [handleChineseChars]. *)
Definition chinese_changes (rs : list Z) : list (Z * Z) :=
  flat_map (λ r, if is_chinese r then [(32, 0); (r, 1); (32, 1)] else [(r, 0)]) rs.
Definition handle_chinese (n : ns) : outcome ns :=
  transform n (chinese_changes (runes (ns_norm n))) 0.

(** bertnormalizer.go:147-152 [stripAccents]. *)
Definition strip_accents (u : unicode) (n : ns) : outcome ns :=
  filter_runes n (λ r, negb (u_mn u r)).

(** bertnormalizer.go:15-26 [BertNormalizer]. *)
Record bert_options : Type := BertOptions {
  bo_clean : bool; bo_chinese : bool; bo_accents : bool; bo_lower : bool;
}.

(** bertnormalizer.go:44-46 [DefaultBertNormalizer]. *)
Definition default_bert : bert_options := BertOptions true true true true.

(** bertnormalizer.go:49-63 [Normalize]. *)
Definition bert_normalize (u : unicode) (o : bert_options) (n : ns) : outcome ns :=
  n1 ← (if bo_clean o then clean_text u n else Ret n);
  n2 ← (if bo_chinese o then handle_chinese n1 else Ret n1);
  n3 ← (if bo_accents o then strip_accents u n2 else Ret n2);
  if bo_lower o then map_runes n3 (u_lower u) else Ret n3.
Definition bert_normalizer (u : unicode) (o : bert_options) : normalizer := no_error (bert_normalize u o).
