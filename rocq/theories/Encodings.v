(** Model of /repo/encodings/encodings.go *)
From Verif Require Import GoBase Strutils.

(** encodings.go:10-28 [Encoding]. *)
Inductive encoding : Type := Encoding {
  e_ids : list Z;
  e_type_ids : list Z;
  e_tokens : list (list Z);
  e_words : list Z;
  e_offsets : list offsets;
  e_special : list Z;
  e_attention : list Z;
  e_overflowing : list encoding;
}.

(** encodings.go:32-39 [EncodableToken]. *)
Record enc_token : Type := EncToken {
  et_id : Z; et_token : list Z; et_offsets : offsets; et_word : Z; et_type : Z;
}.

(** encodings.go:65-81 [NewDefaultEncoding], [NewEncodingWithCapacity]. *)
Definition empty_encoding : encoding := Encoding [] [] [] [] [] [] [] [].

(** encodings.go:85-93: one iteration. *)
Definition add_token (e : encoding) (t : enc_token) : encoding :=
  Encoding (e_ids e ++ [et_id t]) (e_type_ids e ++ [et_type t]) (e_tokens e ++ [et_token t])
           (e_words e ++ [et_word t]) (e_offsets e ++ [et_offsets t]) (e_special e ++ [0])
           (e_attention e ++ [1]) (e_overflowing e).

(** encodings.go:83-95 [EncodingFromEncodableTokens]. *)
Definition encoding_from_tokens (ts : list enc_token) : encoding :=
  foldl add_token empty_encoding ts.

(** encodings.go:98-105 [IsEmpty], [Len]. *)
Definition enc_len (e : encoding) : Z := zlen (e_ids e).
Definition enc_is_empty (e : encoding) : bool := zlen (e_ids e) =? 0.
