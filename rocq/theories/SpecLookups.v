(** Spec for C93: WordPiece with its vocabulary lookups counted. The definitions are those of
    WordPiece.v (wordpiecemodel.go:55-123) with a counter that grows by one at each call of GetID;
    C93_same says that forgetting the counter gives back the model. *)
From Verif Require Import GoBase Strutils Vocab Bpe WordPiece.

(** [n] lookups before the computation [o]. *)
Definition after {A} (n : Z) (o : option (outcome (A * Z))) : option (outcome (A * Z)) :=
  match o with
  | Some (Ret (a, k)) => Some (Ret (a, n + k))
  | other => other
  end.

Definition forget {A} (o : option (outcome (A * Z))) : option (outcome A) :=
  match o with
  | Some (Ret (a, _)) => Some (Ret a)
  | Some Panic => Some Panic
  | None => None
  end.

(** wordpiecemodel.go:77-99 *)
Fixpoint inner_lookups (fuel : nat) (m : wordpiece) (seq : list Z) (start en : Z)
    : option (outcome (option token * Z)) :=
  if start <? en then
    match fuel with
    | O => None
    | S fuel' =>
      match sub seq start en with
      | Panic => Some Panic
      | Ret s =>
        let subStr := if 0 <? start then w_prefix m ++ s else s in
        after 1
          match get_id (w_vocab m) subStr with
          | Some id => Some (Ret (Some (Token id subStr (Offsets start en)), 0))
          | None =>
            if 0 <? zlen subStr then
              match idx subStr (zlen subStr - 1) with
              | Panic => Some Panic
              | Ret b => inner_lookups fuel' m seq start (en - byte_step b)
              end
            else inner_lookups fuel' m seq start (en - 1)
          end
      end
    end
  else Some (Ret (None, 0)).

(** wordpiecemodel.go:72-108 *)
Fixpoint outer_lookups (fuel : nat) (m : wordpiece) (seq : list Z) (start : Z)
    : option (outcome (option (list token) * Z)) :=
  if start <? zlen seq then
    match fuel with
    | O => None
    | S fuel' =>
      match inner_lookups (S (length seq)) m seq start (zlen seq) with
      | None => None
      | Some Panic => Some Panic
      | Some (Ret (None, k)) => Some (Ret (None, k))
      | Some (Ret (Some t, k)) =>
        after k
          match outer_lookups fuel' m seq (o_end (t_offsets t)) with
          | Some (Ret (Some l, k')) => Some (Ret (Some (t :: l), k'))
          | other => other
          end
      end
    end
  else Some (Ret (Some [], 0)).

(** wordpiecemodel.go:55-123; the lookup of the unknown token (lines 57 and 111) counts too. *)
Definition tokenize_lookups (m : wordpiece) (seq : list Z) : option (outcome (result (list token) * Z)) :=
  if w_max m <? zlen (runes seq) then Some (Ret (wp_unknown m seq, 1))
  else
    match outer_lookups (S (length seq)) m seq 0 with
    | None => None
    | Some Panic => Some Panic
    | Some (Ret (None, k)) => Some (Ret (wp_unknown m seq, k + 1))
    | Some (Ret (Some l, k)) => Some (Ret (Ok l, k))
    end.

(** For a token all ends are tried from the end of the text back to its own, in an ASCII text. *)
Definition asked_for (len : Z) (ts : list token) : Z := foldr (λ t a, (len - o_end (t_offsets t) + 1) + a) 0 ts.
