(** Model of /repo/models/wordpiecemodel/wordpiecemodel.go *)
From Verif Require Import GoBase Strutils Vocab Bpe.

(** wordpiecemodel.go:19-28 [WordPieceModel]. *)
Record wordpiece : Type := WordPiece {
  w_vocab : vocab;
  w_unk : list Z;
  w_prefix : list Z;
  w_max : Z;
}.

(** wordpiecemodel.go:46-53 [NewDefault]: "[UNK]", "##", 100. *)
Definition wp_default : wordpiece := WordPiece new_vocab [91; 85; 78; 75; 93] [35; 35] 100.

(** wordpiecemodel.go:95: [len(string(b))] for a byte [b]: the byte is converted as a code point. *)
Definition byte_step (b : Z) : Z := rune_len b.

(** wordpiecemodel.go:77-99: the inner loop: the token found for [start], trying ever smaller [end].
    [None] is "out of fuel" (excluded by WordPieceFacts), [Some None] is "no token". *)
Fixpoint wp_inner (fuel : nat) (m : wordpiece) (seq : list Z) (start en : Z)
    : option (outcome (option token)) :=
  if start <? en then
    match fuel with
    | O => None
    | S fuel' =>
      match sub seq start en with
      | Panic => Some Panic
      | Ret s =>
        let subStr := if 0 <? start then w_prefix m ++ s else s in
        match get_id (w_vocab m) subStr with
        | Some id => Some (Ret (Some (Token id subStr (Offsets start en))))
        | None =>
          if 0 <? zlen subStr then
            match idx subStr (zlen subStr - 1) with
            | Panic => Some Panic
            | Ret b => wp_inner fuel' m seq start (en - byte_step b)
            end
          else wp_inner fuel' m seq start (en - 1)
        end
      end
    end
  else Some (Ret None).

(** wordpiecemodel.go:72-108: the outer loop. Result: the sub-tokens, or [None] for isBad. *)
Fixpoint wp_outer (fuel : nat) (m : wordpiece) (seq : list Z) (start : Z)
    : option (outcome (option (list token))) :=
  if start <? zlen seq then
    match fuel with
    | O => None
    | S fuel' =>
      match wp_inner (S (length seq)) m seq start (zlen seq) with
      | None => None
      | Some Panic => Some Panic
      | Some (Ret None) => Some (Ret None)
      | Some (Ret (Some t)) =>
        match wp_outer fuel' m seq (o_end (t_offsets t)) with
        | Some (Ret (Some l)) => Some (Ret (Some (t :: l)))
        | other => other
        end
      end
    end
  else Some (Ret (Some [])).

(** wordpiecemodel.go:57-65 and 110-120: the whole input as one unknown token. *)
Definition wp_unknown (m : wordpiece) (seq : list Z) : result (list token) :=
  match get_id (w_vocab m) (w_unk m) with
  | None => Err EUnknownTokenOutOfVocabulary
  | Some id => Ok [Token id (w_unk m) (Offsets 0 (zlen seq))]
  end.

(** wordpiecemodel.go:55-123 [Tokenize]. [None] is "out of fuel". *)
Definition wp_tokenize (m : wordpiece) (seq : list Z) : option (outcome (result (list token))) :=
  if w_max m <? zlen (runes seq) then Some (Ret (wp_unknown m seq))
  else
    match wp_outer (S (length seq)) m seq 0 with
    | None => None
    | Some Panic => Some Panic
    | Some (Ret None) => Some (Ret (wp_unknown m seq))
    | Some (Ret (Some l)) => Some (Ret (Ok l))
    end.
