(** Model of /repo/models/bpemodel/mergemap.go *)
From Verif Require Import GoBase Vocab.

(** mergemap.go:16-28 [MergeMap], [MergeValue] = (Rank, ID), [symbolIDPair]. *)
Record merge_value : Type := MergeValue { mv_rank : Z; mv_id : Z }.
Definition merge_map : Type := gmap (Z * Z) merge_value.

(** mergemap.go:93-96 [Get] and 98-100 [Set]. *)
Definition mm_get (m : merge_map) (a b : Z) : option merge_value := m !! (a, b).
Definition mm_set (m : merge_map) (a b : Z) (v : merge_value) : merge_map := <[(a, b) := v]> m.

(** [bufio.Scanner] with [ScanLines] over a whole file (mergemap.go:54): lines end at '\n', a final '\r'
    of a line is dropped, and there is no empty last line. The scanner gives up, with ErrTooLong, when
    its buffer of 64 KiB (bufio.MaxScanTokenSize) is full of bytes of one line. Result: the lines, and
    whether it gave up. *)
Definition max_token_size : Z := 65536.
Definition drop_cr (l : list Z) : list Z :=
  match rev l with
  | b :: r => if b =? 13 then rev r else l
  | [] => l
  end.
Fixpoint scan_lines_from (cur : list Z) (n : Z) (s : list Z) : list (list Z) * bool :=
  match s with
  | [] => (match cur with [] => [] | _ => [drop_cr (rev cur)] end, false)
  | b :: s' => if b =? 10 then let '(ls, long) := scan_lines_from [] 0 s' in (drop_cr (rev cur) :: ls, long)
               else if n + 1 =? max_token_size then ([], true)
               else scan_lines_from (b :: cur) (n + 1) s'
  end.
Definition scan_lines (s : list Z) : list (list Z) * bool := scan_lines_from [] 0 s.

(** [strings.Split(line, " ")] (mergemap.go:61). *)
Fixpoint split_spaces_from (cur : list Z) (s : list Z) : list (list Z) :=
  match s with
  | [] => [rev cur]
  | b :: s' => if b =? 32 then rev cur :: split_spaces_from [] s'
               else split_spaces_from (b :: cur) s'
  end.
Definition split_spaces (s : list Z) : list (list Z) := split_spaces_from [] s.

(** The literal "#version" (mergemap.go:58). *)
Definition version_prefix : list Z := [35; 118; 101; 114; 115; 105; 111; 110].

(** [strings.HasPrefix]. *)
Definition has_prefix (s p : list Z) : bool := bool_decide (take (length p) s = p).

(** mergemap.go:55-83: the loop over the lines. *)
Fixpoint merges_loop (v : vocab) (prefixLength : Z) (lines : list (list Z)) (lineCount rank : Z)
    (m : merge_map) : outcome (result merge_map) :=
  match lines with
  | [] => Ret (Ok m)
  | line :: lines' =>
    if has_prefix line version_prefix then merges_loop v prefixLength lines' (lineCount + 1) rank m
    else
      match split_spaces line with
      | [t0; t1] =>
        match get_id v t0 with
        | None => Ret (Err (ELeftOOV lineCount))
        | Some leftID =>
          match get_id v t1 with
          | None => Ret (Err (ERightOOV lineCount))
          | Some rightID =>
            tail ← sub t1 prefixLength (zlen t1);
            match get_id v (t0 ++ tail) with
            | None => Ret (Err (EMergedOOV lineCount))
            | Some mergedID =>
              merges_loop v prefixLength lines' (lineCount + 1) (rank + 1)
                (mm_set m leftID rightID (MergeValue rank mergedID))
            end
          end
        end
      | _ => Ret (Err (EMalformedMerges lineCount))
      end
  end.

(** mergemap.go:37-89 [MergeMapFromFile], from the file's bytes on (errors of opening, reading and
    closing the file are not modelled). *)
Definition merge_map_from_file (file : list Z) (v : vocab) (prefixLength : Z)
    : outcome (result merge_map) :=
  let '(lines, long) := scan_lines file in
  r ← merges_loop v prefixLength lines 1 0 ∅;
  Ret (match r with Ok m => if long then Err ELineTooLong else Ok m | Err e => Err e end).
