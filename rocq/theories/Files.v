(** Model of how the two functions of /repo that take a file name read their file: vocabulary.go:27-45 [FromJSONFile],
    mergemap.go:37-89 [MergeMapFromFile]. Opening, every read and closing may fail, and a read may give any part of what is
    left of the file. The other files start from the bytes of the whole file.

    [bufio.Scanner] and [ioutil.ReadFile] are written from knowledge of the Go library, whose source is not in /repo. *)
From Verif Require Import GoBase Vocab Json MergeMap.
Import GoBase.
#[local] Open Scope Z_scope.

(** What ends the reads: io.EOF or an error. *)
Inductive stop : Type := AtEOF | Failed (e : err).

(** An open file: the bytes that are still to come, how many of them the read number [rd_calls], [rd_calls + 1], ... would
    give, and what comes after them. (A read of an [os.File] never gives bytes and an error at once.) *)
Record reader : Type := Reader {
  rd_left : list Z;
  rd_ask : nat → Z;
  rd_calls : nat;
  rd_end : stop;
}.
(** [Read(b)] with [room] = len(b). *)
Definition read (r : reader) (room : Z) : list Z * option stop * reader :=
  match rd_left r with
  | [] => ([], Some (rd_end r), r)
  | _ =>
    let n := Z.to_nat (Z.min (rd_ask r (rd_calls r)) room) in
    (take n (rd_left r), None, Reader (drop n (rd_left r)) (rd_ask r) (S (rd_calls r)) (rd_end r))
  end.

(** ** bufio.Scanner *)

(** [ScanLines(data, atEOF)]: how many bytes are used up, and the token, if any. *)
Fixpoint index_lf (data : list Z) (i : Z) : option Z :=
  match data with
  | [] => None
  | b :: data' => if b =? 10 then Some i else index_lf data' (i + 1)
  end.
Definition scan_line (data : list Z) (atEOF : bool) : Z * option (list Z) :=
  if atEOF && (zlen data =? 0) then (0, None) else
  match index_lf data 0 with
  | Some i => (i + 1, Some (drop_cr (take (Z.to_nat i) data)))
  | None => if atEOF then (zlen data, Some (drop_cr data)) else (0, None)
  end.

(** [Scanner]: [sc_data] is buf[start:end] (the rest of the buffer is never looked at), [sc_size] is len(buf). The counter of
    empty tokens and the checks of what the split function returns are left out: a token of [scan_line] uses up at least
    one byte, and at most all ([scan_line_progress] in FilesFacts.v). *)
Record scanner : Type := Scanner {
  sc_rd : reader;
  sc_data : list Z;
  sc_start : Z;
  sc_size : Z;
  sc_err : option stop;
}.
(** [NewScanner]. *)
Definition new_scanner (r : reader) : scanner := Scanner r [] 0 0 None.
Definition start_buf_size : Z := 4096.

(** The inner loop of [Scan]: reads until something comes. After 101 reads of nothing it gives up with io.ErrNoProgress, here
    [no_progress]. *)
Definition no_progress : err := EExternal (-1).
Fixpoint fill (tries : nat) (r : reader) (room : Z) : list Z * option stop * reader :=
  match tries with
  | O => ([], Some (Failed no_progress), r)
  | S tries' =>
    let '(bs, e, r') := read r room in
    match e, bs with
    | Some _, _ => (bs, e, r')
    | None, [] => fill tries' r' room
    | None, _ => (bs, None, r')
    end
  end.
(** [setErr]: only io.EOF is overwritten. *)
Definition set_err (old : option stop) (e : stop) : option stop :=
  match old with
  | None | Some AtEOF => Some e
  | Some (Failed _) => old
  end.
(** [Scan]: the token, or [None] for the result false. The outer [None] is "out of fuel". *)
Fixpoint scan (fuel : nat) (s : scanner) : option (option (list Z) * scanner) :=
  match fuel with
  | O => None
  | S fuel' =>
    let atEOF := match sc_err s with Some _ => true | None => false end in
    (* what is there already *)
    let '(adv, token) := if (0 <? zlen (sc_data s)) || atEOF then scan_line (sc_data s) atEOF else (0, None) in
    let s1 := Scanner (sc_rd s) (drop (Z.to_nat adv) (sc_data s)) (sc_start s + adv) (sc_size s) (sc_err s) in
    match token with
    | Some t => Some (Some t, s1)
    | None =>
      if atEOF then Some (None, Scanner (sc_rd s1) [] 0 (sc_size s1) (sc_err s1)) else
      (* shift the data to the beginning of the buffer *)
      let s2 := if (0 <? sc_start s1) && ((sc_start s1 + zlen (sc_data s1) =? sc_size s1) || (sc_size s1 / 2 <? sc_start s1))
                then Scanner (sc_rd s1) (sc_data s1) 0 (sc_size s1) (sc_err s1) else s1 in
      (* is the buffer full? *)
      let full := sc_start s2 + zlen (sc_data s2) =? sc_size s2 in
      if full && (max_token_size <=? sc_size s2)
      then Some (None, Scanner (sc_rd s2) (sc_data s2) (sc_start s2) (sc_size s2) (set_err (sc_err s2) (Failed ELineTooLong)))
      else
      let s3 := if full
                then Scanner (sc_rd s2) (sc_data s2) 0
                       (Z.min (if sc_size s2 * 2 =? 0 then start_buf_size else sc_size s2 * 2) max_token_size) (sc_err s2)
                else s2 in
      let '(bs, e, r') := fill 101 (sc_rd s3) (sc_size s3 - (sc_start s3 + zlen (sc_data s3))) in
      scan fuel' (Scanner r' (sc_data s3 ++ bs) (sc_start s3) (sc_size s3)
                    (match e with Some e => set_err (sc_err s3) e | None => sc_err s3 end))
    end
  end.
(** Every turn of the loop but the last two takes a byte of the file. *)
Definition scan_next (s : scanner) : option (option (list Z) * scanner) := scan (3 + length (rd_left (sc_rd s))) s.
(** [Err]. *)
Definition scanner_err (s : scanner) : option err := match sc_err s with Some (Failed e) => Some e | _ => None end.

(** ** mergemap.go *)

(** 58-82: one line; the new rank and the new map. *)
Definition merges_line (v : vocab) (prefixLength : Z) (line : list Z) (lineCount rank : Z) (m : merge_map)
    : outcome (result (Z * merge_map)) :=
  if has_prefix line version_prefix then Ret (Ok (rank, m)) else
  match split_spaces line with
  | [t0; t1] =>
    match get_id v t0 with
    | None => Ret (Err (ELeftOOV lineCount))
    | Some leftID =>
      match get_id v t1 with
      | None => Ret (Err (ERightOOV lineCount))
      | Some rightID =>
        tail ← sub t1 prefixLength (zlen t1);
        match get_id v (t0 ++ tail) with
        | None => Ret (Err (EMergedOOV lineCount))
        | Some mergedID => Ret (Ok (rank + 1, mm_set m leftID rightID (MergeValue rank mergedID)))
        end
      end
    end
  | _ => Ret (Err (EMalformedMerges lineCount))
  end.
(** 55-88: each line is dealt with before the next one is read. *)
Fixpoint merges_scan (fuel : nat) (v : vocab) (prefixLength : Z) (s : scanner) (lineCount rank : Z) (m : merge_map)
    : option (outcome (result merge_map)) :=
  match fuel with
  | O => None
  | S fuel' =>
    match scan_next s with
    | None => None
    | Some (None, s') => Some (Ret (match scanner_err s' with Some e => Err e | None => Ok m end))
    | Some (Some line, s') =>
      match merges_line v prefixLength line lineCount rank m with
      | Panic => Some Panic
      | Ret (Err e) => Some (Ret (Err e))
      | Ret (Ok (rank', m')) => merges_scan fuel' v prefixLength s' (lineCount + 1) rank' m'
      end
    end
  end.
(** 37-89 [MergeMapFromFile]: the two results. [file] is what os.Open returns, [close] what file.Close returns. The deferred
    function of 48-52 changes the error only, not the map. *)
Definition merge_map_file (file : reader + err) (close : option err) (v : vocab) (prefixLength : Z)
    : option (outcome (option merge_map * option err)) :=
  match file with
  | inr e => Some (Ret (None, Some e))
  | inl r =>
    match merges_scan (2 + length (rd_left r)) v prefixLength (new_scanner r) 1 0 ∅ with
    | None => None
    | Some Panic => Some Panic
    | Some (Ret (Err e)) => Some (Ret (None, Some e))
    | Some (Ret (Ok m)) => Some (Ret (Some m, close))
    end
  end.

(** ** vocabulary.go *)

(** [ioutil.ReadFile], after opening: reads until a read fails; io.EOF is no failure. [room] gives the free part of the buffer,
    at each read; how it grows differs between versions of Go. [None] is "out of fuel". *)
Fixpoint read_all (fuel : nat) (r : reader) (room : nat → Z) (data : list Z) : option (list Z * option err) :=
  match fuel with
  | O => None
  | S fuel' =>
    let '(bs, e, r') := read r (room (rd_calls r)) in
    match e with
    | Some AtEOF => Some (data ++ bs, None)
    | Some (Failed er) => Some (data ++ bs, Some er)
    | None => read_all fuel' r' room (data ++ bs)
    end
  end.
(** vocabulary.go:27-45 [FromJSONFile]. The file is closed by ReadFile, which drops the result of Close. *)
Definition vocab_file (fuel : nat) (file : reader + err) (room : nat → Z) (order : gmap (list Z) Z → list (list Z * Z))
    : option (result vocab) :=
  match file with
  | inr e => Some (Err e)
  | inl r =>
    match read_all fuel r room [] with
    | None => None
    | Some (_, Some e) => Some (Err e)
    | Some (raw, None) => Some (from_json_bytes raw order)
    end
  end.
