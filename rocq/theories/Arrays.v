(** Model of the arrays behind two kinds of slices, which the other files treat as values: the captures that
    a SplitPattern returns (/repo/splitpattern/invertedpattern.go writes into them), and the splits of a
    PreTokenizedString (/repo/pretokenizedstring/pretokenizedstring.go: Splits hands them out, Tokenize writes
    into them, and the functions given to Split, Normalize and Tokenize may call methods of the same
    PreTokenizedString).

    A slice is the location of an array of exactly its length. Slices of a part of an array, which only a
    client could make, are not modelled. *)
From Verif Require Import GoBase Strutils SplitPattern NormString Bpe Encodings PreTokString Pointers.

(** * Captures *)
Notation captures_store := (list (list capture)) (only parsing).
(** splitpattern.go:11-17 [SplitPattern]: FindMatches may allocate, and write into arrays that are there. *)
Definition a_pattern : Type := list Z → captures_store → outcome (captures_store * result nat).

(** A pattern that makes its slice anew in every call: func.go:19-63, regexp.go:22-59, regexp2.go:22-69,
    string.go:27-37, rune.go:23-25. *)
Definition a_making (p : pattern) : a_pattern := λ s κ,
  r ← p s;
  Ret (match r with Ok cs => (κ ++ [cs], Ok (length κ)) | Err e => (κ, Err e) end).

(** invertedpattern.go:22-24: the loop, which writes into the array of the slice. *)
Definition flip_capture (c : capture) : capture := Capture (c_start c) (c_end c) (negb (c_match c)).
(** invertedpattern.go:17-26 [InvertedPattern.FindMatches]. *)
Definition a_invert (sp : a_pattern) : a_pattern := λ s κ,
  x ← sp s κ;
  Ret (match x.2 with Ok l => (alter (map flip_capture) l x.1, Ok l) | Err e => (x.1, Err e) end).

(** normalizedstring.go:498-593 [Split] and 596-634 [Replace] on the captures found; they only read them. *)
Definition a_find (p : a_pattern) (s : list Z) (κ : captures_store) : outcome (captures_store * result (list capture)) :=
  x ← p s κ;
  match x.2 with
  | Err e => Ret (x.1, Err e)
  | Ok l => match x.1 !! l with Some cs => Ret (x.1, Ok cs) | None => Panic end
  end.
Definition a_split (n : ns) (p : a_pattern) (b : behaviour) (κ : captures_store) : outcome (captures_store * result (list ns)) :=
  x ← a_find p (ns_norm n) κ;
  r ← split n (λ _, Ret x.2) b;
  Ret (x.1, r).
Definition a_replace (n : ns) (p : a_pattern) (content : list Z) (κ : captures_store) : outcome (captures_store * result ns) :=
  x ← a_find p (ns_norm n) κ;
  r ← replace n (λ _, Ret x.2) content;
  Ret (x.1, r).

(** * Splits *)
(** The normalized strings, the arrays of splits, which of the arrays p.splits is at the moment, and the
    client's own variables. *)
Record world (St : Type) : Type := World { w_strings : list ns; w_arrays : list (list hsplit); w_cur : nat; w_client : St }.
Arguments World {_} _ _ _ _.
Arguments w_strings {_} _.
Arguments w_arrays {_} _.
Arguments w_cur {_} _.
Arguments w_client {_} _.
(** A call by the client or by the library. *)
Definition act (St A : Type) : Type := world St → outcome (world St * A).

Section world.
Context {St : Type}.
Implicit Types w : world St.

(** One that uses only the strings and the client's variables. *)
Definition on_strings {A} (m : St → heap (St * A)) : act St A := λ w,
  x ← m (w_client w) (w_strings w); Ret (World x.1 (w_arrays w) (w_cur w) x.2.1, x.2.2).

(** pretokenizedstring.go:154-156 [Splits]. *)
Definition r_splits (w : world St) : nat := w_cur w.

(** An element of an array. *)
Definition element (w : world St) (a i : nat) : option hsplit := match w_arrays w !! a with Some l => l !! i | None => None end.
Definition array_len (w : world St) (a : nat) : nat := match w_arrays w !! a with Some l => length l | None => 0%nat end.

(** pretokenizedstring.go:67-84: the loop of [Split]. The array and its length are fixed by the range clause,
    the elements are read when their turn comes. [new] is newSplits. *)
Fixpoint r_split_loop (f : Z → nat → act St (result (list hsplit))) (a i k : nat) (new : list hsplit) (w : world St)
    : outcome (world St * result (list hsplit)) :=
  match k with
  | O => Ret (w, Ok new)
  | S k' =>
    match element w a i with
    | None => Panic
    | Some sp =>
      match hs_tokens sp with
      | Some _ => r_split_loop f a (S i) k' (new ++ [sp]) w
      | None =>
        x ← f (Z.of_nat i) (hs_loc sp) w;
        match x.2 with
        | Err e => Ret (x.1, Err e)
        | Ok items =>
          y ← on_strings (λ st, h_bind (h_keep items) (λ l, h_ret (st, l))) x.1;
          r_split_loop f a (S i) k' (new ++ y.2) y.1
        end
      end
    end
  end.
(** pretokenizedstring.go:63-88 [Split]; newSplits is a new array. *)
Definition r_split (f : Z → nat → act St (result (list hsplit))) : act St (option err) := λ w,
  x ← r_split_loop f (w_cur w) 0 (array_len w (w_cur w)) [] w;
  Ret (match x.2 with
       | Err e => (x.1, Some e)
       | Ok new => (World (w_strings x.1) (w_arrays x.1 ++ [new]) (length (w_arrays x.1)) (w_client x.1), None)
       end).

(** pretokenizedstring.go:92-105 [Normalize]. *)
Fixpoint r_normalize_loop (f : nat → act St (option err)) (a i k : nat) (w : world St) : outcome (world St * option err) :=
  match k with
  | O => Ret (w, None)
  | S k' =>
    match element w a i with
    | None => Panic
    | Some sp =>
      match hs_tokens sp with
      | Some _ => r_normalize_loop f a (S i) k' w
      | None =>
        x ← f (hs_loc sp) w;
        match x.2 with Some e => Ret (x.1, Some e) | None => r_normalize_loop f a (S i) k' x.1 end
      end
    end
  end.
Definition r_normalize (f : nat → act St (option err)) : act St (option err) := λ w,
  r_normalize_loop f (w_cur w) 0 (array_len w (w_cur w)) w.

(** pretokenizedstring.go:120: [p.splits[i].Tokens = &tokens], into the array that p.splits is now. *)
Definition set_tokens (i : nat) (ts : list token) (w : world St) : outcome (world St) :=
  match element w (w_cur w) i with
  | None => Panic
  | Some sp => Ret (World (w_strings w) (alter (λ l, <[i := HSplit (hs_loc sp) (Some ts)]> l) (w_cur w) (w_arrays w)) (w_cur w) (w_client w))
  end.
(** pretokenizedstring.go:109-123 [Tokenize]. *)
Fixpoint r_tokenize_loop (f : nat → act St (result (list token))) (a i k : nat) (w : world St) : outcome (world St * option err) :=
  match k with
  | O => Ret (w, None)
  | S k' =>
    match element w a i with
    | None => Panic
    | Some sp =>
      match hs_tokens sp with
      | Some _ => r_tokenize_loop f a (S i) k' w
      | None =>
        x ← f (hs_loc sp) w;
        match x.2 with
        | Err e => Ret (x.1, Some e)
        | Ok ts => w' ← set_tokens i ts x.1; r_tokenize_loop f a (S i) k' w'
        end
      end
    end
  end.
Definition r_tokenize (f : nat → act St (result (list token))) : act St (option err) := λ w,
  r_tokenize_loop f (w_cur w) 0 (array_len w (w_cur w)) w.

(** The client runs one call after another. *)
Definition then_do {A B} (m : act St A) (k : A → act St B) : act St B := λ w, x ← m w; k x.2 x.1.
End world.
