(** Model of /repo/models/bpemodel/wordmerge.go and of Go's container/heap (standard library),
    which wordmerge.go is run by. *)
From Verif Require Import GoBase MergeMap.

(** wordmerge.go:9-12 [WordMerge]: an embedded MergeValue (Rank, ID) and Pos. *)
Record word_merge : Type := WordMerge { wm_rank : Z; wm_id : Z; wm_pos : Z }.

(** wordmerge.go:22-29 [Less] on the two elements. *)
Definition wm_less (a b : word_merge) : bool :=
  if negb (wm_rank a =? wm_rank b) then wm_rank a <? wm_rank b
  else wm_pos a <? wm_pos b.

(** wordmerge.go:22-29 [Less] (indices are never negative: nat). *)
Definition h_less (h : list word_merge) (i j : nat) : outcome bool :=
  match h !! i, h !! j with
  | Some a, Some b => Ret (wm_less a b)
  | _, _ => Panic
  end.

(** wordmerge.go:31-33 [Swap]. *)
Definition h_swap (h : list word_merge) (i j : nat) : outcome (list word_merge) :=
  match h !! i, h !! j with
  | Some a, Some b => Ret (<[i := b]> (<[j := a]> h))
  | _, _ => Panic
  end.

(** container/heap [up]. [fuel] bounds the iterations; running out of it is [Panic], which HeapFacts
    shows never to happen. ((j-1)/2 of Go is 0 for j = 0, as [Nat.div2 (j - 1)] is.) *)
Fixpoint h_up (fuel : nat) (h : list word_merge) (j : nat) : outcome (list word_merge) :=
  match fuel with
  | O => Panic
  | S fuel' =>
    let i := Nat.div2 (j - 1) in
    if (i =? j)%nat then Ret h else
    l ← h_less h j i;
    if negb l then Ret h else
    h' ← h_swap h i j;
    h_up fuel' h' i
  end.

(** container/heap [down]. *)
Fixpoint h_down (fuel : nat) (h : list word_merge) (i n : nat) : outcome (list word_merge) :=
  match fuel with
  | O => Panic
  | S fuel' =>
    let j1 := (2 * i + 1)%nat in
    if (n <=? j1)%nat then Ret h else
    let j2 := (j1 + 1)%nat in
    l2 ← (if (j2 <? n)%nat then h_less h j2 j1 else Ret false);
    let j := if (l2 : bool) then j2 else j1 in
    l ← h_less h j i;
    if negb l then Ret h else
    h' ← h_swap h i j;
    h_down fuel' h' j n
  end.

(** container/heap [Push], with wordmerge.go:35-37 [Push]. *)
Definition heap_push (h : list word_merge) (x : word_merge) : outcome (list word_merge) :=
  h_up (S (length h)) (h ++ [x]) (length h).

(** container/heap [Pop], with wordmerge.go:39-44 [Pop]. *)
Definition heap_pop (h : list word_merge) : outcome (word_merge * list word_merge) :=
  match length h with
  | O => Panic
  | S n =>
    h1 ← h_swap h 0 n;
    h2 ← h_down (S n) h1 0 n;
    x ← match h2 !! n with Some x => Ret x | None => Panic end;
    Ret (x, take n h2)
  end.

(** word.go:111-113: pushing a list of entries, one by one. *)
Fixpoint heap_push_all (h : list word_merge) (xs : list word_merge) : outcome (list word_merge) :=
  match xs with
  | [] => Ret h
  | x :: xs' => h' ← heap_push h x; heap_push_all h' xs'
  end.
