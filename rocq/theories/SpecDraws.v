(** Specification vocabulary for C107: how often the loop of MergeAll runs. *)
From Verif Require Import GoBase MergeMap Heap Bpe.
#[local] Open Scope Z_scope.

(** The number of iterations in a run of MergeAll; with dropout, that many random numbers are drawn. *)
Definition iterations (w : word) (mm : merge_map) (drop : nat → bool) : option (outcome nat) :=
  match initial_queue mm 0 w [] with
  | Panic => Some Panic
  | Ret q =>
    match merge_loop (merge_fuel w) mm drop (MState w q [] 0) with
    | None => None
    | Some Panic => Some Panic
    | Some (Ret st) => Some (Ret (m_draws st))
    end
  end.

(** For [n] symbols: the most iterations if nothing is dropped, and if anything may be. *)
Definition most_plain (n : nat) : nat := match n with O | 1 => 0 | 2 => 1 | _ => 3 * n - 6 end%nat.
Definition most_drawn (n : nat) : nat := match n with O | 1 => 0 | 2 => 1 | _ => (n - 2) * (7 * n - 11) / 2 end%nat.
