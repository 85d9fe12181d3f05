(** Specification of byte pair encoding with dropout. *)
From stdpp Require Import relations.
From Coq Require Import QArith.
From Verif Require Import GoBase MergeMap SpecBpe.
#[local] Open Scope Z_scope.

(** A request for a merge: its rank, and the byte at which the left symbol starts. *)
Notation request := (Z * Z)%type (only parsing).
Definition no_later (a b : request) : Prop := a.1 < b.1 ∨ (a.1 = b.1 ∧ a.2 <= b.2).

(** The symbols; the indices of the pairs that are left out for now; and the requests for merges that can no longer
    be made: those still to be drawn, and those left out for now. *)
Record dstate : Type := DState {
  d_syms : list (Z * Z);
  d_out : list nat;
  d_old : list request;
  d_old_out : list request;
}.

(** The merge for the pair at index [k], if there is one, and the request for it. *)
Definition merge_at (mm : merge_map) (ss : list (Z * Z)) (k : nat) : option merge_value :=
  match ss !! k, ss !! S k with Some x, Some y => mm !! (x.1, y.1) | _, _ => None end.
Definition request_at (mm : merge_map) (ss : list (Z * Z)) (k : nat) : list request :=
  match merge_at mm ss k with Some m => [(mv_rank m, sym_bytes (take k ss))] | None => [] end.
(** The requests for the pairs that share a symbol with the pair at index [k]. *)
Definition beside (mm : merge_map) (ss : list (Z * Z)) (k : nat) : list request :=
  match k with S j => request_at mm ss j | O => [] end ++ request_at mm ss (S k).
(** How many pairs have merges. *)
Definition open_pairs (mm : merge_map) (ss : list (Z * Z)) : nat :=
  length (base.filter (λ k, is_Some (merge_at mm ss k)) (seq 0 (length ss))).

(** [q] comes no later than the requests of the pairs that are not left out. *)
Definition first_of (mm : merge_map) (ss : list (Z * Z)) (out : list nat) (q : request) : Prop :=
  ∀ k, k ∉ out → Forall (no_later q) (request_at mm ss k).

(** One draw; the flag says whether it fell below the dropout. *)
Inductive drop_step (mm : merge_map) : bool → dstate → dstate → Prop :=
(* the first request is for a pair, which is left out *)
| ds_leave ss out f g k q :
    k ∉ out → request_at mm ss k = [q] → first_of mm ss out q → Forall (no_later q) f →
    drop_step mm true (DState ss out f g) (DState ss (k :: out) f g)
(* or is merged; then nothing is left out any more *)
| ds_merge l a la b lb r out f g m :
    let ss := l ++ (a, la) :: (b, lb) :: r in let q := (mv_rank m, sym_bytes l) in
    mm !! (a, b) = Some m → length l ∉ out → first_of mm ss out q → Forall (no_later q) f →
    drop_step mm false (DState ss out f g) (DState (l ++ (mv_id m, la + lb) :: r) [] (f ++ g ++ beside mm ss (length l)) [])
(* the first request can no longer be met *)
| ds_old_leave ss out f1 q f2 g :
    first_of mm ss out q → Forall (no_later q) (f1 ++ f2) →
    drop_step mm true (DState ss out (f1 ++ q :: f2) g) (DState ss out (f1 ++ f2) (q :: g))
| ds_old ss out f1 q f2 g :
    first_of mm ss out q → Forall (no_later q) (f1 ++ f2) →
    drop_step mm false (DState ss out (f1 ++ q :: f2) g) (DState ss [] (f1 ++ f2 ++ g) []).

(** Several draws. *)
Inductive drop_run (mm : merge_map) : list bool → dstate → dstate → Prop :=
| dr_none s : drop_run mm [] s s
| dr_draw d ds s s1 s2 : drop_step mm d s s1 → drop_run mm ds s1 s2 → drop_run mm (d :: ds) s s2.

(** Nothing left to draw for. *)
Definition all_left_out (mm : merge_map) (s : dstate) : Prop :=
  d_old s = [] ∧ ∀ k m, merge_at mm (d_syms s) k = Some m → k ∈ d_out s.

(** No two merges share a rank. *)
Definition ranks_differ (mm : merge_map) : Prop :=
  ∀ p p' m m', mm !! p = Some m → mm !! p' = Some m' → mv_rank m = mv_rank m' → p = p'.

(** The first [n] draws compared with the dropout. *)
Definition decisions (dropout : Q) (draws : nat → Q) (n : nat) (ds : list bool) : Prop :=
  Forall2 (λ k d, d = true ↔ (0 < dropout ∧ draws k < dropout)%Q) (seq 0 n) ds.
