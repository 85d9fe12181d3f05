(** Specification of Split's delimiter behaviours, on the kinds (match or not) of the captures. *)
From Verif Require Import GoBase Strutils SplitPattern NormString SpecText SpecNorm.

(** [R] holds between each element of the list and the next one. *)
Definition adjacent {A} (R : A → A → Prop) (l : list A) : Prop :=
  ∀ i x y, l !! i = Some x → l !! S i = Some y → R x y.

(** How each behaviour groups the captures into pieces; [gs] gives the kinds, group by group. *)
Definition grouping (b : behaviour) (gs : list (list bool)) : Prop :=
  match b with
  (* every capture on its own *)
  | Removed | Isolated => Forall (λ g, g = [true] ∨ g = [false]) gs
  (* maximal runs of one kind *)
  | Contiguous =>
    Forall (λ g, g ≠ [] ∧ ∃ k, Forall (eq k) g) gs ∧ adjacent (λ g h, last g ≠ head h) gs
  (* a match goes with the non-match directly before it *)
  | MergedWithPrevious =>
    Forall (λ g, g = [true] ∨ g = [false] ∨ g = [false; true]) gs
    ∧ adjacent (λ g h, ¬ (last g = Some false ∧ head h = Some true)) gs
  (* a match goes with the non-match directly after it *)
  | MergedWithNext =>
    Forall (λ g, g = [true] ∨ g = [false] ∨ g = [true; false]) gs
    ∧ adjacent (λ g h, ¬ (last g = Some true ∧ head h = Some false)) gs
  end.

(** Which groups become pieces: all of them, except that Removed drops the matches. *)
Definition kept (b : behaviour) (g : list bool) : Prop :=
  match b with Removed => g = [false] | _ => True end.
Global Instance kept_dec b g : Decision (kept b g).
Proof. destruct b; cbn; apply _. Defined.

(** The segments of a text grouped by a behaviour, and the pieces' texts. *)
Definition grouped (b : behaviour) (segs : asegments) (gs : list asegments) : Prop :=
  concat gs = segs ∧ grouping b (map (λ g, g.*2) gs).
Definition group_text (g : asegments) : list (Z * (Z * Z)) := concat g.*1.
Definition kept_groups (b : behaviour) (gs : list asegments) : list asegments :=
  base.filter (λ g, kept b g.*2) gs.

(** Empty pieces need their position to exist in the original string too. *)
Definition empties_ok (b : behaviour) (orig : list Z) (cs : list capture) : Prop :=
  Forall (λ c, c_start c = c_end c → (b = Removed ∧ c_match c = true) ∨ c_end c <= zlen orig) cs.

(** A kept group without text that lies past the end of the original string. *)
Definition lost_piece (b : behaviour) (orig : list Z) (gs : list asegments) : Prop :=
  ∃ gs1 g gs2, gs = gs1 ++ g :: gs2 ∧ kept b g.*2 ∧ group_text g = []
    ∧ zlen orig < alen (concat (map group_text gs1)).
