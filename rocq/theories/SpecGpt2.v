(** Spec for C95: where the default byte-level pre-tokenizer cuts, without regular expressions. *)
From stdpp Require Import list.
From Coq Require Import ZArith.
#[local] Open Scope Z_scope.

Section gpt2.
  (** How letter case is ignored; letters, numbers and white space. *)
  Context (fold : Z → Z) (letter number space : Z → bool).

  (** No character is of two kinds, and ' ' is white space. *)
  Definition disjoint_kinds : Prop :=
    space 32 = true ∧ ∀ c, (letter c = true → number c = false ∧ space c = false) ∧ (number c = true → space c = false).

  Inductive kind : Type := KLetter | KNumber | KSpace | KOther.
  Definition kind_at (c : Z) : kind :=
    if letter c then KLetter else if number c then KNumber else if space c then KSpace else KOther.
  Definition all_of (k : kind) (x : list Z) : Prop := Forall (λ c, kind_at c = k) x.
  (** The text does not go on with this kind. *)
  Definition stops (k : kind) (t : list Z) : Prop := ∀ c, head t = Some c → kind_at c ≠ k.

  (** An apostrophe and "s", "t", "re", "ve", "m", "ll", "d", up to case. *)
  Definition endings : list (list Z) := [[115]; [116]; [114; 101]; [118; 101]; [109]; [108; 108]; [100]].
  Definition contracts (s w x t : list Z) : Prop := s = x ++ t ∧ map fold x = map fold (39 :: w).

  (** The first piece [x] of a text, and the rest [t]. *)
  Inductive first_piece : list Z → list Z → list Z → Prop :=
  (* an apostrophe with the first of the endings that is there *)
  | first_contraction s before w after x t : endings = before ++ w :: after → contracts s w x t →
      (∀ w' x' t', w' ∈ before → ¬ contracts s w' x' t') → first_piece s x t
  (* a run of letters, of numbers or of other characters, with a ' ' in front of it if there is one *)
  | first_run s k sp y t : (∀ w x t', w ∈ endings → ¬ contracts s w x t') →
      s = sp ++ y ++ t → sp = [] ∨ sp = [32] → k ≠ KSpace → y ≠ [] → all_of k y → stops k t → first_piece s (sp ++ y) t
  (* white space up to the end of the text *)
  | first_end s : (∀ w x t', w ∈ endings → ¬ contracts s w x t') → s ≠ [] → all_of KSpace s → first_piece s s []
  (* white space before something else: all but the last *)
  | first_spaces s x w t : (∀ w x t', w ∈ endings → ¬ contracts s w x t') →
      s = x ++ w :: t → x ≠ [] → all_of KSpace (x ++ [w]) → t ≠ [] → stops KSpace t → first_piece s x (w :: t)
  (* one white space, other than ' ', before something else *)
  | first_one s w t : (∀ w x t', w ∈ endings → ¬ contracts s w x t') →
      s = w :: t → w ≠ 32 → kind_at w = KSpace → t ≠ [] → stops KSpace t → first_piece s [w] t.

  Inductive pieces : list Z → list (list Z) → Prop :=
  | pieces_nil : pieces [] []
  | pieces_cons s x t ps : first_piece s x t → pieces t ps → pieces s (x :: ps).
End gpt2.
