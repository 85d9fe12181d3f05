(** What the caller of a function sees: a conversation. Nothing here is about the code of /repo. *)
From Verif Require Import GoBase SplitPattern Callbacks.

(** Asked about [rs], one by one and in order, from state [st], the function gives the answers [bs]
    and ends in state [st']. *)
Inductive answers {St B} (f : callback St B) : St → list Z → list B → St → Prop :=
  | answers_nil st : answers f st [] [] st
  | answers_cons st r st1 b rs bs st2 :
      f st r = Ret (st1, b) → answers f st1 rs bs st2 → answers f st (r :: rs) (b :: bs) st2.

(** It panics at one of the questions. *)
Definition panics {St B} (f : callback St B) (st : St) (rs : list Z) : Prop :=
  ∃ l x r bs st1, rs = l ++ x :: r ∧ answers f st l bs st1 ∧ f st1 x = Panic.

(** The ranges of the characters answered with true, of a text that begins at [i]. *)
Fixpoint accepted (i : Z) (rs : list Z) (bs : list bool) : list (Z * Z) :=
  match rs, bs with
  | r :: rs', b :: bs' =>
    (if b then [(i, i + zlen (encode [r]))] else []) ++ accepted (i + zlen (encode [r])) rs' bs'
  | _, _ => []
  end.

(** What is kept of a list: the elements answered with true. *)
Fixpoint picked {A} (xs : list A) (bs : list bool) : list A :=
  match xs, bs with
  | x :: xs', b :: bs' => (if b then [x] else []) ++ picked xs' bs'
  | _, _ => []
  end.

(** Of two captures in a row one is a match: what lies between two matches is one capture. *)
Definition merged_rest (cs : list capture) : Prop :=
  ∀ cs1 c1 c2 cs2, cs = cs1 ++ c1 :: c2 :: cs2 → c_match c1 = true ∨ c_match c2 = true.
