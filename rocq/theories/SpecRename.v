(** Specification vocabulary for vocabularies that differ only in their IDs. *)
From Verif Require Import GoBase Strutils Vocab MergeMap Bpe WordPiece Encodings PreTokString PreTokenizers.
#[local] Open Scope Z_scope.

(** The same terms, a term with ID [i] having the ID [f i] now. *)
Definition same_terms (f : Z → Z) (v v' : vocab) : Prop :=
  (∀ s, get_id v' s = f <$> get_id v s) ∧ ∀ i, get_string v' (f i) = get_string v i.

(** The same merges. *)
Definition merge_as (f : Z → Z) (m : merge_value) : merge_value := MergeValue (mv_rank m) (f (mv_id m)).
Definition same_merges (f : Z → Z) (mm mm' : merge_map) : Prop := ∀ a b, mm' !! (f a, f b) = merge_as f <$> mm !! (a, b).

(** The same answer. *)
Definition token_as (f : Z → Z) (t : token) : token := Token (f (t_id t)) (t_value t) (t_offsets t).
Definition err_as (f : Z → Z) (e : err) : err := match e with EIDNotFound i => EIDNotFound (f i) | _ => e end.
Definition result_as {A B} (f : Z → Z) (g : A → B) (r : result A) : result B := match r with Ok x => Ok (g x) | Err e => Err (err_as f e) end.
Definition answer_as {A B} (f : Z → Z) (g : A → B) (o : outcome (result A)) : outcome (result B) := match o with Ret r => Ret (result_as f g r) | Panic => Panic end.
Definition tokens_as (f : Z → Z) : list token → list token := map (token_as f).
Definition encoding_as (f : Z → Z) (e : encoding) : encoding :=
  Encoding (map f (e_ids e)) (e_type_ids e) (e_tokens e) (e_words e) (e_offsets e) (e_special e) (e_attention e) (e_overflowing e).

(** A pre-tokenizer that makes no tokens itself, and whose errors (if any) are not about IDs. *)
Definition only_cuts (pre : pretokenizer) : Prop :=
  ∀ n p e, pre (pts_from_ns n) = Ret (p, e) → Forall (λ x, sp_tokens x = None) (p_splits p) ∧ ∀ i, e ≠ Some (EIDNotFound i).
