(** Model of /repo/vocabulary/vocabulary.go *)
From Verif Require Import GoBase.
From stdpp Require Export gmap.
#[global] Open Scope Z_scope.

(** vocabulary.go:13-16 [Vocabulary]. [v_nil] says that the map termToID is nil, which
    [FromJSONFile] leaves on the JSON text [null]: reads see an empty map, a write panics. *)
Record vocab : Type := Vocab {
  v_nil : bool;
  v_ids : gmap (list Z) Z;
  v_terms : gmap Z (list Z);
}.

(** vocabulary.go:19-24 [NewVocabulary]. *)
Definition new_vocab : vocab := Vocab false ∅ ∅.

(** vocabulary.go:61-63 [Size]. *)
Definition v_size (v : vocab) : Z := Z.of_nat (size (v_ids v)).

(** vocabulary.go:67-70 [GetID] and 74-77 [GetString]. *)
Definition get_id (v : vocab) (s : list Z) : option Z := v_ids v !! s.
Definition get_string (v : vocab) (i : Z) : option (list Z) := v_terms v !! i.

(** vocabulary.go:51-58 [AddTerm]. *)
Definition add_term (v : vocab) (term : list Z) : outcome vocab :=
  match v_ids v !! term with
  | Some _ => Ret v
  | None =>
    let i := v_size v in
    if v_nil v then Panic
    else Ret (Vocab false (<[term := i]> (v_ids v)) (<[i := term]> (v_terms v)))
  end.

(** vocabulary.go:39-42: filling idToTerm; [order] is the order in which [range] visits the map. *)
Definition fill_terms (order : list (list Z * Z)) : gmap Z (list Z) :=
  foldl (λ m kv, <[kv.2 := kv.1]> m) ∅ order.

(** vocabulary.go:27-45 [FromJSONFile], from the decoded JSON on: [None] is the JSON value null,
    [Some members] an object with its members in file order (on duplicate keys the last wins, as
    in encoding/json). The decoding itself is in Json.v ([from_json_bytes]). *)
Definition json_map (j : option (list (list Z * Z))) : gmap (list Z) Z :=
  match j with
  | None => ∅
  | Some members => foldl (λ m kv, <[kv.1 := kv.2]> m) ∅ members
  end.
Definition from_json (j : option (list (list Z * Z))) (order : list (list Z * Z)) : vocab :=
  Vocab (match j with None => true | Some _ => false end) (json_map j) (fill_terms order).

(** Go's map iteration visits each entry once, in any order. *)
Definition map_order (m : gmap (list Z) Z) (order : list (list Z * Z)) : Prop :=
  order ≡ₚ map_to_list m.
