(** Model of the pointers to NormalizedStrings in /repo/pretokenizedstring and /repo/pretokenizers.

    The other files treat a *NormalizedString as the value it points to. Here a pointer is a location of a
    store, methods with a pointer receiver change the store, and a Split holds a location. Not modelled: the
    pointers to token slices (each is made by Tokenize, and nothing in /repo writes through one), and the
    array behind p.splits, which Splits() hands out (Arrays.v has it). *)
From Verif Require Import GoBase Strutils SplitPattern NormString Bpe Encodings PreTokString Normalizers PreTokenizers.

Notation loc := nat (only parsing).
Notation store := (list ns) (only parsing).

(** A computation on the store. *)
Definition heap (A : Type) : Type := store → outcome (store * A).
Definition h_ret {A} (a : A) : heap A := λ σ, Ret (σ, a).
Definition h_bind {A B} (m : heap A) (k : A → heap B) : heap B := λ σ, x ← m σ; k x.2 x.1.

(** Reading through a pointer; a pointer to nothing is nil. *)
Definition h_read (l : loc) : heap ns := λ σ, match σ !! l with Some n => Ret (σ, n) | None => Panic end.
(** A method that modifies its receiver, and returns something. *)
Definition h_method {A} (l : loc) (m : ns → outcome (ns * A)) : heap A :=
  h_bind (h_read l) (λ n σ, x ← m n; Ret (<[l := x.1]> σ, x.2)).
(** [New] (normalizedstring.go:50-62), several times. *)
Definition h_new (ns : list ns) : heap (list loc) := λ σ, Ret (σ ++ ns, seq (length σ) (length ns)).

(** split.go:17-26 [Split], pretokenizedstring.go:22-25 [PreTokenizedString]. *)
Record hsplit : Type := HSplit { hs_loc : loc; hs_tokens : option (list token) }.
Record hpts : Type := HPts { hp_original : list Z; hp_splits : list hsplit }.

(** pretokenizedstring.go:31-41 [FromNormalizedString]. *)
Definition h_from_ns (l : loc) : heap hpts := h_bind (h_read l) (λ n, h_ret (HPts (ns_orig n) [HSplit l None])).
(** split.go:48-54 [SplitsFromNormalizedStrings]. *)
Definition h_splits_from_ns (ls : list loc) : list hsplit := map (λ l, HSplit l None) ls.

(** pretokenizedstring.go:55-58 [SplitFunc], with a state of its own. *)
Definition h_split_func (St : Type) : Type := St → Z → loc → heap (St * result (list hsplit)).

(** pretokenizedstring.go:78-83: the items that are not empty. *)
Fixpoint h_keep (items : list hsplit) : heap (list hsplit) :=
  match items with
  | [] => h_ret []
  | it :: items' =>
    h_bind (h_read (hs_loc it)) (λ n, h_bind (h_keep items') (λ l, h_ret (if ns_is_empty n then l else it :: l)))
  end.

(** pretokenizedstring.go:67-84: the loop of [Split]; the result is newSplits. *)
Fixpoint h_split_loop {St} (f : h_split_func St) (st : St) (index : Z) (splits : list hsplit) : heap (St * result (list hsplit)) :=
  match splits with
  | [] => h_ret (st, Ok [])
  | sp :: splits' =>
    match hs_tokens sp with
    | Some _ => h_bind (h_split_loop f st (index + 1) splits') (λ x, h_ret (x.1, match x.2 with Ok l => Ok (sp :: l) | Err e => Err e end))
    | None =>
      h_bind (f st index (hs_loc sp)) (λ x,
      match x.2 with
      | Err e => h_ret (x.1, Err e)
      | Ok items =>
        h_bind (h_keep items) (λ kept,
        h_bind (h_split_loop f x.1 (index + 1) splits') (λ y,
        h_ret (y.1, match y.2 with Ok l => Ok (kept ++ l) | Err e => Err e end)))
      end)
    end
  end.
(** pretokenizedstring.go:63-88 [Split]: p.splits is only replaced if there is no error. *)
Definition h_pts_split {St} (f : h_split_func St) (st : St) (p : hpts) : heap (St * hpts * option err) :=
  h_bind (h_split_loop f st 0 (hp_splits p)) (λ x,
  h_ret (match x.2 with Ok l => (x.1, HPts (hp_original p) l, None) | Err e => (x.1, p, Some e) end)).

(** pretokenizedstring.go:92-105 [Normalize]. *)
Fixpoint h_normalize_loop {St} (f : St → loc → heap (St * option err)) (st : St) (splits : list hsplit) : heap (St * option err) :=
  match splits with
  | [] => h_ret (st, None)
  | sp :: splits' =>
    match hs_tokens sp with
    | Some _ => h_normalize_loop f st splits'
    | None => h_bind (f st (hs_loc sp)) (λ x, match x.2 with Some e => h_ret (x.1, Some e) | None => h_normalize_loop f x.1 splits' end)
    end
  end.
Definition h_pts_normalize {St} (f : St → loc → heap (St * option err)) (st : St) (p : hpts) : heap (St * hpts * option err) :=
  h_bind (h_normalize_loop f st (hp_splits p)) (λ x, h_ret (x.1, p, x.2)).

(** pretokenizedstring.go:109-123 [Tokenize]: the result is p.splits. *)
Fixpoint h_tokenize_loop {St} (f : St → loc → heap (St * result (list token))) (st : St) (splits : list hsplit)
    : heap (St * list hsplit * option err) :=
  match splits with
  | [] => h_ret (st, [], None)
  | sp :: splits' =>
    match hs_tokens sp with
    | Some _ => h_bind (h_tokenize_loop f st splits') (λ x, h_ret (x.1.1, sp :: x.1.2, x.2))
    | None =>
      h_bind (f st (hs_loc sp)) (λ x,
      match x.2 with
      | Err e => h_ret (x.1, sp :: splits', Some e)
      | Ok ts => h_bind (h_tokenize_loop f x.1 splits') (λ y, h_ret (y.1.1, HSplit (hs_loc sp) (Some ts) :: y.1.2, y.2))
      end)
    end
  end.
Definition h_pts_tokenize {St} (f : St → loc → heap (St * result (list token))) (st : St) (p : hpts) : heap (St * hpts * option err) :=
  h_bind (h_tokenize_loop f st (hp_splits p)) (λ x, h_ret (x.1.1, HPts (hp_original p) x.1.2, x.2)).

(** * Functions given to Split, Normalize and Tokenize *)
(** One that works on the string it is given and returns strings it has made. *)
Definition h_split_with {St} (f : split_func St) : h_split_func St := λ st i l,
  h_bind (h_method l (λ n, x ← f st i n; let '(st', n', r) := x in Ret (n', (st', r)))) (λ y,
  match y.2 with
  | Err e => h_ret (y.1, Err e)
  | Ok items => h_bind (h_new (map sp_ns items)) (λ ls, h_ret (y.1, Ok (zip_with HSplit ls (map sp_tokens items))))
  end).
Definition h_with {St R} (f : St → ns → outcome (St * ns * R)) : St → loc → heap (St * R) := λ st l,
  h_method l (λ n, x ← f st n; let '(st', n', r) := x in Ret (n', (st', r))).

(** [nss, err := ns.Split(pattern, behaviour)], then [SplitsFromNormalizedStrings]. On an error the slices
    made before it are garbage; they are not put into the store here. *)
Definition h_split_by (p : pattern) (b : behaviour) (l : loc) : heap (result (list hsplit)) :=
  h_bind (h_read l) (λ n σ,
  r ← split n p b;
  match r with
  | Err e => Ret (σ, Err e)
  | Ok nss => h_bind (h_new nss) (λ ls, h_ret (Ok (h_splits_from_ns ls))) σ
  end).

(** metaspacepretokenizer.go:60-73: the split function. *)
Definition h_metaspace_split (replacement : Z) (prefixSpace : bool) (l : loc) : heap (result (list hsplit)) :=
  let strReplacement := encode_rune replacement in
  h_bind (h_read l) (λ n,
  h_bind (if prefixSpace && negb (starts_with (ns_norm n) strReplacement)
          then h_method l (λ n, n' ← prepend n strReplacement; Ret (n', tt)) else h_ret tt) (λ _,
  h_bind (h_method l (λ n, r ← replace n (rune_pattern 32) strReplacement; Ret (match r with Ok n' => (n', None) | Err e => (n, Some e) end))) (λ e,
  match e with
  | Some e => h_ret (Err e)
  | None => h_split_by (rune_pattern replacement) MergedWithNext l
  end))).

(** bytelevelpretokenizer.go:72-81: the split function. *)
Definition h_byte_level_split (engine : engine2) (prefixSpace : bool) (l : loc) : heap (result (list hsplit)) :=
  h_bind (h_read l) (λ n,
  h_bind (if prefixSpace && negb (starts_with_whitespace (ns_norm n)) then h_method l (λ n, n' ← prepend n [32]; Ret (n', tt)) else h_ret tt) (λ _,
  h_split_by (regexp2_pattern engine) Isolated l)).

(** [PreTokenize] of the pre-tokenizers. *)
Definition h_pretokenizer : Type := hpts → heap (hpts * option err).
Definition h_stateless (f : loc → heap (result (list hsplit))) : h_split_func unit := λ _ _ l, h_bind (f l) (λ r, h_ret (tt, r)).
Definition h_run_split (f : loc → heap (result (list hsplit))) : h_pretokenizer := λ p,
  h_bind (h_pts_split (h_stateless f) tt p) (λ x, h_ret (x.1.2, x.2)).
Definition h_then (a b : h_pretokenizer) : h_pretokenizer := λ p,
  h_bind (a p) (λ x, match x.2 with Some e => h_ret (x.1, Some e) | None => b x.1 end).

(** whitespacesplitpretokenizer.go:27-40, runedelimiterpretokenizer.go:29-40, whitespacepretokenizer.go:39-50,
    bertpretokenizer.go:33-62, metaspacepretokenizer.go:57-75, bytelevelpretokenizer.go:67-110. *)
Definition h_whitespace_split : h_pretokenizer := h_run_split (h_split_by (func_pattern white_space) Removed).
Definition h_rune_delimiter (delimiter : Z) : h_pretokenizer := h_run_split (h_split_by (rune_pattern delimiter) Removed).
Definition h_whitespace_pretokenizer (engine : engine2) : h_pretokenizer := h_run_split (h_split_by (invert (regexp2_pattern engine)) Removed).
Definition h_bert_pretokenizer (u : unicode) : h_pretokenizer :=
  h_then (h_run_split (h_split_by (func_pattern white_space) Removed)) (h_run_split (h_split_by (func_pattern (u_punct u)) Isolated)).
Definition h_metaspace (replacement : Z) (prefixSpace : bool) : h_pretokenizer := h_run_split (h_metaspace_split replacement prefixSpace).
Definition h_byte_level (engine : engine2) (prefixSpace : bool) : h_pretokenizer :=
  h_then (h_run_split (h_byte_level_split engine prefixSpace))
    (λ p, h_bind (h_pts_normalize (λ (_ : unit) l, h_method l (λ n, n' ← byte_level_normalize n; Ret (n', (tt, None)))) tt p) (λ x, h_ret (x.1.2, x.2))).

(** * Programs of a client *)
(** [pts.Normalize] with a normalizer, [pts.Tokenize] with a model that only reads the string; [k] numbers the calls of the model. *)
Definition h_normalize_with (nz : normalizer) : h_pretokenizer := λ p,
  h_bind (h_pts_normalize (λ (_ : unit) l, h_method l (λ n, x ← nz n; Ret (x.1, (tt, x.2)))) tt p) (λ x, h_ret (x.1.2, x.2)).
Definition h_tokenize_with (model : nat → list Z → outcome (result (list token))) (k : nat) : h_pretokenizer := λ p,
  h_bind (h_pts_tokenize (λ k l, h_bind (h_read l) (λ n σ, r ← model k (ns_norm n); Ret (σ, (S k, r)))) k p) (λ x, h_ret (x.1.2, x.2)).

(** [GetOriginalByteSplits], [GetNormalizedByteSplits], [IntoEncoding] only read: their result is the one for the
    values the pointers lead to. *)
Fixpoint h_deref (l : list hsplit) : heap (list psplit) :=
  match l with
  | [] => h_ret []
  | h :: l' => h_bind (h_read (hs_loc h)) (λ n, h_bind (h_deref l') (λ r, h_ret (PSplit n (hs_tokens h) :: r)))
  end.
Definition h_get (p : hpts) : heap pts := h_bind (h_deref (hp_splits p)) (λ l, h_ret (Pts (hp_original p) l)).
Definition h_into_encoding (p : hpts) (wordIndex typeID : Z) : heap (result encoding) :=
  h_bind (h_get p) (λ v σ, r ← into_encoding v wordIndex typeID; Ret (σ, r)).
