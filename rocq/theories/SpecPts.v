(** Specification vocabulary for pre-tokenized strings and encodings. *)
From stdpp Require Import relations.
From Verif Require Import GoBase Strutils SplitPattern NormString Bpe Encodings PreTokString SpecText SpecNorm SpecHist.

(** * Recording the calls of function arguments *)
Record split_call : Type := SplitCall { sc_index : Z; sc_input : ns; sc_result : result (list psplit) }.
Definition logged {St} (f : split_func St) : split_func (St * list split_call) :=
  λ s i n, x ← f s.1 i n; let '(st', n', r) := x in Ret ((st', s.2 ++ [SplitCall i n r]), n', r).

Record norm_call : Type := NormCall { nc_input : ns; nc_output : ns; nc_result : option err }.
Definition logged_norm {St} (f : St → ns → outcome (St * ns * option err))
    : St * list norm_call → ns → outcome ((St * list norm_call) * ns * option err) :=
  λ s n, x ← f s.1 n; let '(st', n', r) := x in Ret ((st', s.2 ++ [NormCall n n' r]), n', r).

Record tok_call : Type := TokCall { tc_input : ns; tc_output : ns; tc_result : result (list token) }.
Definition logged_tok {St} (f : St → ns → outcome (St * ns * result (list token)))
    : St * list tok_call → ns → outcome ((St * list tok_call) * ns * result (list token)) :=
  λ s n, x ← f s.1 n; let '(st', n', r) := x in Ret ((st', s.2 ++ [TokCall n n' r]), n', r).

(** * Splits *)
(** The splits without tokens, with their positions counted from [i]. *)
Fixpoint untokenized (i : Z) (l : list psplit) : list (Z * ns) :=
  match l with
  | [] => []
  | PSplit n None :: l' => (i, n) :: untokenized (i + 1) l'
  | PSplit n (Some _) :: l' => untokenized (i + 1) l'
  end.

(** Splits whose text is not empty. *)
Definition non_empty (l : list psplit) : list psplit := base.filter (λ x, ns_norm (sp_ns x) ≠ []) l.

(** The list with the untokenized splits replaced, in order, by lists of splits. *)
Inductive refined : list psplit → list (list psplit) → list psplit → Prop :=
| refined_nil : refined [] [] []
| refined_keep n ts l rs out : refined l rs out → refined (PSplit n (Some ts) :: l) rs (PSplit n (Some ts) :: out)
| refined_split n l r rs out : refined l rs out → refined (PSplit n None :: l) (r :: rs) (non_empty r ++ out).

(** The list with the untokenized splits given, in order, new strings and tokens. *)
Inductive tokenized : list psplit → list (ns * list token) → list psplit → Prop :=
| tokenized_nil : tokenized [] [] []
| tokenized_keep n ts l rs out : tokenized l rs out → tokenized (PSplit n (Some ts) :: l) rs (PSplit n (Some ts) :: out)
| tokenized_new n n' ts l rs out : tokenized l rs out → tokenized (PSplit n None :: l) ((n', ts) :: rs) (PSplit n' (Some ts) :: out).

(** * Tokens *)
(** All tokens with the position of their split (counted from [i]) and its string. *)
Fixpoint all_tokens (i : Z) (l : list psplit) : list (Z * ns * token) :=
  match l with
  | [] => []
  | sp :: l' => map (λ t, (i, sp_ns sp, t)) (default [] (sp_tokens sp)) ++ all_tokens (i + 1) l'
  end.

(** [a..b] is the least range that contains the spans of the bytes [s..e] of [n]. *)
Definition least_span (n : ns) (s e a b : Z) : Prop :=
  (∀ k x, s <= k < e → idx (ns_al n) k = Ret x → a <= x.1 ∧ x.2 <= b)
  ∧ ∀ a' b', (∀ k x, s <= k < e → idx (ns_al n) k = Ret x → a' <= x.1 ∧ x.2 <= b') → a' <= a ∧ b <= b'.

(** * Histories *)
(** [n] stands for a range of the text [root]. *)
Definition rooted (root : list Z) (n : ns) : Prop := text_at root (ns_shift n) (ns_shift n + zlen (ns_orig n)) (ns_orig n).

(** Functions that, given a well-formed string, only use the operations of NormalizedString on it. *)
Definition edits_only {St A} (f : St → ns → outcome (St * ns * A)) : Prop :=
  ∀ st n st' n' r, wf n → f st n = Ret (st', n', r) → rtc edit n n'.
Definition splits_only {St} (f : split_func St) : Prop :=
  ∀ st i n st' n' r, wf n → f st i n = Ret (st', n', r) →
    rtc edit n n' ∧ ∀ l, r = Ok l → Forall (λ x, rtc edit n (sp_ns x)) l.

(** One call, successful or not. *)
Inductive pts_step (p : pts) : pts → Prop :=
| step_split St (f : split_func St) st st' p' e : splits_only f → pts_split f st p = Ret (st', p', e) → pts_step p p'
| step_normalize St (f : St → ns → outcome (St * ns * option err)) st st' p' e :
    edits_only f → pts_normalize f st p = Ret (st', p', e) → pts_step p p'
| step_tokenize St (f : St → ns → outcome (St * ns * result (list token))) st st' p' e :
    edits_only f → pts_tokenize f st p = Ret (st', p', e) → pts_step p p'.

(** What some history of calls made of a pre-tokenized string over the valid text [root]. *)
Definition reachable_pts (p : pts) : Prop :=
  ∃ rs, scalars rs ∧ rtc pts_step (pts_from_string (encode rs)) p.
