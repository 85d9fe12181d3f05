(** Specification vocabulary for C90 and C91: pre-tokenized strings whose pieces are reached through pointers. *)
From Verif Require Import GoBase Strutils SplitPattern NormString Bpe Encodings PreTokString Normalizers PreTokenizers SpecText SpecNorm SpecPts SpecEnd SpecCommute SpecStages Pointers.
#[local] Open Scope Z_scope.

(** In the store [σ], the pieces [p] points to are the ones of [v]. *)
Definition holds (σ : list ns) (h : hsplit) (s : psplit) : Prop := σ !! hs_loc h = Some (sp_ns s) ∧ hs_tokens h = sp_tokens s.
Definition seen (σ : list ns) (p : hpts) (v : pts) : Prop := hp_original p = p_original v ∧ Forall2 (holds σ) (hp_splits p) (p_splits v).
Definition locs (p : hpts) : list nat := map hs_loc (hp_splits p).

(** What was in the store before is still there, except perhaps at [ls]. *)
Definition only_at (ls : list nat) (σ σ' : list ns) : Prop := (length σ ≤ length σ')%nat ∧ ∀ l, (l < length σ)%nat → l ∉ ls → σ' !! l = σ !! l.
(** Different pointers, each of them one of [ls] or new. *)
Definition from_or_new (ls : list nat) (σ : list ns) (ls' : list nat) : Prop := NoDup ls' ∧ Forall (λ l, l ∈ ls ∨ (length σ ≤ l)%nat) ls'.

(** The function [hf] on pointers does what [f] does on values: it modifies nothing but the string it is given, and
    the pointers it returns are different ones, each of them new or the one it is given. *)
Definition own_split {St} (f : split_func St) (hf : h_split_func St) : Prop := ∀ st i l σ n, σ !! l = Some n →
  match f st i n with
  | Panic => hf st i l σ = Panic
  | Ret (st', n', r) => ∃ σ' r', hf st i l σ = Ret (σ', (st', r')) ∧ σ' !! l = Some n' ∧ only_at [l] σ σ'
      ∧ match r, r' with
        | Ok items, Ok hitems => Forall2 (holds σ') hitems items ∧ from_or_new [l] σ (map hs_loc hitems)
        | Err e, Err e' => e = e'
        | _, _ => False
        end
  end.
Definition own_call {St R} (f : St → ns → outcome (St * ns * R)) (hf : St → nat → heap (St * R)) : Prop := ∀ st l σ n, σ !! l = Some n →
  match f st n with
  | Panic => hf st l σ = Panic
  | Ret (st', n', r) => ∃ σ', hf st l σ = Ret (σ', (st', r)) ∧ σ' !! l = Some n' ∧ only_at [l] σ σ'
  end.

(** The same for a whole call on a pre-tokenized string; [x] and [y] are what the call makes of the value and of the pointers. *)
Definition same_call {R} (p : hpts) (σ : list ns) (x : outcome (pts * R)) (y : outcome (list ns * (hpts * R))) : Prop :=
  match x with
  | Panic => y = Panic
  | Ret (v', r) => ∃ σ' p', y = Ret (σ', (p', r)) ∧ seen σ' p' v' ∧ only_at (locs p) σ σ' ∧ from_or_new (locs p) σ (locs p')
  end.
Definition own_pretokenizer (f : pretokenizer) (hf : h_pretokenizer) : Prop := ∀ p v σ, seen σ p v → NoDup (locs p) → same_call p σ (f v) (hf p σ).

(** [(state, string, result)] as [(string, (state, result))]. *)
Definition with_state {A B C} (x : outcome (A * B * C)) : outcome (B * (A * C)) := y ← x; Ret (y.1.2, (y.1.1, y.2)).
Definition with_state_h {S A B C} (x : outcome (S * (A * B * C))) : outcome (S * (B * (A * C))) := y ← x; Ret (y.1, (y.2.1.2, (y.2.1.1, y.2.2))).

(** * Several pre-tokenized strings in one program *)
(** The library's functions, on values and on pointers. *)
Record tool : Type := Tool { t_value : pretokenizer; t_pointer : h_pretokenizer }.
Inductive lib_tool : tool → Prop :=
| tool_whitespace_split : lib_tool (Tool whitespace_split h_whitespace_split)
| tool_rune_delimiter c : lib_tool (Tool (rune_delimiter c) (h_rune_delimiter c))
| tool_whitespace engine : lib_tool (Tool (whitespace_pretokenizer engine) (h_whitespace_pretokenizer engine))
| tool_bert u : lib_tool (Tool (bert_pretokenizer u) (h_bert_pretokenizer u))
| tool_metaspace c prefix : lib_tool (Tool (metaspace c prefix) (h_metaspace c prefix))
| tool_byte_level engine prefix : lib_tool (Tool (byte_level engine prefix) (h_byte_level engine prefix))
| tool_normalize nz : lib_tool (Tool (normalize_with nz) (h_normalize_with nz))
| tool_tokenize model k : lib_tool (Tool (λ p, x ← pts_tokenize (calling model) k p; Ret (x.1.2, x.2)) (h_tokenize_with model k)).

(** A call: make a new pre-tokenized string, or use a tool on the one with number [k]. *)
Inductive call : Type := Make (s : list Z) | Use (k : nat) (t : tool).
Definition call_value (vs : list pts) (c : call) : outcome (list pts * option err) :=
  match c with
  | Make s => Ret (vs ++ [pts_from_string s], None)
  | Use k t => match vs !! k with None => Panic | Some v => x ← t_value t v; Ret (<[k := x.1]> vs, x.2) end
  end.
Definition call_pointer (ps : list hpts) (c : call) : heap (list hpts * option err) :=
  match c with
  | Make s => h_bind (h_new [from_string s]) (λ ls, h_bind (h_from_ns (default 0%nat (head ls))) (λ p, h_ret (ps ++ [p], None)))
  | Use k t => match ps !! k with None => λ _, Panic | Some p => h_bind (t_pointer t p) (λ x, h_ret (<[k := x.1]> ps, x.2)) end
  end.
(** A program goes on after errors; they are collected. *)
Fixpoint run_values (prog : list call) (vs : list pts) : outcome (list pts * list (option err)) :=
  match prog with
  | [] => Ret (vs, [])
  | c :: prog' => x ← call_value vs c; y ← run_values prog' x.1; Ret (y.1, x.2 :: y.2)
  end.
Fixpoint run_pointers (prog : list call) (ps : list hpts) : heap (list hpts * list (option err)) :=
  match prog with
  | [] => h_ret (ps, [])
  | c :: prog' => h_bind (call_pointer ps c) (λ x, h_bind (run_pointers prog' x.1) (λ y, h_ret (y.1, x.2 :: y.2)))
  end.
Definition lib_call (c : call) : Prop := match c with Make _ => True | Use _ t => lib_tool t end.

(** * One string, several times *)
(** [FromNormalizedString] with a pointer, then the pre-tokenizer. *)
Definition h_pretokenize (hf : h_pretokenizer) (l : nat) : heap (hpts * option err) := h_bind (h_from_ns l) hf.
(** The pre-tokenizers among the tools. *)
Inductive lib_pre : pretokenizer → h_pretokenizer → Prop :=
| pre_whitespace_split : lib_pre whitespace_split h_whitespace_split
| pre_rune_delimiter c : lib_pre (rune_delimiter c) (h_rune_delimiter c)
| pre_whitespace engine : lib_pre (whitespace_pretokenizer engine) (h_whitespace_pretokenizer engine)
| pre_bert u : lib_pre (bert_pretokenizer u) (h_bert_pretokenizer u)
| pre_metaspace c prefix : lib_pre (metaspace c prefix) (h_metaspace c prefix)
| pre_byte_level engine prefix : lib_pre (byte_level engine prefix) (h_byte_level engine prefix).
(** The ones that cut at characters and leave the string as it is. *)
Inductive only_cutting : h_pretokenizer → Prop :=
| cutting_whitespace_split : only_cutting h_whitespace_split
| cutting_rune_delimiter c : only_cutting (h_rune_delimiter c)
| cutting_whitespace engine : only_cutting (h_whitespace_pretokenizer engine)
| cutting_bert u : only_cutting (h_bert_pretokenizer u).

(** Different pointers in all of the pre-tokenized strings. *)
Definition apart (ps : list hpts) : Prop := NoDup (concat (map locs ps)).
