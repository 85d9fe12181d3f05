(** Specification vocabulary for vocabularies and merge files. *)
From Verif Require Import GoBase Vocab MergeMap.

(** The two maps are inverse to each other. *)
Definition consistent (v : vocab) : Prop :=
  ∀ t i, get_id v t = Some i ↔ get_string v i = Some t.

(** A JSON object, as the list of its members, or null ([None]): the last member with the name [t] has the
    value [i]; and a way to visit each such member once. *)
Definition last_member (j : option (list (list Z * Z))) (t : list Z) (i : Z) : Prop :=
  ∃ ms1 ms2, j = Some (ms1 ++ (t, i) :: ms2) ∧ t ∉ ms2.*1.
Definition visits (j : option (list (list Z * Z))) (order : list (list Z * Z)) : Prop :=
  NoDup order ∧ ∀ t i, (t, i) ∈ order ↔ last_member j t i.

(** All of a list of AddTerm calls. *)
Fixpoint add_terms (v : vocab) (ts : list (list Z)) : outcome vocab :=
  match ts with
  | [] => Ret v
  | t :: ts' => v' ← add_term v t; add_terms v' ts'
  end.

(** The set of a list of terms. *)
Definition terms_set (ts : list (list Z)) : gset (list Z) := list_to_set ts.

(** The lines of a file: each ends with LF or CR LF, the last one possibly with nothing or a CR. *)
Inductive file_lines : list Z → list (list Z) → Prop :=
| fl_nil : file_lines [] []
| fl_lf l rest ls : 10 ∉ l → last l ≠ Some 13 → file_lines rest ls → file_lines (l ++ 10 :: rest) (l :: ls)
| fl_crlf l rest ls : 10 ∉ l → file_lines rest ls → file_lines (l ++ 13 :: 10 :: rest) (l :: ls)
| fl_last l : l ≠ [] → 10 ∉ l → last l ≠ Some 13 → file_lines l [l]
| fl_last_cr l : 10 ∉ l → file_lines (l ++ [13]) [l].

(** No line has 64 KiB or more. *)
Definition short_lines (file : list Z) : Prop := ∀ a l b, file = a ++ l ++ b → 10 ∉ l → zlen l < 65536.

(** The first line of 64 KiB or more comes after the lines [ls]. *)
Definition long_line_after (file : list Z) (ls : list (list Z)) : Prop :=
  ∃ a l b, file = a ++ l ++ b ∧ (a = [] ∨ last a = Some 10) ∧ short_lines a ∧ file_lines a ls ∧ 10 ∉ l ∧ zlen l = 65536.

(** A comment line starts with "#version". *)
Definition comment_mark : list Z := [35; 118; 101; 114; 115; 105; 111; 110].
Definition comment_line (l : list Z) : Prop := ∃ rest, l = comment_mark ++ rest.
Global Instance comment_line_dec l : Decision (comment_line l).
Proof.
  destruct (decide (take (length comment_mark) l = comment_mark)) as [H|H].
  - left. exists (drop (length comment_mark) l). rewrite <- H at 1. by rewrite take_drop.
  - right. intros [rest ->]. apply H, take_app.
Defined.
Definition merge_lines (ls : list (list Z)) : list (list Z) := base.filter (λ l, ¬ comment_line l) ls.

(** Two terms with one space between them. *)
Definition two_terms (l t0 t1 : list Z) : Prop := l = t0 ++ 32 :: t1 ∧ 32 ∉ t0 ∧ 32 ∉ t1.

(** The line names the merge of the symbols [a] and [b] into [c]; [k] bytes are cut off the right
    term. *)
Definition merge_line (v : vocab) (k : Z) (l : list Z) (m : Z * Z * Z) : Prop :=
  ∃ t0 cut t1, two_terms l t0 (cut ++ t1) ∧ zlen cut = k
    ∧ get_id v t0 = Some m.1.1 ∧ get_id v (cut ++ t1) = Some m.1.2 ∧ get_id v (t0 ++ t1) = Some m.2.

(** What is wrong with a line, given its number. *)
Definition bad_line (v : vocab) (k : Z) (l : list Z) (no : Z) (e : err) : Prop :=
  (e = EMalformedMerges no ∧ ∀ t0 t1, ¬ two_terms l t0 t1)
  ∨ (∃ t0 t1, two_terms l t0 t1 ∧
      ((e = ELeftOOV no ∧ get_id v t0 = None)
       ∨ (e = ERightOOV no ∧ get_id v t0 ≠ None ∧ get_id v t1 = None)
       ∨ (e = EMergedOOV no ∧ get_id v t0 ≠ None ∧ get_id v t1 ≠ None
          ∧ ∃ cut t1', t1 = cut ++ t1' ∧ zlen cut = k ∧ get_id v (t0 ++ t1') = None))).

(** The right term, though known, is shorter than what is to be cut off it. *)
Definition short_line (v : vocab) (k : Z) (l : list Z) : Prop :=
  ∃ t0 t1, two_terms l t0 t1 ∧ get_id v t0 ≠ None ∧ get_id v t1 ≠ None ∧ ¬ (0 <= k <= zlen t1).

(** [x] says that the last of the merges [ms] for the pair [p] is at index [mv_rank x] and yields [mv_id x]. *)
Definition last_merge (ms : list (Z * Z * Z)) (p : Z * Z) (x : merge_value) : Prop :=
  0 <= mv_rank x ∧ ms !! Z.to_nat (mv_rank x) = Some (p, mv_id x)
  ∧ ∀ j q c, (Z.to_nat (mv_rank x) < j)%nat → ms !! j = Some (q, c) → q ≠ p.
