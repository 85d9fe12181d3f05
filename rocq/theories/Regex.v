(** The two regular expressions the repository compiles for itself, and what the engine
    github.com/dlclark/regexp2 answers for them.

    The engine is not part of the repository; this file is a reading of its documented (Perl-style,
    backtracking) semantics, restricted to the constructs that occur in the two expressions. Elsewhere
    the engine is an arbitrary function (see [engine2] in SplitPattern.v). Character classes are
    parameters, so that nothing is assumed about the engine's Unicode tables, nor about the way
    IgnoreCase changes membership in a class. *)
From Verif Require Import GoBase SplitPattern.
#[local] Open Scope Z_scope.

Inductive re : Type :=
| RClass (f : Z → bool)           (* one character of a class *)
| RPlus (f : Z → bool)            (* x+ for a class x, greedy *)
| RMaybe (r : re)                 (* r?, greedy *)
| RSeq (r1 r2 : re)
| RAlt (r1 r2 : re)
| RNotAhead (f : Z → bool).       (* (?!x) for a class x *)

(** What can be left of the input after a match at its start, in the order in which the engine tries
    the alternatives. *)
Fixpoint rests_plus (f : Z → bool) (s : list Z) : list (list Z) :=
  match s with
  | c :: s' => if f c then rests_plus f s' ++ [s'] else []
  | [] => []
  end.
Fixpoint rests (r : re) (s : list Z) : list (list Z) :=
  match r with
  | RClass f => match s with c :: s' => if f c then [s'] else [] | [] => [] end
  | RPlus f => rests_plus f s
  | RMaybe r1 => rests r1 s ++ [s]
  | RSeq r1 r2 => flat_map (rests r2) (rests r1 s)
  | RAlt r1 r2 => rests r1 s ++ rests r2 s
  | RNotAhead f => match s with c :: _ => if f c then [] else [s] | [] => [s] end
  end.

(** FindStringMatch and FindNextMatch until there are no more, for an expression that does not match
    the empty string: rune index and runes of each match. [skip]: runes still inside the last match. *)
Fixpoint find_all (r : re) (i : Z) (skip : nat) (s : list Z) : list (Z * list Z) :=
  match s with
  | [] => []
  | c :: s' =>
    match skip with
    | S k => find_all r (i + 1) k s'
    | O =>
      match rests r s with
      | [] => find_all r (i + 1) O s'
      | rest :: _ =>
        let len := (length s - length rest)%nat in
        (i, take len s) :: find_all r (i + 1) (len - 1) s'
      end
    end
  end.
Definition engine_of (r : re) : engine2 := λ s,
  (map (λ m, (m.1, encode m.2)) (find_all r 0 O (runes s)), None).

(** whitespacepretokenizer.go:24: [\w+|[^\w\s]+]. *)
Definition word_re (word space : Z → bool) : re :=
  RAlt (RPlus word) (RPlus (λ c, negb (word c) && negb (space c))).

(** bytelevelpretokenizer.go:42:
    ['s|'t|'re|'ve|'m|'ll|'d| ?\p{L}+| ?\p{N}+| ?[^\s\p{L}\p{N}]+|\s+(?!\S)|\s+]. [fold]: how the
    engine folds case. *)
Definition lit (fold : Z → Z) (c : Z) : re := RClass (λ x, fold x =? fold c).
Definition spaced (f : Z → bool) : re := RSeq (RMaybe (RClass (λ x, x =? 32))) (RPlus f).
Definition splitting_re (fold : Z → Z) (letter number space : Z → bool) : re :=
  let quoted l := fold_right (λ c r, RSeq r (lit fold c)) (lit fold 39) (rev l) in
  RAlt (quoted [115]) (RAlt (quoted [116]) (RAlt (quoted [114; 101]) (RAlt (quoted [118; 101])
  (RAlt (quoted [109]) (RAlt (quoted [108; 108]) (RAlt (quoted [100])
  (RAlt (spaced letter) (RAlt (spaced number)
  (RAlt (spaced (λ c, negb (space c) && negb (letter c) && negb (number c)))
  (RAlt (RSeq (RPlus space) (RNotAhead (λ c, negb (space c)))) (RPlus space))))))))))).

(** "don't  stop 12!" *)
Example splitting_example :
  (find_all (splitting_re (λ c, c) (λ c, (97 <=? c) && (c <=? 122)) (λ c, (48 <=? c) && (c <=? 57)) (λ c, c =? 32))
    0 O [100; 111; 110; 39; 116; 32; 32; 115; 116; 111; 112; 32; 49; 50; 33]).*2
  = [[100; 111; 110]; [39; 116]; [32]; [32; 115; 116; 111; 112]; [32; 49; 50]; [33]].
Proof. reflexivity. Qed.
