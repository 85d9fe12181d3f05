(** Property theorems C114: dropout as a float64. *)
From Coq Require Import ZifyBool QArith SpecFloat String Lqa.
From Verif Require Import GoBase Vocab MergeMap Heap Bpe SpecVocab BpeTok Floats SpecFloats FloatsFacts PropsVocab Lit.
Import GoBase.
#[local] Open Scope Z_scope.

(** The comparison of finite float64 is that of the numbers; NaN is less than nothing. *)
Theorem C114_comparison :
  (∀ f g x y, float64 f → float64 g → number f = Some x → number g = Some y → SFltb f g = true ↔ (x < y)%Q)
  ∧ ∀ f, SFltb f S754_nan = false ∧ SFltb S754_nan f = false.
Proof. split; [apply SFltb_number|]. intros f. by destruct f. Qed.
Print Assumptions C114_comparison.

(** Every float64 amounts to one rational dropout: Tokenize gives for it, whatever is drawn, what it gives for that one. So all
    theorems on dropout hold for float64. *)
Theorem C114_tokenize :
  ∀ m d s draws qs, float64 d → (∀ k, draw (draws k) (qs k)) →
  ∃ q, amounts_to d q ∧ (∀ q', amounts_to d q' → q' = q)
    ∧ bpe_tokenize_float m d s draws = bpe_tokenize (with_dropout m q) s qs.
Proof.
  intros m d s draws qs Hd Hdraw. destruct (amounts_total d) as (q & Hq). exists q. split; [done|]. split.
  { intros q' Hq'. unfold amounts_to in *. destruct (number d); [congruence|]. destruct d as [|[|]| |]; congruence. }
  unfold bpe_tokenize_float, bpe_tokenize, merge_word_float, merge_word, merge_all.
  destruct (zlen s =? 0); [done|]. change (has_unk (with_dropout m q)) with (has_unk m). cbn [with_dropout b_vocab b_unk b_merges b_dropout].
  assert (Hsym : ∀ rs u i last unk w, symbols_loop (with_dropout m q) u rs i last unk w = symbols_loop m u rs i last unk w).
  { intros rs. induction rs as [|r rs IH]; intros u i last unk w; [done|]. cbn [symbols_loop].
    change (symbol_term (with_dropout m q) i last r) with (symbol_term m i last r). change (has_unk (with_dropout m q)) with (has_unk m).
    change (b_vocab (with_dropout m q)) with (b_vocab m). change (b_fuse (with_dropout m q)) with (b_fuse m).
    destruct (get_id (b_vocab m) (symbol_term m i last r)); [apply IH|]. destruct (has_unk m); [|apply IH].
    destruct unk as [[]|]; [|apply IH]. destruct (b_fuse m); apply IH. }
  assert (Hwt : ∀ w o, word_to_tokens (with_dropout m q) w o = word_to_tokens m w o).
  { intros w. induction w as [|x w IH]; intros o; [done|]. cbn [word_to_tokens]. change (b_vocab (with_dropout m q)) with (b_vocab m).
    destruct (get_string (b_vocab m) (ws_id x)); [|done]. by rewrite IH. }
  destruct (has_unk m).
  - destruct (get_id (b_vocab m) (b_unk m)) as [u|]; [|done]. rewrite Hsym, (merge_all_with_ext _ _ _ _ (dropped_float_spec d q draws qs Hd Hq Hdraw)). destruct (merge_all_with _ _ _) as [[w|]|]; [|done|done]. by rewrite Hwt.
  - rewrite Hsym, (merge_all_with_ext _ _ _ _ (dropped_float_spec d q draws qs Hd Hq Hdraw)). destruct (merge_all_with _ _ _) as [[w|]|]; [|done|done]. by rewrite Hwt.
Qed.
Print Assumptions C114_tokenize.

(** Which ones drop nothing, and which ones everything. *)
Theorem C114_extremes :
  ∀ d draws qs, float64 d → (∀ k, draw (draws k) (qs k)) →
  ((d = S754_nan ∨ d = S754_infinity true ∨ ∃ x, number d = Some x ∧ (x <= 0)%Q) → ∀ k, dropped_float d draws k = false)
  ∧ ((d = S754_infinity false ∨ ∃ x, number d = Some x ∧ (1 <= x)%Q) → ∀ k, dropped_float d draws k = true).
Proof.
  intros d draws qs Hd Hdraw. split.
  - intros H k. unfold dropped_float. destruct H as [->|[->|(x & Hx & Hle)]]; [done|done|].
    destruct (SFltb (S754_zero false) d) eqn:E; [|done]. apply (SFltb_number (S754_zero false) d 0 x) in E; [lra|done..].
  - intros H k. unfold dropped_float. destruct (Hdraw k) as (Hf & Hn & H0 & H1). destruct H as [->|(x & Hx & Hle)].
    + unfold SFltb, SFcompare. by destruct (draws k).
    + apply andb_true_iff. split.
      * apply (SFltb_number (S754_zero false) d 0 x); [done|done|done|done|lra].
      * apply (SFltb_number (draws k) d (qs k) x); [done|done|done|done|lra].
Qed.
Print Assumptions C114_extremes.

(** 0.1 as a float64 is a little more than 1/10. With it, a draw of 0.1 keeps the merge, and so does a draw of 0.5; one of 0
    drops it. NaN and -Inf drop nothing, +Inf everything. The largest float64 below 1 does not drop on itself. *)
Example C114_example :
  let f01 := S754_finite false 7205759403792794 (-56) in
  let half := S754_finite false 4503599627370496 (-53) in
  let below1 := S754_finite false 9007199254740991 (-53) in
  let least := S754_finite false 1 (-1074) in
  float64 f01 ∧ float64 half ∧ float64 below1 ∧ float64 least ∧ ¬ float64 (S754_finite false 1 0)
  ∧ number half = Some (4503599627370496 # 9007199254740992)%Q
  ∧ (∃ x, number f01 = Some x ∧ (1 # 10 < x)%Q ∧ (x < (1 # 10) + (1 # 100000000000000000))%Q)
  ∧ (∃ x, number below1 = Some x ∧ (x == 1 - (1 # 9007199254740992))%Q ∧ draw below1 x)
  ∧ SFltb f01 half = true ∧ SFltb half f01 = false ∧ SFltb least f01 = true ∧ SFltb (S754_zero true) least = true
  ∧ SFltb (S754_zero true) (S754_zero false) = false
  ∧ map (λ d, (dropped_float d (λ _, S754_zero false) 0, dropped_float d (λ _, half) 0, dropped_float d (λ _, f01) 0))
      [f01; half; least; S754_zero true; S754_nan; S754_infinity true; S754_infinity false; below1]
    = [(true, false, false); (true, false, true); (true, false, false); (false, false, false); (false, false, false); (false, false, false); (true, true, true); (true, true, true)]
  ∧ dropped_float below1 (λ _, below1) 0 = false
  ∧ let v := match add_terms new_vocab (map bytes_of ["a"; "b"; "ab"]) with Ret v => v | Panic => new_vocab end%string in
    let m := Bpe v {[ (0, 1) := MergeValue 0 2 ]} 0 [] [] [] false in
    let ids d draws := match bpe_tokenize_float m d (bytes_of "ab") draws with Some (Ret (Ok l)) => map t_id l | _ => [] end in
    ids f01 (λ _, half) = [2] ∧ ids f01 (λ _, S754_zero false) = [0; 1] ∧ ids S754_nan (λ _, S754_zero false) = [2]
    ∧ ids (S754_infinity false) (λ _, below1) = [0; 1].
Proof.
  intros f01 half below1 least. split_and!; try (vm_compute; reflexivity); try (vm_compute; discriminate).
  - eexists. split; [reflexivity|]. split; vm_compute; reflexivity.
  - eexists. split; [reflexivity|]. split; [vm_compute; reflexivity|]. split; [vm_compute; reflexivity|]. split; [reflexivity|]. split; [vm_compute; discriminate|vm_compute; reflexivity].
  - intros v m ids. split_and!; vm_compute; reflexivity.
Qed.
