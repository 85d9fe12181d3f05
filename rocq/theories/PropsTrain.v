(** Property theorems C101 and C102: byte pair encoding as the training did it, and with more merges. *)
From Coq Require Import ZifyBool QArith String.
From stdpp Require Import relations.
From Verif Require Import GoBase Strutils Vocab MergeMap Heap Bpe Lit SpecText SpecVocab SpecBpe SpecDrop SpecRead SpecTrain VocabFacts BpeFacts BpeTok StableFacts ReadFacts TrainFacts
  PropsBpe.
Import GoBase.
#[local] Open Scope Z_scope.

(** * C101 *)
Lemma ex_consistent ts : consistent (ex_vocab ts).
Proof. destruct (grown_add_terms [] new_vocab ts grown_new) as (v & E & G & _). unfold ex_vocab. rewrite E. apply (gr_cons _ _ G). Qed.
(** Where no rule uses what a later one makes, MergeAll makes one pass over the word for each rule, by rank. *)
Theorem C101_passes :
  ∀ ss mm size rules dropout draws,
  Forall (λ s, 0 < s.2 ∧ 0 < size s.1) ss → additive mm size → (dropout <= 0)%Q → by_rank mm rules → trained mm →
  ∃ w, merge_all (word_of ss) mm dropout draws = Some (Ret w) ∧ word_syms w = passes (map (λ x, (x.1, mv_id x.2)) rules) ss.
Proof.
  intros ss mm size rules dropout draws Hss Ha Hd Hr Ht. destruct (C34_textbook ss mm size dropout draws Hss Ha Hd) as (w & E & H1 & H2).
  exists w. split; [done|]. destruct (textbook_passes mm rules ss Hr Ht) as [G1 G2]. by eapply bpe_result_unique.
Qed.
Print Assumptions C101_passes.

(** So the terms of the answer are the characters after one pass for each line of the merges file, in the order of the
    file, if it lists its merges in the order in which training finds them, none of them twice. *)
Theorem C101_tokenize :
  ∀ m file ls pairs s draws, consistent (b_vocab m) → merge_map_from_file file (b_vocab m) 0 = Ret (Ok (b_merges m)) →
  file_lines file ls → listed ls pairs → NoDup pairs → training_order pairs →
  b_prefix m = [] → b_suffix m = [] → (b_dropout m <= 0)%Q → (b_unk m ≠ [] → is_Some (get_id (b_vocab m) (b_unk m))) →
  ∃ toks, bpe_tokenize m s draws = Some (Ret (Ok toks)) ∧ map t_value toks = join_all pairs (legible m false (runes s)).
Proof.
  intros m file ls pairs s draws Hc Hf Hl Hp Hnd Ht Hpre Hsuf Hd Hu. destruct (file_rules _ _ _ _ _ Hc Hf Hl Hp Hnd) as (rules & Hr & Htr & Hn).
  destruct (decide (s = [])) as [->|Hs].
  { exists []. split; [done|]. cbn. clear. unfold join_all. induction pairs as [|p pairs IH]; [done|exact IH]. }
  destruct (C34_tokenize m file s draws Hc Hf Hd Hs Hu) as (ss & ts & res & G & Hst & Hsat & E & A).
  destruct (textbook_passes _ rules ss Hr (Htr Ht)) as [G1 G2]. rewrite (bpe_result_unique _ _ _ _ Hst Hsat G1 G2) in A.
  apply symbols_legible in G; [|done|done|done]. pose proof (names_passes _ _ _ _ _ Hc Hn G) as Hv.
  destruct (names_answer _ _ _ _ Hc Hv A) as (toks & -> & Ht'). exists toks. split; [done|]. by eapply names_values.
Qed.
Print Assumptions C101_tokenize.

(** In another order it is not so: "ab c" before "a b". *)
Theorem C101_order_refuted :
  ¬ ∀ m file ls pairs s draws, consistent (b_vocab m) → merge_map_from_file file (b_vocab m) 0 = Ret (Ok (b_merges m)) →
  file_lines file ls → listed ls pairs → NoDup pairs →
  b_prefix m = [] → b_suffix m = [] → (b_dropout m <= 0)%Q → (b_unk m ≠ [] → is_Some (get_id (b_vocab m) (b_unk m))) →
  ∃ toks, bpe_tokenize m s draws = Some (Ret (Ok toks)) ∧ map t_value toks = join_all pairs (legible m false (runes s)).
Proof.
  intros H. set (v := ex_vocab [[97]; [98]; [99]; [97; 98]; [97; 98; 99]]). set (file := bytes_of "ab c" ++ [10] ++ bytes_of "a b").
  set (mm := match merge_map_from_file file v 0 with Ret (Ok mm) => mm | _ => ∅ end).
  destruct (H (Bpe v mm 0 [] [] [] false) file [bytes_of "ab c"; bytes_of "a b"] [([97; 98], [99]); ([97], [98])] [97; 98; 99] (λ _, 0%Q)) as (toks & E & Ev).
  - apply ex_consistent.
  - by vm_compute.
  - apply (fl_lf (bytes_of "ab c") (bytes_of "a b")); [by vm_compute; set_solver|done|]. apply fl_last; [done|by vm_compute; set_solver|done].
  - unfold listed. change (merge_lines _) with [bytes_of "ab c"; bytes_of "a b"]. repeat constructor; vm_compute; set_solver.
  - repeat constructor; set_solver.
  - done.
  - done.
  - done.
  - done.
  - revert E. vm_compute. intros [= <-]. vm_compute in Ev. done.
Qed.
Print Assumptions C101_order_refuted.

(** "#version: 0.2", "a a", "b c", "aa a", "bc aa" on "aaaaabcaa" and "abéca", with é unknown. *)
Example C101_example :
  let v := ex_vocab (map bytes_of ["a"; "b"; "c"; "aa"; "bc"; "aaa"; "bcaa"; "?"]%string) in
  let file := bytes_of "#version: 0.2" ++ [10] ++ bytes_of "a a" ++ [10] ++ bytes_of "b c" ++ [10] ++ bytes_of "aa a" ++ [10] ++ bytes_of "bc aa" in
  let pairs := map (λ p, (bytes_of p.1, bytes_of p.2)) [("a", "a"); ("b", "c"); ("aa", "a"); ("bc", "aa")]%string in
  training_order pairs ∧
  match merge_map_from_file file v 0 with
  | Ret (Ok mm) =>
    let m := Bpe v mm 0 [63] [] [] false in
    let run s := match bpe_tokenize m s (λ _, 0%Q) with Some (Ret (Ok l)) => map t_value l | _ => [] end in
    let s1 := bytes_of "aaaaabcaa" in let s2 := encode [97; 98; 0xE9; 99; 97] in
    run s1 = map bytes_of ["aa"; "aaa"; "bcaa"]%string ∧ join_all pairs (legible m false (runes s1)) = run s1
    ∧ join_pass [97] [97] (legible m false (runes s1)) = map bytes_of ["aa"; "aa"; "a"; "b"; "c"; "aa"]%string
    ∧ run s2 = map bytes_of ["a"; "b"; "?"; "c"; "a"]%string ∧ join_all pairs (legible m false (runes s2)) = run s2
  | _ => False
  end.
Proof.
  split; [|by vm_compute]. intros i j p q Hij Hi Hj.
  destruct i as [|[|[|[|i]]]], j as [|[|[|[|j]]]]; try lia; cbn in Hi, Hj; try done; injection Hi as <-; injection Hj as <-; by vm_compute.
Qed.

(** * C102 *)
(** Merges of higher rank than all others join symbols of the answer that is given without them. *)
Theorem C102_merge_all :
  ∀ ss mm mm' size dropout draws dropout' draws',
  Forall (λ s, 0 < s.2 ∧ 0 < size s.1) ss → additive mm' size → (dropout <= 0)%Q → (dropout' <= 0)%Q → extended mm mm' →
  ∃ w w', merge_all (word_of ss) mm dropout draws = Some (Ret w) ∧ merge_all (word_of ss) mm' dropout' draws' = Some (Ret w')
    ∧ rtc (bpe_step mm') (word_syms w) (word_syms w').
Proof.
  intros ss mm mm' size dropout draws dropout' draws' Hss Ha Hd Hd' He.
  destruct (C34_textbook ss mm size dropout draws Hss) as (w & E & H1 & H2); [|done|].
  { intros a b m Hm. by apply Ha, He. }
  destruct (C34_textbook ss mm' size dropout' draws' Hss Ha Hd') as (w' & E' & H1' & H2').
  exists w, w'. split_and!; [done|done|]. by eapply extended_result.
Qed.
Print Assumptions C102_merge_all.

(** Lines added to the end of the merges file join tokens and do nothing else, if they repeat none that was there before. *)
Theorem C102_tokenize :
  ∀ v file file' mm mm' ls more pairs pairs' dropout unk prefix suffix fuse s draws toks, consistent v →
  merge_map_from_file file v 0 = Ret (Ok mm) → merge_map_from_file file' v 0 = Ret (Ok mm') →
  file_lines file ls → file_lines file' (ls ++ more) → listed ls pairs → listed more pairs' → (∀ p, p ∈ pairs → p ∉ pairs') →
  (dropout <= 0)%Q → bpe_tokenize (Bpe v mm dropout unk prefix suffix fuse) s draws = Some (Ret (Ok toks)) →
  ∃ toks', bpe_tokenize (Bpe v mm' dropout unk prefix suffix fuse) s draws = Some (Ret (Ok toks')) ∧ coarser toks toks'.
Proof.
  intros v file file' mm mm' ls more pairs pairs' dropout unk prefix suffix fuse s draws toks Hc Hf Hf' Hl Hl' Hp Hp' Hdis Hd E.
  destruct (decide (s = [])) as [->|Hs].
  { cbn in E. injection E as <-. exists []. split; [done|]. exists []. split; [done|constructor]. }
  assert (Hu : unk ≠ [] → is_Some (get_id v unk)).
  { intros Hn. destruct (get_id v unk) eqn:Ei; [done|]. exfalso. unfold bpe_tokenize, merge_word in E. destruct (Z.eqb_spec (zlen s) 0) as [Hz|_].
    { destruct s; [done|]. rewrite Utf8Facts.zlen_cons in Hz. pose proof (Utf8Facts.zlen_nonneg s). lia. }
    unfold has_unk in E. cbn [b_unk b_vocab] in E. rewrite Ei in E. destruct (Z.eqb_spec (zlen unk) 0) as [Hz|_]; [|done].
    destruct unk; [done|]. rewrite Utf8Facts.zlen_cons in Hz. pose proof (Utf8Facts.zlen_nonneg unk). lia. }
  destruct (C34_tokenize (Bpe v mm dropout unk prefix suffix fuse) file s draws Hc Hf Hd Hs Hu) as (ss & ts & res & G & Hst & Hsat & E1 & A).
  destruct (C34_tokenize (Bpe v mm' dropout unk prefix suffix fuse) file' s draws Hc Hf' Hd Hs Hu) as (ss' & ts' & res' & G' & Hst' & Hsat' & E1' & A').
  cbn [b_merges b_vocab b_fuse] in *. rewrite E in E1. injection E1 as <-. cbn in A.
  assert (ss' = ss) as ->. { eapply group_unique; [exact G'|]. exact G. }
  pose proof (file_extended _ _ _ _ _ _ _ _ _ Hc Hf Hf' Hl Hl' Hp Hp' Hdis) as He.
  pose proof (extended_result _ _ _ _ _ He Hst Hsat Hst' Hsat') as Hr.
  destruct (steps_coarser v mm' 0 ts ts' toks Hc (loaded_concat _ _ _ Hf') (rtc_bpe_merge _ _ _ Hr) A) as (toks' & A2 & Hco).
  exists toks'. split; [|done]. rewrite E1'. do 2 f_equal. destruct res' as [r|e]; cbn in A'.
  - f_equal. by eapply toks_of_fun.
  - exfalso. destruct A' as (a & c & b & Ex & _ & Hx & _). destruct (toks_of_some _ _ _ _ c A2) as [w Hw]; [|cbn in Hx; congruence].
    rewrite Ex. apply elem_of_app. right. by left.
Qed.
Print Assumptions C102_tokenize.

(** A line added in front may cut tokens instead: "b c" before "a b". *)
Theorem C102_front_refuted :
  ¬ ∀ v file file' mm mm' ls more pairs pairs' dropout unk prefix suffix fuse s draws toks, consistent v →
  merge_map_from_file file v 0 = Ret (Ok mm) → merge_map_from_file file' v 0 = Ret (Ok mm') →
  file_lines file ls → file_lines file' (more ++ ls) → listed ls pairs → listed more pairs' → (∀ p, p ∈ pairs → p ∉ pairs') →
  (dropout <= 0)%Q → bpe_tokenize (Bpe v mm dropout unk prefix suffix fuse) s draws = Some (Ret (Ok toks)) →
  ∃ toks', bpe_tokenize (Bpe v mm' dropout unk prefix suffix fuse) s draws = Some (Ret (Ok toks')) ∧ coarser toks toks'.
Proof.
  intros H. set (v := ex_vocab [[97]; [98]; [99]; [97; 98]; [98; 99]]). set (file := bytes_of "a b"). set (file' := bytes_of "b c" ++ [10] ++ file).
  set (mm f := match merge_map_from_file f v 0 with Ret (Ok mm) => mm | _ => ∅ end).
  set (toks f := match bpe_tokenize (Bpe v (mm f) 0 [] [] [] false) [97; 98; 99] (λ _, 0%Q) with Some (Ret (Ok l)) => l | _ => [] end).
  destruct (H v file file' (mm file) (mm file') [bytes_of "a b"] [bytes_of "b c"] [([97], [98])] [([98], [99])] 0%Q [] [] [] false [97; 98; 99] (λ _, 0%Q) (toks file))
    as (toks' & E & gs & E1 & Hg).
  - apply ex_consistent.
  - by vm_compute.
  - by vm_compute.
  - apply fl_last; [done|vm_compute; set_solver|done].
  - apply (fl_lf (bytes_of "b c") file); [vm_compute; set_solver|done|]. apply fl_last; [done|vm_compute; set_solver|done].
  - unfold listed. change (merge_lines _) with [bytes_of "a b"]. repeat constructor; vm_compute; set_solver.
  - unfold listed. change (merge_lines _) with [bytes_of "b c"]. repeat constructor; vm_compute; set_solver.
  - set_solver.
  - done.
  - by vm_compute.
  - assert (toks' = toks file') as -> by (revert E; vm_compute; by intros [= <-]).
    change (toks file') with [Token 0 [97] (Offsets 0 1); Token 4 [98; 99] (Offsets 1 3)] in Hg.
    change (toks file) with [Token 3 [97; 98] (Offsets 0 2); Token 2 [99] (Offsets 2 3)] in E1.
    apply Forall2_cons_inv_l in Hg as (g & gs1 & (a & b & Ha & _ & Hv & _) & _ & ->).
    destruct g as [|x g]; [done|]. cbn in E1. injection E1 as -> _. cbn in Hv. done.
Qed.
Print Assumptions C102_front_refuted.

(** "a b" and "ab a" with "aba aba" and "c b" added. *)
Example C102_example :
  let v := ex_vocab (map bytes_of ["a"; "b"; "c"; "ab"; "aba"; "abaaba"; "cb"]%string) in
  let file := bytes_of "a b" ++ [10] ++ bytes_of "ab a" in let file' := file ++ [10] ++ bytes_of "aba aba" ++ [10] ++ bytes_of "c b" in
  let run f := match merge_map_from_file f v 0 with
               | Ret (Ok mm) => match bpe_tokenize (Bpe v mm 0 [] [] [] false) (bytes_of "abaabacb") (λ _, 0%Q) with
                                | Some (Ret (Ok l)) => map (λ t, (t_value t, o_end (t_offsets t))) l | _ => [] end
               | _ => [] end in
  run file = [(bytes_of "aba", 3); (bytes_of "aba", 6); (bytes_of "c", 7); (bytes_of "b", 8)]
  ∧ run file' = [(bytes_of "abaaba", 6); (bytes_of "cb", 8)].
Proof. by vm_compute. Qed.
