(** Property theorems C90 and C91: pointers to normalized strings. *)
From Coq Require Import ZifyBool String.
From Verif Require Import GoBase Utf8Facts Strutils SplitPattern NormString Bpe Encodings PreTokString Normalizers PreTokenizers SpecText SpecNorm SpecPts SpecPretok SpecEnd SpecCommute
  NormFacts Pointers SpecPointers PointerFacts Lit.
Import GoBase NormString.
#[local] Open Scope Z_scope.

(** * C90: each pre-tokenized string behaves as if it held its pieces itself *)
(** The three methods, for functions that modify what they are given and return pointers of their own. *)
Theorem C90_split :
  ∀ St (f : split_func St) hf p v σ st, own_split f hf → seen σ p v → NoDup (locs p) →
  same_call p σ (with_state (pts_split f st v)) (with_state_h (h_pts_split hf st p σ)).
Proof. intros St f hf p v σ st. apply pts_split_own. Qed.
Print Assumptions C90_split.
Theorem C90_normalize :
  ∀ St (f : St → ns → outcome (St * ns * option err)) hf p v σ st, own_call f hf → seen σ p v → NoDup (locs p) →
  same_call p σ (with_state (pts_normalize f st v)) (with_state_h (h_pts_normalize hf st p σ)).
Proof. intros St f hf p v σ st. apply pts_normalize_own. Qed.
Print Assumptions C90_normalize.
Theorem C90_tokenize :
  ∀ St (f : St → ns → outcome (St * ns * result (list token))) hf p v σ st, own_call f hf → seen σ p v → NoDup (locs p) →
  same_call p σ (with_state (pts_tokenize f st v)) (with_state_h (h_pts_tokenize hf st p σ)).
Proof. intros St f hf p v σ st. apply pts_tokenize_own. Qed.
Print Assumptions C90_tokenize.

(** The functions of the library are like that. *)
Theorem C90_library :
  ∀ t, lib_tool t → own_pretokenizer (t_value t) (t_pointer t).
Proof. exact lib_tool_own. Qed.
Print Assumptions C90_library.

(** Whole programs that work on several pre-tokenized strings by turns, and read them at the end. *)
Theorem C90_programs :
  ∀ prog, Forall lib_call prog →
  match run_values prog [] with
  | Panic => run_pointers prog [] [] = Panic
  | Ret (vs, es) => ∃ σ ps, run_pointers prog [] [] = Ret (σ, (ps, es)) ∧ Forall2 (seen σ) ps vs ∧ apart ps
  end.
Proof. intros prog H. apply (run_own prog H); [constructor|]. apply NoDup_nil_2. Qed.
Print Assumptions C90_programs.
Theorem C90_reading :
  ∀ σ p v wi ty, seen σ p v → h_get p σ = Ret (σ, v) ∧ h_into_encoding p wi ty σ = (r ← into_encoding v wi ty; Ret (σ, r)).
Proof.
  intros σ p v wi ty H. pose proof (get_seen _ _ _ H) as E. split; [done|]. unfold h_into_encoding, h_bind. by rewrite E.
Qed.
Print Assumptions C90_reading.

(** Not if two pieces have the same pointer. *)
Theorem C90_shared_refuted :
  ¬ ∀ St (f : St → ns → outcome (St * ns * option err)) hf p v σ st, own_call f hf → seen σ p v →
    same_call p σ (with_state (pts_normalize f st v)) (with_state_h (h_pts_normalize hf st p σ)).
Proof.
  set (n := from_string [97]). set (grow := λ n, n' ← append n [98]; Ret (n', None : option err)). intros H.
  specialize (H unit _ _ (HPts [97] [HSplit 0 None; HSplit 0 None]) (Pts [97] [PSplit n None; PSplit n None]) [n] tt (method_own grow)).
  destruct H as (σ' & p' & E & (_ & H) & _).
  { split; [done|]. constructor; [done|]. constructor; [done|]. constructor. }
  revert H. vm_compute in E. injection E as <- <-. intros H. apply Forall2_cons_inv_l in H as (s & ss & [H _] & _ & E2). vm_compute in E2. injection E2 as <- _. vm_compute in H. done.
Qed.
Print Assumptions C90_shared_refuted.

(** A split function that returns the string it is given twice makes such pieces. *)
Definition doubled (l : nat) : heap (result (list hsplit)) := λ σ, Ret (σ, Ok [HSplit l None; HSplit l None]).
Theorem C90_returned_twice_refuted :
  ¬ ∀ hf p v σ, seen σ p v → NoDup (locs p) → (∀ l σ n, σ !! l = Some n → ∃ items, hf l σ = Ret (σ, Ok items)) →
    match h_run_split hf p σ with Ret (σ', (p', None)) => NoDup (locs p') | _ => True end.
Proof.
  intros H. specialize (H doubled (HPts [97] [HSplit 0 None]) (Pts [97] [PSplit (from_string [97]) None]) [from_string [97]]).
  assert (Hn : NoDup [0%nat; 0%nat]).
  { apply H; [|apply NoDup_singleton|]. { split; [done|]. constructor; [done|constructor]. } intros l σ n _. eexists. done. }
  apply NoDup_cons in Hn as [Hn _]. apply Hn. by left.
Qed.
Print Assumptions C90_returned_twice_refuted.

(** Two texts by turns: one is cut at white space and lower-cased, the other one goes through metaspace; a
    split of the first one after Tokenize leaves its pieces alone. *)
Definition ex_lower : normalizer := λ n, n' ← map_runes n (λ c, if (65 <=? c) && (c <=? 90) then c + 32 else c); Ret (n', None).
Definition ex_read (σ : list ns) (p : hpts) : list (list Z * nat) :=
  map (λ h, (match σ !! hs_loc h with Some n => ns_norm n | None => [] end, hs_loc h)) (hp_splits p).
Example C90_example :
  (let prog := [Make (bytes_of "Ab Cd"); Make (bytes_of "Ef Gh"); Use 0 (Tool whitespace_split h_whitespace_split); Use 1 (Tool (metaspace 95 true) (h_metaspace 95 true));
                Use 0 (Tool (normalize_with ex_lower) (h_normalize_with ex_lower)); Use 1 (Tool (rune_delimiter 71) (h_rune_delimiter 71))] in
   match run_pointers prog [] [] with
   | Ret (σ, (ps, es)) => map (ex_read σ) ps = [[(bytes_of "ab", 2%nat); (bytes_of "cd", 3%nat)]; [(bytes_of "_Ef", 6%nat); (bytes_of "_", 7%nat); (bytes_of "h", 8%nat)]]
       ∧ es = [None; None; None; None; None; None] ∧ map ns_norm (take 2 σ) = [bytes_of "Ab Cd"; bytes_of "_Ef_Gh"]
       ∧ match run_values prog [] with Ret (vs, es') => es' = es ∧ map (λ v, map (λ s, ns_norm (sp_ns s)) (p_splits v)) vs = [[bytes_of "ab"; bytes_of "cd"]; [bytes_of "_Ef"; bytes_of "_"; bytes_of "h"]] | Panic => False end
   | Panic => False
   end)
  ∧ (let prog := [Make (bytes_of "a"); Use 1 (Tool whitespace_split h_whitespace_split)] in run_pointers prog [] [] = Panic ∧ run_values prog [] = Panic)
  ∧ (let twice := h_then (h_run_split doubled) (h_normalize_with (λ n, n' ← append n [98]; Ret (n', None))) in
     match h_pretokenize twice 0 [from_string [97]] with Ret (σ, (p, None)) => ex_read σ p = [(bytes_of "abb", 0%nat); (bytes_of "abb", 0%nat)] | _ => False end).
Proof. vm_compute. auto 20. Qed.

(** * C91: pre-tokenizing the same string again *)
(** The second time gives the same pieces as the first, and the ones from the first time stay as they are. *)
Theorem C91_again :
  ∀ pre hpre σ l n σ1 p1 e, lib_pre pre hpre → σ !! l = Some n → wf n → h_pretokenize hpre l σ = Ret (σ1, (p1, e)) →
  ∃ v σ2 p2, pre (pts_from_ns n) = Ret (v, e) ∧ seen σ1 p1 v ∧ h_pretokenize hpre l σ1 = Ret (σ2, (p2, e)) ∧ seen σ2 p2 v ∧ seen σ2 p1 v.
Proof.
  intros pre hpre σ l n σ1 p1 e Hp Hl Hw H. destruct (lib_pre_first _ _ Hp) as [f Hf]. destruct (again _ _ _ _ _ _ _ _ _ Hf Hl Hw H) as (v & n1 & r & σ2 & p2 & H1 & H2 & H3 & H4 & H5 & H6).
  by exists v, σ2, p2.
Qed.
Print Assumptions C91_again.

(** What is left of the caller's string: itself, *)
Theorem C91_cutting :
  ∀ hpre σ l n σ1 p1 e, only_cutting hpre → σ !! l = Some n → wf n → h_pretokenize hpre l σ = Ret (σ1, (p1, e)) → σ1 !! l = Some n.
Proof.
  intros hpre σ l n σ1 p1 e Hp Hl Hw H.
  destruct Hp as [ |c|engine|u];
    (eassert (Hf : first_function _ _ _) by constructor; destruct (again _ _ _ _ _ _ _ _ _ Hf Hl Hw H) as (v & n1 & r & σ2 & p2 & H1 & H2 & H3 & H4 & H5 & H6);
     apply split_by_same in H3; by subst n1).
Qed.
Print Assumptions C91_cutting.
(** the string with its prefix, *)
Theorem C91_byte_level :
  ∀ engine prefix σ l n v σ1 p1 e, σ !! l = Some n → wf_as n v → h_pretokenize (h_byte_level engine prefix) l σ = Ret (σ1, (p1, e)) →
  ∃ n1, σ1 !! l = Some n1 ∧ wf_as n1 (if prefix then prefixed white_space 32 v else v) ∧ same_origin n n1.
Proof.
  intros engine prefix σ l n v σ1 p1 e Hl Hw H. destruct (again _ _ _ _ _ _ _ _ _ (first_byte_level engine prefix) Hl (ex_intro _ v Hw) H) as (w & n1 & r & σ2 & p2 & H1 & H2 & H3 & H4 & H5 & H6).
  exists n1. split; [done|]. by eapply byte_level_leaves.
Qed.
Print Assumptions C91_byte_level.
(** the string with its prefix and its spaces replaced. *)
Theorem C91_metaspace :
  ∀ c prefix σ l n v σ1 p1 e, σ !! l = Some n → wf_as n v → h_pretokenize (h_metaspace c prefix) l σ = Ret (σ1, (p1, e)) →
  let c' := sanitize c in
  ∃ n1, σ1 !! l = Some n1 ∧ wf_as n1 (spaces_to c' (if prefix then prefixed (λ x, x =? c') c' v else v)) ∧ same_origin n n1.
Proof.
  intros c prefix σ l n v σ1 p1 e Hl Hw H c'. destruct (again _ _ _ _ _ _ _ _ _ (first_metaspace c prefix) Hl (ex_intro _ v Hw) H) as (w & n1 & r & σ2 & p2 & H1 & H2 & H3 & H4 & H5 & H6).
  exists n1. split; [done|]. by eapply metaspace_leaves.
Qed.
Print Assumptions C91_metaspace.

(** So another pre-tokenizer may find another text than the caller had. *)
Theorem C91_other_refuted :
  ¬ ∀ pre hpre pre' hpre' σ l n σ1 p1, lib_pre pre hpre → lib_pre pre' hpre' → σ !! l = Some n → wf n → h_pretokenize hpre l σ = Ret (σ1, (p1, None)) →
    ∃ v σ2 p2 e, pre' (pts_from_ns n) = Ret (v, e) ∧ h_pretokenize hpre' l σ1 = Ret (σ2, (p2, e)) ∧ seen σ2 p2 v.
Proof.
  intros H. set (n := from_string [97; 32; 97]).
  destruct (h_pretokenize (h_metaspace 95 true) 0 [n]) as [[σ1 [p1 [e|]]]|] eqn:E; [by vm_compute in E| |by vm_compute in E].
  destruct (H _ _ _ _ [n] 0%nat n σ1 p1 (pre_metaspace 95 true) pre_whitespace_split eq_refl) as (v & σ2 & p2 & e & H1 & H2 & _ & H3); [|exact E|].
  { exists (SpecNorm.fresh 0 [97; 32; 97]). apply (from_string_wf [97; 32; 97]). by repeat constructor. }
  vm_compute in E. injection E as <- <-. vm_compute in H1. injection H1 as <- <-. vm_compute in H2. injection H2 as _ <-. apply Forall2_length in H3. done.
Qed.
Print Assumptions C91_other_refuted.

Example C91_example :
  (let n := from_string (bytes_of "a b") in
   match h_pretokenize (h_metaspace 95 true) 0 [n] with
   | Ret (σ1, (p1, None)) => ex_read σ1 p1 = [(bytes_of "_a", 1%nat); (bytes_of "_b", 2%nat)] ∧ option_map ns_norm (σ1 !! 0%nat) = Some (bytes_of "_a_b")
       ∧ match h_pretokenize (h_metaspace 95 true) 0 σ1 with
         | Ret (σ2, (p2, None)) => ex_read σ2 p2 = [(bytes_of "_a", 3%nat); (bytes_of "_b", 4%nat)] ∧ ex_read σ2 p1 = ex_read σ1 p1 ∧ σ2 !! 0%nat = σ1 !! 0%nat
         | _ => False
         end
       ∧ match h_pretokenize h_whitespace_split 0 σ1 with Ret (σ2, (p2, None)) => ex_read σ2 p2 = [(bytes_of "_a_b", 3%nat)] | _ => False end
   | _ => False
   end)
  ∧ (let n := from_string (bytes_of "a b") in
     match h_pretokenize (h_byte_level (λ _, ([], None)) true) 0 [n] with
     | Ret (σ1, (p1, None)) => ex_read σ1 p1 = [(encode [288; 97; 288; 98], 1%nat)] ∧ option_map ns_norm (σ1 !! 0%nat) = Some (bytes_of " a b")
         ∧ match h_pretokenize (h_byte_level (λ _, ([], None)) true) 0 σ1 with Ret (σ2, (p2, None)) => ex_read σ2 p2 = [(encode [288; 97; 288; 98], 2%nat)] ∧ σ2 !! 0%nat = σ1 !! 0%nat | _ => False end
     | _ => False
     end)
  ∧ (let n := from_string (bytes_of "a b") in
     match h_pretokenize h_whitespace_split 0 [n] with Ret (σ1, (p1, None)) => ex_read σ1 p1 = [(bytes_of "a", 1%nat); (bytes_of "b", 2%nat)] ∧ σ1 !! 0%nat = Some n | _ => False end).
Proof. vm_compute. auto 20. Qed.
