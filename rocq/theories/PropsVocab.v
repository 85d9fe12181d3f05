(** Property theorems C28-C32 (vocabularies and merge files). *)
From Coq Require Import ZifyBool String.
From Verif Require Import GoBase Vocab MergeMap SpecVocab VocabFacts Utf8Facts Lit.

(** C28: the ID of a term is the number of distinct terms added before it was first added. *)
Theorem C28_add_terms :
  ∀ ts, ∃ v, add_terms new_vocab ts = Ret v
    ∧ v_size v = Z.of_nat (size (terms_set ts))
    ∧ (∀ a t b, ts = a ++ t :: b → t ∉ a → get_id v t = Some (Z.of_nat (size (terms_set a))))
    ∧ (∀ t, is_Some (get_id v t) ↔ t ∈ ts)
    ∧ (∀ t i, get_id v t = Some i ↔ get_string v i = Some t)
    ∧ (∀ i, is_Some (get_string v i) ↔ 0 <= i < v_size v).
Proof.
  intros ts. destruct (grown_add_terms [] new_vocab ts grown_new) as (v & Hv & G & _). exists v. split; [done|].
  split; [by apply v_size_set|]. split; [|split; [|split]].
  - intros a t b -> Ht. rewrite add_terms_app in Hv.
    destruct (grown_add_terms [] new_vocab a grown_new) as (va & Ha & Ga & _). rewrite Ha in Hv. cbn in Hv.
    destruct (grown_add a va t Ga) as (vt & Hvt & Gt & Hid & _). rewrite Hvt in Hv. cbn in Hv. rewrite decide_False in Hid by done.
    destruct (grown_add_terms _ vt b Gt) as (v' & Hv' & _ & Hold). rewrite Hv' in Hv. injection Hv as <-.
    rewrite <- (v_size_set a va) by done. by apply Hold.
  - intros t. unfold get_id. rewrite <- elem_of_dom, (gr_dom _ _ G). apply elem_of_list_to_set.
  - apply (gr_cons _ _ G).
  - apply (gr_range _ _ G).
Qed.
Print Assumptions C28_add_terms.

(** IDs once given stay; adding a known term changes nothing. *)
Theorem C28_stable :
  ∀ ts ts' v, add_terms new_vocab ts = Ret v →
  (∀ t, t ∈ ts → add_term v t = Ret v)
  ∧ ∃ v', add_terms v ts' = Ret v' ∧ ∀ t i, get_id v t = Some i → get_id v' t = Some i ∧ get_string v' i = Some t.
Proof.
  intros ts ts' v Hv. destruct (grown_add_terms [] new_vocab ts grown_new) as (v0 & Hv0 & G & _).
  rewrite Hv in Hv0. injection Hv0 as <-. split.
  - intros t Ht. assert (is_Some (get_id v t)) as [i Hi].
    { unfold get_id. rewrite <- elem_of_dom, (gr_dom _ _ G). by apply elem_of_list_to_set. }
    by eapply add_term_known.
  - destruct (grown_add_terms _ v ts' G) as (v' & Hv' & G' & Hold). exists v'. split; [done|]. intros t i H%Hold.
    split; [done|]. by apply (gr_cons _ _ G').
Qed.
Print Assumptions C28_stable.

(** "b", "a", "b", "": IDs 0, 1, 0, 2. *)
Example C28_example :
  (v ← add_terms new_vocab [[98]; [97]; [98]; []];
   Ret (map (get_id v) [[98]; [97]; []; [99]], map (get_string v) [0; 1; 2; 3; -1], v_size v))
  = Ret ([Some 0; Some 1; Some 2; None], [Some [98]; Some [97]; Some []; None; None], 3).
Proof. vm_compute. reflexivity. Qed.

(** C29: for every order in which the map is visited. *)
Theorem C29_json_round_trip :
  ∀ j order, visits j order →
  (∀ t u i, last_member j t i → last_member j u i → t = u) →
  let v := from_json j order in
  (∀ t i, get_id v t = Some i ↔ last_member j t i) ∧ ∀ t i, get_id v t = Some i ↔ get_string v i = Some t.
Proof.
  intros j order Ho Hinj v. split; [intros t i; apply json_map_member|]. apply from_json_consistent; [by apply visits_order|].
  intros t u i. rewrite !json_map_member. apply Hinj.
Qed.
Print Assumptions C29_json_round_trip.
Theorem C29_orders_exist : ∀ j, ∃ order, visits j order ∧ Z.of_nat (length order) = v_size (from_json j order).
Proof. intros j. exists (map_to_list (json_map j)). split; [by apply visits_order; unfold map_order|]. done. Qed.
Print Assumptions C29_orders_exist.

(** Without the condition on IDs, what is left: GetString yields one of the terms that have the ID
    (which one depends on the iteration order). *)
Theorem C29_json_any :
  ∀ j order, visits j order →
  let v := from_json j order in
  (∀ t i, get_id v t = Some i ↔ last_member j t i)
  ∧ (∀ t i, get_string v i = Some t → get_id v t = Some i) ∧ (∀ t i, get_id v t = Some i → is_Some (get_string v i)).
Proof.
  intros j order Ho%visits_order v. split; [intros t i; apply json_map_member|]. split.
  - intros t i. by apply from_json_string.
  - intros t i. by apply from_json_string_some.
Qed.
Print Assumptions C29_json_any.

(** With duplicate keys the last one counts: {"a": 5, "b": 7, "a": 9}. *)
Example C29_example :
  let j := Some [([97], 5); ([98], 7); ([97], 9)] in
  let v := from_json j (map_to_list (json_map j)) in
  map_order (json_map j) (map_to_list (json_map j))
  ∧ (get_id v [97], get_id v [98], get_string v 9, get_string v 5) = (Some 9, Some 7, Some [97], None).
Proof. split; [unfold map_order; reflexivity|]. vm_compute. reflexivity. Qed.

(** Two orders, two answers, for {"a": 1, "b": 1}. *)
Example C29_duplicate_ids_example :
  let j := Some [([97], 1); ([98], 1)] in
  map_order (json_map j) [([97], 1); ([98], 1)] ∧ map_order (json_map j) [([98], 1); ([97], 1)]
  ∧ get_string (from_json j [([97], 1); ([98], 1)]) 1 = Some [98]
  ∧ get_string (from_json j [([98], 1); ([97], 1)]) 1 = Some [97].
Proof.
  assert (H : [([97], 1); ([98], 1)] ≡ₚ map_to_list (json_map (Some [([97], 1); ([98], 1)]))).
  { vm_compute. reflexivity. }
  split; [done|]. split; [|done]. unfold map_order. rewrite <- H. constructor.
Qed.

(** C30, full statement. False: after loading {"a": 1}, the term "b" also gets the ID 1. *)
Theorem C30_add_after_load_refuted :
  ∃ j order v', map_order (json_map j) order ∧ consistent (from_json j order)
    ∧ add_term (from_json j order) [98] = Ret v' ∧ get_id v' [97] = get_id v' [98] ∧ get_string v' 1 ≠ Some [97].
Proof.
  exists (Some [([97], 1)]), [([97], 1)]. eexists. split; [vm_compute; reflexivity|]. split.
  { apply from_json_consistent; [vm_compute; reflexivity|]. intros t u i. cbn. rewrite !lookup_insert_Some, !lookup_empty. naive_solver. }
  split; [vm_compute; reflexivity|]. split; [vm_compute; reflexivity|]. vm_compute. done.
Qed.
Print Assumptions C30_add_after_load_refuted.

(** And a vocabulary loaded from the JSON text null panics. *)
Theorem C30_add_after_null_refuted : ∀ order t, add_term (from_json None order) t = Panic.
Proof. intros order t. reflexivity. Qed.
Print Assumptions C30_add_after_null_refuted.

(** What holds: files (not null) with distinct IDs all below the number of entries. Missing: sparse IDs. *)
Theorem C30_add_after_load_partial :
  ∀ members order ts, let j := Some members in
  visits j order →
  (∀ t u i, last_member j t i → last_member j u i → t = u) →
  (∀ t i, last_member j t i → i < Z.of_nat (length order)) →
  ∃ v', add_terms (from_json j order) ts = Ret v'
    ∧ (∀ t i, get_id v' t = Some i ↔ get_string v' i = Some t)
    ∧ (∀ t i, last_member j t i → get_id v' t = Some i)
    ∧ (∀ t, is_Some (get_id v' t) ↔ t ∈ ts ∨ ∃ i, last_member j t i).
Proof.
  intros members order ts j Ho Hinj Hlt.
  assert (Hgen : ∀ ts v, v_nil v = false → consistent v → (∀ t i, get_id v t = Some i → i < v_size v) →
    ∃ v', add_terms v ts = Ret v' ∧ consistent v' ∧ (∀ t i, get_id v t = Some i → get_id v' t = Some i)
       ∧ (∀ t, is_Some (get_id v' t) ↔ t ∈ ts ∨ is_Some (get_id v t))).
  { clear. induction ts as [|t ts IH]; intros v Hn Hc Hl.
    - exists v. split; [done|]. split; [done|]. split; [done|]. intros t. rewrite elem_of_nil. naive_solver.
    - cbn [add_terms]. destruct (get_id v t) as [i|] eqn:Hi.
      + rewrite (add_term_known v t i Hi). cbn. destruct (IH v Hn Hc Hl) as (v' & H1 & H2 & H3 & H4). exists v'.
        split; [done|]. split; [done|]. split; [done|]. intros u. rewrite H4, elem_of_cons. split; [naive_solver|].
        intros [[->|?]|?]; [right; eauto|by left|by right].
      + destruct (add_term_fresh v t Hn Hi Hc) as (v1 & Ha & Hn1 & Hc1 & Hs1 & Hid & Hold & _ & _).
        { destruct (get_string v (v_size v)) as [u|] eqn:E; [|done]. apply Hc, Hl in E. lia. }
        rewrite Ha. cbn. destruct (IH v1 Hn1 Hc1) as (v' & H1 & H2 & H3 & H4).
        { intros u i Hu. rewrite Hs1. destruct (decide (u = t)) as [->|Hne]; [rewrite Hid in Hu; injection Hu as <-; lia|].
          rewrite Hold in Hu by done. apply Hl in Hu. lia. }
        exists v'. split; [done|]. split; [done|]. split.
        * intros u i Hu. apply H3. rewrite Hold; [done|]. intros ->. congruence.
        * intros u. rewrite H4, elem_of_cons. destruct (decide (u = t)) as [->|Hne].
          -- rewrite Hid. naive_solver.
          -- rewrite Hold by done. naive_solver. }
  apply visits_order in Ho. assert (Hs : Z.of_nat (length order) = v_size (from_json j order)).
  { unfold v_size. f_equal. exact (Permutation_length Ho). }
  setoid_rewrite <- json_map_member in Hinj. setoid_rewrite <- json_map_member in Hlt. rewrite Hs in Hlt.
  destruct (Hgen ts (from_json j order)) as (v' & H1 & H2 & H3 & H4); [done|by apply from_json_consistent|done|].
  exists v'. split; [done|]. split; [done|]. setoid_rewrite <- json_map_member. done.
Qed.
Print Assumptions C30_add_after_load_partial.

(** For one AddTerm the exact condition: the number of terms is not the ID of any of them. *)
Theorem C30_add_one_exact :
  ∀ v t, v_nil v = false → consistent v → get_id v t = None →
  ∃ v', add_term v t = Ret v' ∧ get_id v' t = Some (v_size v) ∧ (consistent v' ↔ ∀ u, get_id v u ≠ Some (v_size v)).
Proof.
  intros v t Hn Hc Ht. destruct (get_string v (v_size v)) as [u|] eqn:E.
  - unfold add_term. pose proof Ht as Ht'. unfold get_id in Ht'. rewrite Ht', Hn. eexists. split; [done|].
    unfold get_id at 1. cbn. split; [apply lookup_insert|]. apply Hc in E.
    split; [|intros H; by apply H in E]. intros Hc'.
    assert (u ≠ t) as Hne by congruence.
    assert (H : get_string (Vocab false (<[t:=v_size v]> (v_ids v)) (<[v_size v:=t]> (v_terms v))) (v_size v) = Some u).
    { apply Hc'. unfold get_id. cbn. by rewrite lookup_insert_ne. }
    unfold get_string in H. cbn in H. rewrite lookup_insert in H. congruence.
  - destruct (add_term_fresh v t Hn Ht Hc E) as (v' & Ha & _ & Hc' & _ & Hid & _). exists v'. split; [done|]. split; [done|].
    split; [|done]. intros _ u Hu. apply Hc in Hu. congruence.
Qed.
Print Assumptions C30_add_one_exact.

(** And for any sequence of them: no ID there is lies in the range that the new terms take up. *)
Theorem C30_add_many_exact :
  ∀ ts v, v_nil v = false → consistent v →
  ∃ v', add_terms v ts = Ret v' ∧ (∀ t i, get_id v t = Some i → get_id v' t = Some i)
    ∧ (∀ t, is_Some (get_id v' t) ↔ t ∈ ts ∨ is_Some (get_id v t)) ∧ v_size v <= v_size v'
    ∧ (consistent v' ↔ ∀ t i, get_id v t = Some i → ¬ v_size v <= i < v_size v').
Proof.
  assert (Hgrow : ∀ ts v, v_nil v = false → ∃ v', add_terms v ts = Ret v' ∧ (∀ t i, get_id v t = Some i → get_id v' t = Some i)
    ∧ (∀ t, is_Some (get_id v' t) ↔ t ∈ ts ∨ is_Some (get_id v t)) ∧ v_size v <= v_size v').
  { induction ts as [|t ts IH]; intros v Hn.
    - exists v. split; [done|]. split; [done|]. split; [|lia]. intros t. rewrite elem_of_nil. naive_solver.
    - cbn [add_terms]. destruct (get_id v t) as [i|] eqn:Hi.
      + rewrite (add_term_known v t i Hi). cbn [mbind outcome_bind]. destruct (IH v Hn) as (v' & H1 & H2 & H3 & H4). exists v'.
        split; [done|]. split; [done|]. split; [|done]. intros u. rewrite H3, elem_of_cons. split; [naive_solver|].
        intros [[->|?]|?]; [right; eauto|by left|by right].
      + pose proof Hi as Hi'. unfold get_id in Hi'. unfold add_term. rewrite Hi', Hn. cbn [mbind outcome_bind].
        destruct (IH (Vocab false (<[t:=v_size v]> (v_ids v)) (<[v_size v:=t]> (v_terms v))) eq_refl) as (v' & H1 & H2 & H3 & H4).
        exists v'. split; [done|]. unfold get_id, v_size in *. cbn [v_ids] in *. rewrite map_size_insert_None in H4 by done. split; [|split].
        * intros u i Hu. apply H2. rewrite lookup_insert_ne; [done|]. intros ->. congruence.
        * intros u. rewrite H3, elem_of_cons. destruct (decide (u = t)) as [->|Hne].
          -- rewrite lookup_insert. naive_solver.
          -- rewrite lookup_insert_ne by done. naive_solver.
        * lia. }
  induction ts as [|t ts IH]; intros v Hn Hc.
  - destruct (Hgrow [] v Hn) as (v' & H1 & H2 & H3 & H4). exists v'. split; [done|]. split; [done|]. split; [done|]. split; [done|].
    injection H1 as <-. split; [|done]. intros _ t i _. lia.
  - destruct (Hgrow (t :: ts) v Hn) as (v' & H1 & H2 & H3 & H4). exists v'. split; [done|]. split; [done|]. split; [done|]. split; [done|].
    cbn [add_terms] in H1. destruct (get_id v t) as [i|] eqn:Hi.
    + rewrite (add_term_known v t i Hi) in H1. cbn [mbind outcome_bind] in H1. destruct (IH v Hn Hc) as (v2 & E & _ & _ & _ & Hiff). rewrite E in H1. by injection H1 as <-.
    + destruct (C30_add_one_exact v t Hn Hc Hi) as (v1 & Ha & Hid & Hiff1).
      assert (Hv1 : v_nil v1 = false ∧ v_size v1 = v_size v + 1 ∧ ∀ u, u ≠ t → get_id v1 u = get_id v u).
      { unfold add_term in Ha. pose proof Hi as Hi'. unfold get_id in Hi'. rewrite Hi', Hn in Ha. injection Ha as <-. cbn. split; [done|].
        unfold v_size, get_id. cbn. rewrite map_size_insert_None by done. split; [lia|]. intros u Hu. by rewrite lookup_insert_ne. }
      destruct Hv1 as (Hn1 & Hs1 & Hold). rewrite Ha in H1. cbn [mbind outcome_bind] in H1.
      destruct (Hgrow ts v1 Hn1) as (v2 & E & Hk & _ & Hs2). rewrite E in H1. injection H1 as ->.
      destruct (get_string v (v_size v)) as [u|] eqn:Hu.
      * apply Hc in Hu. split.
        -- intros Hc'. assert (u ≠ t) by congruence. pose proof (H2 u _ Hu) as E1. pose proof (Hk t _ Hid) as E2.
           apply Hc' in E1, E2. congruence.
        -- intros H. destruct (H u _ Hu). lia.
      * assert (Hc1 : consistent v1). { apply Hiff1. intros u E1. apply Hc in E1. congruence. }
        destruct (IH v1 Hn1 Hc1) as (v2 & E2 & _ & _ & _ & Hiff). rewrite E in E2. injection E2 as <-. rewrite Hiff, Hs1. split.
        -- intros H u i Hi1 Hr. assert (u ≠ t) by congruence. apply (H u i); [by rewrite Hold|].
           assert (i ≠ v_size v); [|lia]. intros ->. apply Hc in Hi1. congruence.
        -- intros H u i Hi1 Hr. destruct (decide (u = t)) as [->|Hne]; [rewrite Hid in Hi1; injection Hi1 as <-; lia|].
           rewrite Hold in Hi1 by done. apply (H u i Hi1). lia.
Qed.
Print Assumptions C30_add_many_exact.

(** Of {"a": 0, "b": 4}: two more terms are fine, three are not. *)
Example C30_many_example :
  let j := Some [([97], 0); ([98], 4)] in let v := from_json j (map_to_list (json_map j)) in
  (v' ← add_terms v [[99]; [97]; [100]]; Ret (v_size v, v_size v', map (get_string v') [0; 2; 3; 4])) = Ret (2, 4, [Some [97]; Some [99]; Some [100]; Some [98]])
  ∧ (v' ← add_terms v [[99]; [97]; [100]; [101]]; Ret (v_size v', map (get_id v') [[98]; [101]], get_string v' 4)) = Ret (5, [Some 4; Some 4], Some [101]).
Proof. vm_compute. auto. Qed.

Example C30_example :
  let j := Some [([97], 1); ([98], 0)] in
  (v ← add_terms (from_json j (map_to_list (json_map j))) [[99]; [97]; [100]];
   Ret (map (get_id v) [[97]; [98]; [99]; [100]])) = Ret [Some 1; Some 0; Some 2; Some 3].
Proof. vm_compute. reflexivity. Qed.

(** C31: [ms] are the merges that the lines name, comments left out. *)
Theorem C31_merge_ranks :
  ∀ file ls v k m, file_lines file ls → merge_map_from_file file v k = Ret (Ok m) →
  short_lines file
  ∧ ∃ ms, Forall2 (merge_line v k) (merge_lines ls) ms
      ∧ ∀ p x, m !! p = Some x ↔ last_merge ms p x.
Proof.
  intros file ls v k m Hls H. apply from_file_ok in H as [Hs H]. split; [done|]. rewrite (all_lines_of _ _ Hls) in H.
  apply (merges_loop_ok v k ls 1 ∅ [] m) in H; [done|]. intros p x. unfold merge_map. rewrite lookup_empty. split; [done|].
  intros (_ & Hx & _). by rewrite lookup_nil in Hx.
Qed.
Print Assumptions C31_merge_ranks.

(** Every file has lines, and only one list of them. *)
Theorem C31_lines : ∀ file, ∃ ls, file_lines file ls ∧ ∀ ls', file_lines file ls' → ls' = ls.
Proof.
  intros file. exists (all_lines file). split; [apply lines_exist|]. intros ls' H. by rewrite (all_lines_of _ _ H).
Qed.
Print Assumptions C31_lines.

(** Vocabulary a b ab aba; the last line repeats a pair and overrides its rank. *)
Example C31_example :
  let v := match add_terms new_vocab (map bytes_of ["a"; "b"; "ab"; "aba"; "##b"; "##ba"]) with Ret v => v | Panic => new_vocab end%string in
  let file := bytes_of "#version: 0.2" ++ [10] ++ bytes_of "a b" ++ [13; 10] ++ bytes_of "ab a" ++ [10] ++ bytes_of "a b" in
  match merge_map_from_file file v 0 with
  | Ret (Ok m) => map (λ p, m !! p) [(0, 1); (2, 0); (1, 0)] = [Some (MergeValue 2 2); Some (MergeValue 1 3); None]
  | _ => False
  end
  (* with a prefix of two bytes *)
  ∧ match merge_map_from_file (bytes_of "a ##b" ++ [10] ++ bytes_of "a ##ba") v 2 with
  | Ret (Ok m) => map (λ p, m !! p) [(0, 4); (0, 5); (0, 1)] = [Some (MergeValue 0 2); Some (MergeValue 1 3); None]
  | _ => False
  end
  (* a number sign alone does not make a comment *)
  ∧ (v' ← add_terms new_vocab (map bytes_of ["#"; "#version"; "version"; "#versio"; "n"]%string);
     r ← merge_map_from_file (bytes_of "# version" ++ [10] ++ bytes_of "#version n" ++ [10] ++ bytes_of "#versio n" ++ [10]) v' 0;
     Ret match r with Ok m => map (λ p, m !! p) [(0, 2); (1, 4); (3, 4)] | Err _ => [] end)
    = Ret [Some (MergeValue 0 1); None; Some (MergeValue 1 1)]
  (* only U+0020 separates *)
  ∧ (v' ← add_terms new_vocab [[97; 9]; [98; 33]; [97; 9; 98; 33]]; r ← merge_map_from_file [97; 9; 32; 98; 33] v' 0;
     Ret match r with Ok m => m !! (0, 1) | Err _ => None end) = Ret (Some (MergeValue 0 2)).
Proof. vm_compute. auto. Qed.

(** C32, full statement. False: it panics if the prefix is longer than the right term. *)
Theorem C32_merge_errors_refuted :
  ∃ file v k, 0 <= k ∧ merge_map_from_file file v k = Panic.
Proof.
  exists (bytes_of "a b"), (Vocab false {[ [97] := 0; [98] := 1 ]} ∅), 2. split; [lia|]. vm_compute. reflexivity.
Qed.
Print Assumptions C32_merge_errors_refuted.

(** What holds: exactly one of the four. The good lines are comments and merges. [ls] are the lines
    that the scanner delivers: all, or those before the first line of 64 KiB or more. *)
Theorem C32_merge_errors_partial :
  ∀ file v k, ∃ ls long, (if long : bool then long_line_after file ls else short_lines file ∧ file_lines file ls) ∧
  let good := λ l, comment_line l ∨ ∃ x, merge_line v k l x in
  (long = false ∧ ∃ m, merge_map_from_file file v k = Ret (Ok m) ∧ Forall good ls)
  ∨ (long = true ∧ merge_map_from_file file v k = Ret (Err ELineTooLong) ∧ Forall good ls)
  ∨ (∃ before bad after e, ls = before ++ bad :: after ∧ Forall good before
       ∧ ¬ comment_line bad ∧ bad_line v k bad (1 + zlen before) e ∧ merge_map_from_file file v k = Ret (Err e))
  ∨ (∃ before bad after, ls = before ++ bad :: after ∧ Forall good before
       ∧ ¬ comment_line bad ∧ short_line v k bad ∧ merge_map_from_file file v k = Panic).
Proof.
  intros file v k. destruct (scan_lines_cases file) as [[E Hs]|(ls & E & Hl)].
  - exists (all_lines file), false. split; [split; [done|apply lines_exist]|]. intros good. unfold merge_map_from_file. rewrite E.
    destruct (merges_loop_total v k (all_lines file) 1 0 ∅) as [(m & H & Hg)|[(x & y & z & e & H1 & H2 & H3 & H4 & H)|(x & y & z & H1 & H2 & H3 & H4 & H)]]; rewrite H; cbn [mbind outcome_bind].
    + left. eauto.
    + right. right. left. exists x, y, z, e. done.
    + right. right. right. exists x, y, z. done.
  - exists ls, true. split; [done|]. intros good. unfold merge_map_from_file. rewrite E.
    destruct (merges_loop_total v k ls 1 0 ∅) as [(m & H & Hg)|[(x & y & z & e & H1 & H2 & H3 & H4 & H)|(x & y & z & H1 & H2 & H3 & H4 & H)]]; rewrite H; cbn [mbind outcome_bind].
    + right. left. done.
    + right. right. left. exists x, y, z, e. done.
    + right. right. right. exists x, y, z. done.
Qed.
Print Assumptions C32_merge_errors_partial.

(** No panic if no prefix is cut off (as for all BPE models without continuing-subword prefix). *)
Theorem C32_no_prefix_no_panic : ∀ file v, merge_map_from_file file v 0 ≠ Panic.
Proof.
  intros file v H. destruct (C32_merge_errors_partial file v 0) as (ls & long & _ &
    [(_ & m & E & _)|[(_ & E & _)|[(b & x & a & e & _ & _ & _ & _ & E)|(b & x & a & _ & _ & _ & (t0 & t1 & _ & _ & _ & Hk) & _)]]]); [congruence..|].
  pose proof (zlen_nonneg t1). lia.
Qed.
Print Assumptions C32_no_prefix_no_panic.

(** Line 3 has three terms; line 2 is a comment. *)
Example C32_example :
  let v := match add_terms new_vocab (map bytes_of ["a"; "b"; "ab"]) with Ret v => v | Panic => new_vocab end%string in
  merge_map_from_file (bytes_of "a b" ++ [10] ++ bytes_of "#version" ++ [10] ++ bytes_of "a b c" ++ [10]) v 0
    = Ret (Err (EMalformedMerges 3))
  ∧ merge_map_from_file (bytes_of "a b" ++ [10] ++ bytes_of "b a") v 0 = Ret (Err (EMergedOOV 2))
  ∧ merge_map_from_file (bytes_of "c a") v 0 = Ret (Err (ELeftOOV 1))
  ∧ merge_map_from_file (bytes_of "a b" ++ [10; 10]) v 0 = Ret (Err (EMalformedMerges 2))
  ∧ merge_map_from_file (bytes_of "a  b") v 0 = Ret (Err (EMalformedMerges 1))
  ∧ merge_map_from_file (bytes_of "a b ") v 0 = Ret (Err (EMalformedMerges 1)).
Proof. vm_compute. auto 10. Qed.

(** A line of 65536 bytes is not read, whatever follows; a comment of 65535 bytes is skipped as any other. *)
Theorem C32_long_line :
  ∀ v k l rest, 10 ∉ l → zlen l = 65536 → merge_map_from_file (l ++ rest) v k = Ret (Err ELineTooLong).
Proof.
  intros v k l rest Hl Hz. unfold merge_map_from_file, scan_lines. rewrite scan_lines_long; [done|done| |lia]. by intros ->.
Qed.
Print Assumptions C32_long_line.
Theorem C32_longest_line :
  ∀ v k l, 10 ∉ l → last l ≠ Some 13 → zlen l < 65536 → comment_line l → merge_map_from_file l v k = Ret (Ok ∅).
Proof.
  intros v k l Hl Hcr Hz Hc. unfold merge_map_from_file, scan_lines. rewrite scan_lines_not_long; [|done|lia|].
  - cbn [rev app]. rewrite drop_cr_id by done. cbn [merges_loop]. apply comment_spec in Hc. by rewrite Hc.
  - destruct Hc as (rest & ->). done.
Qed.
Print Assumptions C32_longest_line.
(** Both apply. *)
Example C32_long_example :
  let long n := bytes_of "#version"%string ++ replicate (Z.to_nat (n - 8)) 97 in
  merge_map_from_file (long 65535) new_vocab 0 = Ret (Ok ∅)
  ∧ merge_map_from_file (long 65536) new_vocab 0 = Ret (Err ELineTooLong).
Proof.
  intros long. assert (H10 : ∀ n, 10 ∉ long n).
  { intros n [H|H]%elem_of_app; [|by apply elem_of_replicate in H as [? _]]. by repeat (apply elem_of_cons in H as [?|H]; [done|]); apply elem_of_nil in H. }
  assert (Hlen : ∀ n, 8 <= n → zlen (long n) = n).
  { intros n Hn. unfold long. rewrite zlen_app. unfold zlen at 2. rewrite replicate_length. change (zlen (bytes_of "#version")) with 8. lia. }
  assert (Hlast : ∀ n, 8 < n → last (long n) ≠ Some 13).
  { intros n Hn. unfold long. replace (Z.to_nat (n - 8)) with (Z.to_nat (n - 9) + 1)%nat by lia.
    rewrite replicate_add, app_assoc. cbn [replicate]. by rewrite last_snoc. }
  assert (Hc : ∀ n, comment_line (long n)) by (intros n; by eexists).
  clearbody long. split.
  - apply C32_longest_line; [done|apply Hlast; lia|rewrite Hlen; lia|apply Hc].
  - rewrite <- (app_nil_r (long 65536)). apply C32_long_line; [done|]. rewrite Hlen; lia.
Qed.
