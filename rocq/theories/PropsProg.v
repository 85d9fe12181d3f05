(** Property theorems C98: programs of edits, exactly; C12: Replace, exactly; C87: when two passes are one. *)
From Coq Require Import ZifyBool String.
From Verif Require Import GoBase Utf8Facts Strutils SplitPattern NormString Encodings Bpe Normalizers PreTokString PreTokenizers SpecCommute SpecText SpecNorm SpecNormalizers
  SpecShift SpecProg SliceFacts NormFacts NormalizersFacts ShiftFacts ProgFacts Lit.
Import GoBase SpecNorm.
#[local] Open Scope Z_scope.

(** * C12 *)
(** Which span the replacement of a match carries, also for matches of several bytes per character. *)
Theorem C12_replace_exact :
  ∀ n v (p : pattern) cs content,
  repr n v → p (ns_norm n) = Ret (Ok cs) → boundary_cover (ns_norm n) cs → scalars content →
  ∃ n' segs, replace n p (encode content) = Ret (Ok n')
    ∧ concat segs.*1 = v ∧ cs = place 0 (texts_of segs)
    ∧ repr n' (replacing content [] segs) ∧ same_origin n n'.
Proof. exact replace_exact. Qed.
Print Assumptions C12_replace_exact.
(** For single characters that is their own span. *)
Theorem C12_replace_chars :
  ∀ n v g content, repr n v →
  ∃ n', replace n (func_pattern g) (encode content) = Ret (Ok n')
    ∧ repr n' (concat (map (λ p, if g p.1 then map (λ r, (sanitize r, p.2)) content else [p]) v)) ∧ same_origin n n'.
Proof. exact replace_chars. Qed.
Print Assumptions C12_replace_chars.
(** "éab" and "éê" replaced by "xy" in "éabéê": byte 2 of "éab" belongs to a, byte 1 of "éê" to é. *)
Example C12_exact_example :
  let v := fresh 0 [0xE9; 97; 98; 0xE9; 0xEA] in
  replacing [120; 121] [] [(take 3 v, true); (drop 3 v, true)] = [(120, (2, 3)); (121, (2, 3)); (120, (4, 6)); (121, (4, 6))]
  ∧ (x ← replace (from_string (encode v.*1)) (λ _, Ret (Ok [Capture 0 4 true; Capture 4 8 true])) [120; 121]; Ret (match x with Ok n => (ns_norm n, ns_al n) | Err _ => ([], []) end))
    = Ret ([120; 121; 120; 121], [(2, 3); (2, 3); (4, 6); (4, 6)]).
Proof. vm_compute. auto. Qed.

(** * C98 *)
(** Any sequence of Map, Filter, Trim, Prepend, Replace of characters, BERT normalization and TransformRange of any
    range between characters with any list of changes, on any aligned text. *)
Theorem C98_program :
  ∀ u l n v, repr n v →
  match meanings u l v with
  | Some w => ∃ n', calls u l n = Ret n' ∧ repr n' w ∧ same_origin n n'
  | None => calls u l n = Panic
  end.
Proof. intros u l. exact (meanings_does u l). Qed.
Print Assumptions C98_program.

(** Two programs give the same value, or both panic, exactly if they mean the same for the text. *)
Theorem C98_equal_iff :
  ∀ u l l' n v, repr n v → calls u l n = calls u l' n ↔ meanings u l v = meanings u l' v.
Proof. intros u l l' n v Hr. eapply (does_eq (calls u l) (calls u l') (meanings u l) (meanings u l')); [apply meanings_does|apply meanings_does|done]. Qed.
Print Assumptions C98_equal_iff.

(** The normalizers of the library, in sequences of any depth: no errors, and the same meaning. *)
Theorem C98_normalizer :
  ∀ u z n v, repr n v →
  match meanings u (steps_of u z) v with
  | Some w => ∃ n', normalizer_of u z n = Ret (n', None) ∧ repr n' w ∧ same_origin n n'
  | None => normalizer_of u z n = Panic
  end.
Proof.
  intros u z n v Hr. pose proof (meanings_does u (steps_of u z) n v Hr) as H. rewrite normalizer_steps. unfold no_error.
  destruct (meanings u (steps_of u z) v) as [w|]; [|by rewrite H]. destruct H as (n' & -> & H). by exists n'.
Qed.
Print Assumptions C98_normalizer.

(** Over the splits of a PreTokenizedString: those with tokens are left alone, and one panic is a panic of the whole. *)
Theorem C98_pretokenized :
  ∀ u z p vs, Forall2 (λ sp v, repr (sp_ns sp) v) (p_splits p) vs →
  match mapM (λ x : psplit * atext, match sp_tokens x.1 with Some _ => Some x.2 | None => meanings u (steps_of u z) x.2 end) (zip (p_splits p) vs) with
  | Some ws => ∃ l, normalize_with (normalizer_of u z) p = Ret (Pts (p_original p) l, None)
      ∧ Forall2 (λ sp w, repr (sp_ns sp) w) l ws
      ∧ Forall2 (λ sp sp', sp_tokens sp' = sp_tokens sp ∧ same_origin (sp_ns sp) (sp_ns sp')) (p_splits p) l
  | None => normalize_with (normalizer_of u z) p = Panic
  end.
Proof.
  intros u z p vs H. pose proof (normalize_loop_does _ _ _ _ (meanings_does u (steps_of u z)) H) as D. cbv zeta in D. unfold normalize_with, pts_normalize.
  assert (E : ∀ splits, normalize_loop (λ (_ : unit) n, y ← normalizer_of u z n; Ret (tt, y.1, y.2)) tt splits
                      = normalize_loop (λ (_ : unit) n, y ← no_error (calls u (steps_of u z)) n; Ret (tt, y.1, y.2)) tt splits).
  { induction splits as [|sp splits IH]; [done|]. cbn [normalize_loop]. destruct (sp_tokens sp); [by rewrite IH|]. rewrite normalizer_steps.
    destruct (no_error _ _) as [[n' [er|]]|]; cbn [mbind outcome_bind fst snd]; [done| |done]. by rewrite IH. }
  rewrite E. destruct (mapM _ _) as [ws|]; [|by rewrite D]. destruct D as (l & -> & H1 & H2). exists l. done.
Qed.
Print Assumptions C98_pretokenized.

(** Strip, then BERT, then lower-casing in a sequence of its own: with an ideographic space before "É野" the stripped characters have the
    spans of the space and of É, and 野 between spaces is given them in turn; before "abc" it panics. Prepending nothing, and replacing. *)
Example C98_example :
  let u := Unicode (λ _, false) (λ r, r =? 0x301) (λ _, false) (λ c, if c =? 0xC9 then 0xE9 else c) (λ c, c) in
  let z := NSequence [NStrip true false; NBert (BertOptions true true false false); NSequence [NLower]] in
  let run rs := (x ← normalizer_of u z (from_string (encode rs)); Ret (runes (ns_norm x.1), ns_al x.1)) in
  steps_of u z = [STrim true false; SBert (BertOptions true true false false); SMap (u_lower u)]
  ∧ meanings u (steps_of u z) (fresh 0 [0x3000; 0xC9; 0x91CE]) = Some [(0xE9, (0, 3)); (32, (3, 5)); (0x91CE, (3, 5)); (32, (3, 5))]
  ∧ run [0x3000; 0xC9; 0x91CE] = Ret ([0xE9; 32; 0x91CE; 32], [(0, 3); (0, 3); (3, 5); (3, 5); (3, 5); (3, 5); (3, 5)])
  ∧ meanings u (steps_of u z) (fresh 0 [0x3000; 97; 98; 99]) = None ∧ run [0x3000; 97; 98; 99] = Panic
  ∧ meanings u [SPrepend []; SReplace (λ r, r =? 97) [0xE9; 98]] (fresh 7 [97; 97]) = Some [(0xE9, (0, 0)); (98, (0, 0)); (0xE9, (8, 9)); (98, (8, 9))].
Proof. vm_compute. auto 10. Qed.
(** TransformRange in "aébc": behind a, é is removed, é-with-circumflex inserted, b rewritten, and a character that is not there asked for. *)
Example C98_example_rewrite :
  let u := Unicode (λ _, false) (λ _, false) (λ _, false) (λ c, c) (λ c, c) in
  let run l := (n ← calls u l (from_string (encode [97; 0xE9; 98; 99])); Ret (runes (ns_norm n), ns_al n)) in
  let v := fresh 0 [97; 0xE9; 98; 99] in
  meanings u [SRewrite 1 1 1 [(0x1EBF, 1); (120, 0)]; SMap (λ r, r + 1)] v = Some [(98, (0, 1)); (0x1EC0, (1, 3)); (121, (3, 4)); (100, (4, 5))]
  ∧ run [SRewrite 1 1 1 [(0x1EBF, 1); (120, 0)]; SMap (λ r, r + 1)] = Ret ([98; 0x1EC0; 121; 100], [(0, 1); (1, 3); (1, 3); (1, 3); (3, 4); (4, 5)])
  ∧ meanings u [SRewrite 1 1 1 [(120, -1)]] v = None ∧ run [SRewrite 1 1 1 [(120, -1)]] = Panic
  ∧ meanings u [SRewrite 1 1 2 [(120, -1)]] v = Some [(97, (0, 1)); (120, (3, 4))].
Proof. vm_compute. auto 10. Qed.

(** * C87 *)
(** The exact condition for two passes of Filter to be one. *)
Theorem C87_filter_iff :
  ∀ n v p q, repr n v →
  (n' ← filter_runes n p; filter_runes n' q) = filter_runes n (λ r, p r && q r)
  ↔ (w ← filtered p v; filtered q w) = filtered (λ r, p r && q r) v.
Proof.
  assert (Hret : ∀ m : outcome ns, (m ≫= Ret) = m) by (by intros []). assert (Hsome : ∀ m : option atext, (m ≫= Some) = m) by (by intros []).
  intros n v p q Hr. pose (u := Unicode (λ _, false) (λ _, false) (λ _, false) (λ c, c) (λ c, c)).
  pose proof (C98_equal_iff u [SFilter p; SFilter q] [SFilter (λ r, p r && q r)] n v Hr) as H. cbn [calls call meanings meaning] in H.
  rewrite Hret, Hsome in H.
  assert (E1 : (filter_runes n p ≫= (λ n', filter_runes n' q ≫= (λ n1, Ret n1))) = (n' ← filter_runes n p; filter_runes n' q)). { destruct (filter_runes n p) as [n1|]; [|done]. apply Hret. }
  assert (E3 : (filtered p v ≫= (λ w, filtered q w ≫= (λ w1, Some w1))) = (w ← filtered p v; filtered q w)). { destruct (filtered p v) as [w|]; [|done]. apply Hsome. }
  rewrite E1, E3 in H. exact H.
Qed.
Print Assumptions C87_filter_iff.
(** And for Map and Filter to commute. *)
Theorem C87_map_filter_iff :
  ∀ n v f keep, repr n v →
  let changed := map (λ p : Z * (Z * Z), (sanitize (f p.1), p.2)) in
  (n' ← map_runes n f; filter_runes n' keep) = (n' ← filter_runes n (λ r, keep (f r)); map_runes n' f)
  ↔ filtered keep (changed v) = (w ← filtered (λ r, keep (f r)) v; Some (changed w)).
Proof.
  intros n v f keep Hr changed. pose (u := Unicode (λ _, false) (λ _, false) (λ _, false) (λ c, c) (λ c, c)).
  pose proof (C98_equal_iff u [SMap f; SFilter keep] [SFilter (λ r, keep (f r)); SMap f] n v Hr) as H. cbn [calls call meanings meaning] in H.
  assert (E1 : (map_runes n f ≫= (λ n', filter_runes n' keep ≫= (λ n1, Ret n1))) = (n' ← map_runes n f; filter_runes n' keep)). { destruct (map_runes n f) as [n1|]; [|done]. cbn [mbind outcome_bind option_bind]. by destruct (filter_runes n1 keep). }
  assert (E2 : (filter_runes n (λ r, keep (f r)) ≫= (λ n', map_runes n' f ≫= (λ n1, Ret n1))) = (n' ← filter_runes n (λ r, keep (f r)); map_runes n' f)).
  { destruct (filter_runes n _) as [n1|]; [|done]. cbn [mbind outcome_bind option_bind]. by destruct (map_runes n1 f). }
  cbn [mbind option_bind] in H. fold changed in H.
  assert (E3 : match filtered keep (changed v) with Some x => Some x | None => None end = filtered keep (changed v)) by (by destruct (filtered _ _)).
  rewrite E1, E2 in H. unfold mbind, option_bind in H |- *. rewrite E3 in H. exact H.
Qed.
Print Assumptions C87_map_filter_iff.
(** é, then a, removed from "aéb"; and é made e and removed, in "éab". *)
Example C87_iff_example :
  let p := λ r, negb (r =? 0xE9) in let q := λ r, negb (r =? 97) in let v := fresh 0 [97; 0xE9; 98] in
  (w ← filtered p v; filtered q w) = Some [(98, (3, 4))] ∧ filtered (λ r, p r && q r) v = Some [(98, (1, 3))]
  ∧ (w ← filtered q v; filtered p w) = filtered (λ r, p r && q r) v.
Proof. vm_compute. auto. Qed.
