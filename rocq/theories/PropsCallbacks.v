(** C120: functions of the caller that panic, are nil or keep state. *)
From Coq Require Import ZifyBool.
From Verif Require Import GoBase Utf8Facts Strutils SplitPattern SpecText SliceFacts NormString SpecNorm NormFacts PatternFacts Callbacks SpecCallbacks CallbackFacts.
Import GoBase NormString SpecNorm.
#[local] Open Scope Z_scope.

(** Map asks about every character once, in order; the characters become the answers, and keep their
    spans. *)
Theorem C120_map :
  ∀ St (f : callback St Z) st n v bs st', repr n v → answers f st v.*1 bs st' →
  ∃ n', map_runes_cb n f st = Ret (st', n') ∧ repr n' (zip (map sanitize bs) v.*2) ∧ same_origin n n'.
Proof.
  intros St f st n v bs st' Hr Ha. eexists. split; [by apply map_cb_spec|]. split; [|done].
  split; [apply answer_chars_scalars|]. done.
Qed.
Print Assumptions C120_map.

(** It panics exactly if the function does at one of the questions. *)
Theorem C120_map_panics :
  ∀ St (f : callback St Z) st n v, repr n v → map_runes_cb n f st = Panic ↔ panics f st v.*1.
Proof.
  intros St f st n v Hr. split.
  - intros H. destruct (answers_or_panics f st v.*1) as [(bs & st' & Ha)|]; [|done].
    by rewrite (map_cb_spec _ _ _ _ _ _ Hr Ha) in H.
  - intros H. unfold map_runes_cb. rewrite (repr_runes n v Hr). by rewrite map_loop_panics.
Qed.
Print Assumptions C120_map_panics.

(** Filter keeps what was answered with true; the spans too if the characters refused before the first
    kept one are ASCII, as in C08. (For others Filter itself may panic: C08.) *)
Theorem C120_filter_text :
  ∀ St (f : callback St bool) st n st1 bs st' n',
  answers f st (runes (ns_norm n)) bs st' → filter_runes_cb n f st = Ret (st1, n') →
  st1 = st' ∧ ns_norm n' = encode (picked (runes (ns_norm n)) bs).
Proof.
  intros St f st n st1 bs st' n' Ha. unfold filter_runes_cb.
  destruct (filter_cb_text f st _ bs st' None 0 0 Ha) as (x & E & Hx). rewrite E. cbn [mbind outcome_bind fst snd].
  intros (m & Hm & H)%bind_Ret. injection H as <- <-. split; [done|]. apply transform_text in Hm. by rewrite Hm, Hx.
Qed.
Print Assumptions C120_filter_text.

Theorem C120_filter :
  ∀ St (f : callback St bool) st n v bs st', repr n v → answers f st v.*1 bs st' →
  (∀ v0 v2 b0 b2, v = v0 ++ v2 → bs = b0 ++ true :: b2 → length b0 = length v0 →
     Forall (λ b, b = false) b0 → Forall (λ q, q.1 < 128) v0) →
  ∃ n', filter_runes_cb n f st = Ret (st', n') ∧ repr n' (picked v bs) ∧ same_origin n n'.
Proof.
  intros St f st n v bs st' Hr Ha Hlead. pose proof (answers_length _ _ _ _ _ Ha) as Hlen. rewrite fmap_length in Hlen.
  assert (H : ∃ v0 v2 b0 b2, v = v0 ++ v2 ∧ bs = b0 ++ b2 ∧ length b0 = length v0 ∧ Forall (λ b, b = false) b0
    ∧ (b2 = [] ∨ Forall (λ q, q.1 < 128) v0 ∧ head b2 = Some true)).
  { destruct (first_true bs) as [H|(b0 & b2 & -> & H)].
    - exists v, [], bs, []. rewrite !app_nil_r. auto 10.
    - rewrite app_length in Hlen. cbn [length] in Hlen. exists (take (length b0) v), (drop (length b0) v), b0, (true :: b2).
      assert (length b0 = length (take (length b0) v)) by (rewrite take_length; lia).
      rewrite take_drop. repeat split; [done|done|]. right. split; [|done].
      eapply (Hlead _ (drop (length b0) v) b0 b2); [by rewrite take_drop|done|done|done]. }
  destruct H as (v0 & v2 & b0 & b2 & -> & -> & Hl & Hf & Hc). eexists. split; [by apply filter_cb_spec|]. split; [|done].
  split; [apply picked_scalars; by destruct Hr|]. done.
Qed.
Print Assumptions C120_filter.

Theorem C120_filter_panics :
  ∀ St (f : callback St bool) st n, panics f st (runes (ns_norm n)) → filter_runes_cb n f st = Panic.
Proof. intros St f st n H. unfold filter_runes_cb. by rewrite filter_loop_panics. Qed.
Print Assumptions C120_filter_panics.

(** A pattern of FromFunc: the captures cover the text, the matches are the characters answered with
    true, no capture is empty, and between two matches there is at most one. *)
Theorem C120_func :
  ∀ St (f : callback St bool) st rs bs st', scalars rs → rs ≠ [] → answers f st rs bs st' →
  ∃ cs, func_pattern_cb f st (encode rs) = Ret (st', Ok cs)
   ∧ covers 0 cs (zlen (encode rs)) ∧ ranges_of true cs = accepted 0 rs bs
   ∧ Forall (λ c, c_start c < c_end c) cs ∧ merged_rest cs.
Proof. intros St f st rs bs st'. apply func_cb_spec. Qed.
Print Assumptions C120_func.

(** This leaves no choice: there is only one such list of captures. *)
Theorem C120_func_unique :
  ∀ cs cs' len, covers 0 cs len → covers 0 cs' len → ranges_of true cs = ranges_of true cs' →
  Forall (λ c, c_start c < c_end c) cs → Forall (λ c, c_start c < c_end c) cs' →
  merged_rest cs → merged_rest cs' → cs = cs'.
Proof. intros cs cs' len. apply captures_unique. Qed.
Print Assumptions C120_func_unique.

Theorem C120_func_panics :
  ∀ St (f : callback St bool) st rs, scalars rs → func_pattern_cb f st (encode rs) = Panic ↔ panics f st rs.
Proof.
  intros St f st rs Hs. split; [|by apply func_cb_panics]. intros H.
  destruct (answers_or_panics f st rs) as [(bs & st' & Ha)|]; [|done].
  destruct (decide (rs = [])) as [->|Hne]; [done|].
  destruct (func_cb_spec f st rs bs st' Hs Hne Ha) as (cs & E & _). congruence.
Qed.
Print Assumptions C120_func_panics.

(** A function that answers by the argument on the characters of the text: the model of the other
    properties. *)
Theorem C120_same_map :
  ∀ St (f : callback St Z) g st n st', answers f st (runes (ns_norm n)) (map g (runes (ns_norm n))) st' →
  map_runes_cb n f st = (n' ← map_runes n g; Ret (st', n')).
Proof.
  intros St f g st n st' Ha. unfold map_runes_cb, map_runes. rewrite (map_loop_answers _ _ _ _ _ Ha).
  cbn [mbind outcome_bind fst snd]. by rewrite map_map.
Qed.
Print Assumptions C120_same_map.

Theorem C120_same_filter :
  ∀ St (f : callback St bool) g st n st', answers f st (runes (ns_norm n)) (map g (runes (ns_norm n))) st' →
  filter_runes_cb n f st = (n' ← filter_runes n g; Ret (st', n')).
Proof.
  intros St f g st n st' Ha. unfold filter_runes_cb, filter_runes.
  by rewrite (filter_loop_answers _ g _ _ _ _ None 0 0 Ha eq_refl).
Qed.
Print Assumptions C120_same_filter.

Theorem C120_same_func :
  ∀ St (f : callback St bool) g st rs st', scalars rs → answers f st rs (map g rs) st' →
  func_pattern_cb f st (encode rs) = (x ← func_pattern g (encode rs); Ret (st', x)).
Proof. intros St f g st rs st'. apply func_cb_same. Qed.
Print Assumptions C120_same_func.

(** A nil function: a panic on every text but the empty one. *)
Theorem C120_nil :
  ∀ n v, repr n v →
  (map_runes_cb n nil_func tt = Panic ↔ v ≠ [])
  ∧ (filter_runes_cb n nil_func tt = Panic ↔ v ≠ [])
  ∧ (func_pattern_cb nil_func tt (ns_norm n) = Panic ↔ v ≠ []).
Proof.
  intros n v Hr. pose proof Hr as (Hs & Hn & _).
  assert (Hp : ∀ B, v ≠ [] → panics (nil_func : callback unit B) tt v.*1).
  { intros B H. destruct v as [|p v]; [done|]. exists [], p.1, v.*1, [], tt. split; [done|]. split; [constructor|done]. }
  assert (Hq : ∀ B, panics (nil_func : callback unit B) tt v.*1 → v ≠ []).
  { intros B (l & x & r & ? & ? & H & _) ->. by destruct l. }
  split; [|split].
  - rewrite (C120_map_panics _ _ _ n v Hr). split; [apply Hq|apply Hp].
  - split; [|intros H; apply C120_filter_panics; rewrite (repr_runes n v Hr); by apply Hp].
    intros H ->. unfold filter_runes_cb in H. rewrite (repr_runes n [] Hr) in H. cbn [filter_loop_cb fmap list_fmap mbind outcome_bind fst snd] in H.
    pose proof (transform_spec n [] [] [] Hr) as H'. rewrite alen_nil in H'. rewrite H' in H. done.
  - rewrite Hn, (C120_func_panics _ _ _ v.*1 Hs). split; [apply Hq|apply Hp].
Qed.
Print Assumptions C120_nil.

(** Every second character: "héllo". *)
Definition C120_alternate : callback bool bool := λ st _, Ret (negb st, negb st).

Example C120_filter_example :
  filter_runes_cb (from_string (encode [104; 0xE9; 108; 108; 111])) C120_alternate false
  = Ret (true, NS (encode [104; 0xE9; 108; 108; 111]) (encode [104; 108; 111]) [(0, 1); (3, 4); (5, 6)] 0).
Proof. vm_compute. reflexivity. Qed.

Example C120_func_example :
  func_pattern_cb C120_alternate false (encode [104; 0xE9; 108; 108])
  = Ret (false, Ok [Capture 0 1 true; Capture 1 3 false; Capture 3 4 true; Capture 4 5 false]).
Proof. vm_compute. reflexivity. Qed.

(** Numbers the characters, and panics at the fourth. *)
Definition C120_counter : callback Z Z := λ st r, if st =? 3 then Panic else Ret (st + 1, 48 + st).

Example C120_map_example :
  map_runes_cb (from_string (encode [0xE9; 97; 0x91CE])) C120_counter 0
  = Ret (3, NS (encode [0xE9; 97; 0x91CE]) [48; 49; 50] [(0, 2); (2, 3); (3, 6)] 0)
  ∧ map_runes_cb (from_string [97; 98; 99; 100]) C120_counter 0 = Panic.
Proof. vm_compute. split; reflexivity. Qed.

(** A nil function on an empty text and on another; and the function is asked about the normalized
    text "b", not the original "a". *)
Example C120_nil_example :
  func_pattern_cb nil_func tt [] = Ret (tt, Ok [Capture 0 0 false])
  ∧ func_pattern_cb nil_func tt [97] = Panic
  ∧ map_runes_cb (NS [97] [98] [(0, 1)] 0) (λ _ r, Ret (r, r + 1)) 0 = Ret (98, NS [97] [99] [(0, 1)] 0).
Proof. vm_compute. repeat split; reflexivity. Qed.

(** The other characters of "héllo": "h" in front is ASCII. *)
Example C120_filter_front_example :
  filter_runes_cb (from_string (encode [104; 0xE9; 108; 108; 111])) C120_alternate true
  = Ret (false, NS (encode [104; 0xE9; 108; 108; 111]) (encode [0xE9; 108]) [(1, 3); (1, 3); (4, 5)] 0).
Proof. vm_compute. reflexivity. Qed.

(** Only the third character, which is the last one. *)
Example C120_func_third_example :
  func_pattern_cb (λ st _, Ret (st + 1, st =? 2)) 0 (encode [97; 0xE9; 99])
  = Ret (3, Ok [Capture 0 3 false; Capture 3 4 true]).
Proof. vm_compute. reflexivity. Qed.
