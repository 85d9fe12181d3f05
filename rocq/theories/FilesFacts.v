(** Facts about reading files in portions. *)
From Coq Require Import ZifyBool ZifyNat.
From Verif Require Import GoBase Vocab Json MergeMap Files SpecVocab Utf8Facts SliceFacts VocabFacts SpecFiles.
Import GoBase.
#[local] Open Scope Z_scope.

(** ** Lines *)
Lemma index_lf_none d i : 10 ∉ d → index_lf d i = None.
Proof.
  revert i. induction d as [|b d IH]; intros i H; [done|]. cbn [index_lf]. apply not_elem_of_cons in H as [Hb H].
  destruct (b =? 10) eqn:E; [lia|]. by apply IH.
Qed.
Lemma index_lf_some l r i : 10 ∉ l → index_lf (l ++ 10 :: r) i = Some (i + zlen l).
Proof.
  revert i. induction l as [|b l IH]; intros i H; cbn [app index_lf].
  - rewrite zlen_nil. cbn. f_equal. lia.
  - apply not_elem_of_cons in H as [Hb H]. destruct (b =? 10) eqn:E; [lia|]. rewrite (IH _ H), zlen_cons. f_equal. lia.
Qed.
Lemma split_lf (d : list Z) : 10 ∉ d ∨ ∃ l r, d = l ++ 10 :: r ∧ 10 ∉ l.
Proof.
  induction d as [|b d IH]; [left; apply not_elem_of_nil|]. destruct (decide (b = 10)) as [->|Hb].
  - right. exists [], d. split; [done|apply not_elem_of_nil].
  - destruct IH as [H|(l & r & -> & H)]; [left; by apply not_elem_of_cons|]. right. exists (b :: l), r. split; [done|]. by apply not_elem_of_cons.
Qed.
(** A token takes at least one byte, and at most all; without one, nothing is taken. *)
Lemma scan_line_progress d atEOF a t : scan_line d atEOF = (a, t) →
  0 <= a <= zlen d ∧ match t with Some _ => 0 < a | None => a = 0 end.
Proof.
  unfold scan_line. pose proof (zlen_nonneg d). destruct (split_lf d) as [H10|(l & r & -> & H10)].
  - rewrite index_lf_none by done. destruct atEOF; cbn [andb]; [destruct (zlen d =? 0) eqn:E|]; intros [= <- <-]; lia.
  - rewrite zlen_app, zlen_cons, index_lf_some by done. pose proof (zlen_nonneg l). pose proof (zlen_nonneg r).
    destruct (_ && _) eqn:E; intros [= <- <-]; lia.
Qed.

(** ** Reads *)
Lemma fill_end tries r room : rd_left r = [] → fill (S tries) r room = ([], Some (rd_end r), r).
Proof. intros H. cbn [fill]. unfold read. by rewrite H. Qed.
Lemma take_taken {A} n (d : list A) : take n d = take (length (take n d)) d.
Proof.
  rewrite take_length. destruct (decide (n <= length d)%nat) as [Hl|Hl]; [by rewrite Nat.min_l by done|].
  rewrite Nat.min_r by lia. rewrite !take_ge by lia. done.
Qed.
Lemma drop_taken {A} n (b : A) d : drop (S n) (b :: d) = drop (length (b :: take n d)) (b :: d).
Proof.
  cbn [length drop]. rewrite take_length. destruct (decide (n <= length d)%nat) as [Hl|Hl]; [by rewrite Nat.min_l by done|].
  rewrite Nat.min_r by lia. rewrite !drop_ge by lia. done.
Qed.
Lemma fill_some j tries r room : (j < tries)%nat → 1 <= room → 1 <= rd_ask r (rd_calls r + j)%nat → rd_left r ≠ [] →
  ∃ bs k, fill tries r room = (bs, None, Reader (drop (length bs) (rd_left r)) (rd_ask r) k (rd_end r))
    ∧ bs ≠ [] ∧ bs = take (length bs) (rd_left r) ∧ zlen bs <= room.
Proof.
  revert tries r. induction j as [|j IH]; intros [|tries] r Hj Hroom Hask Hne; [lia| |lia|]; cbn [fill]; unfold read;
    destruct (rd_left r) as [|b d] eqn:E; [done| |done|];
    destruct (Z.to_nat (Z.min (rd_ask r (rd_calls r)) room)) as [|n] eqn:En.
  - rewrite Nat.add_0_r in Hask. lia.
  - exists (take (S n) (b :: d)), (S (rd_calls r)). cbn [take]. split; [by rewrite <- drop_taken|]. split; [done|].
    split; [apply (take_taken (S n) (b :: d))|]. change (b :: take n d) with (take (S n) (b :: d)). unfold zlen. rewrite take_length. lia.
  - cbn [take drop].
    destruct (IH tries (Reader (b :: d) (rd_ask r) (S (rd_calls r)) (rd_end r)) ltac:(lia) Hroom) as (bs & k & H1 & H2 & H3 & H4); [|done|].
    { cbn [rd_ask rd_calls]. by replace (S (rd_calls r) + j)%nat with (rd_calls r + S j)%nat by lia. }
    exists bs, k. done.
  - exists (take (S n) (b :: d)), (S (rd_calls r)). cbn [take]. split; [by rewrite <- drop_taken|]. split; [done|].
    split; [apply (take_taken (S n) (b :: d))|]. change (b :: take n d) with (take (S n) (b :: d)). unfold zlen. rewrite take_length. lia.
Qed.

(** ** The scanner *)
(** A scanner with the bytes [d] still to be delivered, and [x] after them. *)
Definition scanning (s : scanner) (d : list Z) (x : stop) : Prop :=
  sc_err s = None ∧ 0 <= sc_start s ∧ sc_start s + zlen (sc_data s) <= sc_size s <= 65536
  ∧ sc_data s ++ rd_left (sc_rd s) = d ∧ portions (rd_ask (sc_rd s)) ∧ rd_end (sc_rd s) = x.
(** A scanner at its end. *)
Definition ended (s : scanner) (x : stop) : Prop := sc_err s = Some x ∧ sc_data s = [].

Lemma scan_ended fuel s x : ended s x → ∃ s', scan (S fuel) s = Some (None, s') ∧ ended s' x.
Proof.
  intros [He Hd]. cbn [scan]. rewrite He, Hd. rewrite orb_true_r. cbn [scan_line andb zlen length Z.of_nat Z.eqb].
  eexists. split; [reflexivity|]. split; reflexivity.
Qed.

Lemma scan_read fuel s d x : scanning s d x → 10 ∉ sc_data s → zlen (sc_data s) <> 65536 →
  (∃ s', scan (S fuel) s = scan fuel s' ∧ rd_left (sc_rd s) ≠ [] ∧ scanning s' d x ∧ (length (rd_left (sc_rd s')) < length (rd_left (sc_rd s)))%nat)
  ∨ (∃ s', scan (S fuel) s = scan fuel s' ∧ rd_left (sc_rd s) = [] ∧ sc_err s' = Some x ∧ sc_data s' = d ∧ rd_left (sc_rd s') = []).
Proof.
  intros (He & H0 & Hsz & Hd & Hp & Hx) H10 Hlong. cbn [scan]. rewrite He. rewrite orb_false_r.
  assert (Escan : (if 0 <? zlen (sc_data s) then scan_line (sc_data s) false else (0, None)) = (0, None)).
  { destruct (0 <? zlen (sc_data s)); [|done]. unfold scan_line. cbn [andb]. by rewrite index_lf_none. }
  rewrite Escan. clear Escan. change (drop (Z.to_nat 0) (sc_data s)) with (sc_data s). cbn [sc_rd sc_data sc_start sc_size sc_err]. rewrite Z.add_0_r.
  pose proof (zlen_nonneg (sc_data s)) as Hz.
  set (sh := (0 <? sc_start s) && ((sc_start s + zlen (sc_data s) =? sc_size s) || (sc_size s / 2 <? sc_start s))).
  match goal with |- context [if sh then ?a else ?b] => set (s2 := if sh then a else b) end.
  assert (E2 : s2 = Scanner (sc_rd s) (sc_data s) (if sh then 0 else sc_start s) (sc_size s) None).
  { subst s2. by destruct sh. }
  clearbody s2. subst s2. cbn [sc_rd sc_data sc_start sc_size sc_err].
  set (start2 := if sh then 0 else sc_start s).
  assert (Hs2 : 0 <= start2 ∧ start2 + zlen (sc_data s) <= sc_size s ∧ (start2 + zlen (sc_data s) = sc_size s → start2 = 0)).
  { subst start2 sh. destruct (0 <? sc_start s) eqn:E1; cbn [andb].
    - destruct (sc_start s + zlen (sc_data s) =? sc_size s) eqn:E2; cbn [orb]; [lia|]. destruct (sc_size s `div` 2 <? sc_start s); [lia|]. apply Z.eqb_neq in E2. split; [lia|]. split; [lia|]. intros; lia.
    - lia. }
  clearbody start2. clear sh. destruct Hs2 as (Hst & Hle & Hfull).
  set (full := start2 + zlen (sc_data s) =? sc_size s).
  assert (Hnl : full && (max_token_size <=? sc_size s) = false).
  { unfold full, max_token_size. destruct (_ =? _) eqn:E; [|done]. cbn [andb]. assert (start2 = 0) by lia. lia. }
  rewrite Hnl.
  match goal with |- context [if full then ?a else ?b] => set (s3 := if full then a else b) end.
  assert (E3 : ∃ start3 size3, s3 = Scanner (sc_rd s) (sc_data s) start3 size3 None ∧ 0 <= start3 ∧ start3 + zlen (sc_data s) < size3 <= 65536).
  { subst s3. unfold full, max_token_size, start_buf_size in *. destruct (start2 + zlen (sc_data s) =? sc_size s) eqn:E.
    - assert (start2 = 0) as -> by lia. eexists _, _. split; [reflexivity|]. split; [lia|]. cbn [andb] in Hnl. destruct (sc_size s * 2 =? 0) eqn:E0; lia.
    - eexists _, _. split; [reflexivity|]. lia. }
  clearbody s3. destruct E3 as (start3 & size3 & -> & H3 & H3'). cbn [sc_rd sc_data sc_start sc_size sc_err].
  destruct (rd_left (sc_rd s)) as [|b left] eqn:El.
  - right. rewrite fill_end by done. eexists. split; [reflexivity|]. cbn [sc_err sc_data sc_rd set_err]. rewrite Hx, !app_nil_r in *. done.
  - left. destruct (Hp (rd_calls (sc_rd s))) as (j & Hj & Hask).
    destruct (fill_some j 101 (sc_rd s) (size3 - (start3 + zlen (sc_data s)))) as (bs & k & E & Hne & Hbs & Hroom); [lia|lia|done|by rewrite El|].
    rewrite E. eexists. split; [reflexivity|]. split; [done|]. rewrite El in *. split.
    + split; [done|]. cbn [sc_err sc_data sc_rd sc_start sc_size rd_left rd_ask rd_end]. split; [done|]. rewrite zlen_app. split; [lia|].
      split; [|done]. rewrite <- app_assoc. rewrite Hbs at 1. by rewrite take_drop.
    + cbn [sc_rd rd_left]. rewrite drop_length. destruct bs; [done|]. cbn [length]. lia.
Qed.

Lemma scan_token fuel s d x l r : scanning s d x → sc_data s = l ++ 10 :: r → 10 ∉ l →
  ∃ s', scan (S fuel) s = Some (Some (drop_cr l), s') ∧ scanning s' (r ++ rd_left (sc_rd s)) x.
Proof.
  intros (He & H0 & Hsz & Hd & Hp & Hx) E H10. cbn [scan]. rewrite He, orb_false_r.
  assert (Hpos : 0 <? zlen (sc_data s) = true).
  { rewrite E, zlen_app, zlen_cons. pose proof (zlen_nonneg l). pose proof (zlen_nonneg r). lia. }
  assert (Hline : scan_line (sc_data s) false = (zlen l + 1, Some (drop_cr l))).
  { unfold scan_line. cbn [andb]. rewrite E, index_lf_some by done. rewrite Z.add_0_l. do 3 f_equal.
    replace (Z.to_nat (zlen l)) with (length l) by (unfold zlen; lia). apply take_app. }
  rewrite Hpos, Hline. clear Hpos Hline.
  replace (Z.to_nat (zlen l + 1)) with (length (l ++ [10])) by (rewrite app_length; cbn [length]; unfold zlen; lia).
  eexists. split; [reflexivity|]. split; [done|]. cbn [sc_err sc_data sc_rd sc_start sc_size].
  rewrite E in *. replace (l ++ 10 :: r) with ((l ++ [10]) ++ r) in * by (by rewrite <- app_assoc). rewrite drop_app.
  rewrite !zlen_app, zlen_cons, zlen_nil in Hsz. pose proof (zlen_nonneg l). split; [lia|]. split; [lia|]. done.
Qed.

(** A line that ends. *)
Lemma scan_lf l rest fuel s d x : scanning s d x → (length (rd_left (sc_rd s)) < fuel)%nat → d = l ++ 10 :: rest → 10 ∉ l → zlen l < 65536 →
  ∃ s', scan fuel s = Some (Some (drop_cr l), s') ∧ scanning s' rest x.
Proof.
  revert s. induction fuel as [|fuel IH]; intros s Hs Hf -> H10 Hl; [lia|].
  pose proof Hs as (_ & _ & Hsz & Hd & _). destruct (split_lf (sc_data s)) as [Hno|(l' & r & E & H10')].
  - assert (zlen (sc_data s) <= zlen l ∧ ∃ l2, l = sc_data s ++ l2 ∧ rd_left (sc_rd s) = l2 ++ 10 :: rest) as (Hlen & l2 & -> & Hleft).
    { destruct (app_eq_inv _ _ _ _ Hd) as [(k & E1 & E2)|(k & E1 & E2)].
      - destruct k as [|c k].
        + rewrite app_nil_r in E1. subst l. cbn [app] in E2. split; [lia|]. exists []. by rewrite app_nil_r.
        + injection E2 as <- E2. exfalso. apply Hno. rewrite E1. apply elem_of_app. right. by left.
      - split; [rewrite E1, zlen_app; pose proof (zlen_nonneg k); lia|]. by exists k. }
    destruct (scan_read fuel s _ x Hs Hno ltac:(lia)) as [(s' & E & _ & Hs' & Hlt)|(s' & E & Hnil & _)].
    + rewrite E. apply IH; [done|lia|done..].
    + rewrite Hnil in Hleft. by destruct l2.
  - destruct (scan_token fuel s _ x l' r Hs E H10') as (s' & Es & Hs').
    assert (l' = l ∧ r ++ rd_left (sc_rd s) = rest) as [-> <-].
    { rewrite E, <- app_assoc in Hd. cbn [app] in Hd. destruct (app_eq_inv _ _ _ _ Hd) as [(k & E1 & E2)|(k & E1 & E2)]; destruct k as [|c k].
      - rewrite app_nil_r in E1. injection E2 as E2. done.
      - injection E2 as <- E2. exfalso. apply H10'. rewrite E1. apply elem_of_app. right. by left.
      - rewrite app_nil_r in E1. injection E2 as E2. done.
      - injection E2 as <- E2. exfalso. apply H10. rewrite E1. apply elem_of_app. right. by left. }
    by exists s'.
Qed.

(** No newline any more. *)
Lemma scan_last fuel s d x : scanning s d x → (1 + length (rd_left (sc_rd s)) < fuel)%nat → 10 ∉ d → zlen d < 65536 →
  ∃ s', scan fuel s = Some (match d with [] => None | _ => Some (drop_cr d) end, s') ∧ ended s' x.
Proof.
  revert s. induction fuel as [|fuel IH]; intros s Hs Hf H10 Hl; [lia|]. pose proof Hs as (_ & _ & Hsz & Hd & _).
  assert (Hno : 10 ∉ sc_data s) by (intros H; apply H10; rewrite <- Hd; apply elem_of_app; by left).
  assert (Hlen : zlen (sc_data s) < 65536) by (rewrite <- Hd, zlen_app in Hl; pose proof (zlen_nonneg (rd_left (sc_rd s))); lia).
  destruct (scan_read fuel s _ x Hs Hno ltac:(lia)) as [(s' & E & Hne & Hs' & Hlt)|(s' & E & Hnil & He & Hd' & _)].
  - rewrite E. apply IH; [done|lia|done..].
  - rewrite E. destruct fuel as [|fuel]; [rewrite Hnil in Hf; cbn in Hf; lia|]. cbn [scan]. rewrite He, Hd', orb_true_r. unfold scan_line. cbn [andb].
    rewrite index_lf_none by done. destruct d as [|b d].
    + cbn [zlen length Z.of_nat Z.eqb]. eexists. split; [reflexivity|]. split; done.
    + destruct (zlen (b :: d) =? 0) eqn:E0; [rewrite zlen_cons in E0; pose proof (zlen_nonneg d); lia|].
      eexists. split; [reflexivity|]. split; [done|]. cbn [sc_data]. unfold zlen. rewrite Nat2Z.id. apply drop_all.
Qed.

(** A line that does not fit. *)
Lemma scan_long l rest fuel s d x : scanning s d x → (length (rd_left (sc_rd s)) < fuel)%nat → d = l ++ rest → 10 ∉ l → zlen l = 65536 →
  ∃ s', scan fuel s = Some (None, s') ∧ sc_err s' = Some (Failed ELineTooLong).
Proof.
  revert s. induction fuel as [|fuel IH]; intros s Hs Hf -> H10 Hl; [lia|]. pose proof Hs as (He & H0 & Hsz & Hd & _).
  assert (Hpre : ∃ l2, l = sc_data s ++ l2 ∧ rd_left (sc_rd s) = l2 ++ rest) .
  { destruct (app_eq_inv _ _ _ _ Hd) as [(k & E1 & E2)|(k & E1 & E2)].
    - pose proof (zlen_nonneg k) as Hk. rewrite E1, zlen_app in Hsz. assert (zlen k = 0) by lia. destruct k; [|rewrite zlen_cons in H; pose proof (zlen_nonneg k); lia].
      rewrite app_nil_r in E1. exists []. rewrite app_nil_r. cbn [app] in *. done.
    - by exists k. }
  destruct Hpre as (l2 & -> & Hleft). assert (Hno : 10 ∉ sc_data s) by (intros H; apply H10, elem_of_app; by left).
  destruct (decide (zlen (sc_data s) = 65536)) as [Hz|Hz].
  - cbn [scan]. rewrite He, orb_false_r. assert (Hst : sc_start s = 0) by lia. assert (Hsi : sc_size s = 65536) by lia.
    rewrite Hz. unfold scan_line. cbn [andb]. rewrite index_lf_none by done. change (0 <? 65536) with true. cbn match.
    change (drop (Z.to_nat 0) (sc_data s)) with (sc_data s). cbn [sc_start sc_data sc_size sc_err sc_rd]. rewrite Hst, Hsi, Hz.
    match goal with |- context [if ?b then Scanner ?x1 ?x2 ?x3 ?x4 ?x5 else ?y] =>
      change (if b then Scanner x1 x2 x3 x4 x5 else y) with (Scanner (sc_rd s) (sc_data s) 0 65536 None) end.
    cbn [sc_start sc_data sc_size sc_err sc_rd]. rewrite Hz. eexists. split; [reflexivity|]. done.
  - destruct (scan_read fuel s _ x Hs Hno Hz) as [(s' & E & Hne & Hs' & Hlt)|(s' & E & Hnil & _)].
    + rewrite E. apply IH; [done|lia|done..].
    + rewrite Hnil in Hleft. symmetry in Hleft. apply app_nil in Hleft as [-> _]. rewrite app_nil_r in Hl. lia.
Qed.

(** ** The lines of the model *)
Lemma scan_lines_from_lf l rest cur n : 10 ∉ l → n + zlen l < 65536 →
  scan_lines_from cur n (l ++ 10 :: rest) = (drop_cr (rev cur ++ l) :: (scan_lines rest).1, (scan_lines rest).2).
Proof.
  revert cur n. induction l as [|c l IH]; intros cur n H10 Hl; cbn [app scan_lines_from].
  - rewrite app_nil_r. cbn [Z.eqb Pos.eqb]. unfold scan_lines. by destruct (scan_lines_from [] 0 rest).
  - rewrite zlen_cons in Hl. pose proof (zlen_nonneg l). apply not_elem_of_cons in H10 as [Hc H10].
    destruct (c =? 10) eqn:E; [lia|]. unfold max_token_size. destruct (n + 1 =? 65536) eqn:E2; [lia|].
    rewrite IH by (done || lia). cbn [rev]. by rewrite <- app_assoc.
Qed.

Lemma merges_loop_line v k l ls no rank m :
  merges_loop v k (l :: ls) no rank m
  = (x ← merges_line v k l no rank m;
     match x with Ok (rank', m') => merges_loop v k ls (no + 1) rank' m' | Err e => Ret (Err e) end).
Proof.
  cbn [merges_loop]. unfold merges_line. destruct (has_prefix l version_prefix); [done|].
  destruct (split_spaces l) as [|t0 [|t1 [|]]]; [done|done| |done]. destruct (get_id v t0); [|done]. destruct (get_id v t1); [|done].
  destruct (sub t1 k (zlen t1)) as [tail|]; [|done]. cbn [mbind outcome_bind]. by destruct (get_id v (t0 ++ tail)).
Qed.

(** What the loop over the lines gives, from the bytes that are left. *)
Definition loop_result (x : stop) (v : vocab) (k : Z) (d : list Z) (no rank : Z) (m : merge_map) : outcome (result merge_map) :=
  r ← merges_loop v k (scan_lines d).1 no rank m;
  Ret (match r with
       | Ok m => if (scan_lines d).2 then Err ELineTooLong else match x with AtEOF => Ok m | Failed e => Err e end
       | Err e => Err e
       end).

Lemma merges_scan_ended fuel v k s x no rank m : ended s x →
  merges_scan (S fuel) v k s no rank m = Some (Ret (match x with AtEOF => Ok m | Failed e => Err e end)).
Proof.
  intros H. cbn [merges_scan]. unfold scan_next. destruct (scan_ended (2 + length (rd_left (sc_rd s))) s x H) as (s' & E & He & _).
  change (3 + length (rd_left (sc_rd s)))%nat with (S (2 + length (rd_left (sc_rd s)))). rewrite E. unfold scanner_err. rewrite He. by destruct x.
Qed.

Lemma merges_scan_spec fuel v k s d x no rank m : scanning s d x → (1 + length d < fuel)%nat →
  merges_scan fuel v k s no rank m = Some (loop_result x v k d no rank m).
Proof.
  revert s d no rank m. induction fuel as [|fuel IH]; intros s d no rank m Hs Hf; [lia|].
  cbn [merges_scan]. unfold scan_next. destruct (split_lf d) as [H10|(l & rest & -> & H10)].
  - destruct (decide (zlen d < 65536)) as [Hl|Hl].
    + destruct (scan_last (3 + length (rd_left (sc_rd s))) s d x Hs ltac:(lia) H10 Hl) as (s' & E & He). rewrite E.
      unfold loop_result, scan_lines. destruct d as [|b d].
      * cbn [scan_lines_from fst snd merges_loop mbind outcome_bind]. unfold scanner_err. destruct He as [-> _]. by destruct x.
      * rewrite scan_lines_not_long; [|done|lia|done]. cbn [rev app fst snd]. rewrite merges_loop_line.
        destruct (merges_line v k (drop_cr (b :: d)) no rank m) as [[[rank' m']|e]|]; cbn [mbind outcome_bind]; [|done|done].
        destruct fuel as [|fuel]; [cbn [length] in Hf; lia|]. by rewrite (merges_scan_ended _ _ _ _ _ _ _ _ He).
    + assert (Hd : d = take (Z.to_nat 65536) d ++ drop (Z.to_nat 65536) d) by (by rewrite take_drop).
      assert (Hz : zlen (take (Z.to_nat 65536) d) = 65536) by (unfold zlen in *; rewrite take_length; lia).
      assert (H10' : 10 ∉ take (Z.to_nat 65536) d) by (intros H; apply H10; rewrite Hd; apply elem_of_app; by left).
      destruct (scan_long _ _ (3 + length (rd_left (sc_rd s))) s d x Hs ltac:(lia) Hd H10' Hz) as (s' & E & He).
      rewrite E. unfold scanner_err. rewrite He. unfold loop_result, scan_lines. rewrite Hd.
      rewrite scan_lines_long; [done|done| |lia]. intros E0. rewrite E0, zlen_nil in Hz. lia.
  - destruct (decide (zlen l < 65536)) as [Hl|Hl].
    + destruct (scan_lf l rest (3 + length (rd_left (sc_rd s))) s _ x Hs ltac:(lia) eq_refl H10 Hl) as (s' & E & Hs'). rewrite E.
      unfold loop_result. unfold scan_lines at 1 2. rewrite scan_lines_from_lf by (done || lia). cbn [rev app fst snd]. rewrite merges_loop_line.
      destruct (merges_line v k (drop_cr l) no rank m) as [[[rank' m']|e]|]; cbn [mbind outcome_bind]; [|done|done].
      rewrite app_length in Hf. cbn [length] in Hf. by rewrite (IH s' rest _ _ _ Hs') by lia.
    + assert (Hd : l ++ 10 :: rest = take (Z.to_nat 65536) l ++ (drop (Z.to_nat 65536) l ++ 10 :: rest)) by (rewrite app_assoc; by rewrite take_drop).
      assert (Hz : zlen (take (Z.to_nat 65536) l) = 65536) by (unfold zlen in *; rewrite take_length; lia).
      assert (H10' : 10 ∉ take (Z.to_nat 65536) l) by (intros H; apply H10; rewrite <- (take_drop (Z.to_nat 65536) l); apply elem_of_app; by left).
      destruct (scan_long _ _ (3 + length (rd_left (sc_rd s))) s _ x Hs ltac:(lia) Hd H10' Hz) as (s' & E & He).
      rewrite E. unfold scanner_err. rewrite He. unfold loop_result, scan_lines. rewrite Hd.
      rewrite scan_lines_long; [done|done| |lia]. intros E0. rewrite E0, zlen_nil in Hz. lia.
Qed.

Lemma scanning_new file ask x : portions ask → scanning (new_scanner (Reader file ask 0 x)) file x.
Proof.
  intros H. unfold scanning, new_scanner. cbn [sc_err sc_start sc_data sc_size sc_rd rd_left rd_ask rd_end app]. change (zlen (@nil Z)) with 0. split_and!; try done; lia.
Qed.

(** ** Reading all *)
Lemma read_all_spec fuel r room data : (∀ i, 1 <= rd_ask r i ∧ 1 <= room i) → (length (rd_left r) < fuel)%nat →
  read_all fuel r room data = Some (data ++ rd_left r, match rd_end r with AtEOF => None | Failed e => Some e end).
Proof.
  revert r data. induction fuel as [|fuel IH]; intros r data Hp Hf; [lia|]. cbn [read_all]. unfold read.
  destruct (rd_left r) as [|b d] eqn:E.
  - by destruct (rd_end r).
  - destruct (Hp (rd_calls r)) as [H1 H2]. set (n := Z.to_nat _). assert (Hn : (0 < n)%nat) by lia.
    rewrite IH; [| |].
    + cbn [rd_left rd_end]. rewrite <- app_assoc, take_drop. done.
    + done.
    + cbn [rd_left]. rewrite drop_length. cbn [length] in *. lia.
Qed.
