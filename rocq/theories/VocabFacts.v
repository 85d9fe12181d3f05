(** Facts about vocabularies and merge files. *)
From Coq Require Import ZifyBool.
From Verif Require Import GoBase Vocab MergeMap SpecVocab Utf8Facts SliceFacts.

(** ** AddTerm *)
Record grown (ts : list (list Z)) (v : vocab) : Prop := Grown {
  gr_nil : v_nil v = false;
  gr_dom : dom (v_ids v) = terms_set ts;
  gr_cons : consistent v;
  gr_range : ∀ i, is_Some (get_string v i) ↔ 0 <= i < v_size v;
}.

Lemma v_size_set ts v : grown ts v → v_size v = Z.of_nat (size (terms_set ts)).
Proof. intros G. unfold v_size. by rewrite <- (gr_dom _ _ G), size_dom. Qed.

Lemma grown_new : grown [] new_vocab.
Proof.
  split; [done|apply dom_empty_L|by intros t i|]. intros i. unfold get_string, v_size, new_vocab. cbn.
  rewrite lookup_empty, map_size_empty. split; [intros [? ?]; done|lia].
Qed.

Lemma add_term_known v t i : get_id v t = Some i → add_term v t = Ret v.
Proof. intros H. unfold add_term. unfold get_id in H. by rewrite H. Qed.

(** Adding a term whose fresh number is not in use. *)
Lemma add_term_fresh v t :
  v_nil v = false → get_id v t = None → consistent v → get_string v (v_size v) = None →
  ∃ v', add_term v t = Ret v' ∧ v_nil v' = false ∧ consistent v' ∧ v_size v' = v_size v + 1
    ∧ get_id v' t = Some (v_size v) ∧ (∀ u, u ≠ t → get_id v' u = get_id v u)
    ∧ dom (v_ids v') = {[t]} ∪ dom (v_ids v)
    ∧ (∀ i, i ≠ v_size v → get_string v' i = get_string v i).
Proof.
  intros Hn Ht Hc Hs. unfold add_term. unfold get_id in Ht. rewrite Ht, Hn. eexists. split; [done|].
  unfold consistent, get_id, get_string, v_size in *. cbn [v_nil v_ids v_terms].
  split; [done|]. split.
  { intros u i. destruct (decide (u = t)) as [->|Hu].
    - rewrite lookup_insert. split.
      + intros [= <-]. apply lookup_insert.
      + destruct (decide (i = Z.of_nat (size (v_ids v)))) as [->|Hi]; [done|].
        rewrite lookup_insert_ne by done. intros Hi'. apply Hc in Hi'. congruence.
    - rewrite lookup_insert_ne by done. destruct (decide (i = Z.of_nat (size (v_ids v)))) as [->|Hi].
      + rewrite lookup_insert. split; [intros Hi'; apply Hc in Hi'; congruence|congruence].
      + rewrite lookup_insert_ne by done. apply Hc. }
  split; [rewrite map_size_insert_None by done; lia|]. split; [apply lookup_insert|].
  split; [intros u Hu; by apply lookup_insert_ne|]. split; [apply dom_insert_L|].
  intros i Hi. by apply lookup_insert_ne.
Qed.

Lemma grown_add ts v t :
  grown ts v → ∃ v', add_term v t = Ret v' ∧ grown (ts ++ [t]) v'
    ∧ get_id v' t = Some (if decide (t ∈ ts) then default 0 (get_id v t) else v_size v)
    ∧ (∀ u i, get_id v u = Some i → get_id v' u = Some i).
Proof.
  intros G. destruct (decide (t ∈ ts)) as [Hin|Hin].
  - assert (Hd : t ∈ dom (v_ids v)) by (rewrite (gr_dom _ _ G); by apply elem_of_list_to_set).
    apply elem_of_dom in Hd as [i Hi]. exists v. split; [by eapply add_term_known|]. split; [|split; [|done]].
    + destruct G as [G1 G2 G3 G4]. split; [done| |done|done]. rewrite G2. unfold terms_set.
      rewrite list_to_set_app_L. cbn. apply leibniz_equiv. intros x. rewrite !elem_of_union, elem_of_singleton, elem_of_empty.
      rewrite !elem_of_list_to_set. naive_solver.
    + unfold get_id. by rewrite Hi.
  - assert (Hd : get_id v t = None).
    { apply not_elem_of_dom. rewrite (gr_dom _ _ G). intros H. by apply elem_of_list_to_set in H. }
    assert (Hs : get_string v (v_size v) = None).
    { destruct (get_string v (v_size v)) eqn:E; [|done]. assert (is_Some (get_string v (v_size v))) as Hi by eauto.
      apply (gr_range _ _ G) in Hi. lia. }
    destruct (add_term_fresh v t (gr_nil _ _ G) Hd (gr_cons _ _ G) Hs) as (v' & Ha & Hn & Hc & Hsz & Hid & Hold & Hdom & Hstr).
    exists v'. split; [done|]. split; [|split; [done|]].
    + split; [done| |done|].
      * rewrite Hdom, (gr_dom _ _ G). unfold terms_set. rewrite list_to_set_app_L. cbn. set_solver.
      * intros i. destruct (decide (i = v_size v)) as [->|Hi].
        -- split; [intros _; unfold v_size in *; lia|]. intros _. exists t. by apply Hc.
        -- rewrite Hstr by done. rewrite (gr_range _ _ G), Hsz. lia.
    + intros u i Hu. rewrite Hold; [done|]. intros ->. congruence.
Qed.

Lemma add_terms_app v a b : add_terms v (a ++ b) = (v' ← add_terms v a; add_terms v' b).
Proof.
  revert v. induction a as [|t a IH]; intros v; [done|]. cbn. destruct (add_term v t) as [v'|]; cbn; [apply IH|done].
Qed.

Lemma grown_add_terms ts0 v ts :
  grown ts0 v → ∃ v', add_terms v ts = Ret v' ∧ grown (ts0 ++ ts) v' ∧ (∀ u i, get_id v u = Some i → get_id v' u = Some i).
Proof.
  revert ts0 v. induction ts as [|t ts IH]; intros ts0 v G.
  - exists v. rewrite app_nil_r. done.
  - cbn. destruct (grown_add ts0 v t G) as (v1 & -> & G1 & _ & H1). cbn.
    destruct (IH _ _ G1) as (v2 & -> & G2 & H2). exists v2. rewrite <- app_assoc in G2. split; [done|]. split; [done|]. auto.
Qed.

(** ** Loading from JSON *)
Lemma fill_terms_lookup order i t :
  NoDup order.*1 → fill_terms order !! i = Some t → (t, i) ∈ order.
Proof.
  unfold fill_terms. intros _. assert (H : ∀ (m : gmap Z (list Z)) , foldl (λ m kv, <[kv.2:=kv.1]> m) m order !! i = Some t →
    (t, i) ∈ order ∨ m !! i = Some t).
  { induction order as [|[u j] order IH]; intros m; cbn [foldl]; [auto|]. intros [H|H]%IH.
    - left. by right.
    - cbn [fst snd] in H. destruct (decide (j = i)) as [->|Hj].
      + rewrite lookup_insert in H. injection H as ->. left. apply elem_of_list_here.
      + rewrite lookup_insert_ne in H by done. by right. }
  intros H'. apply H in H' as [H'|H']; [done|]. by rewrite lookup_empty in H'.
Qed.

Lemma fill_terms_some order t i : (t, i) ∈ order → is_Some (fill_terms order !! i).
Proof.
  unfold fill_terms. assert (H : ∀ (m : gmap Z (list Z)), ((t, i) ∈ order ∨ is_Some (m !! i)) →
    is_Some (foldl (λ m kv, <[kv.2:=kv.1]> m) m order !! i)).
  { induction order as [|[u j] order IH]; intros m H; cbn [foldl].
    - destruct H as [H|H]; [by apply elem_of_nil in H|done].
    - apply IH. cbn [fst snd]. destruct (decide (j = i)) as [->|Hj].
      + right. rewrite lookup_insert. eauto.
      + rewrite lookup_insert_ne by done. destruct H as [H|H]; [|by right].
        apply elem_of_cons in H as [[= -> ->]|H]; [done|by left]. }
  intros Hin. apply H. by left.
Qed.

Lemma from_json_ids j order t : get_id (from_json j order) t = json_map j !! t.
Proof. done. Qed.

Lemma map_order_elem m order t i : map_order m order → (t, i) ∈ order ↔ m !! t = Some i.
Proof. intros H. rewrite H. apply elem_of_map_to_list. Qed.

Lemma from_json_string j order i t :
  map_order (json_map j) order → get_string (from_json j order) i = Some t → get_id (from_json j order) t = Some i.
Proof.
  intros Ho H. rewrite from_json_ids. apply (map_order_elem _ order); [done|].
  eapply fill_terms_lookup; [|exact H]. rewrite Ho. apply NoDup_fst_map_to_list.
Qed.

Lemma from_json_string_some j order i t :
  map_order (json_map j) order → get_id (from_json j order) t = Some i → is_Some (get_string (from_json j order) i).
Proof. intros Ho H. eapply fill_terms_some. by apply (map_order_elem (json_map j)). Qed.

Lemma from_json_consistent j order :
  map_order (json_map j) order →
  (∀ t u i, json_map j !! t = Some i → json_map j !! u = Some i → t = u) →
  consistent (from_json j order).
Proof.
  intros Ho Hinj t i. split.
  - intros H. destruct (from_json_string_some j order i t Ho H) as [u Hu].
    pose proof (from_json_string j order i u Ho Hu) as Hu'. rewrite from_json_ids in *.
    by rewrite (Hinj t u i).
  - by apply from_json_string.
Qed.

Lemma json_map_last ms (t : list Z) z : json_map (Some ms) !! t = Some z ↔ ∃ ms1 ms2, ms = ms1 ++ (t, z) :: ms2 ∧ t ∉ ms2.*1.
Proof.
  cbn [json_map]. assert (∀ m : gmap (list Z) Z, foldl (λ m kv, <[kv.1 := kv.2]> m) m ms !! t = Some z ↔
    (∃ ms1 ms2, ms = ms1 ++ (t, z) :: ms2 ∧ t ∉ ms2.*1) ∨ (t ∉ ms.*1 ∧ m !! t = Some z)) as H.
  { induction ms as [|[k y] ms IH]; intros m; cbn [foldl].
    - split; [intros H; right; split; [apply not_elem_of_nil|done]|]. intros [(ms1 & ms2 & E & _)|[_ H]]; [by destruct ms1|done].
    - rewrite IH. cbn [fst snd]. rewrite (fmap_cons fst). cbn [fst]. split.
      + intros [(ms1 & ms2 & -> & Hn)|[Hn H]].
        * left. by exists ((k, y) :: ms1), ms2.
        * destruct (decide (k = t)) as [->|Hk].
          -- rewrite lookup_insert in H. injection H as ->. left. by exists [], ms.
          -- rewrite lookup_insert_ne in H by done. right. split; [|done]. intros [Heq|Hin]%elem_of_cons; [by apply Hk|by apply Hn].
      + intros [(ms1 & ms2 & E & Hn)|[Hn H]].
        * destruct ms1 as [|p ms1]; cbn [app] in E.
          -- injection E as -> -> ->. right. split; [done|]. by rewrite lookup_insert.
          -- injection E as _ ->. left. by exists ms1, ms2.
        * apply not_elem_of_cons in Hn as [Hk Hn]. right. split; [done|]. by rewrite lookup_insert_ne by done. }
  rewrite H, lookup_empty. naive_solver.
Qed.

Lemma json_map_member j t z : json_map j !! t = Some z ↔ last_member j t z.
Proof.
  unfold last_member. destruct j as [ms|].
  - rewrite json_map_last. split; intros (ms1 & ms2 & H1 & H2); exists ms1, ms2; (split; [congruence|done]).
  - cbn [json_map]. rewrite lookup_empty. split; [done|]. by intros (ms1 & ms2 & ? & _).
Qed.
Lemma visits_order j order : visits j order ↔ map_order (json_map j) order.
Proof.
  unfold visits, map_order. setoid_rewrite <- json_map_member. split.
  - intros [Hn H]. apply NoDup_Permutation; [done|apply NoDup_map_to_list|]. intros [t i]. by rewrite H, elem_of_map_to_list.
  - intros H. split; [rewrite H; apply NoDup_map_to_list|]. intros t i. by rewrite H, elem_of_map_to_list.
Qed.

(** ** Lines *)
Lemma drop_cr_cases l :
  (∃ l', l = l' ++ [13] ∧ drop_cr l = l') ∨ (last l ≠ Some 13 ∧ drop_cr l = l).
Proof.
  unfold drop_cr. destruct (rev l) as [|b r] eqn:E.
  - right. apply (f_equal (@rev Z)) in E. rewrite rev_involutive in E. subst. done.
  - apply (f_equal (@rev Z)) in E. rewrite rev_involutive in E. cbn in E. subst l. destruct (b =? 13) eqn:Eb.
    + left. exists (rev r). apply Z.eqb_eq in Eb. by subst.
    + right. rewrite last_snoc. split; [|done]. intros [= ->]. lia.
Qed.

(** The lines without regard to their length. *)
Fixpoint all_lines_from (cur : list Z) (s : list Z) : list (list Z) :=
  match s with
  | [] => match cur with [] => [] | _ => [drop_cr (rev cur)] end
  | b :: s' => if b =? 10 then drop_cr (rev cur) :: all_lines_from [] s'
               else all_lines_from (b :: cur) s'
  end.
Definition all_lines (s : list Z) : list (list Z) := all_lines_from [] s.

Lemma all_lines_from_lf cur l rest :
  10 ∉ l → all_lines_from cur (l ++ 10 :: rest) = drop_cr (rev cur ++ l) :: all_lines_from [] rest.
Proof.
  revert cur. induction l as [|b l IH]; intros cur Hl; cbn [app all_lines_from].
  - cbn. by rewrite app_nil_r.
  - apply not_elem_of_cons in Hl as [Hb Hl]. replace (b =? 10) with false by lia. rewrite (IH _ Hl).
    cbn [rev]. by rewrite <- app_assoc.
Qed.

Lemma all_lines_from_last cur l :
  10 ∉ l → all_lines_from cur l = match rev cur ++ l with [] => [] | x => [drop_cr x] end.
Proof.
  revert cur. induction l as [|b l IH]; intros cur Hl; cbn [all_lines_from].
  - rewrite app_nil_r. destruct cur as [|b cur]; [done|]. destruct (rev (b :: cur)) eqn:E; [|done].
    apply (f_equal (@rev Z)) in E. by rewrite rev_involutive in E.
  - apply not_elem_of_cons in Hl as [Hb Hl]. replace (b =? 10) with false by lia. rewrite (IH _ Hl).
    cbn [rev]. by rewrite <- app_assoc.
Qed.

Lemma drop_cr_id l : last l ≠ Some 13 → drop_cr l = l.
Proof. intros H. destruct (drop_cr_cases l) as [(l' & -> & _)|[_ ?]]; [|done]. by rewrite last_snoc in H. Qed.
Lemma drop_cr_cr l : drop_cr (l ++ [13]) = l.
Proof. unfold drop_cr. rewrite rev_app_distr. cbn. apply rev_involutive. Qed.

Lemma all_lines_of f ls : file_lines f ls → all_lines f = ls.
Proof.
  intros H. unfold all_lines. induction H as [|l rest ls Hl Hc H IH|l rest ls Hl H IH|l Hne Hl Hc|l Hl].
  - done.
  - rewrite all_lines_from_lf by done. cbn [rev app]. by rewrite drop_cr_id, IH.
  - change (l ++ 13 :: 10 :: rest) with (l ++ [13] ++ 10 :: rest). rewrite app_assoc, all_lines_from_lf.
    + cbn [rev app]. by rewrite drop_cr_cr, IH.
    + rewrite elem_of_app, elem_of_list_singleton. intros [?|?]; [done|lia].
  - rewrite all_lines_from_last by done. cbn [rev app]. destruct l as [|b l]; [done|]. by rewrite drop_cr_id.
  - rewrite all_lines_from_last by (rewrite elem_of_app, elem_of_list_singleton; intros [?|?]; [done|lia]).
    cbn [rev app]. destruct (l ++ [13]) as [|b l'] eqn:E; [by destruct l|]. rewrite <- E. by rewrite drop_cr_cr.
Qed.

Lemma lines_exist_aux n f : (length f <= n)%nat → ∃ ls, file_lines f ls.
Proof.
  revert f. induction n as [|n IH]; intros f Hn.
  { destruct f; [|cbn in Hn; lia]. exists []. constructor. }
  destruct (decide (10 ∈ f)) as [Hin|Hin].
  - apply elem_of_list_split_l in Hin as (l & rest & -> & Hl). rewrite app_length in Hn. cbn in Hn.
    destruct (IH rest) as (ls & H); [lia|].
    destruct (drop_cr_cases l) as [(l' & -> & _)|[Hc _]].
    + exists (l' :: ls). rewrite <- app_assoc. cbn. apply fl_crlf; [|done]. intros ?. apply Hl, elem_of_app. by left.
    + exists (l :: ls). by apply fl_lf.
  - destruct f as [|b f]; [exists []; constructor|].
    destruct (drop_cr_cases (b :: f)) as [(l' & E & _)|[Hc _]].
    + rewrite E in *. exists [l']. apply fl_last_cr. intros ?. apply Hin, elem_of_app. by left.
    + exists [b :: f]. by apply fl_last.
Qed.

Lemma lines_exist f : file_lines f (all_lines f).
Proof. destruct (lines_exist_aux (length f) f ltac:(lia)) as (ls & H). by rewrite (all_lines_of _ _ H). Qed.

Lemma short_lines_lf x y : zlen x < 65536 → short_lines y → short_lines (x ++ 10 :: y).
Proof.
  intros Hx Hy a l b E Hl. destruct (app_eq_inv x (10 :: y) a (l ++ b) E) as [(k & Ex & E')|(k & Ex & E')].
  - pose proof (zlen_nonneg a). pose proof (f_equal zlen Ex) as Hz. rewrite zlen_app in Hz.
    destruct (app_eq_inv l b k (10 :: y) E') as [(m & -> & E'')|(m & -> & _)].
    + destruct m as [|c m]; [rewrite app_nil_r; lia|]. injection E'' as <- _. exfalso. apply Hl, elem_of_app. right. by left.
    + rewrite zlen_app in Hz. pose proof (zlen_nonneg m). lia.
  - destruct k as [|c k].
    + destruct l as [|c l]; [rewrite zlen_nil; lia|]. injection E' as <- _. exfalso. apply Hl. by left.
    + injection E' as <- E'. by apply (Hy k l b).
Qed.

Lemma scan_lines_from_spec s cur n :
  n = zlen cur → n < 65536 → 10 ∉ cur →
  match scan_lines_from cur n s with
  | (ls, false) => short_lines (rev cur ++ s) ∧ ls = all_lines_from cur s
  | (ls, true) => ∃ a l b, rev cur ++ s = a ++ l ++ b ∧ (a = [] ∨ last a = Some 10) ∧ short_lines a ∧ ls = all_lines a
                           ∧ 10 ∉ l ∧ zlen l = 65536
  end.
Proof.
  revert cur n. induction s as [|c s IH]; intros cur n -> Hlt Hcur; cbn [scan_lines_from all_lines_from].
  - split; [|done]. rewrite app_nil_r. intros a l b E _. apply (f_equal zlen) in E. rewrite !zlen_app in E.
    unfold zlen at 1 in E. rewrite rev_length in E. fold (zlen cur) in E. pose proof (zlen_nonneg a). pose proof (zlen_nonneg b). lia.
  - assert (Hrev : zlen (rev cur) = zlen cur) by (unfold zlen; by rewrite rev_length).
    assert (Hrev' : 10 ∉ rev cur) by (rewrite elem_of_list_In, <- in_rev, <- elem_of_list_In; done).
    destruct (c =? 10) eqn:Ec.
    + apply Z.eqb_eq in Ec as ->. specialize (IH [] 0 eq_refl ltac:(lia) ltac:(apply not_elem_of_nil)).
      destruct (scan_lines_from [] 0 s) as [ls [|]].
      * destruct IH as (a & l & b & E & Ha & Hs & -> & Hl & Hz). cbn [rev app] in E. exists (rev cur ++ 10 :: a), l, b.
        split; [rewrite <- app_assoc; cbn [app]; by rewrite E|]. split; [right|].
        { destruct Ha as [->|Ha]; [apply last_snoc|]. destruct a as [|x a]; [done|]. rewrite last_app. cbn [last]. cbn [last] in Ha. by rewrite Ha. }
        split; [apply short_lines_lf; [lia|done]|]. split; [|done]. unfold all_lines. rewrite all_lines_from_lf by done. done.
      * destruct IH as (Hs & ->). split; [apply short_lines_lf; [lia|done]|done].
    + destruct (zlen cur + 1 =? max_token_size) eqn:En.
      * unfold max_token_size in En. exists [], (rev cur ++ [c]), s. split; [by rewrite <- app_assoc|]. split; [by left|].
        split; [intros a l b E _; symmetry in E; apply app_nil in E as [_ E]; apply app_nil in E as [-> _]; done|]. split; [done|]. split.
        { rewrite elem_of_app, elem_of_list_singleton. intros [?|?]; [done|lia]. }
        rewrite zlen_app, zlen_cons, zlen_nil. lia.
      * unfold max_token_size in En. specialize (IH (c :: cur) (zlen cur + 1)). rewrite zlen_cons in IH. specialize (IH ltac:(lia) ltac:(lia)).
        cbn [rev] in IH. rewrite <- app_assoc in IH. apply IH. rewrite elem_of_cons. intros [?|?]; [lia|done].
Qed.

Lemma scan_lines_cases f :
  (scan_lines f = (all_lines f, false) ∧ short_lines f) ∨ (∃ ls, scan_lines f = (ls, true) ∧ long_line_after f ls).
Proof.
  pose proof (scan_lines_from_spec f [] 0 eq_refl ltac:(lia) ltac:(apply not_elem_of_nil)) as H. unfold scan_lines.
  destruct (scan_lines_from [] 0 f) as [ls [|]]; [right|left].
  - destruct H as (a & l & b & E & Ha & Hs & -> & Hl & Hz). exists (all_lines a). split; [done|]. exists a, l, b. pose proof (lines_exist a). done.
  - destruct H as (Hs & ->). done.
Qed.

Lemma long_not_short f ls : long_line_after f ls → ¬ short_lines f.
Proof. intros (a & l & b & -> & _ & _ & _ & Hl & Hz) H. specialize (H a l b eq_refl Hl). lia. Qed.

(** ** Splitting a line *)
Lemma split_spaces_from_spec cur s :
  32 ∉ cur →
  (32 ∉ s → split_spaces_from cur s = [rev cur ++ s])
  ∧ ∀ a b, s = a ++ 32 :: b → 32 ∉ a → split_spaces_from cur s = (rev cur ++ a) :: split_spaces_from [] b.
Proof.
  revert cur. induction s as [|x s IH]; intros cur Hcur; split.
  - intros _. cbn. by rewrite app_nil_r.
  - by intros [|].
  - intros Hs. apply not_elem_of_cons in Hs as [Hx Hs]. cbn. replace (x =? 32) with false by lia.
    destruct (IH (x :: cur)) as [H _]; [by apply not_elem_of_cons|]. rewrite (H Hs). cbn. by rewrite <- app_assoc.
  - intros a b Hab Ha. destruct a as [|y a]; cbn in Hab; injection Hab as -> ->.
    + cbn. by rewrite app_nil_r.
    + apply not_elem_of_cons in Ha as [Hy Ha]. cbn. replace (y =? 32) with false by lia.
      destruct (IH (y :: cur)) as [_ H]; [by apply not_elem_of_cons|]. rewrite (H a b eq_refl Ha). cbn. by rewrite <- app_assoc.
Qed.

Lemma split_two l t0 t1 : split_spaces l = [t0; t1] ↔ two_terms l t0 t1.
Proof.
  unfold split_spaces, two_terms. assert (Hn : 32 ∉ @nil Z) by apply not_elem_of_nil. split.
  - intros H. destruct (decide (32 ∈ l)) as [Hin|Hin].
    + apply elem_of_list_split_l in Hin as (a & b & -> & Ha).
      destruct (split_spaces_from_spec [] (a ++ 32 :: b) Hn) as [_ Hs]. rewrite (Hs a b eq_refl Ha) in H. cbn in H.
      injection H as -> H. destruct (decide (32 ∈ b)) as [Hb|Hb].
      * apply elem_of_list_split_l in Hb as (c & d & -> & Hc).
        destruct (split_spaces_from_spec [] (c ++ 32 :: d) Hn) as [_ Hs']. rewrite (Hs' c d eq_refl Hc) in H. cbn in H.
        injection H as -> H. exfalso. destruct d as [|x d]; [done|]. cbn in H. destruct (x =? 32); [done|].
        assert (Hne : ∀ cur s, split_spaces_from cur s ≠ []).
        { intros cur s. revert cur. induction s as [|y s IH]; intros cur; cbn; [done|]. destruct (y =? 32); done. }
        by apply Hne in H.
      * destruct (split_spaces_from_spec [] b Hn) as [Hs' _]. rewrite (Hs' Hb) in H. cbn in H. by injection H as ->.
    + destruct (split_spaces_from_spec [] l Hn) as [Hs _]. by rewrite (Hs Hin) in H.
  - intros (-> & H0 & H1). destruct (split_spaces_from_spec [] (t0 ++ 32 :: t1) Hn) as [_ Hs].
    rewrite (Hs t0 t1 eq_refl H0). cbn. destruct (split_spaces_from_spec [] t1 Hn) as [Hs' _]. by rewrite (Hs' H1).
Qed.

Lemma two_terms_inj l a b c d : two_terms l a b → two_terms l c d → a = c ∧ b = d.
Proof. intros H1%split_two H2%split_two. rewrite H1 in H2. by injection H2. Qed.

Lemma comment_spec l : has_prefix l version_prefix = true ↔ comment_line l.
Proof.
  unfold has_prefix. rewrite bool_decide_eq_true. split.
  - intros H. exists (drop (length comment_mark) l). rewrite <- H at 1. by rewrite take_drop.
  - intros [rest ->]. apply take_app.
Qed.

(** One line of the loop. *)
Lemma merges_loop_step v k l ls no rank m :
  (comment_line l ∧ merges_loop v k (l :: ls) no rank m = merges_loop v k ls (no + 1) rank m)
  ∨ (¬ comment_line l ∧
     ((∃ a b c, merge_line v k l (a, b, c)
         ∧ merges_loop v k (l :: ls) no rank m
           = merges_loop v k ls (no + 1) (rank + 1) (<[(a, b) := MergeValue rank c]> m))
      ∨ (∃ e, bad_line v k l no e ∧ merges_loop v k (l :: ls) no rank m = Ret (Err e))
      ∨ (short_line v k l ∧ merges_loop v k (l :: ls) no rank m = Panic))).
Proof.
  destruct (has_prefix l version_prefix) eqn:Hp.
  { left. split; [by apply comment_spec|]. cbn. by rewrite Hp. }
  right. split; [intros H%comment_spec; congruence|]. cbn [merges_loop]. rewrite Hp.
  destruct (split_spaces l) as [|t0 [|t1 [|t2 r]]] eqn:E.
  1, 2, 4: right; left; exists (EMalformedMerges no); (split; [|done]); left; (split; [done|]); intros a b H%split_two; congruence.
  apply split_two in E. destruct (get_id v t0) as [a|] eqn:Ha.
  2:{ right. left. exists (ELeftOOV no). split; [|done]. right. exists t0, t1. auto. }
  destruct (get_id v t1) as [b|] eqn:Hb.
  2:{ right. left. exists (ERightOOV no). split; [|done]. right. exists t0, t1. split; [done|]. right. left. rewrite Ha. auto. }
  destruct (decide (0 <= k <= zlen t1)) as [Hk|Hk].
  2:{ right. right. split; [|by rewrite sub_panic by lia]. exists t0, t1. rewrite Ha, Hb. auto. }
  destruct (sub_total t1 k (zlen t1)) as (tail & Ht); [lia..|]. rewrite Ht. cbn [mbind outcome_bind].
  apply sub_Ret in Ht as (cut & c & Ht & Hc & Hlen).
  assert (c = []) as ->.
  { apply (f_equal zlen) in Ht. rewrite !zlen_app in Ht. destruct c; [done|]. rewrite zlen_cons in Ht. pose proof (zlen_nonneg c). lia. }
  rewrite app_nil_r in Ht. destruct (get_id v (t0 ++ tail)) as [c|] eqn:Hm.
  - left. exists a, b, c. split; [|done]. exists t0, cut, tail. rewrite <- Ht. auto.
  - right. left. exists (EMergedOOV no). split; [|done]. right. exists t0, t1. split; [done|]. right. right.
    rewrite Ha, Hb. split; [done|]. split; [done|]. split; [done|]. exists cut, tail. auto.
Qed.

Lemma last_merge_snoc ms p c q x :
  last_merge (ms ++ [(p, c)]) q x ↔ (if decide (q = p) then x = MergeValue (zlen ms) c else last_merge ms q x).
Proof.
  unfold last_merge. split.
  - intros (H0 & H1 & H2). destruct (decide (q = p)) as [->|Hne].
    + destruct (decide (Z.to_nat (mv_rank x) < length ms)%nat) as [Hlt|Hge].
      * exfalso. apply (H2 (length ms) p c); [done| |done]. apply list_lookup_middle. done.
      * rewrite lookup_app_r in H1 by lia. destruct (Z.to_nat (mv_rank x) - length ms)%nat as [|k] eqn:E; [|done].
        cbn in H1. injection H1 as H1. destruct x as [r i]. cbn in *. subst. f_equal. unfold zlen. lia.
    + assert (Z.to_nat (mv_rank x) < length ms)%nat as Hlt.
      { apply lookup_lt_Some in H1 as Hl. rewrite app_length in Hl. cbn in Hl.
        destruct (decide (Z.to_nat (mv_rank x) = length ms)) as [He|He]; [|lia]. rewrite He in H1.
        rewrite list_lookup_middle in H1 by done. injection H1 as [= -> _]. done. }
      rewrite lookup_app_l in H1 by lia. split; [done|]. split; [done|]. intros j q' c' Hj Hq. apply (H2 j q' c' Hj).
      rewrite lookup_app_l; [done|]. by eapply lookup_lt_Some.
  - destruct (decide (q = p)) as [->|Hne].
    + intros ->. cbn [mv_rank mv_id]. pose proof (zlen_nonneg ms). split; [done|]. unfold zlen. rewrite Nat2Z.id.
      split; [by apply list_lookup_middle|]. intros j q c' Hj Hq. apply lookup_lt_Some in Hq.
      rewrite app_length in Hq. cbn in Hq. lia.
    + intros (H0 & H1 & H2). split; [done|]. pose proof (lookup_lt_Some _ _ _ H1). rewrite lookup_app_l by lia. split; [done|].
      intros j q' c' Hj Hq. destruct (decide (j < length ms)%nat) as [Hlt|Hge].
      * rewrite lookup_app_l in Hq by lia. by eapply H2.
      * rewrite lookup_app_r in Hq by lia. destruct (j - length ms)%nat as [|z]; [|done]. cbn in Hq. by injection Hq as <- _.
Qed.

Lemma merges_loop_ok v k ls no m ms0 res :
  (∀ p x, m !! p = Some x ↔ last_merge ms0 p x) →
  merges_loop v k ls no (zlen ms0) m = Ret (Ok res) →
  ∃ ms, Forall2 (merge_line v k) (merge_lines ls) ms ∧ ∀ p x, res !! p = Some x ↔ last_merge (ms0 ++ ms) p x.
Proof.
  revert no m ms0. induction ls as [|l ls IH]; intros no m ms0 Hm H.
  - cbn in H. injection H as <-. exists []. rewrite app_nil_r. split; [constructor|done].
  - unfold merge_lines in *. rewrite filter_cons.
    destruct (merges_loop_step v k l ls no (zlen ms0) m) as
      [[Hc E]|[Hc [(a & b & c & Hl & E)|[(e & _ & E)|[_ E]]]]]; rewrite E in H; [| |done|done].
    + destruct (IH _ _ _ Hm H) as (ms & H1 & H2). exists ms. rewrite decide_False by naive_solver. done.
    + rewrite decide_True by done.
      assert (Hz : zlen ms0 + 1 = zlen (ms0 ++ [(a, b, c)])) by (rewrite zlen_app, zlen_cons, zlen_nil; lia).
      rewrite Hz in H.
      destruct (IH (no + 1) (<[(a, b) := MergeValue (zlen ms0) c]> m) (ms0 ++ [(a, b, c)])) as (ms & H1 & H2); [|exact H|].
      * unfold merge_map in *. intros p x. rewrite last_merge_snoc. destruct (decide (p = (a, b))) as [->|Hne].
        -- rewrite lookup_insert. split; [by intros [= <-]|by intros ->].
        -- by rewrite lookup_insert_ne.
      * exists ((a, b, c) :: ms). split; [by constructor|]. by rewrite <- app_assoc in H2.
Qed.

Lemma merges_loop_total v k ls no rank m :
  (∃ res, merges_loop v k ls no rank m = Ret (Ok res) ∧ Forall (λ l, comment_line l ∨ ∃ x, merge_line v k l x) ls)
  ∨ (∃ good bad rest e, ls = good ++ bad :: rest ∧ Forall (λ l, comment_line l ∨ ∃ x, merge_line v k l x) good
       ∧ ¬ comment_line bad ∧ bad_line v k bad (no + zlen good) e ∧ merges_loop v k ls no rank m = Ret (Err e))
  ∨ (∃ good bad rest, ls = good ++ bad :: rest ∧ Forall (λ l, comment_line l ∨ ∃ x, merge_line v k l x) good
       ∧ ¬ comment_line bad ∧ short_line v k bad ∧ merges_loop v k ls no rank m = Panic).
Proof.
  revert no rank m. induction ls as [|l ls IH]; intros no rank m.
  { left. exists m. split; [done|constructor]. }
  assert (Hstep : ∀ rank' m', (comment_line l ∨ ∃ x, merge_line v k l x) →
    merges_loop v k (l :: ls) no rank m = merges_loop v k ls (no + 1) rank' m' →
    (∃ res, merges_loop v k (l :: ls) no rank m = Ret (Ok res) ∧ Forall (λ l, comment_line l ∨ ∃ x, merge_line v k l x) (l :: ls))
    ∨ (∃ good bad rest e, l :: ls = good ++ bad :: rest ∧ Forall (λ l, comment_line l ∨ ∃ x, merge_line v k l x) good
         ∧ ¬ comment_line bad ∧ bad_line v k bad (no + zlen good) e ∧ merges_loop v k (l :: ls) no rank m = Ret (Err e))
    ∨ (∃ good bad rest, l :: ls = good ++ bad :: rest ∧ Forall (λ l, comment_line l ∨ ∃ x, merge_line v k l x) good
         ∧ ¬ comment_line bad ∧ short_line v k bad ∧ merges_loop v k (l :: ls) no rank m = Panic)).
  { intros rank' m' Hl ->. destruct (IH (no + 1) rank' m') as [(res & H1 & H2)|[(good & bad & rest & e & -> & H1 & H2 & H3 & H4)|(good & bad & rest & -> & H1 & H2 & H3 & H4)]].
    - left. exists res. split; [done|]. by constructor.
    - right. left. exists (l :: good), bad, rest, e. split; [done|]. split; [by constructor|]. split; [done|]. split; [|done].
      rewrite zlen_cons. by replace (no + (1 + zlen good)) with (no + 1 + zlen good) by lia.
    - right. right. exists (l :: good), bad, rest. split; [done|]. split; [by constructor|]. done. }
  destruct (merges_loop_step v k l ls no rank m) as [[Hc E]|[Hc [(a & b & c & Hl & E)|[(e & He & E)|[Hs E]]]]].
  - eapply Hstep; [by left|exact E].
  - eapply Hstep; [right; eauto|exact E].
  - right. left. exists [], l, ls, e. rewrite zlen_nil, Z.add_0_r. split; [done|]. split; [constructor|]. done.
  - right. right. exists [], l, ls. split; [done|]. split; [constructor|]. done.
Qed.

Lemma scan_lines_long l rest cur n : 10 ∉ l → l ≠ [] → n + zlen l = 65536 → scan_lines_from cur n (l ++ rest) = ([], true).
Proof.
  revert cur n. induction l as [|c l IH]; intros cur n Hl Hne Hn; [done|]. rewrite zlen_cons in Hn. cbn [app scan_lines_from].
  apply not_elem_of_cons in Hl as [Hc Hl]. destruct (Z.eqb_spec c 10) as [->|_]; [done|]. unfold max_token_size.
  destruct (Z.eqb_spec (n + 1) 65536) as [_|He]; [done|]. apply IH; [done| |lia]. intros ->. rewrite zlen_nil in Hn. lia.
Qed.
Lemma scan_lines_not_long l cur n : 10 ∉ l → n + zlen l < 65536 → rev cur ++ l ≠ [] → scan_lines_from cur n l = ([drop_cr (rev cur ++ l)], false).
Proof.
  revert cur n. induction l as [|c l IH]; intros cur n Hl Hn Hne.
  - rewrite app_nil_r in *. cbn [scan_lines_from]. by destruct cur.
  - rewrite zlen_cons in Hn. pose proof (zlen_nonneg l). cbn [scan_lines_from]. apply not_elem_of_cons in Hl as [Hc Hl].
    destruct (Z.eqb_spec c 10) as [->|_]; [done|]. unfold max_token_size. destruct (Z.eqb_spec (n + 1) 65536) as [?|_]; [lia|].
    replace (rev cur ++ c :: l) with (rev (c :: cur) ++ l) by (cbn; by rewrite <- app_assoc). apply IH; [done|lia|]. cbn. by destruct (rev cur).
Qed.

Lemma from_file_ok file v k m :
  merge_map_from_file file v k = Ret (Ok m) → short_lines file ∧ merges_loop v k (all_lines file) 1 0 ∅ = Ret (Ok m).
Proof.
  unfold merge_map_from_file. destruct (scan_lines_cases file) as [[E Hs]|(ls & E & Hl)]; rewrite E.
  - intros H. apply bind_Ret in H as ([m'|e] & H & E'); [|done]. injection E' as ->. done.
  - intros H. apply bind_Ret in H as ([m'|e] & H & E'); done.
Qed.
