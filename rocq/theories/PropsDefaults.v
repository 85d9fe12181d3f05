(** Property theorems C84 and C85: the metaspace pre-tokenizer against its documentation; models that know nothing. *)
From Coq Require Import ZifyBool QArith String.
From Verif Require Import GoBase Utf8Facts SliceFacts Strutils SplitPattern NormString PreTokString PreTokenizers Vocab MergeMap Bpe WordPiece Defaults Lit
  SpecText SpecBpe SpecWordPiece SpecPretok SpecDocs WordPieceFacts DefaultFacts PropsPretok PropsBpe.
Import GoBase.
#[local] Open Scope Z_scope.

(** * C84 *)
(** The pieces spell the documented text exactly if all white space is U+0020 (or the meta character itself) and, with the
    prefix, the first character is white space exactly if it is the meta character. *)
Theorem C84_documented_iff :
  ∀ rs c (prefix : bool), scalars rs → scalar c = true →
  (∃ p ts, metaspace c prefix (pts_from_string (encode rs)) = Ret (p, None)
    ∧ map bs_string (original_byte_splits p) = map encode ts ∧ concat ts = documented_metaspace c prefix rs)
  ↔ Forall (λ x, white_space x = true → x = 32 ∨ x = c) rs
    ∧ (prefix = true → match rs with x :: _ => x = c ↔ white_space x = true | [] => True end).
Proof.
  intros rs c prefix Hs Hc. destruct (C56_texts rs c prefix Hs Hc) as (ts0 & p0 & E0 & Em & Ec & _).
  assert (Hmap : ∀ f g : Z → Z, map f rs = map g rs ↔ Forall (λ x, f x = g x) rs).
  { clear. intros f g. induction rs as [|x rs IH]; cbn; [done|]. rewrite Forall_cons. split; [intros [= ? ?]; tauto|intros [-> ?]; f_equal; tauto]. }
  assert (Hlen : ∀ (x : Z) (f g : Z → Z), map f rs = x :: map g rs → False).
  { clear. intros x f g E. apply (f_equal length) in E. cbn in E. rewrite !map_length in E. lia. }
  assert (Hws : ∀ x, (if x =? 32 then c else x) = (if white_space x then c else x) ↔ (white_space x = true → x = 32 ∨ x = c)).
  { clear. intros x. destruct (Z.eqb_spec x 32) as [->|Hx]; [split; [by left|done]|]. destruct (white_space x) eqn:E.
    - split; [by right|]. intros H. by destruct H.
    - done. }
  assert (Heq : concat ts0 = documented_metaspace c prefix rs ↔
    Forall (λ x, white_space x = true → x = 32 ∨ x = c) rs ∧ (prefix = true → match rs with x :: _ => x = c ↔ white_space x = true | [] => True end)).
  { rewrite Ec. unfold documented_metaspace. destruct rs as [|x rs]; [split; [by split|done]|].
    assert (Hall : map (λ x, if x =? 32 then c else x) (x :: rs) = map (λ x, if white_space x then c else x) (x :: rs)
                   ↔ Forall (λ x, white_space x = true → x = 32 ∨ x = c) (x :: rs)).
    { rewrite (Hmap _ _). split; intros H; (eapply Forall_impl; [exact H|]); intros y; cbn beta; apply Hws. }
    destruct prefix; cbn [andb].
    - destruct (Z.eqb_spec x c) as [Hx|Hx], (white_space x) eqn:Ew; cbn [negb].
      + rewrite Hall. split; [intros H; split; [done|]; done|]. by intros [H _].
      + split.
        * intros E. destruct (Hlen (if white_space 32 then c else 32) (λ x, if x =? 32 then c else x) (λ x, if white_space x then c else x)). exact E.
        * intros [_ H]. specialize (H eq_refl). by apply H in Hx.
      + split.
        * intros E. destruct (Hlen (if c =? 32 then c else c) (λ x, if white_space x then c else x) (λ x, if x =? 32 then c else x)). exact (eq_sym E).
        * intros [_ H]. specialize (H eq_refl). by destruct Hx; apply H.
      + assert (Eh : (if c =? 32 then c else c) = c) by by destruct (c =? 32). cbn [map]. rewrite Eh. change (if white_space 32 then c else 32) with c. split.
        * intros [= E2 E3]. split; [|done]. apply Hall. cbn [map]. by f_equal.
        * intros [H _]. apply Hall in H. cbn [map] in H. by rewrite H.
    - rewrite Hall. split; [by split|by intros [? _]]. }
  split.
  - intros (p & ts & E & Et & Ets). rewrite E in E0. injection E0 as <-. apply Heq. rewrite <- Ets. rewrite Et in Em.
    assert (Hcat : ∀ l, encode (concat l) = concat (map encode l)). { clear. induction l as [|t l IH]; [done|]. cbn. by rewrite encode_app, IH. }
    assert (Hsc : scalar 32 = true) by done.
    apply encode_inj_scalars; [| |by rewrite !Hcat, Em].
    + rewrite Ec. unfold scalars. apply Forall_map. assert (Forall (λ x, scalar x = true) (match rs with x :: _ => if prefix && negb (x =? c) then c :: rs else rs | [] => [] end)) as H.
      { destruct rs as [|x rs]; [done|]. destruct (prefix && negb (x =? c)); [by constructor|done]. }
      eapply Forall_impl; [exact H|]. cbn. intros x Hx. by destruct (x =? 32).
    + rewrite Ets. unfold scalars, documented_metaspace. apply Forall_map. assert (Forall (λ x, scalar x = true) (match rs with x :: _ => if prefix && negb (white_space x) then 32 :: rs else rs | [] => [] end)) as H.
      { destruct rs as [|x rs]; [done|]. destruct (prefix && negb (white_space x)); [by constructor|done]. }
      eapply Forall_impl; [exact H|]. cbn. intros x Hx. by destruct (white_space x).
  - intros H. exists p0, ts0. split_and!; [done|done|by apply Heq].
Qed.
Print Assumptions C84_documented_iff.

(** " a" with the default pre-tokenizer becomes "▁▁a" instead of "▁a"; a tab stays. *)
Theorem C84_documented_refuted :
  ¬ ∀ rs, scalars rs → ∃ p ts, metaspace_default (pts_from_string (encode rs)) = Ret (p, None)
    ∧ map bs_string (original_byte_splits p) = map encode ts ∧ concat ts = documented_metaspace 0x2581 true rs.
Proof.
  intros H. assert (scalars [32; 97]) as Hs by by repeat constructor. specialize (H _ Hs). apply (C84_documented_iff [32; 97] 0x2581 true Hs) in H as [_ H]; [|done].
  specialize (H eq_refl). assert (32 = 0x2581) by by apply H. lia.
Qed.
Print Assumptions C84_documented_refuted.
Example C84_example :
  let run rs := x ← metaspace_default (pts_from_string (encode rs)); Ret (map bs_string (original_byte_splits x.1)) in
  run [32; 97] = Ret [encode [0x2581]; encode [0x2581; 97]] ∧ documented_metaspace 0x2581 true [32; 97] = [0x2581; 97]
  ∧ run [97; 9; 98] = Ret [encode [0x2581; 97; 9; 98]] ∧ documented_metaspace 0x2581 true [97; 9; 98] = [0x2581; 97; 0x2581; 98]
  ∧ run [97; 32; 98] = Ret [encode [0x2581; 97]; encode [0x2581; 98]] ∧ documented_metaspace 0x2581 true [97; 32; 98] = [0x2581; 97; 0x2581; 98].
Proof. vm_compute. auto 10. Qed.

(** * C85 *)
(** BPE returns no token and no error for a text that is not empty exactly if there is no unknown token and no character of
    the text is known. *)
Theorem C85_bpe_iff :
  ∀ m s draws, bpe_tokenize m s draws = Some (Ret (Ok [])) ↔ s = [] ∨ (b_unk m = [] ∧ Forall (λ c, c.1 = None) (char_classes m (runes s))).
Proof. exact bpe_nothing_iff. Qed.
Print Assumptions C85_bpe_iff.

(** So an unconfigured model loses every text without notice. *)
Theorem C85_bpe_default : ∀ s draws, bpe_tokenize bpe_default s draws = Some (Ret (Ok [])).
Proof.
  intros s draws. apply bpe_nothing_iff. right. split; [done|]. unfold char_classes. generalize (char_terms (b_prefix bpe_default) (b_suffix bpe_default) (runes s)).
  induction (runes s) as [|r rs IH]; intros [|t l]; cbn; constructor; [|apply IH]. done.
Qed.
Print Assumptions C85_bpe_default.
Theorem C85_bpe_refuted : ¬ ∀ m s draws, s ≠ [] → bpe_tokenize m s draws ≠ Some (Ret (Ok [])).
Proof. intros H. by apply (H bpe_default [97] (λ _, 0%Q)), C85_bpe_default. Qed.
Print Assumptions C85_bpe_refuted.

(** WordPiece does so for no text but the empty one; an unconfigured model reports every other text. *)
Theorem C85_wordpiece :
  ∀ m s, Forall (λ c, 0 <= c <= 255) s → wp_tokenize m s = Some (Ret (Ok [])) ↔ s = [] ∧ 0 <= w_max m.
Proof. exact wordpiece_nothing_iff. Qed.
Print Assumptions C85_wordpiece.
Theorem C85_wordpiece_default :
  ∀ s, Forall (λ c, 0 <= c <= 255) s → s ≠ [] → wp_tokenize wp_default s = Some (Ret (Err EUnknownTokenOutOfVocabulary)).
Proof.
  intros s Hb Hs. destruct (wp_tokenize_spec wp_default s Hb) as [(l & _ & _ & Hl)|(_ & ->)]; [|done].
  inversion Hl as [E|o e x i ts _ _ _ Hi]; [|done]. destruct s; [done|]. rewrite zlen_cons in E. pose proof (zlen_nonneg s). lia.
Qed.
Print Assumptions C85_wordpiece_default.
(** "aé" for the default models, for a model that knows b only, and for one that knows a. *)
Example C85_example :
  bpe_tokenize bpe_default (encode [97; 0xE9]) (λ _, 0%Q) = Some (Ret (Ok []))
  ∧ bpe_tokenize (bpe_new (ex_vocab [[98]]) ∅ 100 0 [] [] [] true) (encode [97; 0xE9]) (λ _, 0%Q) = Some (Ret (Ok []))
  ∧ bpe_tokenize (bpe_new (ex_vocab [[97]]) ∅ 100 0 [] [] [] true) (encode [97; 0xE9]) (λ _, 0%Q) = Some (Ret (Ok [Token 0 [97] (Offsets 0 1)]))
  ∧ wp_tokenize wp_default (encode [97; 0xE9]) = Some (Ret (Err EUnknownTokenOutOfVocabulary))
  ∧ wp_tokenize (wp_new (ex_vocab [[63]]) [63] [] (-1)) [] = Some (Ret (Ok [Token 0 [63] (Offsets 0 0)])).
Proof. vm_compute. auto 10. Qed.
(** The arguments of the constructors go where they belong: prefix, suffix and dropout of BPE, the prefix space of the byte
    level. The cache has one answer for each key, namely none. *)
Example C85_example_arguments :
  let m := bpe_new (ex_vocab [[60; 97]; [98; 62]; [63]]) ∅ 100 0 [63] [60] [62] true in
  bpe_tokenize m [97; 98] (λ _, 0%Q) = Some (Ret (Ok [Token 0 [60; 97] (Offsets 0 1); Token 1 [98; 62] (Offsets 1 2)]))
  ∧ bpe_tokenize m [98; 97; 97; 98] (λ _, 0%Q) = Some (Ret (Ok [Token 2 [63] (Offsets 0 3); Token 1 [98; 62] (Offsets 3 4)]))
  ∧ (let texts prefixSpace trim := x ← byte_level_new (λ s, ([(0, s)], None)) prefixSpace trim (pts_from_string [97]); Ret (map bs_string (original_byte_splits x.1)) in
     texts true false = Ret [encode [0x120; 97]] ∧ texts false true = Ret [[97]])
  ∧ (let ids dropout := match bpe_tokenize (bpe_new (ex_vocab [[97]; [98]; [97; 98]]) {[ (0, 1) := MergeValue 0 2 ]} 100 dropout [] [] [] true) [97; 98] (λ _, 0%Q) with
                        | Some (Ret (Ok l)) => map t_id l | _ => [] end in ids 0%Q = [2] ∧ ids 1%Q = [0; 1])
  ∧ cache_get_values default_cache [[97]; [98]] = [None; None].
Proof. vm_compute. auto 10. Qed.
(** What the default WordPiece model would do if it knew a, ##b and [UNK]: "##" continues a word, and words have up to a
    hundred characters. *)
Example C85_example_default :
  let m := wp_new (ex_vocab [[97]; [35; 35; 98]; bytes_of "[UNK]"]) (w_unk wp_default) (w_prefix wp_default) (w_max wp_default) in
  let n x := match wp_tokenize m x with Some (Ret (Ok l)) => map (λ t, (t_id t, o_end (t_offsets t))) l | _ => [] end in
  n [97; 98] = [(0, 1); (1, 2)] ∧ n [98] = [(2, 1)]
  ∧ length (n (97 :: replicate 99 98)) = 100%nat ∧ n (97 :: replicate 100 98) = [(2, 101)].
Proof. vm_compute. auto 10. Qed.
