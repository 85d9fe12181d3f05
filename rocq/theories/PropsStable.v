(** Property theorems C69 and C70: tokenizing a part of the text that consists of whole tokens. *)
From Coq Require Import ZifyBool QArith String.
From stdpp Require Import relations.
From Verif Require Import GoBase Utf8Facts Strutils Vocab MergeMap Heap Bpe WordPiece SpecText SpecVocab SpecBpe SpecWordPiece VocabFacts
  HeapFacts BpeWord BpeLoop BpeFacts BpeTok WordPieceFacts StableFacts PropsWordPiece PropsBpe Lit.
Import GoBase.
#[local] Open Scope Z_scope.

(** * C69 *)
(** Any run of consecutive tokens is the answer for its own text. *)
Theorem C69_bpe_parts :
  ∀ m file s draws draws' t1 t2 t3,
  consistent (b_vocab m) → merge_map_from_file file (b_vocab m) 0 = Ret (Ok (b_merges m)) →
  b_prefix m = [] → b_suffix m = [] → (b_dropout m <= 0)%Q → (b_unk m ≠ [] → is_Some (get_id (b_vocab m) (b_unk m))) →
  valid_utf8 s = true → Forall (λ r, is_Some (get_id (b_vocab m) (encode_rune r))) (runes s) →
  bpe_tokenize m s draws = Some (Ret (Ok (t1 ++ t2 ++ t3))) →
  bpe_tokenize m (concat (map t_value t2)) draws' = Some (Ret (Ok (map (move_tok (- zlen (concat (map t_value t1)))) t2))).
Proof.
  intros m file s draws draws' t1 t2 t3 Hc Hf Hpre Hsuf Hd Hu Hv Hk H.
  destruct (decide (s = [])) as [->|Hs].
  { cbn in H. injection H as E. symmetry in E. apply app_nil in E as [-> E]. apply app_nil in E as [-> ->]. done. }
  destruct (C34_tokenize m file s draws Hc Hf Hd Hs Hu) as (ss & ts & res & G & Hst & Hsat & E & A).
  rewrite H in E. injection E as <-. cbn in A.
  apply toks_of_app in A as (x & yz & -> & A1 & A). apply toks_of_app in A as (y & z & -> & A2 & A3).
  destruct (bpe_steps_mid _ _ _ _ _ Hst) as (x' & y' & z' & -> & Hbx & Hby & Hy).
  apply group_known in G; [|done..].
  apply Forall2_app_inv_r in G as (ra & rbc & Ga & G & Ers). apply Forall2_app_inv_r in G as (rb & rc & Gb & Gc & ->).
  rewrite Ers in Hk. apply Forall_app in Hk as [Hka Hk]. apply Forall_app in Hk as [Hkb _].
  assert (Hscal : scalars rb). { pose proof (runes_scalars s) as Hr. rewrite Ers in Hr. apply Forall_app in Hr as [_ Hr]. by apply Forall_app in Hr as [? _]. }
  assert (Hsp : spells (b_vocab m) y' (map encode_rune rb)).
  { clear -Gb. unfold spells. induction Gb as [|r s rs ss [H1 H2] _ IH]; constructor; [done|exact IH]. }
  destruct (spells_steps _ _ _ _ _ Hc (loaded_concat _ _ _ Hf) (rtc_bpe_merge _ _ _ Hy) Hsp) as (txt & Etxt & Hsp').
  rewrite (spells_values _ _ _ _ _ Hc Hsp' A2), Etxt.
  assert (concat (map encode_rune rb) = encode rb) as -> by (unfold encode; by rewrite flat_map_concat_map).
  assert (Hoff : zlen (concat (map t_value t1)) = sym_bytes x).
  { (* the same for the tokens before *)
    change (x ++ y ++ z) with ([] ++ x ++ (y ++ z)) in Hst. destruct (bpe_steps_mid _ _ _ _ _ Hst) as (x0 & x2 & z2 & E2 & Hb0 & Hb2 & Hx).
    assert (Hspx : spells (b_vocab m) (x' ++ y' ++ z') (map encode_rune (runes s))).
    { rewrite Ers. clear -Ga Gb Gc. assert (G : Forall2 (λ r s, get_id (b_vocab m) (encode_rune r) = Some s.1 ∧ s.2 = rune_len r) (ra ++ rb ++ rc) (x' ++ y' ++ z')).
      { apply Forall2_app; [done|]. by apply Forall2_app. }
      unfold spells. induction G as [|r s rs ss [H1 H2] _ IH]; constructor; [done|exact IH]. }
    destruct (spells_steps _ _ _ _ _ Hc (loaded_concat _ _ _ Hf) (rtc_bpe_merge _ _ _ Hst) Hspx) as (txt' & _ & Hall).
    apply Forall2_app_inv_l in Hall as (e0 & txt'' & He0 & Hall & ->). apply Forall2_app_inv_l in Hall as (tx & txr & Htx & _ & ->).
    rewrite (spells_values _ _ _ _ _ Hc Htx A1). clear -Htx. unfold sym_bytes. induction Htx as [|[i n] t ss tx [_ Hn] _ IH]; [done|].
    cbn in *. rewrite zlen_app, IH. lia. }
  rewrite Hoff. rewrite Z.add_0_l in A2. apply (toks_of_move _ _ (- sym_bytes x)) in A2. rewrite Z.add_opp_diag_r in A2.
  destruct (decide (rb = [])) as [->|Hrb].
  { inversion Gb. subst y'. assert (y = []) as ->. { inversion Hy as [|? u ? Hu' _]; [done|]. inversion Hu' as [l ? ? ? ? ? ? ? ? E]. by destruct l. }
    inversion A2 as [? E|]. done. }
  destruct (C34_tokenize m file (encode rb) draws' Hc Hf Hd) as (ss2 & ts2 & res2 & G2 & Hst2 & Hsat2 & E2 & A').
  { intros E. apply (f_equal zlen) in E. destruct rb as [|r rb]; [done|]. rewrite zlen_encode_cons in E. pose proof (rune_len_bounds r).
    pose proof (zlen_nonneg (encode rb)). rewrite zlen_nil in E. lia. }
  { done. }
  rewrite runes_encode_scalars in G2 by done.
  assert (ss2 = y') as ->. { eapply group_unique; [exact G2|]. by apply group_known. }
  assert (ts2 = y) as ->. { eapply bpe_result_unique; [done..|]. by apply (saturated_mid _ x y z). }
  rewrite E2. do 2 f_equal. destruct res2 as [toks|e]; cbn in A'.
  - f_equal. by eapply toks_of_fun.
  - exfalso. destruct A' as (a & c & b & Ex & _ & Hx & _). destruct (toks_of_some _ _ _ _ c A2) as [w Hw]; [|congruence].
    rewrite Ex. apply elem_of_app. right. by left.
Qed.
Print Assumptions C69_bpe_parts.

(** "abaab" with the merges b a, a b (in this order): a, ba, ab. Its last two tokens "ba", "ab", the last, and the
    first two, from their own text. *)
Example C69_example :
  let v := ex_vocab [[97]; [98]; [98; 97]; [97; 98]] in
  let m mm := Bpe v mm 0 [] [] [] false in
  match merge_map_from_file [98; 32; 97; 10; 97; 32; 98] v 0 with
  | Ret (Ok mm) =>
    bpe_tokenize (m mm) [97; 98; 97; 97; 98] (λ _, 0%Q)
    = Some (Ret (Ok [Token 0 [97] (Offsets 0 1); Token 2 [98; 97] (Offsets 1 3); Token 3 [97; 98] (Offsets 3 5)]))
    ∧ bpe_tokenize (m mm) [98; 97; 97; 98] (λ _, 0%Q)
    = Some (Ret (Ok [Token 2 [98; 97] (Offsets 0 2); Token 3 [97; 98] (Offsets 2 4)]))
    ∧ bpe_tokenize (m mm) [97; 98] (λ _, 0%Q) = Some (Ret (Ok [Token 3 [97; 98] (Offsets 0 2)]))
    ∧ bpe_tokenize (m mm) [97; 98; 97] (λ _, 0%Q) = Some (Ret (Ok [Token 0 [97] (Offsets 0 1); Token 2 [98; 97] (Offsets 1 3)]))
  | _ => False
  end.
Proof. vm_compute. auto. Qed.

(** * C70 *)
(** The first tokens are the answer for the text they cover. (The length of the part counts, as the part can have more
    characters than the whole if it is cut inside of one.) *)
Theorem C70_wordpiece_start :
  ∀ m p q t1 t2, Forall (λ c, 0 <= c <= 255) (p ++ q) → zlen (runes p) <= w_max m →
  wp_tokenize m (p ++ q) = Some (Ret (Ok (t1 ++ t2))) → toks_tile 0 t1 (zlen p) →
  wp_tokenize m p = Some (Ret (Ok t1)).
Proof.
  intros m p q t1 t2 Hb Hm H Ht. pose proof Hb as Hbp. apply Forall_app in Hbp as [Hbp _].
  destruct (decide (t1 = [])) as [->|Hne].
  { cbn in Ht. assert (p = []) as -> by (destruct p; [done|]; rewrite zlen_cons in Ht; pose proof (zlen_nonneg p); lia).
    unfold wp_tokenize. destruct (Z.ltb_spec (w_max m) (zlen (runes []))) as [Hc|Hc]; [lia|]. done. }
  destruct (decide (p = [])) as [->|Hp].
  { destruct t1 as [|t t1]; [done|]. destruct Ht as (_ & H1 & H2%toks_tile_le). rewrite zlen_nil in H2. lia. }
  destruct (wp_tokenize_spec m (p ++ q) Hb) as [(l & _ & H' & Hl)|(_ & H')].
  - rewrite H in H'. injection H' as <-. destruct (tried_toks_prefix _ _ p q 0 t1 t2 Hp Hl Ht Hne) as [_ Hl'].
    destruct (wp_tokenize_spec m p Hbp) as [(l' & _ & -> & Hl'')|([Hc|Hc] & _)].
    + by rewrite (tried_toks_fun m p 0 _ _ Hl' Hl'').
    + lia.
    + by destruct (Hc t1).
  - (* the unknown token is the only one and covers everything *)
    rewrite H in H'. injection H' as H'. unfold wp_unknown in H'. destruct (get_id _ _) as [i|]; [|done]. injection H' as E.
    destruct t1 as [|t t1]; [done|]. injection E as -> E. apply app_nil in E as [-> ->]. cbn in Ht. destruct Ht as (_ & _ & Ht).
    assert (q = []) as ->. { rewrite zlen_app in Ht. destruct q; [done|]. rewrite zlen_cons in Ht. pose proof (zlen_nonneg q). lia. }
    rewrite !app_nil_r in *. exact H.
Qed.
Print Assumptions C70_wordpiece_start.

(** On characters. *)
Theorem C70_wordpiece_start_text :
  ∀ m ra rb t1 t2, scalars ra → scalars rb →
  wp_tokenize m (encode (ra ++ rb)) = Some (Ret (Ok (t1 ++ t2))) → toks_tile 0 t1 (zlen (encode ra)) → zlen ra <= w_max m →
  wp_tokenize m (encode ra) = Some (Ret (Ok t1)).
Proof.
  intros m ra rb t1 t2 Ha Hb H Ht Hm. rewrite encode_app in H. eapply C70_wordpiece_start; [|by rewrite runes_encode_scalars|exact H|done].
  apply Forall_app. split; apply encode_bytes.
Qed.
Print Assumptions C70_wordpiece_start_text.

(** The first two of "unaffable"'s three pieces. The end of a word on its own is something else: "able" is unknown. *)
Example C70_example :
  let m := ex_wp ["[UNK]"; "un"; "##aff"; "##able"; "##a"]%string in
  wp_tokenize m (bytes_of "unaffable")
  = Some (Ret (Ok [Token 1 (bytes_of "un") (Offsets 0 2); Token 2 (bytes_of "##aff") (Offsets 2 5); Token 3 (bytes_of "##able") (Offsets 5 9)]))
  ∧ wp_tokenize m (bytes_of "unaff") = Some (Ret (Ok [Token 1 (bytes_of "un") (Offsets 0 2); Token 2 (bytes_of "##aff") (Offsets 2 5)]))
  ∧ toks_tile 0 [Token 1 (bytes_of "un") (Offsets 0 2); Token 2 (bytes_of "##aff") (Offsets 2 5)] 5
  ∧ wp_tokenize m (bytes_of "able") = Some (Ret (Ok [Token 0 (bytes_of "[UNK]") (Offsets 0 4)])).
Proof. vm_compute. auto 10. Qed.
