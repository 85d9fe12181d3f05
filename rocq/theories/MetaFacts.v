(** Proofs for C72: metaspace pre-tokenizer and BPE. *)
From Coq Require Import ZifyBool.
From Verif Require Import GoBase Utf8Facts Strutils SplitPattern NormString Vocab Encodings PreTokString Normalizers PreTokenizers SpecText SpecNorm SpecPretok SpecEnd SpecPipe
  SliceFacts NormFacts NormInv PretokFacts ByteFacts EndFacts PipeFacts.
Import GoBase NormString SpecNorm.
#[local] Open Scope Z_scope.

Lemma spaces_to_fst c v : (spaces_to c v).*1 = map (λ x, if x =? 32 then c else x) v.*1.
Proof. induction v as [|[x a] v IH]; [done|]. unfold spaces_to in *. cbn [map]. rewrite !(fmap_cons fst), IH. done. Qed.
Lemma meta_chars c (b : bool) rs : (spaces_to c (if b then prefixed (λ x, x =? c) c (fresh 0 rs) else fresh 0 rs)).*1 = meta_text c b rs.
Proof.
  rewrite spaces_to_fst. unfold meta_text. f_equal. destruct rs as [|x rs]; [by destruct b|]. destruct b; cbn [andb]; [|apply fresh_chars]. cbn [fresh prefixed].
  destruct (x =? c); cbn [negb]; rewrite ?fmap_cons; cbn [fst]; by rewrite fresh_chars.
Qed.

Lemma spaces_split c a rs p q : spaces_to c (fresh a rs) = p ++ q →
  ∃ r1 r2, rs = r1 ++ r2 ∧ p = spaces_to c (fresh a r1) ∧ q = spaces_to c (fresh (a + zlen (encode r1)) r2).
Proof.
  revert a rs. induction p as [|x p IH]; intros a rs H.
  - exists [], rs. split; [done|]. split; [done|]. change (encode []) with (@nil Z). rewrite zlen_nil, Z.add_0_r. done.
  - destruct rs as [|r rs]; [done|]. cbn [fresh] in H. unfold spaces_to in H. cbn [map app] in H. injection H as <- H.
    destruct (IH _ rs H) as (r1 & r2 & -> & -> & ->). exists (r :: r1), r2. split; [done|]. split; [done|]. rewrite zlen_encode_cons. do 2 f_equal. lia.
Qed.
Lemma spaces_first c a rs : rs ≠ [] → first_start (spaces_to c (fresh a rs)) = a.
Proof. by destruct rs. Qed.
Lemma spaces_last c a rs : rs ≠ [] → last_end (spaces_to c (fresh a rs)) = a + zlen (encode rs).
Proof.
  intros H. destruct rs as [|r rs _] using rev_ind; [done|]. clear H. revert a. induction rs as [|x rs IH]; intros a.
  - cbn [app fresh]. rewrite zlen_encode_cons. change (encode []) with (@nil Z). rewrite zlen_nil. unfold spaces_to, last_end. cbn. lia.
  - cbn [app fresh]. rewrite zlen_encode_cons. specialize (IH (a + rune_len x)). rewrite Z.add_assoc, <- IH.
    unfold spaces_to, last_end. cbn [map]. destruct rs; done.
Qed.

Definition offsets_of (q : atext) (en : enc_token) : Prop := q ≠ [] ∧ et_offsets en = Offsets (first_start q) (last_end q).
Lemma spaces_chained c rs qs es a : concat qs = spaces_to c (fresh a rs) → Forall2 offsets_of qs es → chained a es (a + zlen (encode rs)).
Proof.
  intros E H. revert a rs E. induction H as [|q en qs es [Hne Ho] H IH]; intros a rs E; cbn [concat] in E.
  - destruct rs; [|done]. cbn. rewrite zlen_nil. lia.
  - symmetry in E. apply spaces_split in E as (r1 & r2 & -> & -> & E). assert (r1 ≠ []) as H1 by (by intros ->). cbn [chained]. rewrite Ho. cbn [o_start o_end].
    rewrite spaces_first, spaces_last by done. split; [done|]. split.
    + destruct r1 as [|x r1]; [done|]. rewrite zlen_encode_cons. pose proof (rune_len_bounds x). pose proof (zlen_nonneg (encode r1)). lia.
    + rewrite encode_app, zlen_app, Z.add_assoc. by apply IH.
Qed.
