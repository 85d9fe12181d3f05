(** C76: replacing characters one by one (lower-casing) before or after pre-tokenizing. *)
From stdpp Require Import relations.
From Verif Require Import GoBase Utf8Facts Strutils SplitPattern NormString Bpe Encodings Normalizers PreTokString PreTokenizers SpecText SpecNorm SpecHist SpecPts SpecPretok SpecEnd SpecCommute SpecStages
  SliceFacts PatternFacts NormInv HistFacts PtsFacts PretokFacts NormalizersFacts PropsPretok LibFacts CommuteFacts.
Import GoBase NormString SpecNorm.
#[local] Open Scope Z_scope.

Lemma reachable_splits_wf p : reachable_pts p → Forall (λ x, wf (sp_ns x)) (p_splits p).
Proof. intros (rs & _ & _ & H)%reachable_pts_good. eapply Forall_impl; [exact H|]. by intros x [? _]. Qed.

(** Whatever was done before, cutting where a test says so commutes with [Map] by any function that does
    not change what the test says. *)
Theorem C76_split :
  ∀ g f b p, reachable_pts p → keeps g f →
  either_order (run_split (split_by (func_pattern g) b)) (no_error (λ n, map_runes n f)) p.
Proof. intros g f b p Hp Hg. apply split_either_order; [done|]. by apply reachable_splits_wf. Qed.
Print Assumptions C76_split.

(** And only with those; [Contiguous] does not tell a run of matches from a run of other characters. *)
Theorem C76_needed :
  ∀ g f b, b ≠ Contiguous →
  (∀ rs, scalars rs → either_order (run_split (split_by (func_pattern g) b)) (no_error (λ n, map_runes n f)) (pts_from_string (encode rs)))
  ↔ keeps g f.
Proof.
  intros g f b Hb. split; [by apply order_needs|]. intros Hg rs Hs. apply C76_split; [|done]. by exists rs.
Qed.
Print Assumptions C76_needed.

(** The pre-tokenizers and the lower-case normalizer. *)
Theorem C76_whitespace_split :
  ∀ u p, reachable_pts p → keeps white_space (u_lower u) → either_order whitespace_split (lowercase_normalizer u) p.
Proof. intros u p Hp Hg. by apply C76_split. Qed.
Print Assumptions C76_whitespace_split.

Theorem C76_rune_delimiter :
  ∀ u d p, reachable_pts p → (∀ c, scalar c = true → sanitize (u_lower u c) = d ↔ c = d) →
  either_order (rune_delimiter d) (lowercase_normalizer u) p.
Proof.
  intros u d p Hp Hd. apply C76_split; [done|]. intros c Hc. specialize (Hd c Hc).
  destruct (Z.eqb_spec (sanitize (u_lower u c)) d), (Z.eqb_spec c d); tauto.
Qed.
Print Assumptions C76_rune_delimiter.

Theorem C76_bert :
  ∀ u p, reachable_pts p → keeps white_space (u_lower u) → keeps (u_punct u) (u_lower u) →
  either_order (bert_pretokenizer u) (lowercase_normalizer u) p.
Proof.
  intros u p Hp H1 H2. eapply either_order_then; [done|by apply C76_split|].
  intros p1 E. apply C76_split; [|done]. destruct Hp as (rs & Hs & Hp). exists rs. split; [done|].
  eapply rtc_r; [exact Hp|]. by eapply split_by_step.
Qed.
Print Assumptions C76_bert.

(** So the encodings agree as well, with any model: a text lower-cased before it is cut, or its pieces
    lower-cased. *)
Theorem C76_encoding :
  ∀ pre nz (model : a_model) n n' wi ty, either_order pre nz (pts_from_ns n) → ns_orig n' = ns_orig n → nz n = Ret (n', None) →
  encode_ns (then_normalize pre nz) model n wi ty = encode_ns pre model n' wi ty.
Proof.
  intros pre nz model n n' wi ty (p1 & p2 & q & H1 & H2 & H3 & H4) Ho Hn.
  assert (p2 = pts_from_ns n') as ->.
  { unfold normalize_with, pts_normalize, pts_from_ns in H3. cbn [p_splits normalize_loop sp_tokens sp_ns p_original] in H3.
    rewrite Hn in H3. cbn in H3. injection H3 as <-. unfold pts_from_ns. by rewrite Ho. }
  unfold encode_ns, then_normalize. rewrite H1. cbn [mbind outcome_bind fst snd]. rewrite H2, H4. done.
Qed.
Print Assumptions C76_encoding.

Theorem C76_encoding_bert :
  ∀ u (model : a_model) rs wi ty, scalars rs → keeps white_space (u_lower u) → keeps (u_punct u) (u_lower u) →
  ∃ n, lowercase_normalizer u (from_string (encode rs)) = Ret (n, None)
     ∧ encode_ns (then_normalize (bert_pretokenizer u) (lowercase_normalizer u)) model (from_string (encode rs)) wi ty
       = encode_ns (bert_pretokenizer u) model n wi ty.
Proof.
  intros u model rs wi ty Hs H1 H2. pose proof (plain_wf 0 rs Hs) as (Hr & _). rewrite <- plain_from_string in Hr by done.
  destruct (map_runes_text _ _ (u_lower u) Hr) as (n & E & _ & _ & [Ho _]). exists n. unfold lowercase_normalizer at 1, no_error. rewrite E. split; [done|].
  apply C76_encoding; [|done|unfold lowercase_normalizer, no_error; by rewrite E].
  apply (C76_bert u (pts_from_string (encode rs))); [by exists rs|done|done].
Qed.
Print Assumptions C76_encoding_bert.

(** Not so if a character becomes one to cut at: "aXb" with X made a space. *)
Theorem C76_all_maps_refuted :
  ¬ (∀ u rs, scalars rs → either_order whitespace_split (lowercase_normalizer u) (pts_from_string (encode rs))).
Proof.
  intros H. set (u := Unicode (λ _, false) (λ _, false) (λ _, false) (λ c, if c =? 88 then 32 else c) (λ c, c)).
  destruct (H u [97; 88; 98]) as (p1 & p2 & q & H1 & H2 & H3 & H4); [by repeat constructor|].
  vm_compute in H1. injection H1 as <-. vm_compute in H2. injection H2 as <-. vm_compute in H3. injection H3 as <-. vm_compute in H4. discriminate.
Qed.
Print Assumptions C76_all_maps_refuted.

(** "Éa, B" in either order: three pieces at the same places. *)
Example C76_example :
  let u := Unicode (λ _, false) (λ _, false) (λ c, c =? 44) (λ c, if c =? 0xC9 then 0xE9 else if c =? 66 then 98 else c) (λ c, c) in
  let p := pts_from_string (encode [0xC9; 97; 44; 32; 66]) in
  let q := Pts [195; 137; 97; 44; 32; 66]
             [PSplit (NS [195; 137; 97] [195; 169; 97] [(0, 2); (0, 2); (2, 3)] 0) None; PSplit (NS [44] [44] [(0, 1)] 3) None; PSplit (NS [66] [98] [(0, 1)] 5) None] in
  (x ← bert_pretokenizer u p; normalize_with (lowercase_normalizer u) x.1) = Ret (q, None)
  ∧ (x ← normalize_with (lowercase_normalizer u) p; bert_pretokenizer u x.1) = Ret (q, None).
Proof. vm_compute. auto. Qed.
