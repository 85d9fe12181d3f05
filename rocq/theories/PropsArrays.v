(** Property theorems C116 and C117: the arrays behind captures and splits. *)
From Verif Require Import GoBase Strutils SplitPattern NormString Bpe Encodings PreTokString Pointers Arrays SpecArrays ArraysFacts.
Import GoBase NormString.
#[local] Open Scope Z_scope.

(** * C116: captures *)
(** The library's own patterns, inverted any number of times, always find the same and never touch what other calls have returned. *)
Theorem C116_library : ∀ p ap, lib_pattern p ap → behaves p ap.
Proof. exact lib_behaves. Qed.
Print Assumptions C116_library.
(** A client's pattern that makes a new slice in every call can be inverted just as well. *)
Theorem C116_invert : ∀ p ap, behaves p ap → behaves (invert p) (a_invert ap).
Proof. exact invert_behaves. Qed.
Print Assumptions C116_invert.
Theorem C116_split :
  ∀ p ap n b κ, behaves p ap → match split n p b with Panic => a_split n ap b κ = Panic | Ret r => ∃ new, a_split n ap b κ = Ret (κ ++ new, r) end.
Proof. exact split_behaves. Qed.
Print Assumptions C116_split.
Theorem C116_replace :
  ∀ p ap n content κ, behaves p ap → match replace n p content with Panic => a_replace n ap content κ = Panic | Ret r => ∃ new, a_replace n ap content κ = Ret (κ ++ new, r) end.
Proof. exact replace_behaves. Qed.
Print Assumptions C116_replace.
(** A pattern that returns one slice again and again does not survive Invert: every other call finds the captures as they were. *)
Theorem C116_kept :
  ∀ l s k κ cs, κ !! l = Some cs →
  ∃ κ', calls (a_invert (kept l)) s k κ = Ret κ' ∧ κ' !! l = Some (if Nat.odd k then map flip_capture cs else cs) ∧ ∀ l', l' ≠ l → κ' !! l' = κ !! l'.
Proof. exact kept_calls. Qed.
Print Assumptions C116_kept.
Theorem C116_kept_refuted :
  ¬ ∀ l n b κ κ1 r1, is_Some (κ !! l) → a_split n (a_invert (kept l)) b κ = Ret (κ1, r1) → ∃ κ2, a_split n (a_invert (kept l)) b κ1 = Ret (κ2, r1).
Proof.
  intros H. specialize (H 0%nat (from_string [97; 32]) Removed [[Capture 0 1 false; Capture 1 2 true]] _ _ (ex_intro _ _ eq_refl) eq_refl).
  destruct H as (κ2 & E). vm_compute in E. discriminate E.
Qed.
Print Assumptions C116_kept_refuted.
(** "a b" cut at white space, not inverted, inverted, and inverted twice, by turns; the slices of the earlier calls stay as they are. *)
Example C116_example :
  let p := a_making (func_pattern white_space) in
  let caps b := [Capture 0 1 b; Capture 1 2 (negb b); Capture 2 3 b] in
  (x ← a_find p [97; 32; 98] []; y ← a_find (a_invert p) [97; 32; 98] x.1; a_find (a_invert (a_invert p)) [97; 32; 98] y.1)
  = Ret ([caps false; caps true; caps false], Ok (caps false))
  ∧ calls (a_invert (kept 0)) [97; 32; 98] 3 [caps false] = Ret [caps true].
Proof. vm_compute. auto. Qed.

(** * C117: splits *)
(** Functions that leave the PreTokenizedString alone: as in Pointers.v. Split makes a new array, so a slice that Splits has
    handed out shows the splits as they were; after an error p.splits is the old array. *)
Theorem C117_split :
  ∀ St (hf : h_split_func St) σ arrays cur st splits, arrays !! cur = Some splits →
  r_split (λ z l, on_strings (λ st, hf st z l)) (World σ arrays cur st)
  = (x ← h_split_loop hf st 0 splits σ;
     Ret (match x.2.2 with Ok l => (World x.1 (arrays ++ [l]) (length arrays) x.2.1, None) | Err e => (World x.1 arrays cur x.2.1, Some e) end)).
Proof. exact @split_agree. Qed.
Print Assumptions C117_split.
(** Normalize does not write into the array. *)
Theorem C117_normalize :
  ∀ St (hf : St → nat → heap (St * option err)) σ arrays cur st splits, arrays !! cur = Some splits →
  r_normalize (λ l, on_strings (λ st, hf st l)) (World σ arrays cur st) = (x ← h_normalize_loop hf st splits σ; Ret (World x.1 arrays cur x.2.1, x.2.2)).
Proof. exact @normalize_agree. Qed.
Print Assumptions C117_normalize.
(** Tokenize writes into the array, so the tokens appear in slices that Splits has handed out since the last Split, and in no others. *)
Theorem C117_tokenize :
  ∀ St (hf : St → nat → heap (St * result (list token))) σ arrays cur st splits, arrays !! cur = Some splits →
  r_tokenize (λ l, on_strings (λ st, hf st l)) (World σ arrays cur st)
  = (x ← h_tokenize_loop hf st splits σ; Ret (World x.1 (<[cur := x.2.1.2]> arrays) cur x.2.1.1, x.2.2)).
Proof. exact @tokenize_agree. Qed.
Print Assumptions C117_tokenize.

(** Whatever the functions given to Split do to the PreTokenizedString is overwritten by what they return, unless they write into the array that is being split. *)
Theorem C117_overwritten :
  ∀ St (f f' : Z → nat → act St (result (list hsplit))) w, same_items (w_cur w) f f' →
  match r_split f w, r_split f' w with
  | Ret (v, None), Ret (v', None) => contents v = contents v' ∧ is_Some (contents v) ∧ w_strings v = w_strings v' ∧ w_client v = w_client v'
  | Ret (_, Some e), Ret (_, Some e') => e = e'
  | Panic, Panic => True
  | _, _ => False
  end.
Proof. exact @split_alike. Qed.
Print Assumptions C117_overwritten.
(** Tokenize does not panic as long as its functions never leave fewer splits than there were. *)
Theorem C117_tokenize_partial :
  ∀ St (f : nat → act St (result (list token))) w,
  (∀ l v, (array_len w (w_cur w) <= array_len v (w_cur w))%nat → (array_len w (w_cur w) <= array_len v (w_cur v))%nat →
    ∃ v' r, f l v = Ret (v', r) ∧ (array_len w (w_cur w) <= array_len v' (w_cur w))%nat ∧ (array_len w (w_cur w) <= array_len v' (w_cur v'))%nat) →
  r_tokenize f w ≠ Panic.
Proof. intros St f w Hf. by apply (tokenize_safe f (w_cur w) (array_len w (w_cur w)) Hf). Qed.
Print Assumptions C117_tokenize_partial.
(** It does with a function that calls Split, *)
Theorem C117_tokenize_refuted :
  ¬ ∀ items g (w : world unit), is_Some (contents w) → (∀ l, (l < length (w_strings w))%nat → cutting items g l w ≠ Panic) → r_tokenize (cutting items g) w ≠ Panic.
Proof.
  intros H. apply (H [] (λ _, []) (World [from_string [97]] [[HSplit 0 None]] 0 tt)); [by eexists| |by vm_compute].
  intros [|l] Hl; [by vm_compute|]. cbn in Hl. lia.
Qed.
Print Assumptions C117_tokenize_refuted.
(** or gives the tokens to another split. *)
Theorem C117_own_tokens_refuted :
  ¬ ∀ items g (w v : world unit) splits sp ts n, Forall (λ sp, hs_tokens sp = None) items → r_tokenize (cutting items g) w = Ret (v, None) →
    contents v = Some splits → sp ∈ splits → hs_tokens sp = Some ts → w_strings v !! hs_loc sp = Some n → ts = g n.
Proof.
  intros H. pose (g := λ n, [Token (zlen (ns_norm n)) (ns_norm n) (Offsets 0 1)]).
  assert (E : g (from_string [97; 98]) = g (from_string [97])); [|vm_compute in E; discriminate E].
  eapply (H [HSplit 1 None; HSplit 2 None] g (World [from_string [97; 98]; from_string [97]; from_string [98]] [[HSplit 0 None]] 0 tt)
    (World [from_string [97; 98]; from_string [97]; from_string [98]] [[HSplit 0 None]; [HSplit 1 (Some (g (from_string [97; 98]))); HSplit 2 None]] 1 tt));
    [by repeat constructor|vm_compute; reflexivity|reflexivity|by left|reflexivity|reflexivity].
Qed.
Print Assumptions C117_own_tokens_refuted.
(** A tokenizer that calls Tokenize: the inner call does everything but the first split. *)
Theorem C117_nested :
  ∀ St g h σ arrays cur (st : St) pre sp rest n, arrays !! cur = Some (pre ++ sp :: rest) → Forall (λ sp, is_Some (σ !! hs_loc sp)) (pre ++ sp :: rest) →
  Forall (λ sp, is_Some (hs_tokens sp)) pre → hs_tokens sp = None → σ !! hs_loc sp = Some n →
  r_tokenize (nested g h) (World σ arrays cur st) = Ret (World σ (<[cur := pre ++ HSplit (hs_loc sp) (Some (h n)) :: map (tokenized_by g σ) rest]> arrays) cur st, None).
Proof. exact @tokenize_nested. Qed.
Print Assumptions C117_nested.
(** Splits is called, then Split, Splits, Tokenize: the first slice shows the whole text, the second one the tokens. *)
Example C117_example :
  let σ := [from_string [97; 98]] in
  let cut := λ z l, on_strings (λ (st : unit) σ, x ← h_split_by (func_pattern (λ c, c =? 97)) Isolated l σ; Ret (x.1, (st, x.2))) in
  let tok := reading (λ n, [Token 7 (ns_norm n) (Offsets 0 1)]) in
  match (x ← r_split cut (World σ [[HSplit 0 None]] 0 tt); y ← r_tokenize tok x.1; Ret (r_splits x.1, y.1)) with
  | Ret (second, w) => w_arrays w !! 0%nat = Some [HSplit 0 None]
      ∧ w_arrays w !! second = Some [HSplit 1 (Some [Token 7 [97] (Offsets 0 1)]); HSplit 2 (Some [Token 7 [98] (Offsets 0 1)])] ∧ second = 1%nat
  | Panic => False
  end.
Proof. vm_compute. auto. Qed.
(** A function that calls Split on the string it is called by, which drops everything: nothing comes of it. *)
Example C117_example_overwritten :
  let items l := Ok [HSplit l None; HSplit l None] in
  let f := λ (_ : Z) l, then_do (r_split (λ _ _ w, Ret (w, Ok []))) (λ _ (w : world unit), Ret (w, items l)) in
  let f' := λ (_ : Z) l (w : world unit), Ret (w, items l) in
  let w := World [from_string [97]; from_string [98]] [[HSplit 0 None; HSplit 1 None]] 0 tt in
  match r_split f w, r_split f' w with
  | Ret (v, None), Ret (v', None) => contents v = Some [HSplit 0 None; HSplit 0 None; HSplit 1 None; HSplit 1 None] ∧ contents v' = contents v ∧ w_cur v = 3%nat ∧ w_cur v' = 1%nat
  | _, _ => False
  end.
Proof. vm_compute. auto. Qed.
