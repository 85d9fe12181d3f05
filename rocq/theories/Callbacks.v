(** Model of the functions of /repo that take a function of the caller, for functions that may panic
    and may keep state between calls. [NormString.v] and [SplitPattern.v] have them for functions
    that always answer, and by the argument only. *)
From Verif Require Import GoBase SplitPattern NormString.

(** A func(rune) B: a closure with a state. A nil function panics at every call. *)
Definition callback (St B : Type) : Type := St → Z → outcome (St * B).
Definition nil_func {St B} : callback St B := λ _ _, Panic.

(** normalizedstring.go:714-719: the loop of [Map]. *)
Fixpoint map_loop_cb {St} (f : callback St Z) (st : St) (rs : list Z) : outcome (St * list (Z * Z)) :=
  match rs with
  | [] => Ret (st, [])
  | r :: rs' =>
    x ← f st r;
    y ← map_loop_cb f x.1 rs';
    Ret (y.1, (x.2, 0) :: y.2)
  end.

(** normalizedstring.go:712-721 [Map]. *)
Definition map_runes_cb {St} (n : ns) (f : callback St Z) (st : St) : outcome (St * ns) :=
  x ← map_loop_cb f st (runes (ns_norm n));
  n' ← transform n x.2 0;
  Ret (x.1, n').

(** normalizedstring.go:682-707: the loop of [Filter], as [filter_loop]. *)
Fixpoint filter_loop_cb {St} (keep : callback St bool) (st : St) (rs : list Z) (last : option Z)
    (removed removedStart : Z) : outcome (St * (list (Z * Z) * Z)) :=
  match rs with
  | [] => Ret (st, (match last with Some l => [(l, - removed)] | None => [] end, removedStart))
  | r :: rs' =>
    x ← keep st r;
    if negb x.2 then filter_loop_cb keep x.1 rs' last (removed + 1) removedStart
    else
      match last with
      | Some l =>
        y ← filter_loop_cb keep x.1 rs' (Some r) 0 removedStart;
        Ret (y.1, ((l, - removed) :: y.2.1, y.2.2))
      | None => filter_loop_cb keep x.1 rs' (Some r) 0 removed
      end
  end.

(** normalizedstring.go:674-709 [Filter]. *)
Definition filter_runes_cb {St} (n : ns) (keep : callback St bool) (st : St) : outcome (St * ns) :=
  x ← filter_loop_cb keep st (runes (ns_norm n)) None 0 0;
  n' ← transform n x.2.1 x.2.2;
  Ret (x.1, n').

(** splitpattern/func.go:34-62: the loop over the string and what follows, as [func_loop]. *)
Fixpoint func_loop_cb {St} (f : callback St bool) (st : St) (items : list (Z * Z))
    (lastOffset lastSeen : Z) : outcome (St * list capture) :=
  match items with
  | [] => Ret (st, if lastOffset <? lastSeen then [Capture lastOffset lastSeen false] else [])
  | (i, r) :: items' =>
    let lastSeen' := i + rune_len r in
    x ← f st r;
    if negb x.2 then func_loop_cb f x.1 items' lastOffset lastSeen'
    else
      y ← func_loop_cb f x.1 items' lastSeen' lastSeen';
      Ret (y.1, (if lastOffset <? i then [Capture lastOffset i false] else [])
                ++ Capture i lastSeen' true :: y.2)
  end.

(** splitpattern/func.go:19-63 [FuncSplitPattern.FindMatches]. *)
Definition func_pattern_cb {St} (f : callback St bool) (st : St) (s : list Z)
    : outcome (St * result (list capture)) :=
  if zlen s =? 0 then Ret (st, Ok [Capture 0 0 false])
  else
    x ← func_loop_cb f st (range_str s) 0 0;
    Ret (x.1, Ok x.2).
