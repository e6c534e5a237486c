(** Model of edgemap.go: edges indexed by label. *)
From Verif Require Import Base Assoc Links.

(** edgemap.go:21-34 [edgeLabelList], [edgeMap].
    Simplification: [edgeLabelLists] (a container/list of label lists) and [labelMap]
    (label -> list element) are one association list in list order: line 54-55 insert the same
    element under its label in both, lines 93-94 remove it from both, and [lazyInit] resets both. *)
Record emap := EM { em_bkts : list (string * llist); em_only : option nat; em_n : Z }.
Definition em_empty : emap := EM [] None 0.

Section with_labels.
  (** [e.label] in the heap *)
  Variable lbl : nat -> string.

  (** edgemap.go:48-60 [doAdd] *)
  Definition do_add (b : list (string * llist)) (L : links) (e : nat)
    : list (string * llist) * links :=
    match bk_get b (lbl e) with
    | None => let '(l', L') := el_add ll_empty L e in (b ++ [(lbl e, l')], L')
    | Some l => let '(l', L') := el_add l L e in (bk_set b (lbl e) l', L')
    end.

  (** edgemap.go:41-71 [edgeMap.add]; [Panic] is the nil dereference [em.only.label]. *)
  Definition em_add (em : emap) (L : links) (e : nat) : res (emap * links) :=
    if decide (em_n em = 0)%Z then Ok (EM (em_bkts em) (Some e) 1, L)
    else if decide (em_n em = 1)%Z then
      match em_only em with
      | None => Panic
      | Some o =>
          let '(b1, L1) := do_add [] L o in
          let '(b2, L2) := do_add b1 L1 e in
          Ok (EM b2 None 2, L2)
      end
    else
      let '(b1, L1) := do_add (em_bkts em) L e in
      Ok (EM b1 (em_only em) (em_n em + 1), L1).

  (** edgemap.go:73-103 [edgeMap.remove].  In lines 98-100 the map has exactly one entry
      (the label lists' counters are positive and add up to [em.n]), so the order of
      [range em.labelMap] is irrelevant. *)
  Definition em_remove (em : emap) (L : links) (e : nat) : emap * links :=
    if decide (em_n em = 0)%Z then (em, L)
    else if decide (em_n em = 1)%Z then
      if decide (Some e = em_only em) then (EM (em_bkts em) None 0, L) else (em, L)
    else
      match bk_get (em_bkts em) (lbl e) with
      | None => (em, L)
      | Some l =>
          let '(l', L') := el_remove l L e in
          let b := if decide (ll_n l' = 0)%Z then bk_del (em_bkts em) (lbl e)
                   else bk_set (em_bkts em) (lbl e) l' in
          let n' := (em_n em - 1)%Z in
          if decide (n' = 1)%Z then
            (EM [] (match b with (_, l1) :: _ => ll_head l1 | [] => em_only em end) n', L')
          else (EM b (em_only em) n', L')
      end.

  (** edgemap.go:126-143, 195-211: draining the iterator of [edgeMap.iterator].
      [Panic]: the single element is a nil edge, which the caller dereferences. *)
  Definition em_iter (fuel : nat) (L : links) (em : emap) : res (list nat) :=
    if decide (em_n em = 0)%Z then Ok []
    else if decide (em_n em = 1)%Z then
      match em_only em with Some e => Ok [e] | None => Panic end
    else
      let! ls := rmap (fun b => walk fuel L (ll_head b.2)) (em_bkts em) in Ok (concat ls).
  (** MaxSize of that iterator: itr.go:97, edgemap.go:123, 141, 221. *)
  Definition em_iter_size (em : emap) : Z :=
    if decide (em_n em = 0)%Z then 0 else if decide (em_n em = 1)%Z then 1 else em_n em.

  (** edgemap.go:145-158 [iteratorLabel] *)
  Definition em_iter_label (fuel : nat) (L : links) (em : emap) (l : string) : res (list nat) :=
    if decide (em_n em = 0)%Z then Ok []
    else
      let rest := match bk_get (em_bkts em) l with
                  | None => Ok []
                  | Some x => walk fuel L (ll_head x)
                  end in
      if decide (em_n em = 1)%Z then
        match em_only em with
        | None => Panic
        | Some e => if decide (l = lbl e) then Ok [e] else rest
        end
      else rest.
  Definition em_iter_label_size (em : emap) (l : string) : Z :=
    if decide (em_n em = 0)%Z then 0
    else
      let rest := match bk_get (em_bkts em) l with None => 0%Z | Some x => ll_n x end in
      if decide (em_n em = 1)%Z then
        match em_only em with
        | None => 0
        | Some e => if decide (l = lbl e) then 1 else rest
        end
      else rest.

  (** edgemap.go:160-186 [iteratorAnyLabel]; [ord] is [labels.Slice()], the label set in the
      order Go's map iteration happens to produce. *)
  Definition em_iter_any (fuel : nat) (L : links) (em : emap) (ord : list string) : res (list nat) :=
    if decide (em_n em = 0)%Z then Ok []
    else if decide (em_n em = 1)%Z then
      match em_only em with
      | None => Panic
      | Some e => if decide (lbl e ∈ ord) then Ok [e] else Ok []
      end
    else
      let! ls := rmap (fun l => match bk_get (em_bkts em) l with
                                | None => Ok []
                                | Some _ => em_iter_label fuel L em l
                                end) ord in Ok (concat ls).
  Definition em_iter_any_size (em : emap) (ord : list string) : Z :=
    if decide (em_n em = 0)%Z then 0
    else if decide (em_n em = 1)%Z then
      match em_only em with
      | None => 0
      | Some e => if decide (lbl e ∈ ord) then 1 else 0
      end
    else (-1).
End with_labels.
