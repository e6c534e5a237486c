(** Model of itr.go: iterators as state machines, driven by Next and Value.

    The model of the graph represents an iterator by the list of what it yields; this file
    models the iterators themselves, as long as the graph is not changed while they run.

    An iterator over [A] with states [S] (the fields of the Go struct, and what is captured by
    its closures): [m_next] is Next (returned value, new state), [m_value] is Value.  The first
    argument of [m_next] bounds the number of rounds of the loops in Next; [Diverge] if it runs
    out.  [m_value] is [Panic] where Go yields nil or panics. *)
From Verif Require Import Base Assoc Links EdgeMap.

Record machine (S A : Type) := Machine {
  m_next : nat -> S -> res (bool * S);
  m_value : S -> res A }.
Global Arguments Machine {_ _}.
Global Arguments m_next {_ _}.
Global Arguments m_value {_ _}.

(** itr.go:93-97 *)
Definition empty_machine {A} : machine unit A := Machine (fun _ s => Ok (false, s)) (fun _ => Panic).

(** itr.go:99-119.  The filter may have a state of its own ([T]), as a closure does. *)
Section filter.
  Context {S T A : Type} (m : machine S A) (f : T -> A -> bool * T).
  Fixpoint filter_loop (rounds k : nat) (s : S) (t : T) : res (bool * (S * T * option A)) :=
    match rounds with
    | O => Diverge
    | Datatypes.S r =>
        let! b := m_next m k s in
        if b.1 : bool then
          let! a := m_value m b.2 in
          let c := f t a in
          if c.1 : bool then Ok (true, (b.2, c.2, Some a)) else filter_loop r k b.2 c.2
        else Ok (false, (b.2, t, None))
    end.
  Definition filter_machine : machine (S * T * option A) A :=
    Machine (fun k s => filter_loop k k s.1.1 s.1.2)
            (fun s => match s.2 with Some a => Ok a | None => Panic end).
End filter.

(** itr.go:139-152; the state of the closure is the set of seen items *)
Definition unique_filter {A} `{EqDecision A} (seen : list A) (a : A) : bool * list A :=
  if decide (a ∈ seen) then (false, seen) else (true, a :: seen).
Definition unique_machine {S A} `{EqDecision A} (m : machine S A) : machine (S * list A * option A) A :=
  filter_machine m unique_filter.

(** itr.go:123-135 *)
Definition proc_machine {S A B} (m : machine S A) (f : A -> B) : machine S B :=
  Machine (m_next m) (fun s => let! a := m_value m s in Ok (f a)).

(** itr.go:154-178; [f] is iteratorFunc with captured state [T] *)
Section func.
  Context {S T A : Type} (m : machine S A) (f : T -> option S * T).
  Fixpoint func_loop (rounds k : nat) (t : T) (cur : option S) : res (bool * (T * option S)) :=
    match rounds with
    | O => Diverge
    | Datatypes.S r =>
        let fetch :=
          match f t with
          | (Some s, t') => func_loop r k t' (Some s)
          | (None, t') => Ok (false, (t', None))
          end in
        match cur with
        | Some s =>
            let! b := m_next m k s in
            if b.1 : bool then Ok (true, (t, Some b.2)) else fetch
        | None => fetch
        end
    end.
  Definition func_machine : machine (T * option S) A :=
    Machine (fun k s => func_loop k k s.1 s.2)
            (fun s => match s.2 with Some s' => m_value m s' | None => Panic end).
End func.

(** itr.go:182-194 *)
Definition multi_func {S} (iterators : list S) : option S * list S :=
  match iterators with [] => (None, []) | x :: r => (Some x, r) end.
Definition multi_machine {S A} (m : machine S A) : machine (list S * option S) A :=
  func_machine m multi_func.

(** itr.go:234-249; [next] is the rest of the list, from the element it points to *)
Record list_state A := ListState { ls_next : list A; ls_current : option A }.
Global Arguments ListState {_}.
Global Arguments ls_next {_}.
Global Arguments ls_current {_}.
Definition list_machine {A} : machine (list_state A) A :=
  Machine (fun _ s =>
             let s' := ListState (match ls_next s with [] => [] | _ :: r => r end) (head (ls_next s)) in
             Ok (match ls_current s' with Some _ => true | None => false end, s'))
          (fun s => match ls_current s with Some a => Ok a | None => Panic end).

(** list.go:60-81, 125-146 *)
Record el_state := ElState { es_current : option nat; es_next : option nat }.
Definition edge_list_machine (L : links) : machine el_state nat :=
  Machine (fun _ s =>
             match es_next s with
             | Some e => Ok (true, ElState (Some e) (el_next (lk L e)))
             | None => Ok (false, ElState None None)
             end)
          (fun s => match es_current s with Some e => Ok e | None => Panic end).

(** edgemap.go:188-219; the label lists are given by the rest of the list from the element on *)
Record all_state := AllState {
  as_list_next : list (string * llist);
  as_list_current : list (string * llist);
  as_next : option nat;
  as_current : option nat }.
Fixpoint all_loop (rounds : nat) (L : links) (s : all_state) : res (bool * all_state) :=
  match rounds with
  | O => Diverge
  | Datatypes.S r =>
      match as_next s with
      | Some e => Ok (true, AllState (as_list_next s) (as_list_current s) (el_next (lk L e)) (Some e))
      | None =>
          let cur := as_list_next s in
          match cur with
          | b :: rest => all_loop r L (AllState rest cur (ll_head b.2) None)
          | [] => Ok (false, AllState [] [] None None)
          end
      end
  end.
Definition all_machine (L : links) : machine all_state nat :=
  Machine (fun k s => all_loop k L s)
          (fun s => match as_current s with Some e => Ok e | None => Panic end).

(** edgemap.go:109-124 *)
Record single_state := SingleState { si_edge : option nat; si_done : bool }.
Definition single_machine : machine single_state nat :=
  Machine (fun _ s => if si_done s then Ok (false, s) else Ok (true, SingleState (si_edge s) true))
          (fun s => match si_edge s with Some e => Ok e | None => Panic end).

(** The iterators an edgeMap returns, and their Next and Value (dynamic dispatch). *)
Inductive label_state := LEmpty | LSingle (s : single_state) | LList (s : el_state).
Definition label_machine (L : links) : machine label_state nat :=
  Machine (fun k s =>
             match s with
             | LEmpty => let! b := m_next (@empty_machine nat) k () in Ok (b.1, LEmpty)
             | LSingle s => let! b := m_next single_machine k s in Ok (b.1, LSingle b.2)
             | LList s => let! b := m_next (edge_list_machine L) k s in Ok (b.1, LList b.2)
             end)
          (fun s =>
             match s with
             | LEmpty => m_value (@empty_machine nat) ()
             | LSingle s => m_value single_machine s
             | LList s => m_value (edge_list_machine L) s
             end).
Section with_labels.
  Variable lbl : nat -> string.
  (** edgemap.go:145-158 *)
  Definition label_start (em : emap) (l : string) : res label_state :=
    if decide (em_n em = 0)%Z then Ok LEmpty
    else
      let rest := match bk_get (em_bkts em) l with
                  | None => LEmpty
                  | Some x => LList (ElState None (ll_head x))
                  end in
      if decide (em_n em = 1)%Z then
        match em_only em with
        | None => Panic
        | Some e => if decide (l = lbl e) then Ok (LSingle (SingleState (Some e) false)) else Ok rest
        end
      else Ok rest.
  (** edgemap.go:126-143 *)
  Inductive iter_state := IEmpty | ISingle (s : single_state) | IAll (s : all_state).
  Definition iter_machine (L : links) : machine iter_state nat :=
    Machine (fun k s =>
               match s with
               | IEmpty => let! b := m_next (@empty_machine nat) k () in Ok (b.1, IEmpty)
               | ISingle s => let! b := m_next single_machine k s in Ok (b.1, ISingle b.2)
               | IAll s => let! b := m_next (all_machine L) k s in Ok (b.1, IAll b.2)
               end)
            (fun s =>
               match s with
               | IEmpty => m_value (@empty_machine nat) ()
               | ISingle s => m_value single_machine s
               | IAll s => m_value (all_machine L) s
               end).
  Definition iter_start (em : emap) : iter_state :=
    if decide (em_n em = 0)%Z then IEmpty
    else if decide (em_n em = 1)%Z then ISingle (SingleState (em_only em) false)
    else IAll (match em_bkts em with
               | [] => AllState [] [] None None
               | b :: r => AllState r (em_bkts em) (ll_head b.2) None
               end).
  (** edgemap.go:170-185 (two or more edges): the closure, its state is [strings].  [em_n] is at
      least 2 here, so [iteratorLabel] takes the list of the label. *)
  Fixpoint any_func (em : emap) (strings : list string) : option label_state * list string :=
    match strings with
    | [] => (None, [])
    | l :: r =>
        match bk_get (em_bkts em) l with
        | None => any_func em r
        | Some x => (Some (LList (ElState None (ll_head x))), r)
        end
    end.
  Definition any_machine (L : links) (em : emap) : machine (list string * option label_state) nat :=
    func_machine (label_machine L) (any_func em).
End with_labels.

(** itr.go:253-290; [from], [to] read the edge, [inc]: [dir == IncomingEdge].  [seen] holds ids,
    which are the pointers here. *)
Section nodes_from_edges.
  Context {S : Type} (m : machine S nat) (from to : nat -> nat) (inc : bool).
  Definition nfe_node (s : S) : res nat :=
    let! e := m_value m s in Ok (if inc then from e else to e).
  Fixpoint nfe_loop (rounds k : nat) (s : S) (seen : list nat) : res (bool * (S * list nat)) :=
    match rounds with
    | O => Diverge
    | Datatypes.S r =>
        let! b := m_next m k s in
        if b.1 : bool then
          let! n := nfe_node b.2 in
          if decide (n ∈ seen) then nfe_loop r k b.2 seen else Ok (true, (b.2, n :: seen))
        else Ok (false, (b.2, seen))
    end.
  Definition nfe_machine : machine (S * list nat) nat :=
    Machine (fun k s => nfe_loop k k s.1 s.2) (fun s => nfe_node s.1).
End nodes_from_edges.

(** itr.go:42-49, 58-65: [k] bounds both the loops and the number of items *)
Fixpoint slice_loop {S A} (m : machine S A) (rounds k : nat) (s : S) (acc : list A) : res (list A) :=
  match rounds with
  | O => Diverge
  | Datatypes.S r =>
      let! b := m_next m k s in
      if b.1 : bool then
        let! a := m_value m b.2 in slice_loop m r k b.2 (acc ++ [a])
      else Ok acc
  end.
Definition slice {S A} (m : machine S A) (k : nat) (s : S) : res (list A) := slice_loop m k k s [].
(** itr.go:67-91: [g] is GetTo / GetFrom; the result in the order [range set] happens to take *)
Fixpoint node_set_loop {S} (m : machine S nat) (g : nat -> nat) (rounds k : nat) (s : S) (set : gset nat)
  : res (gset nat) :=
  match rounds with
  | O => Diverge
  | Datatypes.S r =>
      let! b := m_next m k s in
      if b.1 : bool then
        let! e := m_value m b.2 in node_set_loop m g r k b.2 ({[g e]} ∪ set)
      else Ok set
  end.
