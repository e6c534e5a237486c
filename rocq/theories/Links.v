(** Model of list.go: intrusive doubly linked lists of edges and of nodes.

    A pointer to an edge (node) is its id.  The link fields [edge.listElements[ix]]
    (list.go:23-26, edge.go:28-31) of all edges for one index [ix] form one map [links];
    the three values of [ix] use three separate maps.  A missing entry is Go's zero value
    (both pointers nil). *)
From Verif Require Import Base.

(** list.go:23-26 [edgeElement]; also [Node.next]/[Node.prev] (node.go:25). *)
Record elem := Elem { el_next : option nat; el_prev : option nat }.
Notation links := (gmap nat elem) (only parsing).
Definition lk (L : links) (e : nat) : elem := default (Elem None None) (L !! e).
Definition set_next (L : links) (e : nat) (p : option nat) : links :=
  <[e := Elem p (el_prev (lk L e))]> L.
Definition set_prev (L : links) (e : nat) (p : option nat) : links :=
  <[e := Elem (el_next (lk L e)) p]> L.

(** list.go:17-21 [edgeList], list.go:87-91 [nodeList]. *)
Record llist := LL { ll_head : option nat; ll_tail : option nat; ll_n : Z }.
Definition ll_empty : llist := LL None None 0.

(** list.go:28-40 [edgeList.add]. *)
Definition el_add (l : llist) (L : links) (e : nat) : llist * links :=
  let L1 := set_prev L e (ll_tail l) in
  let L2 := match ll_tail l with Some t => set_next L1 t (Some e) | None => L1 end in
  let L3 := set_next L2 e None in
  (LL (match ll_head l with None => Some e | Some h => Some h end) (Some e) (ll_n l + 1), L3).

(** list.go:42-58 [edgeList.remove].  [el] is a pointer into the edge, so each field read sees
    the writes made before it. *)
Definition el_remove (l : llist) (L : links) (e : nat) : llist * links :=
  let '(h, L1) :=
    match el_prev (lk L e) with
    | Some p => (ll_head l, set_next L p (el_next (lk L e)))
    | None => (el_next (lk L e), L)
    end in
  let '(t, L2) :=
    match el_next (lk L1 e) with
    | Some q => (ll_tail l, set_prev L1 q (el_prev (lk L1 e)))
    | None => (el_prev (lk L1 e), L1)
    end in
  let L3 := set_next L2 e None in
  let L4 := set_prev L3 e None in
  (LL h t (ll_n l - 1), L4).

(** list.go:98-109 [nodeList.add]; note that [node.next] is not written. *)
Definition nl_add (l : llist) (L : links) (n : nat) : llist * links :=
  let L1 := set_prev L n (ll_tail l) in
  let L2 := match ll_tail l with Some t => set_next L1 t (Some n) | None => L1 end in
  (LL (match ll_head l with None => Some n | Some h => Some h end) (Some n) (ll_n l + 1), L2).

(** list.go:111-123 [nodeList.remove]; line 120 assigns the removed node itself to [tail]. *)
Definition nl_remove (l : llist) (L : links) (n : nat) : llist * links :=
  let '(h, L1) :=
    match el_prev (lk L n) with
    | Some p => (ll_head l, set_next L p (el_next (lk L n)))
    | None => (el_next (lk L n), L)
    end in
  let '(t, L2) :=
    match el_next (lk L1 n) with
    | Some q => (ll_tail l, set_prev L1 q (el_prev (lk L1 n)))
    | None => (Some n, L1)
    end in
  (LL h t (ll_n l - 1), L2).

(** list.go:66-73 / 131-138: draining [edgeListIterator] / [nodeListIterator] started at [cur]. *)
Fixpoint walk (fuel : nat) (L : links) (cur : option nat) : res (list nat) :=
  match cur with
  | None => Ok []
  | Some x =>
      match fuel with
      | O => Diverge
      | S f => let! r := walk f L (el_next (lk L x)) in Ok (x :: r)
      end
  end.
