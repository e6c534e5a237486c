(** C89: what MaxSize of the iterators is, from the abstract graph alone. *)
From Verif Require Import Base Value Index Graph GraphSpec.

(** the edges that have node [n] at their start ([side] = [e_from]) or end ([e_to]) *)
Definition edges_at (s : sgraph) (side : edge -> nat) (n : nat) : gmap nat edge :=
  filter (fun p : nat * edge => side p.2 = n) (s_edges s).
(** those with one of the labels *)
Definition labelled_edges (ord : list string) (E : gmap nat edge) : gmap nat edge :=
  filter (fun p : nat * edge => e_label p.2 ∈ ord) E.
(** MaxSize for the edges [E] with one of the labels: exact for at most one edge, otherwise unknown *)
Definition any_size (ord : list string) (E : gmap nat edge) : Z :=
  if decide (size E <= 1) then Z.of_nat (size (labelled_edges ord E)) else (-1)%Z.
(** at a node no labels means all labels *)
Definition side_size (ord : list string) (E : gmap nat edge) : Z :=
  if decide (ord = []) then Z.of_nat (size E) else any_size ord E.
Definition node_any_size (s : sgraph) (n : nat) (d : dir) (ord1 ord2 : list string) : Z :=
  match d with
  | Incoming => side_size ord1 (edges_at s e_to n)
  | Outgoing => side_size ord2 (edges_at s e_from n)
  | AnyDir => side_size ord1 (edges_at s e_to n) + side_size ord2 (edges_at s e_from n)
  end.
(** MaxSize of the nodes or edges with a property: all of them without an index, their number with a
    hash index; a B-tree does not know it, unless it never was given a value *)
Definition prop_size (it : option index_type) (all having : nat) (given : value -> Prop) (m : Z) : Prop :=
  match it with
  | None => m = Z.of_nat all
  | Some HashIndex => m = Z.of_nat having
  | Some BtreeIndex => ((exists v, given v) -> m = (-1)%Z) /\ ((forall v, ~ given v) -> m = 0%Z)
  end.
(** Node.GetEdgesWithAnyLabel adds the two, also if they are unknown (node.go:98): wrong if both are, or
    if one is and the other side has one edge, with such a label *)
Definition both_wrong (ord1 ord2 : list string) (I O : gmap nat edge) : Prop :=
  (2 <= size I /\ 2 <= size O) \/
  (2 <= size I /\ size O = 1 /\ size (labelled_edges ord2 O) = 1) \/
  (2 <= size O /\ size I = 1 /\ size (labelled_edges ord1 I) = 1).
