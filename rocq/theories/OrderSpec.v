(** The order in which the edges of a node, and of the graph, are enumerated, from the history of
    the calls alone.  An iterator visits the edges label by label (edgemap.go:188-211): a new edge
    goes behind the last one with its label, and behind all of them if it is the first. *)
From Verif Require Import Base Value Index Graph GraphSpec.

(** [e] directly behind the last element that has the label of [e]; at the end if there is none *)
Fixpoint file (lb : nat -> string) (e : nat) (xs : list nat) : list nat :=
  match xs with
  | [] => [e]
  | x :: r => if decide (lb x = lb e /\ Forall (fun y => lb y <> lb e) r) then x :: e :: r
              else x :: file lb e r
  end.
(** [xs] without [e] *)
Definition unfile (e : nat) (xs : list nat) : list nat := filter (fun x => x <> e) xs.

(** the current label of an edge *)
Definition s_label (s : sgraph) (e : nat) : string :=
  match s_edges s !! e with Some x => e_label x | None => EmptyString end.
Global Instance live_edge_dec s e : Decision (live_edge s e).
Proof. unfold live_edge. apply _. Defined.

(** Edges of the nodes at their start ([side] = [e_from]) or end ([e_to]): a new edge is filed at
    its node, an edge given another label is taken out and filed again, removed edges go. *)
Definition order_step (side : edge -> nat) (s : sgraph) (o : op) (ord : nat -> list nat) (n : nat)
  : list nat :=
  let s' := sstep s o in
  match o with
  | ONewEdge from to l p =>
      if decide (side (Edge from to l p) = n) then file (s_label s') (s_next s) (ord n) else ord n
  | OSetEdgeLabel e l =>
      match s_edges s !! e with
      | Some x => if decide (side x = n /\ l <> e_label x) then file (s_label s') e (unfile e (ord n))
                  else ord n
      | None => ord n
      end
  | _ => filter (live_edge s') (ord n)
  end.
Definition order_run (side : edge -> nat) (ops : list op) : sgraph * (nat -> list nat) :=
  fold_left (fun p o => (sstep p.1 o, order_step side p.1 o p.2)) ops (s_empty, fun _ => []).
Definition edge_order (side : edge -> nat) (ops : list op) (n : nat) : list nat :=
  (order_run side ops).2 n.
(** edges of node [n] in direction [d] *)
Definition node_order (ops : list op) (n : nat) (d : dir) : list nat :=
  match d with
  | Incoming => edge_order e_to ops n
  | Outgoing => edge_order e_from ops n
  | AnyDir => edge_order e_to ops n ++ edge_order e_from ops n
  end.
(** those with label [l] *)
Definition with_label (s : sgraph) (l : string) (xs : list nat) : list nat :=
  filter (fun e => s_label s e = l) xs.
(** those with a label of [ord], in this order *)
Definition with_labels (s : sgraph) (ord : list string) (xs : list nat) : list nat :=
  concat (map (fun l => with_label s l xs) ord).
(** the same for GetEdgesWithAnyLabel, which takes an empty set of labels for all labels *)
Definition chosen (s : sgraph) (ord : list string) (xs : list nat) : list nat :=
  if decide (ord = []) then xs else with_labels s ord xs.
(** [xs] is enumerated label after label *)
Definition by_label (s : sgraph) (xs : list nat) : Prop :=
  exists ls, NoDup ls /\ xs = with_labels s ls xs.

(** All edges: filed by the label they have in the list of all edges, which stays when the label
    of the edge changes ([filed_step] of GraphSpec.v). *)
Definition all_order_step (F : gmap nat string) (s : sgraph) (o : op) (xs : list nat) : list nat :=
  match o with
  | ONewEdge _ _ _ _ => file (fun e => default EmptyString (filed_step F s o !! e)) (s_next s) xs
  | _ => filter (live_edge (sstep s o)) xs
  end.
Fixpoint all_order_from (F : gmap nat string) (s : sgraph) (xs : list nat) (ops : list op) : list nat :=
  match ops with
  | [] => xs
  | o :: r => all_order_from (filed_step F s o) (sstep s o) (all_order_step F s o xs) r
  end.
Definition all_order (ops : list op) : list nat := all_order_from ∅ s_empty [] ops.
(** the label by which GetEdgesWithAnyLabel finds an edge in the list of all edges *)
Definition found_by (ops : list op) (e : nat) : string :=
  if decide (2 <= size (s_edges (srun ops))) then default EmptyString (filed ops !! e)
  else s_label (srun ops) e.
