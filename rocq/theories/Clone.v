(** Model of clone.go, with cloneNode and cloneEdge of graph.go.

    Source and target are different graphs; a node of one is never a node of the other.  (For
    target = source see CloneLive.v.)  The function that
    clones property values is pure. *)
From Verif Require Import Base Value Graph Sizes.

(** properties.go:226-232 *)
Definition clone_props (f : string -> value -> value) (p : props) : props := map_imap (fun k v => Some (f k v)) p.
(** graph.go:436-448 creates the node as FastNewNode (graph.go:63-73) does; [ord]: see [new_node] *)
Definition clone_node (src tgt : graph) (f : string -> value -> value) (n : nat) (ord : list string) : res (graph * nat) :=
  let! nd := deref_node src n in
  new_node tgt (n_labels nd) (clone_props f (n_props nd)) ord.
(** graph.go:491-512 creates the edge as FastNewEdge (graph.go:92-111) does *)
Definition clone_edge (src tgt : graph) (f : string -> value -> value) (from to : nat) (e : nat) : res (graph * nat) :=
  let! ed := deref_edge src e in
  new_edge tgt from to (e_label ed) (clone_props f (e_props ed)).
(** clone.go:74-76, and 26: a node without entry in the map is nil, and its use panics *)
Definition copy_edge (src tgt : graph) (f : string -> value -> value) (m : gmap nat nat) (e : nat) : res (graph * nat) :=
  match m !! edge_from src e, m !! edge_to src e with
  | Some a, Some b => clone_edge src tgt f a b e
  | _, _ => Panic
  end.

(** clone.go:33-53; the functions read and write a state [T] *)
Definition copy_graphf {T} (src : graph) (cn : nat -> gmap nat nat -> T -> res (option nat * T))
    (ce : nat -> gmap nat nat -> T -> res T) (t : T) : res (gmap nat nat * T) :=
  let! ns := get_nodes src in
  let! mt := rfold (fun mt n =>
      let! r := cn n mt.1 mt.2 in
      Ok (match r.1 with Some n' => <[n := n']> mt.1 | None => mt.1 end, r.2)) ns (∅, t) in
  let! es := get_edges src in
  let! t' := rfold (fun t e =>
      if decide (is_Some (mt.1 !! edge_from src e)) then
        if decide (is_Some (mt.1 !! edge_to src e)) then ce e mt.1 t else Ok t
      else Ok t) es mt.2 in
  Ok (mt.1, t').
(** clone.go:22-28 *)
Definition copy_graph (src tgt : graph) (f : string -> value -> value) (ord : nat -> list string) : res (gmap nat nat * graph) :=
  copy_graphf src
    (fun n _ tgt => let! r := clone_node src tgt f n (ord n) in Ok (Some r.2, r.1))
    (fun e m tgt => let! r := copy_edge src tgt f m e in Ok r.1) tgt.

(** clone.go:56-66; [k] bounds the depth of the recursion *)
Fixpoint copy_subgraph (k : nat) (src : graph) (f : string -> value -> value) (ord : nat -> list string)
    (n : nat) (tgt : graph) (m : gmap nat nat) : res (gmap nat nat * graph) :=
  match k with
  | O => Diverge
  | S k =>
      match m !! n with
      | Some _ => Ok (m, tgt)
      | None =>
          let! r := clone_node src tgt f n (ord n) in
          let! es := node_edges src n Outgoing in
          rfold (fun mt e =>
              let! mt1 := copy_subgraph k src f ord (edge_to src e) mt.2 mt.1 in
              let! r := copy_edge src mt1.2 f mt1.1 e in
              Ok (mt1.1, r.1)) es (<[n := r.2]> m, r.1)
      end
  end.
