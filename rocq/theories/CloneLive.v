(** clone.go with target = source: CopySubgraph(n, n.GetGraph(), ...) and CopyGraph(g, g, ...).  The loops of these
    functions read the graph that their bodies extend, so the iterators are those of ItrLive.v, which keep pointers and
    read the graph as it then is.  The function that clones property values is pure. *)
From Verif Require Import Base Value Links EdgeMap Graph EdgeMapPtr ItrLive Sizes Clone.

(** graph.go:436-448 cloneNode; [ord]: see [new_node] *)
Definition x_clone_node (f : string -> value -> value) (x : xgraph) (n : nat) (ord : list string) : res (xgraph * nat) :=
  let! nd := deref_node (x_g x) n in
  let! x' := x_step x (ONewNode (n_labels nd) (clone_props f (n_props nd)) ord) in
  Ok (x', g_next (x_g x)).
(** graph.go:491-512 cloneEdge, called by clone.go:74-76, 26: a node without entry in the map is nil, and its use panics *)
Definition x_copy_edge (f : string -> value -> value) (x : xgraph) (m : gmap nat nat) (e : nat) : res xgraph :=
  match m !! edge_from (x_g x) e, m !! edge_to (x_g x) e with
  | Some a, Some b =>
      let! ed := deref_edge (x_g x) e in
      x_step x (ONewEdge a b (e_label ed) (clone_props f (e_props ed)))
  | _, _ => Panic
  end.

Section sub.
  Context (f : string -> value -> value).
  (** clone.go:61-65; [rec]: the recursive call; [j] bounds the number of edges visited *)
  Fixpoint x_sub_loop (rec : nat -> xgraph -> gmap nat nat -> res (gmap nat nat * xgraph)) (j : nat)
      (its : list (owner * xitr)) (x : xgraph) (m : gmap nat nat) : res (gmap nat nat * xgraph) :=
    match j with
    | O => Diverge
    | S j =>
        let! p := xs_next (x_a x) its in
        match p.1 with
        | None => Ok (m, x)
        | Some e =>
            let! r := rec (edge_to (x_g x) e) x m in
            let! x' := x_copy_edge f r.2 r.1 e in
            x_sub_loop rec j p.2 x' r.1
        end
    end.
  (** clone.go:56-66; [k] bounds the depth of the recursion, [j] the number of edges visited by each loop *)
  Fixpoint x_copy_subgraph (ord : nat -> list string) (j k : nat) (n : nat) (x : xgraph) (m : gmap nat nat) : res (gmap nat nat * xgraph) :=
    match k with
    | O => Diverge
    | S k =>
        match m !! n with
        | Some _ => Ok (m, x)
        | None =>
            let! r := x_clone_node f x n (ord n) in
            let! its := x_node_edges r.1 n Outgoing QAll in
            x_sub_loop (x_copy_subgraph ord j k) j its r.1 (<[n := r.2]> m)
        end
    end.

  (** clone.go:35-41 with 24; [next]: the field of nodeListIterator (list.go:125-138); [k] bounds the number of nodes visited *)
  Fixpoint x_copy_nodes (ord : nat -> list string) (k : nat) (next : option nat) (x : xgraph) (m : gmap nat nat) : res (gmap nat nat * xgraph) :=
    match k with
    | O => Diverge
    | S k =>
        match next with
        | None => Ok (m, x)
        | Some n =>
            let next' := el_next (lk (g_nl (x_g x)) n) in
            let! r := x_clone_node f x n (ord n) in
            x_copy_nodes ord k next' r.1 (<[n := r.2]> m)
        end
    end.
  (** clone.go:42-51 with 26 *)
  Fixpoint x_copy_edges (k : nat) (its : list (owner * xitr)) (x : xgraph) (m : gmap nat nat) : res xgraph :=
    match k with
    | O => Diverge
    | S k =>
        let! p := xs_next (x_a x) its in
        match p.1 with
        | None => Ok x
        | Some e =>
            if decide (is_Some (m !! edge_from (x_g x) e) /\ is_Some (m !! edge_to (x_g x) e)) then
              let! x' := x_copy_edge f x m e in x_copy_edges k p.2 x' m
            else x_copy_edges k p.2 x m
        end
    end.
  (** clone.go:22-28, 33-53 *)
  Definition x_copy_graph (ord : nat -> list string) (k : nat) (x : xgraph) : res (gmap nat nat * xgraph) :=
    let! r := x_copy_nodes ord k (ll_head (g_list (x_g x))) x ∅ in
    let! its := x_graph_edges r.2 QAll in
    let! x' := x_copy_edges k its r.2 r.1 in
    Ok (r.1, x').
End sub.
