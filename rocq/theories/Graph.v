(** Model of graph.go, node.go, edge.go, indexes.go: the graph and its operations.

    A pointer to a node or edge of the graph is its id.  Removed nodes and edges stay in the
    heap maps [g_nodes], [g_edges] with the field values they had, as Go pointers stay valid.
    A node of another graph is an id without entry in [g_nodes]. *)
From Verif Require Import Base Assoc Value FastSet Links EdgeMap NodeMap Index.

(** node.go:24-32 (the list links [next], [prev] are in [g_nl], [graph] is implicit) *)
Record node := Node { n_labels : gset string; n_props : props; n_in : emap; n_out : emap }.
(** edge.go:23-32 (the link fields [listElements] are in [g_l0], [g_l1], [g_l2]) *)
Record edge := Edge { e_from : nat; e_to : nat; e_label : string; e_props : props }.
(** graph.go:32-37, indexes.go:31-36 *)
Record graph := Graph {
  g_nodes : gmap nat node;       (* heap of nodes *)
  g_edges : gmap nat edge;       (* heap of edges *)
  g_nl : links;                  (* Node.next, Node.prev *)
  g_l0 : links;                  (* Edge.listElements[0]: all edges *)
  g_l1 : links;                  (* Edge.listElements[1]: outgoing *)
  g_l2 : links;                  (* Edge.listElements[2]: incoming *)
  g_list : llist;                (* allNodes *)
  g_all : emap;                  (* allEdges *)
  g_lab : nmap;                  (* index.nodesByLabel *)
  g_nix : gmap string index;     (* index.nodeProperties *)
  g_eix : gmap string index;     (* index.edgeProperties *)
  g_next : nat                   (* idBase *)
}.

(** graph.go:41-46 *)
Definition new_graph : graph := Graph ∅ ∅ ∅ ∅ ∅ ∅ ll_empty em_empty nm_new ∅ ∅ 0.

(** field updates *)
Definition set_nodes (g : graph) x := Graph x (g_edges g) (g_nl g) (g_l0 g) (g_l1 g) (g_l2 g) (g_list g) (g_all g) (g_lab g) (g_nix g) (g_eix g) (g_next g).
Definition set_edges (g : graph) x := Graph (g_nodes g) x (g_nl g) (g_l0 g) (g_l1 g) (g_l2 g) (g_list g) (g_all g) (g_lab g) (g_nix g) (g_eix g) (g_next g).
Definition set_list (g : graph) l L := Graph (g_nodes g) (g_edges g) L (g_l0 g) (g_l1 g) (g_l2 g) l (g_all g) (g_lab g) (g_nix g) (g_eix g) (g_next g).
Definition set_all (g : graph) em L := Graph (g_nodes g) (g_edges g) (g_nl g) L (g_l1 g) (g_l2 g) (g_list g) em (g_lab g) (g_nix g) (g_eix g) (g_next g).
Definition set_l1 (g : graph) L := Graph (g_nodes g) (g_edges g) (g_nl g) (g_l0 g) L (g_l2 g) (g_list g) (g_all g) (g_lab g) (g_nix g) (g_eix g) (g_next g).
Definition set_l2 (g : graph) L := Graph (g_nodes g) (g_edges g) (g_nl g) (g_l0 g) (g_l1 g) L (g_list g) (g_all g) (g_lab g) (g_nix g) (g_eix g) (g_next g).
Definition set_lab (g : graph) x := Graph (g_nodes g) (g_edges g) (g_nl g) (g_l0 g) (g_l1 g) (g_l2 g) (g_list g) (g_all g) x (g_nix g) (g_eix g) (g_next g).
Definition set_nix (g : graph) x := Graph (g_nodes g) (g_edges g) (g_nl g) (g_l0 g) (g_l1 g) (g_l2 g) (g_list g) (g_all g) (g_lab g) x (g_eix g) (g_next g).
Definition set_eix (g : graph) x := Graph (g_nodes g) (g_edges g) (g_nl g) (g_l0 g) (g_l1 g) (g_l2 g) (g_list g) (g_all g) (g_lab g) (g_nix g) x (g_next g).
Definition bump (g : graph) := Graph (g_nodes g) (g_edges g) (g_nl g) (g_l0 g) (g_l1 g) (g_l2 g) (g_list g) (g_all g) (g_lab g) (g_nix g) (g_eix g) (S (g_next g)).

(** dereferencing a node / edge pointer *)
Definition deref_node (g : graph) (n : nat) : res node :=
  match g_nodes g !! n with Some x => Ok x | None => Panic end.
Definition deref_edge (g : graph) (e : nat) : res edge :=
  match g_edges g !! e with Some x => Ok x | None => Panic end.
(** [e.label] *)
Definition lbl (g : graph) (e : nat) : string :=
  match g_edges g !! e with Some x => e_label x | None => EmptyString end.
(** [n.labels] *)
Definition labels_of (g : graph) (n : nat) : gset string :=
  match g_nodes g !! n with Some x => n_labels x | None => ∅ end.
(** enough fuel for every traversal *)
Definition fuel (g : graph) : nat := g_next g.

(** Adding / removing one object to / from the property indexes, for each of its properties
    (indexes.go:112-118, 124-130, 157-163, 167-173).  The loop visits every key once and each
    key has its own index, so the order of Go's map iteration does not matter; [map_to_list]
    fixes one. *)
Definition ixs_add (ixs : gmap string index) (p : props) (id : nat) : res (gmap string index) :=
  rfold (fun ixs kv =>
    match ixs !! kv.1 with
    | None => Ok ixs
    | Some ix => let! ix' := ix_add ix kv.2 id in Ok (<[kv.1 := ix']> ixs)
    end) (map_to_list p) ixs.
Definition ixs_remove (ixs : gmap string index) (p : props) (id : nat) : res (gmap string index) :=
  rfold (fun ixs kv =>
    match ixs !! kv.1 with
    | None => Ok ixs
    | Some ix => let! ix' := ix_remove ix kv.2 id in Ok (<[kv.1 := ix']> ixs)
    end) (map_to_list p) ixs.

(** graph.go:49-73 NewNode/FastNewNode, graph.go:450-453 addNode, indexes.go:109-119.
    [ord]: the order in which NodeMap.Add iterates over the label set. *)
Definition new_node (g : graph) (labels : gset string) (p : props) (ord : list string) : res (graph * nat) :=
  let n := g_next g in
  let g1 := bump (set_nodes g (<[n := Node labels p em_empty em_empty]> (g_nodes g))) in
  let '(l, L) := nl_add (g_list g1) (g_nl g1) n in
  let g2 := set_list g1 l L in
  let g3 := set_lab g2 (nm_add (g_lab g2) n labels ord) in
  let! nix := ixs_add (g_nix g3) p n in
  Ok (set_nix g3 nix, n).

(** graph.go:514-517 *)
Definition connect (g : graph) (e : nat) : res graph :=
  let! ed := deref_edge g e in
  let! tn := deref_node g (e_to ed) in
  let! r := em_add (lbl g) (n_in tn) (g_l2 g) e in
  let g1 := set_l2 (set_nodes g (<[e_to ed := Node (n_labels tn) (n_props tn) r.1 (n_out tn)]> (g_nodes g))) r.2 in
  let! fn := deref_node g1 (e_from ed) in
  let! r' := em_add (lbl g1) (n_out fn) (g_l1 g1) e in
  Ok (set_l1 (set_nodes g1 (<[e_from ed := Node (n_labels fn) (n_props fn) (n_in fn) r'.1]> (g_nodes g1))) r'.2).

(** graph.go:519-522 *)
Definition disconnect (g : graph) (e : nat) : res graph :=
  let! ed := deref_edge g e in
  let! tn := deref_node g (e_to ed) in
  let '(em, L) := em_remove (lbl g) (n_in tn) (g_l2 g) e in
  let g1 := set_l2 (set_nodes g (<[e_to ed := Node (n_labels tn) (n_props tn) em (n_out tn)]> (g_nodes g))) L in
  let! fn := deref_node g1 (e_from ed) in
  let '(em', L') := em_remove (lbl g1) (n_out fn) (g_l1 g1) e in
  Ok (set_l1 (set_nodes g1 (<[e_from ed := Node (n_labels fn) (n_props fn) (n_in fn) em']> (g_nodes g1))) L').

(** [g.allEdges.add(e, 0)] and [g.allEdges.remove(e, 0)] *)
Definition all_add (g : graph) (e : nat) : res graph :=
  let! r := em_add (lbl g) (g_all g) (g_l0 g) e in Ok (set_all g r.1 r.2).
Definition all_remove (g : graph) (e : nat) : graph :=
  let '(em, L) := em_remove (lbl g) (g_all g) (g_l0 g) e in set_all g em L.

(** graph.go:77-111 NewEdge/FastNewEdge; panics unless both nodes belong to the graph *)
Definition new_edge (g : graph) (from to : nat) (label : string) (p : props) : res (graph * nat) :=
  let! _ := deref_node g from in
  let! _ := deref_node g to in
  let e := g_next g in
  let g1 := bump (set_edges g (<[e := Edge from to label p]> (g_edges g))) in
  let! g2 := all_add g1 e in
  let! g3 := connect g2 e in
  let! eix := ixs_add (g_eix g3) p e in
  Ok (set_eix g3 eix, e).

(** graph.go:413-416; [ordo], [ordn] are the iteration orders in NodeMap.Replace *)
Definition set_labels (g : graph) (n : nat) (labels : gset string) (ordo ordn : list string) : res graph :=
  let! nd := deref_node g n in
  let g1 := set_lab g (nm_replace (g_lab g) n (n_labels nd) labels ordo ordn) in
  Ok (set_nodes g1 (<[n := Node labels (n_props nd) (n_in nd) (n_out nd)]> (g_nodes g1))).

(** The index part of graph.go:418-434, 535-551 and 455-468, 553-566. *)
Definition ix_update (ixs : gmap string index) (k : string) (old new : option value) (id : nat)
  : res (gmap string index) :=
  match ixs !! k with
  | None => Ok ixs
  | Some ix =>
      let! ix1 := match old with Some v => ix_remove ix v id | None => Ok ix end in
      let! ix2 := match new with Some v => ix_add ix1 v id | None => Ok ix1 end in
      Ok (<[k := ix2]> ixs)
  end.

(** graph.go:418-434 *)
Definition set_node_prop (g : graph) (n : nat) (k : string) (v : value) : res graph :=
  let! nd := deref_node g n in
  let! nix := ix_update (g_nix g) k (n_props nd !! k) (Some v) n in
  Ok (set_nix (set_nodes g (<[n := Node (n_labels nd) (<[k := v]> (n_props nd)) (n_in nd) (n_out nd)]> (g_nodes g))) nix).
(** graph.go:455-468 *)
Definition rem_node_prop (g : graph) (n : nat) (k : string) : res graph :=
  let! nd := deref_node g n in
  match n_props nd !! k with
  | None => Ok g
  | Some v =>
      let! nix := ix_update (g_nix g) k (Some v) None n in
      Ok (set_nix (set_nodes g (<[n := Node (n_labels nd) (delete k (n_props nd)) (n_in nd) (n_out nd)]> (g_nodes g))) nix)
  end.

(** one iteration of the loops graph.go:477-481 and 483-487; indexes.go:166-174 *)
Definition drop_edge (g : graph) (e : nat) : res graph :=
  let! g1 := disconnect g e in
  let g2 := all_remove g1 e in
  let! ed := deref_edge g2 e in
  let! eix := ixs_remove (g_eix g2) (e_props ed) e in
  Ok (set_eix g2 eix).

(** graph.go:476-489 *)
Definition detach_node (g : graph) (n : nat) : res graph :=
  let! nd := deref_node g n in
  let! ins := em_iter (fuel g) (g_l2 g) (n_in nd) in
  let! g1 := rfold drop_edge ins g in
  let! nd1 := deref_node g1 n in
  let g2 := set_nodes g1 (<[n := Node (n_labels nd1) (n_props nd1) em_empty (n_out nd1)]> (g_nodes g1)) in
  let! nd2 := deref_node g2 n in
  let! outs := em_iter (fuel g2) (g_l1 g2) (n_out nd2) in
  let! g3 := rfold drop_edge outs g2 in
  let! nd3 := deref_node g3 n in
  Ok (set_nodes g3 (<[n := Node (n_labels nd3) (n_props nd3) (n_in nd3) em_empty]> (g_nodes g3))).

(** graph.go:470-474, indexes.go:121-131; [ord]: iteration order in NodeMap.Remove *)
Definition detach_remove_node (g : graph) (n : nat) (ord : list string) : res graph :=
  let! g1 := detach_node g n in
  let! nd := deref_node g1 n in
  let '(l, L) := nl_remove (g_list g1) (g_nl g1) n in
  let g2 := set_list g1 l L in
  let g3 := set_lab g2 (nm_remove (g_lab g2) n (n_labels nd) ord) in
  let! nix := ixs_remove (g_nix g3) (n_props nd) n in
  Ok (set_nix g3 nix).

(** edge.go:62-66, graph.go:524-528 *)
Definition set_edge_label (g : graph) (e : nat) (label : string) : res graph :=
  let! ed := deref_edge g e in
  if decide (label = e_label ed) then Ok g
  else
    let! g1 := disconnect g e in
    let g2 := set_edges g1 (<[e := Edge (e_from ed) (e_to ed) label (e_props ed)]> (g_edges g1)) in
    connect g2 e.

(** graph.go:535-551 *)
Definition set_edge_prop (g : graph) (e : nat) (k : string) (v : value) : res graph :=
  let! ed := deref_edge g e in
  let! eix := ix_update (g_eix g) k (e_props ed !! k) (Some v) e in
  Ok (set_eix (set_edges g (<[e := Edge (e_from ed) (e_to ed) (e_label ed) (<[k := v]> (e_props ed))]> (g_edges g))) eix).
(** graph.go:553-566 *)
Definition rem_edge_prop (g : graph) (e : nat) (k : string) : res graph :=
  let! ed := deref_edge g e in
  match e_props ed !! k with
  | None => Ok g
  | Some v =>
      let! eix := ix_update (g_eix g) k (Some v) None e in
      Ok (set_eix (set_edges g (<[e := Edge (e_from ed) (e_to ed) (e_label ed) (delete k (e_props ed))]> (g_edges g))) eix)
  end.

(** graph.go:530-533 *)
Definition remove_edge (g : graph) (e : nat) : res graph :=
  let! g1 := disconnect g e in Ok (all_remove g1 e).

(** ** Queries: iterators are the list of elements they yield (see Itr.v for MaxSize) *)
(** graph.go:127-129 *)
Definition get_nodes (g : graph) : res (list nat) := walk (fuel g) (g_nl g) (ll_head (g_list g)).
(** graph.go:114-121 *)
Definition num_nodes (g : graph) : Z := ll_n (g_list g).
Definition num_edges (g : graph) : Z := em_n (g_all g).
(** graph.go:136-138 *)
Definition get_nodes_all_labels (g : graph) (labels : gset string) (ord : list string) : res (list nat * Z) :=
  nm_iter_all (labels_of g) (g_lab g) labels ord.
(** graph.go:144-146 *)
Definition get_edges (g : graph) : res (list nat) := em_iter (fuel g) (g_l0 g) (g_all g).
(** graph.go:153-155 *)
Definition get_edges_any_label (g : graph) (ord : list string) : res (list nat) :=
  em_iter_any (lbl g) (fuel g) (g_l0 g) (g_all g) ord.

(** edge.go:35-42 *)
Inductive dir := Incoming | AnyDir | Outgoing.

(** node.go:57-67 *)
Definition node_edges (g : graph) (n : nat) (d : dir) : res (list nat) :=
  let! nd := deref_node g n in
  match d with
  | Incoming => em_iter (fuel g) (g_l2 g) (n_in nd)
  | Outgoing => em_iter (fuel g) (g_l1 g) (n_out nd)
  | AnyDir =>
      let! i := em_iter (fuel g) (g_l2 g) (n_in nd) in
      let! o := em_iter (fuel g) (g_l1 g) (n_out nd) in Ok (i ++ o)
  end.
(** node.go:70-80 *)
Definition node_edges_label (g : graph) (n : nat) (d : dir) (l : string) : res (list nat) :=
  let! nd := deref_node g n in
  match d with
  | Incoming => em_iter_label (lbl g) (fuel g) (g_l2 g) (n_in nd) l
  | Outgoing => em_iter_label (lbl g) (fuel g) (g_l1 g) (n_out nd) l
  | AnyDir =>
      let! i := em_iter_label (lbl g) (fuel g) (g_l2 g) (n_in nd) l in
      let! o := em_iter_label (lbl g) (fuel g) (g_l1 g) (n_out nd) l in Ok (i ++ o)
  end.
(** node.go:83-99; [ord] is the order of [labels.Slice()] *)
Definition em_any_or_all (g : graph) (L : links) (em : emap) (ord : list string) : res (list nat) :=
  if decide (ord = []) then em_iter (fuel g) L em else em_iter_any (lbl g) (fuel g) L em ord.
Definition node_edges_any (g : graph) (n : nat) (d : dir) (ord1 ord2 : list string) : res (list nat) :=
  let! nd := deref_node g n in
  match d with
  | Incoming => em_any_or_all g (g_l2 g) (n_in nd) ord1
  | Outgoing => em_any_or_all g (g_l1 g) (n_out nd) ord2
  | AnyDir =>
      let! i := em_any_or_all g (g_l2 g) (n_in nd) ord1 in
      let! o := em_any_or_all g (g_l1 g) (n_out nd) ord2 in Ok (i ++ o)
  end.

(** indexes.go:47-67 *)
Definition add_node_index (g : graph) (k : string) (it : index_type) : res graph :=
  match g_nix g !! k with
  | Some _ => Ok g
  | None =>
      let! ns := get_nodes g in
      let! ix := rfold (fun ix n =>
          let! nd := deref_node g n in
          match n_props nd !! k with Some v => ix_add ix v n | None => Ok ix end) ns (ix_new it) in
      Ok (set_nix g (<[k := ix]> (g_nix g)))
  end.
(** indexes.go:134-154 *)
Definition add_edge_index (g : graph) (k : string) (it : index_type) : res graph :=
  match g_eix g !! k with
  | Some _ => Ok g
  | None =>
      let! es := get_edges g in
      let! ix := rfold (fun ix e =>
          let! ed := deref_edge g e in
          match e_props ed !! k with Some v => ix_add ix v e | None => Ok ix end) es (ix_new it) in
      Ok (set_eix g (<[k := ix]> (g_eix g)))
  end.

(** node.go:35-37, edge.go:79-81 GetProperty *)
Definition node_prop (g : graph) (n : nat) (k : string) : option value :=
  match g_nodes g !! n with Some nd => get_property (n_props nd) k | None => None end.
Definition edge_prop (g : graph) (e : nat) (k : string) : option value :=
  match g_edges g !! e with Some ed => get_property (e_props ed) k | None => None end.

(** graph.go:173-189 *)
Definition get_nodes_with_property (g : graph) (k : string) : res (list nat) :=
  match g_nix g !! k with
  | Some ix => Ok (ix_values ix).1
  | None =>
      let! ns := get_nodes g in
      Ok (filter (fun n => is_Some (node_prop g n k)) ns)
  end.
(** graph.go:197-214 *)
Definition get_edges_with_property (g : graph) (k : string) : res (list nat) :=
  match g_eix g !! k with
  | Some ix => Ok (ix_values ix).1
  | None =>
      let! es := get_edges g in
      Ok (filter (fun e => is_Some (edge_prop g e k)) es)
  end.

(** ** Operations *)
Inductive op :=
| ONewNode (labels : gset string) (p : props) (ord : list string)
| ONewEdge (from to : nat) (label : string) (p : props)
| OSetLabels (n : nat) (labels : gset string) (ordo ordn : list string)
| OSetNodeProp (n : nat) (k : string) (v : value)
| ORemNodeProp (n : nat) (k : string)
| ODetach (n : nat)
| ODetachRemove (n : nat) (ord : list string)
| OSetEdgeLabel (e : nat) (label : string)
| OSetEdgeProp (e : nat) (k : string) (v : value)
| ORemEdgeProp (e : nat) (k : string)
| ORemoveEdge (e : nat)
| OAddNodeIndex (k : string) (it : index_type)
| OAddEdgeIndex (k : string) (it : index_type).

Definition step (g : graph) (o : op) : res graph :=
  match o with
  | ONewNode labels p ord => let! r := new_node g labels p ord in Ok r.1
  | ONewEdge from to label p => let! r := new_edge g from to label p in Ok r.1
  | OSetLabels n labels ordo ordn => set_labels g n labels ordo ordn
  | OSetNodeProp n k v => set_node_prop g n k v
  | ORemNodeProp n k => rem_node_prop g n k
  | ODetach n => detach_node g n
  | ODetachRemove n ord => detach_remove_node g n ord
  | OSetEdgeLabel e label => set_edge_label g e label
  | OSetEdgeProp e k v => set_edge_prop g e k v
  | ORemEdgeProp e k => rem_edge_prop g e k
  | ORemoveEdge e => remove_edge g e
  | OAddNodeIndex k it => add_node_index g k it
  | OAddEdgeIndex k it => add_edge_index g k it
  end.

(** A history: the calls made so far, oldest first. *)
Definition run (ops : list op) : res graph := rfold step ops new_graph.

(** The id returned by a call that creates an object. *)
Definition created (g : graph) (o : op) : res (list nat) :=
  match o with
  | ONewNode labels p ord => let! r := new_node g labels p ord in Ok [r.2]
  | ONewEdge from to label p => let! r := new_edge g from to label p in Ok [r.2]
  | _ => Ok []
  end.
(** all ids returned in the course of a history, in order *)
Fixpoint created_from (g : graph) (ops : list op) : res (list nat) :=
  match ops with
  | [] => Ok []
  | o :: r =>
      let! xs := created g o in
      let! g' := step g o in
      let! ys := created_from g' r in Ok (xs ++ ys)
  end.
Definition created_ids (ops : list op) : res (list nat) := created_from new_graph ops.
