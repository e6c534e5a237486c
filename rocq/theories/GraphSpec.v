(** Abstract labelled property graphs: what the graph API is supposed to do.
    Nothing here mentions lists, links, indexes or any other implementation structure. *)
From Verif Require Import Base Value Index Graph.

Record snode := SNode { sn_labels : gset string; sn_props : props }.
(** [s_nodes], [s_edges]: the live nodes and edges by id; [s_next]: the next fresh id. *)
Record sgraph := SGraph { s_nodes : gmap nat snode; s_edges : gmap nat edge; s_next : nat }.
Definition s_empty : sgraph := SGraph ∅ ∅ 0.

(** removal of all edges at node [n] *)
Definition s_detach (E : gmap nat edge) (n : nat) : gmap nat edge :=
  filter (fun p => e_from p.2 <> n /\ e_to p.2 <> n) E.

Definition sstep (s : sgraph) (o : op) : sgraph :=
  let N := s_nodes s in let E := s_edges s in let i := s_next s in
  match o with
  | ONewNode labels p _ => SGraph (<[i := SNode labels p]> N) E (S i)
  | ONewEdge from to label p => SGraph N (<[i := Edge from to label p]> E) (S i)
  | OSetLabels n labels _ _ => SGraph (alter (fun x => SNode labels (sn_props x)) n N) E i
  | OSetNodeProp n k v => SGraph (alter (fun x => SNode (sn_labels x) (<[k := v]> (sn_props x))) n N) E i
  | ORemNodeProp n k => SGraph (alter (fun x => SNode (sn_labels x) (delete k (sn_props x))) n N) E i
  | ODetach n => SGraph N (s_detach E n) i
  | ODetachRemove n _ => SGraph (delete n N) (s_detach E n) i
  | OSetEdgeLabel e label => SGraph N (alter (fun x => Edge (e_from x) (e_to x) label (e_props x)) e E) i
  | OSetEdgeProp e k v =>
      SGraph N (alter (fun x => Edge (e_from x) (e_to x) (e_label x) (<[k := v]> (e_props x))) e E) i
  | ORemEdgeProp e k =>
      SGraph N (alter (fun x => Edge (e_from x) (e_to x) (e_label x) (delete k (e_props x))) e E) i
  | ORemoveEdge e => SGraph N (delete e E) i
  | OAddNodeIndex _ _ | OAddEdgeIndex _ _ => s
  end.
(** The abstract graph after a history. *)
Definition srun (ops : list op) : sgraph := fold_left sstep ops s_empty.

(** [ord] enumerates the set [X]: a possible iteration order of a Go map with these keys. *)
Definition order_of (X : gset string) (ord : list string) : Prop :=
  NoDup ord /\ forall x, x ∈ ord <-> x ∈ X.

Definition live_node (s : sgraph) (n : nat) : Prop := is_Some (s_nodes s !! n).
Definition live_edge (s : sgraph) (e : nat) : Prop := is_Some (s_edges s !! e).

(** Calls on live objects of this graph; the [ord] arguments are real iteration orders. *)
Definition valid (s : sgraph) (o : op) : Prop :=
  match o with
  | ONewNode labels _ ord => order_of labels ord
  | ONewEdge from to _ _ => live_node s from /\ live_node s to
  | OSetLabels n labels ordo ordn =>
      order_of labels ordn /\ exists x, s_nodes s !! n = Some x /\ order_of (sn_labels x) ordo
  | OSetNodeProp n _ _ | ORemNodeProp n _ | ODetach n => live_node s n
  | ODetachRemove n ord => exists x, s_nodes s !! n = Some x /\ order_of (sn_labels x) ord
  | OSetEdgeLabel e _ | OSetEdgeProp e _ _ | ORemEdgeProp e _ | ORemoveEdge e => live_edge s e
  | OAddNodeIndex _ _ | OAddEdgeIndex _ _ => True
  end.

(** Every call of the history is valid in the abstract graph at that point. *)
Fixpoint valid_from (s : sgraph) (ops : list op) : Prop :=
  match ops with [] => True | o :: r => valid s o /\ valid_from (sstep s o) r end.
Definition valid_history (ops : list op) : Prop := valid_from s_empty ops.

(** Edges at a node of the abstract graph. *)
Definition is_out (s : sgraph) (n e : nat) : Prop := exists x, s_edges s !! e = Some x /\ e_from x = n.
Definition is_in (s : sgraph) (n e : nat) : Prop := exists x, s_edges s !! e = Some x /\ e_to x = n.
Definition has_label (s : sgraph) (l : string) (e : nat) : Prop :=
  exists x, s_edges s !! e = Some x /\ e_label x = l.

(** [lists P xs]: [xs] enumerates exactly the elements satisfying [P], each once. *)
Definition lists (P : nat -> Prop) (xs : list nat) : Prop := NoDup xs /\ forall x, x ∈ xs <-> P x.

(** ** Classes of histories for which weaker theorems are stated *)

(** [n] is the newest live node *)
Definition newest (s : sgraph) (n : nat) : Prop :=
  live_node s n /\ map_Forall (fun m _ => m <= n) (s_nodes s).
Global Instance newest_dec s n : Decision (newest s n).
Proof. unfold newest, live_node. apply _. Defined.
(** Histories for which the list of all nodes stays right, as a state machine reading the calls.
    [stale]: the newest node has been removed, and no node was created since.
    [refill]: the first node created after all nodes were removed.
    Forbidden: creating a node while [stale] and other nodes remain; removing [refill]. *)
Record nguard := NG { ng_stale : bool; ng_refill : option nat }.
Definition ng_init : nguard := NG false None.
Definition ng_step (x : nguard) (s : sgraph) (o : op) : nguard :=
  match o with
  | ONewNode _ _ _ => NG false (if ng_stale x then Some (s_next s) else ng_refill x)
  | ODetachRemove n _ => NG (ng_stale x || bool_decide (newest s n)) (ng_refill x)
  | _ => x
  end.
Definition ng_ok (x : nguard) (s : sgraph) (o : op) : Prop :=
  match o with
  | ONewNode _ _ _ => ng_stale x = true -> s_nodes s = ∅
  | ODetachRemove n _ => ng_refill x <> Some n
  | _ => True
  end.
Fixpoint node_list_safe_from (x : nguard) (s : sgraph) (ops : list op) : Prop :=
  match ops with
  | [] => True
  | o :: r => ng_ok x s o /\ node_list_safe_from (ng_step x s o) (sstep s o) r
  end.
Definition node_list_safe (ops : list op) : Prop := node_list_safe_from ng_init s_empty ops.

(** the edges a call removes *)
Definition removes (s : sgraph) (o : op) (e : nat) : Prop :=
  live_edge s e /\ ~ live_edge (sstep s o) e.
(** The label each edge is filed under in the list of all edges: the label it had when it was
    created, or when the second edge of the graph was created next to it.
    Changing the label of an edge does not move it. *)
Definition filed_step (F : gmap nat string) (s : sgraph) (o : op) : gmap nat string :=
  match o with
  | ONewEdge _ _ l _ =>
      <[s_next s := l]> (if decide (2 <= size (s_edges s)) then F else e_label <$> s_edges s)
  | _ => F
  end.
Fixpoint filed_run (F : gmap nat string) (s : sgraph) (ops : list op) : gmap nat string :=
  match ops with [] => F | o :: r => filed_run (filed_step F s o) (sstep s o) r end.
Definition filed (ops : list op) : gmap nat string := filed_run ∅ s_empty ops.
(** [e] is filed under its current label, or is the only edge *)
Definition filed_ok (F : gmap nat string) (s : sgraph) (e : nat) : Prop :=
  match s_edges s !! e with
  | Some x => 2 <= size (s_edges s) -> F !! e = Some (e_label x)
  | None => True
  end.
(** No edge is removed (alone or with a node) while filed under a label it no longer has. *)
Fixpoint edge_list_safe_from (F : gmap nat string) (s : sgraph) (ops : list op) : Prop :=
  match ops with
  | [] => True
  | o :: r => (forall e, removes s o e -> filed_ok F s e) /\
              edge_list_safe_from (filed_step F s o) (sstep s o) r
  end.
Definition edge_list_safe (ops : list op) : Prop := edge_list_safe_from ∅ s_empty ops.

(** ** Vocabulary of the property statements *)
(** the current label of edge [e] is in [S] *)
Definition label_in (s : sgraph) (S : gset string) (e : nat) : Prop :=
  match s_edges s !! e with Some x => e_label x ∈ S | None => False end.
Global Instance label_in_dec s S e : Decision (label_in s S e).
Proof. unfold label_in. destruct (s_edges s !! e); apply _. Defined.
(** edge [e] starts or ends at node [n] *)
Definition incident (s : sgraph) (n e : nat) : Prop :=
  match s_edges s !! e with Some x => e_from x = n \/ e_to x = n | None => False end.
Global Instance incident_dec s n e : Decision (incident s n e).
Proof. unfold incident. destruct (s_edges s !! e); apply _. Defined.
(** edge [e] is among the edges of node [n] in direction [d] *)
Definition at_node (s : sgraph) (n : nat) (d : dir) (e : nat) : Prop :=
  match d with
  | Incoming => is_in s n e
  | Outgoing => is_out s n e
  | AnyDir => is_in s n e \/ is_out s n e
  end.
(** number of occurrences in a list *)
Definition occurs (x : nat) (xs : list nat) : nat := length (filter (fun y => y = x) xs).
(** the node / edge whose labels or properties a call writes *)
Definition node_target (o : op) : option nat :=
  match o with OSetLabels n _ _ _ | OSetNodeProp n _ _ | ORemNodeProp n _ => Some n | _ => None end.
Definition edge_target (o : op) : option nat :=
  match o with OSetEdgeLabel e _ | OSetEdgeProp e _ _ | ORemEdgeProp e _ => Some e | _ => None end.
(** [xs] enumerates the live nodes in creation order *)
Definition lists_nodes (s : sgraph) (xs : list nat) : Prop :=
  lists (live_node s) xs /\ StronglySorted lt xs.

(** ** Property indexes *)
(** the type of the index on node / edge property [k], if the history created one
    (a second AddIndex for the same key is ignored) *)
Fixpoint node_index (ops : list op) (k : string) : option index_type :=
  match ops with
  | [] => None
  | OAddNodeIndex k' it :: r => if decide (k' = k) then Some it else node_index r k
  | _ :: r => node_index r k
  end.
Fixpoint edge_index (ops : list op) (k : string) : option index_type :=
  match ops with
  | [] => None
  | OAddEdgeIndex k' it :: r => if decide (k' = k) then Some it else edge_index r k
  | _ :: r => edge_index r k
  end.
(** live nodes / edges with property [k] *)
Definition node_has (s : sgraph) (k : string) (v : value) (n : nat) : Prop :=
  exists x, s_nodes s !! n = Some x /\ sn_props x !! k = Some v.
Definition edge_has (s : sgraph) (k : string) (v : value) (e : nat) : Prop :=
  exists x, s_edges s !! e = Some x /\ e_props x !! k = Some v.
(** the call writes value [v] to property [k] of some node / edge *)
Definition writes_node (o : op) (k : string) (v : value) : Prop :=
  match o with
  | ONewNode _ p _ => p !! k = Some v
  | OSetNodeProp _ k' w => k' = k /\ w = v
  | _ => False
  end.
Definition writes_edge (o : op) (k : string) (v : value) : Prop :=
  match o with
  | ONewEdge _ _ _ p => p !! k = Some v
  | OSetEdgeProp _ k' w => k' = k /\ w = v
  | _ => False
  end.
(** values of property [k] given to the index on [k]: those the nodes / edges have when the index
    is created, and those written afterwards *)
Definition files_node (ops : list op) (o : op) (k : string) (v : value) : Prop :=
  is_Some (node_index (ops ++ [o]) k) /\
  (writes_node o k v \/ node_index ops k = None /\ exists n, node_has (srun ops) k v n).
Definition files_edge (ops : list op) (o : op) (k : string) (v : value) : Prop :=
  is_Some (edge_index (ops ++ [o]) k) /\
  (writes_edge o k v \/ edge_index ops k = None /\ exists e, edge_has (srun ops) k v e).
Definition node_filed (ops : list op) (k : string) (v : value) : Prop :=
  exists ops1 o ops2, ops = ops1 ++ o :: ops2 /\ files_node ops1 o k v.
Definition edge_filed (ops : list op) (k : string) (v : value) : Prop :=
  exists ops1 o ops2, ops = ops1 ++ o :: ops2 /\ files_edge ops1 o k v.
(** values an index of the given type can hold together: mutually comparable for a B-tree,
    hashable (after one unwrapping) for a hash table *)
Definition storable (it : index_type) (D : value -> Prop) : Prop :=
  match it with
  | BtreeIndex => forall v w, D v -> D w -> compare_value v w <> None
  | HashIndex => forall v, D v -> match v with VNative w => hashable w | _ => hashable v end = true
  end.
(** edge [e] was removed by Edge.Remove while property [k] was indexed and had value [v] on it *)
Definition left_over (ops : list op) (k : string) (v : value) (e : nat) : Prop :=
  exists ops1 ops2, ops = ops1 ++ ORemoveEdge e :: ops2 /\ is_Some (edge_index ops1 k) /\
    edge_has (srun ops1) k v e.
(** the node list was right whenever an index on [k] was asked for *)
Definition node_scan_safe (ops : list op) (k : string) : Prop :=
  forall ops1 ops2 it, ops = ops1 ++ OAddNodeIndex k it :: ops2 -> node_list_safe ops1.
Definition edge_scan_safe (ops : list op) (k : string) : Prop :=
  forall ops1 ops2 it, ops = ops1 ++ OAddEdgeIndex k it :: ops2 -> edge_list_safe ops1.
(** what GetNodesWithProperty / GetEdgesWithProperty need: an index built from a correct list and
    over storable values, or a correct list *)
Definition node_query_safe (ops : list op) (k : string) : Prop :=
  match node_index ops k with
  | Some it => storable it (node_filed ops k) /\ node_scan_safe ops k
  | None => node_list_safe ops
  end.
Definition edge_query_safe (ops : list op) (k : string) : Prop :=
  match edge_index ops k with
  | Some it => storable it (edge_filed ops k) /\ edge_scan_safe ops k
  | None => edge_list_safe ops
  end.

(** ** Queries by labels and properties *)
(** value [w] answers a request for [v] *)
Definition answers (v w : value) : Prop := compare_value v w = Some Eq.
Definition node_match (s : sgraph) (L : gset string) (p : props) (n : nat) : Prop :=
  exists x, s_nodes s !! n = Some x /\ L ⊆ sn_labels x /\
    forall k v, p !! k = Some v -> exists w, sn_props x !! k = Some w /\ answers v w.
Definition edge_match (s : sgraph) (L : gset string) (p : props) (e : nat) : Prop :=
  exists x, s_edges s !! e = Some x /\ (L <> ∅ -> e_label x ∈ L) /\
    forall k v, p !! k = Some v -> exists w, e_props x !! k = Some w /\ answers v w.
(** an order in which Go may iterate over a property map *)
Definition prop_order (p : props) (l : list (string * value)) : Prop := l ≡ₚ map_to_list p.
(** an index over values [D] can be asked for [v]: [v] is storable with them, and the hash index,
    which unwraps only one level of native values, does not tell answering values apart *)
Definition once (v : value) : value := match v with VNative w => w | _ => v end.
Definition askable (it : index_type) (D : value -> Prop) (v : value) : Prop :=
  storable it (fun w => D w \/ w = v) /\
  (it = HashIndex -> forall w, D w -> answers v w -> once w = once v).
(** an index holding values of [D] panics when asked for [v]: incomparable with all of them, or
    unhashable *)
Definition refuses (it : index_type) (D : value -> Prop) (v : value) : Prop :=
  match it with
  | BtreeIndex => forall w, D w -> compare_value v w = None
  | HashIndex => match v with VNative w => hashable w | _ => hashable v end = false
  end.
Definition node_askable (ops : list op) (p : props) : Prop :=
  forall k v it, p !! k = Some v -> node_index ops k = Some it ->
    askable it (node_filed ops k) v /\ node_scan_safe ops k.
Definition edge_askable (ops : list op) (p : props) : Prop :=
  forall k v it, p !! k = Some v -> edge_index ops k = Some it ->
    askable it (edge_filed ops k) v /\ edge_scan_safe ops k.

(** ** Calls that return: no edge is removed while filed under an old label, indexed keys only get
    values the index can hold, and the node list is right when a node index is built from it *)
Definition calls_safe (ops : list op) : Prop :=
  edge_list_safe ops /\
  (forall k it, node_index ops k = Some it -> storable it (node_filed ops k) /\ node_scan_safe ops k) /\
  (forall k it, edge_index ops k = Some it -> storable it (edge_filed ops k)).
