(** Loops over edges or nodes whose body changes the graph (ItrLive.v). *)
From Verif Require Import Base Value Links EdgeMap Graph GraphSpec EdgeMapPtr ItrLive.

(** the calls made by a loop that visits [es], having visited [vis] *)
Fixpoint loop_calls (body : list nat -> list op) (vis es : list nat) : list op :=
  match es with [] => [] | e :: r => body (vis ++ [e]) ++ loop_calls body (vis ++ [e]) r end.

(** the labels of the edges that a query yields *)
Definition selects (q : query) (l : string) : Prop :=
  match q with QAll => True | QLabel l' => l = l' | QAny ord _ => ord = [] \/ l ∈ ord end.
(** A call that does not interfere with a loop over the edges of node [n] in direction [d] that has still to visit
    [rest]: it removes no edge of [rest]; it creates no edge that the loop would have visited, and changes the label of
    no edge at the node, unless it has been visited (or would not have been) and gets a label that the loop does not select. *)
Definition node_keeps (n : nat) (d : dir) (q : query) (s : sgraph) (rest : list nat) (o : op) : Prop :=
  match o with
  | ORemoveEdge e => e ∉ rest
  | ODetach m | ODetachRemove m _ => forall e, e ∈ rest -> ~ incident s m e
  | ONewEdge from to l _ => selects q l -> (d <> Incoming -> from <> n) /\ (d <> Outgoing -> to <> n)
  | OSetEdgeLabel e l => at_node s n d e -> has_label s l e \/ ~ selects q l /\ e ∉ rest
  | _ => True
  end.
(** the same for a loop over all edges of the graph: relabelling does not matter *)
Definition graph_keeps (s : sgraph) (rest : list nat) (o : op) : Prop :=
  match o with
  | ORemoveEdge e => e ∉ rest
  | ODetach m | ODetachRemove m _ => forall e, e ∈ rest -> ~ incident s m e
  | ONewEdge _ _ _ _ => False
  | _ => True
  end.
(** the same for a loop over all nodes *)
Definition nodes_keep (s : sgraph) (rest : list nat) (o : op) : Prop :=
  match o with
  | ODetachRemove m _ => m ∉ rest
  | ONewNode _ _ _ => False
  | _ => True
  end.

Section loops.
  Context (K : sgraph -> list nat -> op -> Prop) (body : list nat -> list op).
  Fixpoint calls_keep (s : sgraph) (rest : list nat) (ops : list op) : Prop :=
    match ops with [] => True | o :: r => K s rest o /\ calls_keep (sstep s o) rest r end.
  (** no call of the loop interferes with the rest of it *)
  Fixpoint loop_keeps (s : sgraph) (vis es : list nat) : Prop :=
    match es with
    | [] => True
    | e :: r =>
        calls_keep s r (body (vis ++ [e])) /\
        loop_keeps (fold_left sstep (body (vis ++ [e])) s) (vis ++ [e]) r
    end.
End loops.

(** the label orders are orders of the same set of labels *)
Definition query_ok (q : query) : Prop :=
  match q with QAny ord1 ord2 => exists S, order_of S ord1 /\ order_of S ord2 | _ => True end.
(** what the iterator yields if nothing changes *)
Definition node_query (g : graph) (n : nat) (d : dir) (q : query) : res (list nat) :=
  match q with
  | QAll => node_edges g n d
  | QLabel l => node_edges_label g n d l
  | QAny ord1 ord2 => node_edges_any g n d ord1 ord2
  end.
Definition graph_query (g : graph) (q : query) : res (list nat) :=
  match q with QAny ord _ => get_edges_any_label g ord | _ => get_edges g end.
(** [removing vis]: remove the edge visited last *)
Definition removing (vis : list nat) : list op :=
  match last vis with Some e => [ORemoveEdge e] | None => [] end.
(** [detaching s vis]: remove the target node of the edge visited last; [ordf]: iteration orders of label sets *)
Definition detaching (ordf : nat -> list string) (s : sgraph) (vis : list nat) : list op :=
  match last vis with
  | Some e => match s_edges s !! e with Some x => [ODetachRemove (e_to x) (ordf (e_to x))] | None => [] end
  | None => []
  end.
(** [relabelling l vis]: set the label of the edge visited last *)
Definition relabelling (l : string) (vis : list nat) : list op :=
  match last vis with Some e => [OSetEdgeLabel e l] | None => [] end.
(** [removing_nodes ordf vis]: remove the node visited last *)
Definition removing_nodes (ordf : nat -> list string) (vis : list nat) : list op :=
  match last vis with Some n => [ODetachRemove n (ordf n)] | None => [] end.
(** [creating vis]: create a node for each one visited *)
Definition creating (vis : list nat) : list op := [ONewNode ∅ ∅ []].
(** [nothing vis]: no calls *)
Definition nothing (vis : list nat) : list op := [].
