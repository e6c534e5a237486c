(** Loops over nodes with given labels, or over nodes or edges with a property, whose body changes the graph (SetLive.v). *)
From Verif Require Import Base Value Graph GraphSpec ItrLiveSpec.

(** A call that does not interfere with a loop over the nodes that have all of [labels], having visited [vis]: it gives no
    node that had not all of them the last one missing, and takes none of them from a node that is not yet visited. *)
Definition labels_keep (labels : gset string) (s : sgraph) (vis : list nat) (o : op) : Prop :=
  match o with
  | ONewNode ls _ _ => ~ labels ⊆ ls
  | OSetLabels m ls _ _ => forall x, s_nodes s !! m = Some x ->
      (forall l, l ∈ labels -> l ∈ ls <-> l ∈ sn_labels x) \/
      m ∈ vis /\ forall l, l ∈ labels -> l ∈ ls -> l ∈ sn_labels x
  | ODetachRemove m _ => forall x l, s_nodes s !! m = Some x -> l ∈ labels -> l ∈ sn_labels x -> m ∈ vis
  | _ => True
  end.
(** no call of the loop interferes with it; as [loop_keeps], with the nodes visited in place of those to be visited *)
Fixpoint loop_keeps_vis (K : sgraph -> list nat -> op -> Prop) (body : list nat -> list op) (s : sgraph) (vis es : list nat) : Prop :=
  match es with
  | [] => True
  | e :: r =>
      calls_keep K s (vis ++ [e]) (body (vis ++ [e])) /\
      loop_keeps_vis K body (fold_left sstep (body (vis ++ [e])) s) (vis ++ [e]) r
  end.

(** A call that does not interfere with a loop over the nodes with property [k], using a hash index, that has still to
    visit [rest].  (Setting the property moves the node to the end.) *)
Definition prop_keeps (k : string) (s : sgraph) (rest : list nat) (o : op) : Prop :=
  match o with
  | ONewNode _ p _ => p !! k = None
  | OSetNodeProp _ k' _ => k' <> k
  | ORemNodeProp m k' => k' = k -> m ∉ rest
  | ODetachRemove m _ => m ∉ rest
  | _ => True
  end.
(** The same for edges.  RemoveEdge leaves the edge in the index (C16). *)
Definition eprop_keeps (k : string) (s : sgraph) (rest : list nat) (o : op) : Prop :=
  match o with
  | ONewEdge _ _ _ p => p !! k = None
  | OSetEdgeProp _ k' _ => k' <> k
  | ORemEdgeProp e k' => k' = k -> e ∉ rest
  | ODetach m | ODetachRemove m _ => forall e, e ∈ rest -> ~ incident s m e
  | _ => True
  end.
(** The same for nodes when there is no index, having visited [vis].  Setting the property of a node that has it does not
    matter, nor do new nodes without it, but removing a node that will be passed over does. *)
Definition scan_keeps (k : string) (s : sgraph) (vis : list nat) (o : op) : Prop :=
  match o with
  | ONewNode _ p _ => p !! k = None
  | OSetNodeProp m k' _ => k' = k -> exists x, s_nodes s !! m = Some x /\ is_Some (sn_props x !! k)
  | ORemNodeProp m k' => k' = k -> exists n, n ∈ vis /\ m <= n
  | ODetachRemove m _ => exists n, n ∈ vis /\ m <= n
  | _ => True
  end.

(** The same for edges when there is no index; [rest]: all edges not yet reached, with the property or without. *)
Definition escan_keeps (k : string) (s : sgraph) (rest : list nat) (o : op) : Prop :=
  match o with
  | OSetEdgeProp e k' _ => k' = k -> e ∈ rest -> exists v, edge_has s k v e
  | ORemEdgeProp e k' => k' = k -> e ∉ rest
  | _ => graph_keeps s rest o
  end.
(** the body of a loop over all edges that makes the calls of [body] at those of [es], and none at the others *)
Definition only (es : list nat) (body : list nat -> list op) (vis : list nat) : list op :=
  match last vis with Some e => if decide (e ∈ es) then body (filter (fun x => x ∈ es) vis) else [] | None => [] end.

(** [setting k v vis]: set a property of the node visited last *)
Definition setting (k : string) (v : value) (vis : list nat) : list op :=
  match last vis with Some n => [OSetNodeProp n k v] | None => [] end.
(** [unsetting k vis]: remove a property of the node visited last *)
Definition unsetting (k : string) (vis : list nat) : list op :=
  match last vis with Some n => [ORemNodeProp n k] | None => [] end.
(** [labelling ls f vis]: set the labels of the node visited last; [f]: the iteration orders of the old and the new labels *)
Definition labelling (ls : gset string) (f : nat -> list string * list string) (vis : list nat) : list op :=
  match last vis with Some n => [OSetLabels n ls (f n).1 (f n).2] | None => [] end.
(** [esetting k v vis]: set a property of the edge visited last *)
Definition esetting (k : string) (v : value) (vis : list nat) : list op :=
  match last vis with Some e => [OSetEdgeProp e k v] | None => [] end.
