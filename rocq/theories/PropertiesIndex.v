(** C13, C16: property indexes agree with scans (indexes.go, btreeindex.go, hashindex.go,
    graph.go:173-214). *)
From Verif Require Import Base Value Index Graph GraphSpec IndexGraphProofs GraphExamples.

(** C13 in full: for storable values, GetNodesWithProperty is exact, with or without an index.
    This is false, because both the index creation and the scan read the node list, which can be
    wrong (see C01). *)
Definition C13_statement : Prop := forall ops g k,
  valid_history ops -> run ops = Ok g ->
  (forall it, node_index ops k = Some it -> storable it (node_filed ops k)) ->
  exists xs, get_nodes_with_property g k = Ok xs /\ lists (fun n => exists v, node_has (srun ops) k v n) xs.
Definition C13_witness : list op :=
  [ONewNode ∅ ∅ []; ONewNode ∅ ∅ []; ODetachRemove 1 []; ONewNode ∅ {["k" := VInt 1]} []; OAddNodeIndex "k" BtreeIndex].
Theorem C13_refuted : exists ops g,
  valid_history ops /\ run ops = Ok g /\ s_nodes (srun ops) = {[0 := SNode ∅ ∅; 2 := SNode ∅ {["k" := VInt 1]}]} /\
  get_nodes_with_property g "k" = Ok [].
Proof. exists C13_witness, (result C13_witness). by_witness. Qed.
Print Assumptions C13_refuted.
(** What holds: exactness if the node list is right when it is read, that is when the index is
    created, or at the query if there is no index (missing for the full statement: histories
    rejected by [node_list_safe] at those points). *)
Theorem C13_partial ops g k :
  valid_history ops -> run ops = Ok g -> node_query_safe ops k ->
  exists xs, get_nodes_with_property g k = Ok xs /\ lists (fun n => exists v, node_has (srun ops) k v n) xs.
Proof. exact (nodes_with_property_ok ops g k). Qed.
Print Assumptions C13_partial.
(** Whether, when and how the property is indexed does not change the answer. *)
Theorem C13_index_irrelevant_partial ops1 ops2 g1 g2 k :
  valid_history ops1 -> run ops1 = Ok g1 -> node_query_safe ops1 k ->
  valid_history ops2 -> run ops2 = Ok g2 -> node_query_safe ops2 k ->
  s_nodes (srun ops1) = s_nodes (srun ops2) ->
  exists xs ys, get_nodes_with_property g1 k = Ok xs /\ get_nodes_with_property g2 k = Ok ys /\ xs ≡ₚ ys.
Proof. exact (nodes_with_property_same ops1 ops2 g1 g2 k). Qed.
Print Assumptions C13_index_irrelevant_partial.
(** index first (B-tree), index last (hash), no index; node 1 changes its value, node 2 loses the
    property, node 3 is removed *)
Definition C13_data : list op :=
  [ONewNode ∅ {["k" := VInt 3]} []; ONewNode ∅ {["k" := VInt 1]} []; ONewNode ∅ {["k" := VInt 1]} [];
   ONewNode ∅ {["k" := VInt 2]} []; ONewNode ∅ ∅ []; OSetNodeProp 1 "k" (VInt 5); ORemNodeProp 2 "k"; ODetachRemove 3 []].
Definition C13_ex1 : list op := OAddNodeIndex "k" BtreeIndex :: C13_data.
Definition C13_ex2 : list op := C13_data ++ [OAddNodeIndex "k" HashIndex].
Example C13_ex :
  (valid_history C13_ex1 /\ (exists g, run C13_ex1 = Ok g /\ get_nodes_with_property g "k" = Ok [0; 1]) /\ node_query_safe C13_ex1 "k") /\
  (valid_history C13_ex2 /\ (exists g, run C13_ex2 = Ok g /\ get_nodes_with_property g "k" = Ok [0; 1]) /\ node_query_safe C13_ex2 "k") /\
  (valid_history C13_data /\ (exists g, run C13_data = Ok g /\ get_nodes_with_property g "k" = Ok [0; 1]) /\ node_query_safe C13_data "k").
Proof.
  split; [|split]; (split; [by_compute|split; [by_compute|]]).
  - apply node_query_int; [by eexists|by_compute|by_compute].
  - apply node_query_int; [by eexists|by_compute|by_compute].
  - unfold node_query_safe. change (node_index C13_data "k") with (@None index_type). by_compute.
Qed.

(** C16 in full, and false: Edge.Remove does not take the edge out of the indexes. *)
Definition C16_statement : Prop := forall ops g k,
  valid_history ops -> run ops = Ok g ->
  (forall it, edge_index ops k = Some it -> storable it (edge_filed ops k)) ->
  exists xs, get_edges_with_property g k = Ok xs /\ lists (fun e => exists v, edge_has (srun ops) k v e) xs.
Definition C16_witness : list op :=
  [OAddEdgeIndex "k" BtreeIndex; ONewNode ∅ ∅ []; ONewEdge 0 0 "A" {["k" := VInt 1]}; ORemoveEdge 1].
Theorem C16_refuted : exists ops g,
  valid_history ops /\ run ops = Ok g /\ s_edges (srun ops) = ∅ /\ get_edges_with_property g "k" = Ok [1].
Proof. exists C16_witness, (result C16_witness). by_witness. Qed.
Print Assumptions C16_refuted.
(** What is enumerated: the edges having the property and those that had it when they were removed
    by Edge.Remove with the index present. *)
Theorem C16_characterised ops g k :
  valid_history ops -> run ops = Ok g -> edge_query_safe ops k ->
  exists xs, get_edges_with_property g k = Ok xs /\
    lists (fun e => exists v, edge_has (srun ops) k v e \/ left_over ops k v e) xs.
Proof. exact (edges_with_property_ok ops g k). Qed.
Print Assumptions C16_characterised.
(** So it is exact when there are no such edges (missing for the full statement: histories with
    such edges or where a wrong edge list is read). *)
Theorem C16_partial ops g k :
  valid_history ops -> run ops = Ok g -> edge_query_safe ops k -> (forall v e, ~ left_over ops k v e) ->
  exists xs, get_edges_with_property g k = Ok xs /\ lists (fun e => exists v, edge_has (srun ops) k v e) xs.
Proof. exact (edges_with_property_exact ops g k). Qed.
Print Assumptions C16_partial.
Definition C16_ops : list op :=
  [ONewNode ∅ ∅ []; ONewNode ∅ ∅ []; ONewEdge 0 1 "A" {["k" := VInt 1]}; ONewEdge 0 0 "B" ∅; OAddEdgeIndex "k" HashIndex;
   ONewEdge 0 0 "B" {["k" := VInt 1]}; OSetEdgeProp 3 "k" (VInt 7); ONewEdge 0 0 "C" {["k" := VInt 9]};
   ORemEdgeProp 5 "k"; ODetach 1].
Example C16_ex :
  valid_history C16_ops /\ (exists g, run C16_ops = Ok g /\ get_edges_with_property g "k" = Ok [4; 3]) /\
  edge_query_safe C16_ops "k" /\ forall v e, ~ left_over C16_ops "k" v e.
Proof.
  split; [by_compute|]. split; [by_compute|]. split.
  - apply edge_query_int; [by eexists|by_compute|by_compute].
  - apply no_left_over. by_compute.
Qed.
