(** C85, C86: the order in which queries by labels and by property enumerate (maps.go, index.go,
    graph.go:131-138, 168-213). *)
From Verif Require Import Base Value Index Graph GraphSpec OrderSpec QueryOrderSpec LabelOrderProofs QueryOrderProofs QueryEdgeOrderProofs GraphExamples.

(** C85: GetNodesWithAllLabels goes through the nodes filed under the rarest of the labels, in the
    order in which they got that label, and keeps those that have all of them; MaxSize counts the filed ones. *)
Theorem C85_order ops g S ord :
  valid_history ops -> run ops = Ok g -> S <> ∅ -> order_of S ord ->
  get_nodes_all_labels g S ord = Ok (labelled_order ops S ord, Z.of_nat (labelled_size ops ord)).
Proof. exact (nodes_all_labels_order ops g S ord). Qed.
Print Assumptions C85_order.
(** Node 0 loses its labels all at once and gets A back: it keeps its place before node 1.  Node 1
    loses A while it keeps B: it comes last when it gets A back. *)
Definition C85_ops : list op :=
  let a : gset string := {["A"]}%string in let b : gset string := {["B"]}%string in
  let l : list string := ["A"; "B"]%string in
  [ONewNode a ∅ ["A"]%string; ONewNode (a ∪ b) ∅ l; ONewNode a ∅ ["A"]%string; OSetLabels 0 ∅ ["A"]%string [];
   OSetLabels 1 b l ["B"]%string; OSetLabels 0 a [] ["A"]%string; OSetLabels 1 (a ∪ b) ["B"]%string l;
   ONewNode b ∅ ["B"]%string].
Example C85_ex : let g := result C85_ops in
  valid_history C85_ops /\ run C85_ops = Ok g /\
  get_nodes_all_labels g {["A"]}%string ["A"]%string = Ok ([0; 2; 1], 3%Z) /\
  get_nodes_all_labels g {["B"]}%string ["B"]%string = Ok ([1; 3], 2%Z) /\
  labelled_order C85_ops {["A"; "B"]}%string ["A"; "B"]%string = [1] /\ labelled_size C85_ops ["A"; "B"]%string = 2 /\
  order_of {["A"; "B"]}%string ["A"; "B"]%string.
Proof. by_witness. Qed.

(** C86: GetNodesWithProperty and GetEdgesWithProperty enumerate in an order that the calls
    determine: without an index in the order of GetNodes and GetEdges; with a hash index in the
    order in which the property was last set, those that had it when the index was added first;
    with a B-tree by ascending value, and in that order those with the same value. *)
Definition C86_statement : Prop := forall ops g k, valid_history ops -> run ops = Ok g ->
  get_nodes_with_property g k = Ok (arranged (node_index ops k) (node_vals (srun ops) k) (node_prop_order ops k)) /\
  get_edges_with_property g k = Ok (arranged (edge_index ops k) (edge_vals (srun ops) k) (with_prop (edge_vals (srun ops) k) (edge_prop_order ops k))).
(** False: a removed edge stays in the index (C16). *)
Definition C86_witness : list op :=
  [ONewNode ∅ ∅ []; OAddEdgeIndex "k" HashIndex; ONewEdge 0 0 "A" {["k" := VInt 1]}; ORemoveEdge 1].
Theorem C86_refuted : exists ops g, valid_history ops /\ run ops = Ok g /\
  with_prop (edge_vals (srun ops) "k") (edge_prop_order ops "k") = [] /\ get_edges_with_property g "k" = Ok [1].
Proof. exists C86_witness, (result C86_witness). by_witness. Qed.
Print Assumptions C86_refuted.
(** Proved for histories whose lists of nodes and edges are right and whose values the index can
    hold; [edge_entries] has the removed edges that are still in the index, where they keep their
    places (missing for the full statement: the other histories). *)
Theorem C86_partial ops g k :
  valid_history ops -> run ops = Ok g -> node_query_safe ops k ->
  get_nodes_with_property g k = Ok (arranged (node_index ops k) (node_vals (srun ops) k) (node_prop_order ops k)).
Proof. exact (nodes_with_property_order ops g k). Qed.
Print Assumptions C86_partial.
Theorem C86_edges_partial ops g k :
  valid_history ops -> run ops = Ok g -> edge_query_safe ops k ->
  get_edges_with_property g k = Ok (arranged (edge_index ops k) (edge_entries ops k) (edge_prop_order ops k)).
Proof. exact (edges_with_property_order ops g k). Qed.
Print Assumptions C86_edges_partial.
(** What a B-tree gives is ascending. *)
Theorem C86_ascending_partial ops g k :
  valid_history ops -> run ops = Ok g -> node_query_safe ops k -> node_index ops k = Some BtreeIndex ->
  exists xs, get_nodes_with_property g k = Ok xs /\
    StronglySorted (fun i j => forall v w, node_has (srun ops) k v i -> node_has (srun ops) k w j ->
      compare_value w v <> Some Lt) xs.
Proof. exact (node_btree_ascending ops g k). Qed.
Print Assumptions C86_ascending_partial.
Theorem C86_edges_ascending_partial ops g k :
  valid_history ops -> run ops = Ok g -> edge_query_safe ops k -> edge_index ops k = Some BtreeIndex ->
  exists xs, get_edges_with_property g k = Ok xs /\
    StronglySorted (fun i j => forall v w,
      edge_has (srun ops) k v i \/ left_over ops k v i -> edge_has (srun ops) k w j \/ left_over ops k w j ->
      compare_value w v <> Some Lt) xs.
Proof. exact (edge_btree_ascending ops g k). Qed.
Print Assumptions C86_edges_ascending_partial.
(** In a hash index a node comes last when the property is set, even to the value it has. *)
Theorem C86_set_last_partial ops g g' n k v :
  let ops' := ops ++ [OSetNodeProp n k v] in
  valid_history ops' -> run ops = Ok g -> run ops' = Ok g' -> node_query_safe ops k -> node_query_safe ops' k ->
  node_index ops k = Some HashIndex ->
  exists xs, get_nodes_with_property g k = Ok xs /\ get_nodes_with_property g' k = Ok (unfile n xs ++ [n]).
Proof. exact (node_set_last ops g g' n k v). Qed.
Print Assumptions C86_set_last_partial.
(** Nodes 0 to 3 with the values 2 1 2 1; node 0 is set to 1 and node 1 loses the property. *)
Definition C86_ops (it : index_type) : list op :=
  [ONewNode ∅ {["k" := VInt 2]} []; ONewNode ∅ {["k" := VInt 1]} []; OAddNodeIndex "k" it;
   ONewNode ∅ {["k" := VInt 2]} []; ONewNode ∅ {["k" := VInt 1]} []; OSetNodeProp 0 "k" (VInt 1); ORemNodeProp 1 "k"].
Example C86_ex : let h := C86_ops HashIndex in let b := C86_ops BtreeIndex in
  (valid_history h /\ run h = Ok (result h) /\ node_query_safe h "k" /\ node_index h "k" = Some HashIndex /\
   get_nodes_with_property (result h) "k" = Ok [2; 3; 0]) /\
  (valid_history b /\ run b = Ok (result b) /\ node_query_safe b "k" /\ node_index b "k" = Some BtreeIndex /\
   get_nodes_with_property (result b) "k" = Ok [3; 0; 2]).
Proof.
  intros h b. split; (split; [by_compute|split; [apply run_result; vm_compute; reflexivity|split; [|split; [reflexivity|by_compute]]]]).
  - apply node_query_int; [by eexists|by_compute|by_compute].
  - apply node_query_int; [by eexists|by_compute|by_compute].
Qed.
Example C86_set_last_ex : let h := take 5 (C86_ops HashIndex) in let h' := h ++ [OSetNodeProp 0 "k" (VInt 1)] in
  valid_history h' /\ run h = Ok (result h) /\ run h' = Ok (result h') /\ node_query_safe h "k" /\ node_query_safe h' "k" /\
  node_index h "k" = Some HashIndex /\ get_nodes_with_property (result h) "k" = Ok [0; 1; 2; 3] /\
  get_nodes_with_property (result h') "k" = Ok [1; 2; 3; 0].
Proof.
  intros h h'. split; [by_compute|]. split; [apply run_result; vm_compute; reflexivity|].
  split; [apply run_result; vm_compute; reflexivity|].
  split; [apply node_query_int; [by eexists|by_compute|by_compute]|].
  split; [apply node_query_int; [by eexists|by_compute|by_compute]|]. split; [reflexivity|by_compute].
Qed.
(** Edges 1 to 4 with the values 2 1 2 1; edge 3 is removed by Remove and stays, edge 2 is set to 2. *)
Definition C86_edge_ops (it : index_type) : list op :=
  [ONewNode ∅ ∅ []; ONewEdge 0 0 "A" {["k" := VInt 2]}; ONewEdge 0 0 "B" {["k" := VInt 1]}; ONewEdge 0 0 "A" {["k" := VInt 2]};
   OAddEdgeIndex "k" it; ONewEdge 0 0 "A" {["k" := VInt 1]}; ORemoveEdge 3; OSetEdgeProp 2 "k" (VInt 2)].
Example C86_edges_ex : let h := C86_edge_ops HashIndex in let b := C86_edge_ops BtreeIndex in let u := take 4 h in
  (valid_history h /\ run h = Ok (result h) /\ edge_query_safe h "k" /\ edge_index h "k" = Some HashIndex /\
   stale h "k" = {[3 := VInt 2]} /\ get_edges_with_property (result h) "k" = Ok [1; 3; 4; 2]) /\
  (valid_history b /\ run b = Ok (result b) /\ edge_query_safe b "k" /\ edge_index b "k" = Some BtreeIndex /\
   get_edges_with_property (result b) "k" = Ok [4; 1; 3; 2]) /\
  (valid_history u /\ run u = Ok (result u) /\ edge_query_safe u "k" /\ get_edges_with_property (result u) "k" = Ok [1; 3; 2]).
Proof.
  intros h b u. split; [|split]; (split; [by_compute|split; [apply run_result; vm_compute; reflexivity|split; [|try (split; [reflexivity|]); by_compute]]]).
  - apply edge_query_int; [by eexists|by_compute|by_compute].
  - apply edge_query_int; [by eexists|by_compute|by_compute].
  - unfold edge_query_safe. change (edge_index u "k") with (@None index_type). by_compute.
Qed.
