(** C87: what FindNodes and FindEdges find, in which order, with which MaxSize (graph.go:216-351). *)
From Verif Require Import Base Value Index Graph GraphSpec Find OrderSpec QueryOrderSpec FindOrderSpec FindOrderProofs FindEdgeOrderProofs GraphExamples.

(** C87: FindNodes goes through what the index with the fewest nodes gives (the first such in the
    order of Go's map iteration), or through the nodes filed under the rarest label if they are
    fewer, keeps the matching ones, and has the number of those gone through as MaxSize.  FindEdges
    does the same with indexes only, once there are two edges. *)
Definition C87_statement : Prop := forall ops g L p lord pord qord ford,
  valid_history ops -> run ops = Ok g -> L <> ∅ ->
  order_of L lord -> order_of (dom p) pord -> order_of (dom p) qord -> (forall n, prop_order p (ford n)) ->
  find_nodes g L p lord pord qord ford =
    Ok (filter (fun n => node_fits (srun ops) L p n = true) (node_choice ops p lord qord),
        Z.of_nat (length (node_choice ops p lord qord))) /\
  find_edges g L p lord pord qord ford = Ok ((edge_found ops L p qord).1, Z.of_nat (edge_found ops L p qord).2).
(** Proved for values that the indexes can be asked for and, for edges, as long as no edge is removed
    while filed under an old label.  Unlike C14 and C15 this covers values wrapped twice and edges
    that were removed and are still found (missing for the full statement, which is false: the values
    an index refuses (C14_refused_value) and the histories of C84_refuted). *)
Theorem C87_partial ops g L p lord pord qord ford :
  valid_history ops -> run ops = Ok g -> L <> ∅ -> node_findable ops p ->
  order_of L lord -> order_of (dom p) pord -> order_of (dom p) qord -> (forall n, prop_order p (ford n)) ->
  find_nodes g L p lord pord qord ford =
    Ok (filter (fun n => node_fits (srun ops) L p n = true) (node_choice ops p lord qord),
        Z.of_nat (length (node_choice ops p lord qord))).
Proof. exact (find_nodes_order ops g L p lord pord qord ford). Qed.
Print Assumptions C87_partial.
Theorem C87_edges_partial ops g L p lord pord qord ford :
  valid_history ops -> run ops = Ok g -> edge_list_safe ops -> L <> ∅ -> edge_findable ops p ->
  order_of L lord -> order_of (dom p) pord -> order_of (dom p) qord -> (forall n, prop_order p (ford n)) ->
  find_edges g L p lord pord qord ford = Ok ((edge_found ops L p qord).1, Z.of_nat (edge_found ops L p qord).2).
Proof. exact (find_edges_order ops g L p lord pord qord ford). Qed.
Print Assumptions C87_edges_partial.
(** Without labels and properties FindEdges gives all edges in order. *)
Theorem C87_all_edges_partial ops g lord pord qord ford :
  valid_history ops -> run ops = Ok g -> edge_list_safe ops ->
  find_edges g ∅ ∅ lord pord qord ford = Ok (all_order ops, Z.of_nat (length (all_order ops))).
Proof. exact (find_edges_all_order ops g lord pord qord ford). Qed.
Print Assumptions C87_all_edges_partial.

(** Node 0 was set last, so the index gives it last.  Two nodes are filed under B, three have k = 1
    and two j = 7: for A the index of j is taken, for B and k the label. *)
Definition C87_ops : list op :=
  let a : gset string := {["A"]}%string in let l : list string := ["A"; "B"]%string in
  [OAddNodeIndex "k" HashIndex; OAddNodeIndex "j" BtreeIndex;
   ONewNode a {["k" := VInt 1; "j" := VInt 7]} ["A"]%string; ONewNode {["A"; "B"]}%string {["k" := VInt 1; "j" := VInt 8]} l;
   ONewNode {["A"; "B"]}%string {["k" := VInt 1; "j" := VInt 7]} l; ONewNode a {["k" := VInt 2]} ["A"]%string;
   OSetNodeProp 0 "k" (VInt 1); OSetNodeProp 0 "j" (VInt 7)]%string.
Definition C87_k : props := {["k" := VInt 1]}%string.
Definition C87_kj : props := {["k" := VInt 1; "j" := VInt 7]}%string.
Example C87_ex : let g := result C87_ops in
  node_findable C87_ops C87_k /\ node_findable C87_ops C87_kj /\
  valid_history C87_ops /\ run C87_ops = Ok g /\
  order_of (dom C87_kj) ["k"; "j"]%string /\ order_of (dom C87_k) ["k"]%string /\ order_of {["A"]} ["A"]%string /\
  find_nodes g {["A"]} C87_kj ["A"] ["k"; "j"] ["k"; "j"] (fun _ => [("k", VInt 1); ("j", VInt 7)])%string = Ok ([2; 0], 2%Z) /\
  find_nodes g {["A"]} C87_k ["A"] ["k"] ["k"] (fun _ => [("k", VInt 1)])%string = Ok ([1; 2; 0], 3%Z) /\
  find_nodes g {["B"]} C87_k ["B"] ["k"] ["k"] (fun _ => [("k", VInt 1)])%string = Ok ([1; 2], 2%Z) /\
  node_choice C87_ops C87_kj ["A"]%string ["k"; "j"]%string = [2; 0].
Proof.
  intros g. split; [apply node_askable_findable, node_askable_int; by_compute|].
  split; [apply node_askable_findable, node_askable_int; by_compute|]. by_witness.
Qed.
(** Edge 2 was removed with label A and is found through the index of k; edge 1 was set last. *)
Definition C87_edge_ops : list op :=
  [OAddEdgeIndex "k" HashIndex; ONewNode ∅ ∅ []; ONewEdge 0 0 "A" {["k" := VInt 1]}; ONewEdge 0 0 "A" {["k" := VInt 1]};
   ONewEdge 0 0 "B" {["k" := VInt 1]}; ONewEdge 0 0 "A" {["k" := VInt 2]}; ORemoveEdge 2; OSetEdgeProp 1 "k" (VInt 1)]%string.
Example C87_edges_ex : let g := result C87_edge_ops in
  edge_findable C87_edge_ops C87_k /\
  valid_history C87_edge_ops /\ run C87_edge_ops = Ok g /\ edge_list_safe C87_edge_ops /\
  find_edges g {["A"]} C87_k ["A"] ["k"] ["k"] (fun _ => [("k", VInt 1)])%string = Ok ([2; 1], 3%Z) /\
  find_edges g {["A"]} ∅ ["A"] [] [] (fun _ => [])%string = Ok ([1; 4; 3], 3%Z) /\
  edge_found C87_edge_ops {["A"]}%string C87_k ["k"]%string = ([2; 1], 3).
Proof. intros g. split; [apply edge_askable_findable, edge_askable_int; by_compute|]. by_witness. Qed.
