(** C53: calls on live objects return (graph.go, node.go, edge.go, edgemap.go, list.go, indexes.go). *)
From Verif Require Import Base Value Index Graph GraphSpec ProgressProofs GraphExamples.
From Verif Require Import PropertiesEdges.
Local Open Scope string_scope.

Definition C53_statement : Prop := forall ops, valid_history ops -> exists g, run ops = Ok g.
(** This is false: a damaged list of edges (C06) makes NewEdge panic, *)
Theorem C53_refuted : exists ops g,
  valid_history (ops ++ [ONewEdge 0 0 "A" ∅]) /\ run ops = Ok g /\ run (ops ++ [ONewEdge 0 0 "A" ∅]) = Panic.
Proof. exists C23_witness, (result C23_witness). by_witness. Qed.
Print Assumptions C53_refuted.
(** and so does a value a B-tree index cannot compare with those it holds. *)
Definition C53_index_witness : list op :=
  [OAddNodeIndex "k" BtreeIndex; ONewNode ∅ {["k" := VInt 1]} []].
Theorem C53_index_refuted : exists ops g,
  valid_history (ops ++ [ONewNode ∅ {["k" := VStr "a"]} []]) /\ run ops = Ok g /\
  run (ops ++ [ONewNode ∅ {["k" := VStr "a"]} []]) = Panic.
Proof. exists C53_index_witness, (result C53_index_witness). by_witness. Qed.
Print Assumptions C53_index_refuted.
(** Away from these, every call returns; a set of nodes being indexed must moreover be listed
    correctly (C01). *)
Theorem C53_partial ops : valid_history ops -> calls_safe ops -> exists g, run ops = Ok g.
Proof. exact (run_progress ops). Qed.
Print Assumptions C53_partial.
Definition ex_ops_int : list op :=
  [ ONewNode {["P"; "Q"]} {["k" := VInt 1]} ["Q"; "P"]; ONewNode ∅ ∅ []; ONewNode {["P"]} ∅ ["P"];
    ONewEdge 0 1 "A" ∅; ONewEdge 1 2 "B" {["w" := VInt 0]}; ONewEdge 0 0 "A" {["w" := VInt 0]};
    ORemoveEdge 5; OSetEdgeLabel 3 "B"; OSetEdgeLabel 3 "A"; ONewEdge 2 0 "A" ∅].
Definition C53_ops : list op :=
  [OAddNodeIndex "k" BtreeIndex; OAddEdgeIndex "w" HashIndex] ++ ex_ops_int ++
  [OAddNodeIndex "n" HashIndex; OSetEdgeProp 4 "w" (VInt 3); OSetEdgeProp 4 "w" (VInt 4);
   ONewNode {["P"]} {["k" := VInt 1; "z" := VStr "q"]} ["P"]; ODetach 0; ORemNodeProp 1 "k"; ODetachRemove 2 ["P"]].
Example C53_ex : valid_history C53_ops /\ calls_safe C53_ops.
Proof. split; [by_compute|]. apply calls_safe_int; by_compute. Qed.
