(** C83, C84: the order in which edges are enumerated (edgemap.go, node.go:57-99, graph.go:144-155). *)
From Verif Require Import Base Value Graph GraphSpec OrderSpec OrderRunProofs GraphExamples.

(** C83: the edges of a node are enumerated in an order that the history of the calls determines: a
    new edge comes behind the last edge of the node that has its label, or last if it is the first
    with that label; an edge given another label is taken out and comes behind the last one with
    the new label; nothing else moves. *)
Theorem C83_order ops g n d :
  valid_history ops -> run ops = Ok g -> live_node (srun ops) n ->
  node_edges g n d = Ok (node_order ops n d).
Proof. exact (node_edges_order ops g n d). Qed.
Print Assumptions C83_order.
(** Selecting by label keeps that order. *)
Theorem C83_label_order ops g n d l :
  valid_history ops -> run ops = Ok g -> live_node (srun ops) n ->
  node_edges_label g n d l = Ok (with_label (srun ops) l (node_order ops n d)).
Proof. exact (node_edges_label_order ops g n d l). Qed.
Print Assumptions C83_label_order.
(** A set of labels selects label after label, in the order Go's map iteration gives. *)
Theorem C83_any_order ops g n d S ord1 ord2 :
  valid_history ops -> run ops = Ok g -> live_node (srun ops) n -> order_of S ord1 -> order_of S ord2 ->
  node_edges_any g n d ord1 ord2 = Ok match d with
    | Incoming => chosen (srun ops) ord1 (edge_order e_to ops n)
    | Outgoing => chosen (srun ops) ord2 (edge_order e_from ops n)
    | AnyDir => chosen (srun ops) ord1 (edge_order e_to ops n) ++ chosen (srun ops) ord2 (edge_order e_from ops n)
    end.
Proof. exact (node_edges_any_order ops g n d S ord1 ord2). Qed.
Print Assumptions C83_any_order.
(** The edges on one side of a node come label after label. *)
Theorem C83_by_label ops g n d :
  valid_history ops -> run ops = Ok g -> live_node (srun ops) n -> d <> AnyDir ->
  by_label (srun ops) (node_order ops n d).
Proof. exact (node_order_by_label ops g n d). Qed.
Print Assumptions C83_by_label.
(** In particular, a new edge is the last one with its label at both its ends. *)
Theorem C83_new_edge_last ops from to l p g g' :
  valid_history (ops ++ [ONewEdge from to l p]) -> run ops = Ok g -> run (ops ++ [ONewEdge from to l p]) = Ok g' ->
  (exists xs, node_edges_label g from Outgoing l = Ok xs /\
     node_edges_label g' from Outgoing l = Ok (xs ++ [s_next (srun ops)])) /\
  (exists xs, node_edges_label g to Incoming l = Ok xs /\
     node_edges_label g' to Incoming l = Ok (xs ++ [s_next (srun ops)])).
Proof. exact (new_edge_last ops from to l p g g'). Qed.
Print Assumptions C83_new_edge_last.
(** So is an edge given a new label; the order of the edges with other labels stays. *)
Theorem C83_set_label_last ops e l x g g' :
  valid_history (ops ++ [OSetEdgeLabel e l]) -> run ops = Ok g -> run (ops ++ [OSetEdgeLabel e l]) = Ok g' ->
  s_edges (srun ops) !! e = Some x -> e_label x <> l ->
  forall n d, (d = Outgoing /\ n = e_from x) \/ (d = Incoming /\ n = e_to x) ->
  (exists xs, node_edges_label g n d l = Ok xs /\ node_edges_label g' n d l = Ok (xs ++ [e])) /\
  (forall l', l' <> l -> exists xs, node_edges_label g n d l' = Ok xs /\
     node_edges_label g' n d l' = Ok (unfile e xs)).
Proof. exact (set_label_last ops e l x g g'). Qed.
Print Assumptions C83_set_label_last.
(** Edges 2 to 7 from node 0 to node 1, labels A B A C B A; 2 is relabelled C and 4 removed. *)
Definition C83_ops : list op :=
  [ONewNode ∅ ∅ []; ONewNode ∅ ∅ []; ONewEdge 0 1 "A" ∅; ONewEdge 0 1 "B" ∅; ONewEdge 0 1 "A" ∅;
   ONewEdge 0 1 "C" ∅; ONewEdge 0 1 "B" ∅; ONewEdge 0 1 "A" ∅; OSetEdgeLabel 2 "C"; ORemoveEdge 4].
Example C83_ex : let g := result C83_ops in
  valid_history C83_ops /\ run C83_ops = Ok g /\ live_node (srun C83_ops) 0 /\
  node_edges g 0 Outgoing = Ok [7; 3; 6; 5; 2] /\ node_order C83_ops 1 Incoming = [7; 3; 6; 5; 2] /\
  node_edges_label g 0 Outgoing "C" = Ok [5; 2] /\
  node_edges_any g 1 Incoming ["C"; "A"]%string ["C"; "A"]%string = Ok [5; 2; 7] /\
  order_of {["A"; "C"]}%string ["C"; "A"]%string.
Proof. by_witness. Qed.
Example C83_last_ex : let ops := take 8 C83_ops in
  valid_history (ops ++ [OSetEdgeLabel 2 "C"]) /\ run ops = Ok (result ops) /\
  run (ops ++ [OSetEdgeLabel 2 "C"]) = Ok (result (ops ++ [OSetEdgeLabel 2 "C"])) /\
  s_edges (srun ops) !! 2 = Some (Edge 0 1 "A" ∅).
Proof.
  intros ops. split; [by_compute|]. split; [apply run_result; vm_compute; reflexivity|].
  split; [apply run_result; vm_compute; reflexivity|]. by_compute.
Qed.

(** C84: the same for all edges of the graph, filed by the label they had when they were filed. *)
Definition C84_statement : Prop := forall ops g,
  valid_history ops -> run ops = Ok g -> get_edges g = Ok (all_order ops).
(** False: after a relabelled edge is removed the list is wrong (C06). *)
Definition C84_witness : list op :=
  [ONewNode ∅ ∅ []; ONewEdge 0 0 "A" ∅; ONewEdge 0 0 "B" ∅; OSetEdgeLabel 2 "A"; ORemoveEdge 2].
Theorem C84_refuted : exists ops g,
  valid_history ops /\ run ops = Ok g /\ all_order ops = [1] /\ get_edges g = Ok [2].
Proof. exists C84_witness, (result C84_witness). by_witness. Qed.
Print Assumptions C84_refuted.
(** It holds as long as no edge is removed while filed under an old label (missing for the full
    statement: those histories). *)
Theorem C84_partial ops g :
  valid_history ops -> run ops = Ok g -> edge_list_safe ops -> get_edges g = Ok (all_order ops).
Proof. exact (get_edges_order ops g). Qed.
Print Assumptions C84_partial.
Theorem C84_any_partial ops g S ord :
  valid_history ops -> run ops = Ok g -> edge_list_safe ops -> order_of S ord ->
  get_edges_any_label g ord = Ok (concat (map (fun l => filter (fun e => found_by ops e = l) (all_order ops)) ord)).
Proof. exact (get_edges_any_order ops g S ord). Qed.
Print Assumptions C84_any_partial.
Example C84_ex : let ops := take 9 C83_ops in let g := result ops in
  valid_history ops /\ run ops = Ok g /\ edge_list_safe ops /\ get_edges g = Ok [2; 4; 7; 3; 6; 5] /\
  get_edges_any_label g ["C"; "A"]%string = Ok [5; 2; 4; 7] /\ found_by ops 2 = "A"%string /\
  s_label (srun ops) 2 = "C"%string /\ order_of {["A"; "C"]}%string ["C"; "A"]%string.
Proof. by_witness. Qed.
