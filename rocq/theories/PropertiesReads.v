(** C09, C10: reads of nodes and edges, identities (node.go:35-55, edge.go:44-81, graph.go:49-111). *)
From Verif Require Import Base Value Graph GraphSpec CoreStep ReadProofs GraphExamples.

(** C09: a live node shows the labels and properties of the abstract graph, that is, of the last
    writes ... *)
Theorem C09_node_reads ops g n x :
  valid_history ops -> run ops = Ok g -> s_nodes (srun ops) !! n = Some x ->
  labels_of g n = sn_labels x /\ forall k, node_prop g n k = sn_props x !! k.
Proof. exact (fun Hv Hr => read_node g _ (core_run _ _ Hv Hr) n x). Qed.
Print Assumptions C09_node_reads.
(** ... and a live edge shows its ends, label and properties. *)
Theorem C09_edge_reads ops g e x :
  valid_history ops -> run ops = Ok g -> s_edges (srun ops) !! e = Some x -> g_edges g !! e = Some x.
Proof. exact (fun Hv Hr => read_edge g _ (core_run _ _ Hv Hr) e x). Qed.
Print Assumptions C09_edge_reads.
Example C09_reads_ex : valid_history ex_ops /\ run ex_ops = Ok ex_graph /\
  s_nodes (srun ex_ops) !! 1 = Some (SNode {["P"]}%string {["k"%string := VInt 7]}) /\
  s_edges (srun ex_ops) !! 6 = Some (Edge 0 0 "B" ∅).
Proof. split; [exact ex_valid|]. split; [exact ex_run|]. by_compute. Qed.

(** The same without the abstract graph, call by call. SetLabels: *)
Theorem C09_set_labels ops g n labels ordo ordn g' :
  valid_history ops -> run ops = Ok g -> valid (srun ops) (OSetLabels n labels ordo ordn) ->
  step g (OSetLabels n labels ordo ordn) = Ok g' ->
  labels_of g' n = labels /\ forall k, node_prop g' n k = node_prop g n k.
Proof. exact (wrote_set_labels ops g n labels ordo ordn g'). Qed.
Print Assumptions C09_set_labels.
(** SetProperty / RemoveProperty of a node: *)
Theorem C09_set_node_property ops g n k v g' :
  valid_history ops -> run ops = Ok g -> live_node (srun ops) n -> step g (OSetNodeProp n k v) = Ok g' ->
  labels_of g' n = labels_of g n /\
  forall k', node_prop g' n k' = if decide (k' = k) then Some v else node_prop g n k'.
Proof. exact (wrote_node_prop ops g n k v g'). Qed.
Print Assumptions C09_set_node_property.
Theorem C09_remove_node_property ops g n k g' :
  valid_history ops -> run ops = Ok g -> live_node (srun ops) n -> step g (ORemNodeProp n k) = Ok g' ->
  labels_of g' n = labels_of g n /\
  forall k', node_prop g' n k' = if decide (k' = k) then None else node_prop g n k'.
Proof. exact (removed_node_prop ops g n k g'). Qed.
Print Assumptions C09_remove_node_property.
(** SetLabel / SetProperty / RemoveProperty of an edge: *)
Theorem C09_edge_writes ops g o g' e :
  valid_history ops -> run ops = Ok g -> live_edge (srun ops) e -> edge_target o = Some e ->
  step g o = Ok g' ->
  exists ed, g_edges g !! e = Some ed /\
    g_edges g' !! e = Some (match o with
      | OSetEdgeLabel _ l => Edge (e_from ed) (e_to ed) l (e_props ed)
      | OSetEdgeProp _ k v => Edge (e_from ed) (e_to ed) (e_label ed) (<[k := v]> (e_props ed))
      | ORemEdgeProp _ k => Edge (e_from ed) (e_to ed) (e_label ed) (delete k (e_props ed))
      | _ => ed end).
Proof. exact (wrote_edge ops g o g' e). Qed.
Print Assumptions C09_edge_writes.
Example C09_writes_ex : valid_history ex_ops /\ run ex_ops = Ok ex_graph /\
  valid (srun ex_ops) (OSetLabels 0 {["Z"]} ["P"; "Q"] ["Z"]%string) /\
  (exists g', step ex_graph (OSetLabels 0 {["Z"]} ["P"; "Q"] ["Z"]%string) = Ok g') /\
  (exists g', step ex_graph (OSetNodeProp 0 "k" (VInt 3)) = Ok g') /\
  (exists g', step ex_graph (ORemNodeProp 0 "k") = Ok g') /\
  live_edge (srun ex_ops) 5 /\
  (exists g', step ex_graph (OSetEdgeLabel 5 "Z") = Ok g') /\
  (exists g', step ex_graph (OSetEdgeProp 5 "w" (VInt 3)) = Ok g') /\
  (exists g', step ex_graph (ORemEdgeProp 5 "w") = Ok g').
Proof.
  split; [exact ex_valid|]. split; [exact ex_run|].
  by_compute.
Qed.
(** Whatever call is made, objects that are not its target keep everything. *)
Theorem C09_other_nodes_unchanged ops g o g' m :
  valid_history ops -> run ops = Ok g -> valid (srun ops) o -> step g o = Ok g' ->
  live_node (srun ops) m -> live_node (srun (ops ++ [o])) m -> node_target o <> Some m ->
  labels_of g' m = labels_of g m /\ forall k, node_prop g' m k = node_prop g m k.
Proof. exact (node_frame ops g o g' m). Qed.
Print Assumptions C09_other_nodes_unchanged.
Theorem C09_other_edges_unchanged ops g o g' e :
  valid_history ops -> run ops = Ok g -> valid (srun ops) o -> step g o = Ok g' ->
  live_edge (srun ops) e -> live_edge (srun (ops ++ [o])) e -> edge_target o <> Some e ->
  g_edges g' !! e = g_edges g !! e.
Proof. exact (edge_frame ops g o g' e). Qed.
Print Assumptions C09_other_edges_unchanged.
Example C09_frame_ex :
  let o := ODetachRemove 1 ["P"]%string in
  valid_history ex_ops /\ run ex_ops = Ok ex_graph /\ valid (srun ex_ops) o /\
  (exists g', step ex_graph o = Ok g') /\
  live_node (srun ex_ops) 2 /\ live_node (srun (ex_ops ++ [o])) 2 /\ node_target o <> Some 2 /\
  live_edge (srun ex_ops) 7 /\ live_edge (srun (ex_ops ++ [o])) 7 /\ edge_target o <> Some 7.
Proof.
  intros o. split; [exact ex_valid|]. split; [exact ex_run|].
  by_compute.
Qed.

(** C10: the ids handed out in a history are strictly increasing, so all different. *)
Theorem C10_ids_increase ops g :
  run ops = Ok g -> exists ids, created_ids ops = Ok ids /\ StronglySorted lt ids.
Proof. exact (created_ids_increase ops g). Qed.
Print Assumptions C10_ids_increase.
Example C10_ex : run ex_ops = Ok ex_graph /\ created_ids ex_ops = Ok [0; 1; 2; 3; 4; 5; 6; 7].
Proof. split; [exact ex_run|]. by_compute. Qed.
