(** C03, C04, C05, C11, C12: the edges of a node (node.go:57-99, graph.go:470-522). *)
From Verif Require Import Base Value Graph GraphSpec CoreStep AdjProofs ReadProofs GraphExamples.

(** C03: GetEdges(OutgoingEdge) / GetEdges(IncomingEdge) enumerate exactly the live edges that
    start / end at the node. *)
Theorem C03_outgoing_exact ops g n :
  valid_history ops -> run ops = Ok g -> live_node (srun ops) n ->
  exists xs, node_edges g n Outgoing = Ok xs /\ lists (is_out (srun ops) n) xs.
Proof. exact (fun Hv Hr => node_edges_out g _ (core_run _ _ Hv Hr) n). Qed.
Print Assumptions C03_outgoing_exact.
Theorem C03_incoming_exact ops g n :
  valid_history ops -> run ops = Ok g -> live_node (srun ops) n ->
  exists xs, node_edges g n Incoming = Ok xs /\ lists (is_in (srun ops) n) xs.
Proof. exact (fun Hv Hr => node_edges_in g _ (core_run _ _ Hv Hr) n). Qed.
Print Assumptions C03_incoming_exact.
Example C03_ex : valid_history ex_ops /\ run ex_ops = Ok ex_graph /\ live_node (srun ex_ops) 0 /\
  node_edges ex_graph 0 Incoming = Ok [7; 6] /\ node_edges ex_graph 0 Outgoing = Ok [6].
Proof. split; [exact ex_valid|]. split; [exact ex_run|]. by_compute. Qed.

(** C04: AnyEdge gives the incoming edges and then the outgoing edges, so an edge occurs once
    for each of its ends at the node: a loop twice, every other edge once. *)
Theorem C04_any_is_in_then_out ops g n :
  valid_history ops -> run ops = Ok g -> live_node (srun ops) n ->
  exists i o, node_edges g n Incoming = Ok i /\ node_edges g n Outgoing = Ok o /\
    node_edges g n AnyDir = Ok (i ++ o) /\
    forall e, occurs e (i ++ o) =
      match s_edges (srun ops) !! e with
      | Some x => (if decide (e_to x = n) then 1 else 0) + (if decide (e_from x = n) then 1 else 0)
      | None => 0
      end.
Proof. exact (fun Hv Hr => node_edges_any_occurs g _ (core_run _ _ Hv Hr) n). Qed.
Print Assumptions C04_any_is_in_then_out.
Example C04_ex : valid_history ex_ops /\ run ex_ops = Ok ex_graph /\ live_node (srun ex_ops) 0 /\
  node_edges ex_graph 0 AnyDir = Ok [7; 6; 6].
Proof. split; [exact ex_valid|]. split; [exact ex_run|]. by_compute. Qed.

(** C05: restriction to one label, and to a set of labels (an empty set restricts nothing). *)
Theorem C05_label_exact ops g n d l :
  valid_history ops -> run ops = Ok g -> live_node (srun ops) n ->
  exists xs ys, node_edges g n d = Ok xs /\ node_edges_label g n d l = Ok ys /\
    ys ≡ₚ filter (label_in (srun ops) {[l]}) xs.
Proof. exact (fun Hv Hr => node_edges_label_ok g _ (core_run _ _ Hv Hr) n d l). Qed.
Print Assumptions C05_label_exact.
Theorem C05_any_label_exact ops g n d S ord1 ord2 :
  valid_history ops -> run ops = Ok g -> live_node (srun ops) n ->
  order_of S ord1 -> order_of S ord2 ->
  exists xs ys, node_edges g n d = Ok xs /\ node_edges_any g n d ord1 ord2 = Ok ys /\
    ys ≡ₚ (if decide (S = ∅) then xs else filter (label_in (srun ops) S) xs).
Proof. exact (fun Hv Hr => node_edges_any_ok g _ (core_run _ _ Hv Hr) n d S ord1 ord2). Qed.
Print Assumptions C05_any_label_exact.
Example C05_ex : valid_history ex_ops /\ run ex_ops = Ok ex_graph /\ live_node (srun ex_ops) 0 /\
  order_of {["B"; "C"]}%string ["C"; "B"]%string /\
  node_edges_label ex_graph 0 AnyDir "B" = Ok [6; 6] /\ node_edges_label ex_graph 0 Incoming "A" = Ok [7] /\
  node_edges_any ex_graph 0 AnyDir ["C"; "B"]%string ["B"; "C"]%string = Ok [6; 6].
Proof.
  split; [exact ex_valid|]. split; [exact ex_run|]. by_compute.
Qed.

(** C11: Detach removes exactly the edges at [n]: none are left at [n], every other edge is
    unchanged, and the adjacency of every node loses exactly the edges that were at [n].
    Nodes keep their labels and properties. *)
Theorem C11_detach ops g n g' :
  valid_history ops -> run ops = Ok g -> live_node (srun ops) n -> step g (ODetach n) = Ok g' ->
  (forall d, node_edges g' n d = Ok []) /\
  (forall e, live_edge (srun ops) e -> ~ incident (srun ops) n e -> g_edges g' !! e = g_edges g !! e) /\
  (forall m d, live_node (srun ops) m -> exists xs ys,
     node_edges g m d = Ok xs /\ node_edges g' m d = Ok ys /\
     ys ≡ₚ filter (fun e => ~ incident (srun ops) n e) xs) /\
  (forall m, live_node (srun ops) m ->
     labels_of g' m = labels_of g m /\ forall k, node_prop g' m k = node_prop g m k).
Proof. exact (detach_effect ops g n g'). Qed.
Print Assumptions C11_detach.
(** DetachAndRemove does the same for all other nodes and counts one node less. *)
Theorem C11_detach_and_remove ops g n ord g' :
  valid_history ops -> run ops = Ok g -> valid (srun ops) (ODetachRemove n ord) ->
  step g (ODetachRemove n ord) = Ok g' ->
  (forall e, live_edge (srun ops) e -> ~ incident (srun ops) n e -> g_edges g' !! e = g_edges g !! e) /\
  (forall m d, live_node (srun ops) m -> m <> n -> exists xs ys,
     node_edges g m d = Ok xs /\ node_edges g' m d = Ok ys /\
     ys ≡ₚ filter (fun e => ~ incident (srun ops) n e) xs) /\
  (forall m, live_node (srun ops) m -> m <> n ->
     labels_of g' m = labels_of g m /\ forall k, node_prop g' m k = node_prop g m k) /\
  num_nodes g' = (num_nodes g - 1)%Z.
Proof. exact (detach_remove_effect ops g n ord g'). Qed.
Print Assumptions C11_detach_and_remove.
Example C11_ex : valid_history ex_ops /\ run ex_ops = Ok ex_graph /\
  valid (srun ex_ops) (ODetachRemove 0 ["P"; "Q"]%string) /\
  (exists g', step ex_graph (ODetach 0) = Ok g' /\ node_edges g' 2 AnyDir = Ok [5]) /\
  node_edges ex_graph 2 AnyDir = Ok [5; 7] /\
  exists g', step ex_graph (ODetachRemove 0 ["P"; "Q"]%string) = Ok g'.
Proof.
  split; [exact ex_valid|]. split; [exact ex_run|].
  by_compute.
Qed.

(** C12: every edge in the adjacency of a live node has live ends, one of which is the node. *)
Theorem C12_no_dangling_edges ops g n d xs e :
  valid_history ops -> run ops = Ok g -> live_node (srun ops) n -> node_edges g n d = Ok xs -> e ∈ xs ->
  exists ed, g_edges g !! e = Some ed /\
    live_node (srun ops) (e_from ed) /\ live_node (srun ops) (e_to ed) /\
    (d = Incoming -> e_to ed = n) /\ (d = Outgoing -> e_from ed = n) /\ (e_from ed = n \/ e_to ed = n).
Proof. exact (fun Hv Hr => no_dangling g _ (core_run _ _ Hv Hr) n d xs e). Qed.
Print Assumptions C12_no_dangling_edges.
Example C12_ex : valid_history ex_ops /\ run ex_ops = Ok ex_graph /\ live_node (srun ex_ops) 2 /\
  node_edges ex_graph 2 AnyDir = Ok [5; 7].
Proof. split; [exact ex_valid|]. split; [exact ex_run|]. by_compute. Qed.
