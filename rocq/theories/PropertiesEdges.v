(** C06, C07, C23: the edges of the graph (graph.go:77-155, edgemap.go). *)
From Verif Require Import Base Value Graph GraphSpec EdgeListProofs GraphExamples.

(** C06 in full: GetEdges and NumEdges are exact after every valid history. This is false:
    [setEdgeLabel] leaves the edge under its old label in [allEdges], and a later removal looks
    for it under its new label. *)
Definition C06_statement : Prop := forall ops g, valid_history ops -> run ops = Ok g ->
  (exists xs, get_edges g = Ok xs /\ lists (live_edge (srun ops)) xs) /\
  num_edges g = Z.of_nat (size (s_edges (srun ops))).
(** e1 labelled A, e2 labelled B; e2 is relabelled A and removed: the graph now lists the removed
    e2 instead of e1. *)
Definition C06_witness : list op :=
  [ONewNode ∅ ∅ []; ONewEdge 0 0 "A" ∅; ONewEdge 0 0 "B" ∅; OSetEdgeLabel 2 "A"; ORemoveEdge 2].
Theorem C06_refuted : exists ops g,
  valid_history ops /\ run ops = Ok g /\ s_edges (srun ops) = {[1 := Edge 0 0 "A" ∅]} /\
  get_edges g = Ok [2].
Proof. exists C06_witness, (result C06_witness). by_witness. Qed.
Print Assumptions C06_refuted.
(** NumEdges can be wrong too: e2 is relabelled C and removed; NumEdges stays 2. *)
Definition C06_witness2 : list op :=
  [ONewNode ∅ ∅ []; ONewEdge 0 0 "A" ∅; ONewEdge 0 0 "B" ∅; OSetEdgeLabel 2 "C"; ORemoveEdge 2].
Theorem C06_count_refuted : exists ops g,
  valid_history ops /\ run ops = Ok g /\ s_edges (srun ops) = {[1 := Edge 0 0 "A" ∅]} /\
  num_edges g = 2%Z.
Proof. exists C06_witness2, (result C06_witness2). by_witness. Qed.
Print Assumptions C06_count_refuted.
(** What holds: both are exact as long as no edge is removed while filed under an old label
    (missing for the full statement: those histories). *)
Theorem C06_partial ops g :
  valid_history ops -> run ops = Ok g -> edge_list_safe ops ->
  (exists xs, get_edges g = Ok xs /\ lists (live_edge (srun ops)) xs) /\
  num_edges g = Z.of_nat (size (s_edges (srun ops))).
Proof. exact (get_edges_ok ops g). Qed.
Print Assumptions C06_partial.
Example C06_ex : valid_history ex_ops /\ run ex_ops = Ok ex_graph /\ edge_list_safe ex_ops /\
  get_edges ex_graph = Ok [6; 7; 5] /\ num_edges ex_graph = 3%Z.
Proof. split; [exact ex_valid|]. split; [exact ex_run|]. split; [exact ex_esafe|]. by_compute. Qed.

(** C07 in full, and false for the same reason (one relabelling suffices). *)
Definition C07_statement : Prop := forall ops g S ord,
  valid_history ops -> run ops = Ok g -> order_of S ord ->
  exists xs, get_edges_any_label g ord = Ok xs /\ lists (label_in (srun ops) S) xs.
Definition C07_witness : list op :=
  [ONewNode ∅ ∅ []; ONewEdge 0 0 "A" ∅; ONewEdge 0 0 "B" ∅; OSetEdgeLabel 2 "A"].
Theorem C07_refuted : exists ops g,
  valid_history ops /\ run ops = Ok g /\ order_of {["A"]}%string ["A"]%string /\
  s_edges (srun ops) = {[1 := Edge 0 0 "A" ∅; 2 := Edge 0 0 "A" ∅]} /\
  get_edges_any_label g ["A"]%string = Ok [1].
Proof. exists C07_witness, (result C07_witness). by_witness. Qed.
Print Assumptions C07_refuted.
(** What is enumerated instead: the live edges filed under a label of [S] (if there are at least
    two edges; a single edge is tested by its current label). *)
Theorem C07_characterised ops g S ord :
  valid_history ops -> run ops = Ok g -> edge_list_safe ops -> order_of S ord ->
  exists xs, get_edges_any_label g ord = Ok xs /\
    lists (fun e => if decide (2 <= size (s_edges (srun ops)))
                    then live_edge (srun ops) e /\ exists l, filed ops !! e = Some l /\ l ∈ S
                    else label_in (srun ops) S e) xs.
Proof. exact (get_edges_any_label_ok ops g S ord). Qed.
Print Assumptions C07_characterised.
(** So it is exact if moreover all edges are filed under their current label (missing for the
    full statement: relabelled edges). *)
Theorem C07_partial ops g S ord :
  valid_history ops -> run ops = Ok g -> edge_list_safe ops -> order_of S ord ->
  (forall e, filed_ok (filed ops) (srun ops) e) ->
  exists xs, get_edges_any_label g ord = Ok xs /\ lists (label_in (srun ops) S) xs.
Proof. exact (get_edges_any_label_exact ops g S ord). Qed.
Print Assumptions C07_partial.
Example C07_ex : let ops := take 9 ex_ops in
  valid_history ops /\ (exists g, run ops = Ok g /\ get_edges_any_label g ["A"]%string = Ok [6; 7]) /\
  edge_list_safe ops /\ order_of {["A"]}%string ["A"]%string /\ forall e, filed_ok (filed ops) (srun ops) e.
Proof.
  intros ops. split; [by_compute|]. split; [by_compute|]. split; [by_compute|]. split; [by_compute|].
  apply filed_ok_all. by_compute.
Qed.

(** C23: a node of another graph makes NewEdge panic. *)
Theorem C23_foreign_node_panics g from to label p :
  g_nodes g !! from = None \/ g_nodes g !! to = None -> new_edge g from to label p = Panic.
Proof. exact (new_edge_foreign g from to label p). Qed.
Print Assumptions C23_foreign_node_panics.
Example C23_foreign_ex : live_node (srun ex_ops) 0 /\ g_nodes ex_graph !! 9 = None.
Proof. by_compute. Qed.
(** When it returns, exactly one edge, with the requested ends, label and properties, is new. *)
Theorem C23_creates_the_edge ops g from to label p g' e :
  valid_history ops -> run ops = Ok g -> live_node (srun ops) from -> live_node (srun ops) to ->
  new_edge g from to label p = Ok (g', e) ->
  ~ live_edge (srun ops) e /\ g_edges g' !! e = Some (Edge from to label p) /\
  (forall x, live_edge (srun ops) x -> g_edges g' !! x = g_edges g !! x) /\
  (forall m, live_node (srun ops) m -> exists xs ys,
     node_edges g m Outgoing = Ok xs /\ node_edges g' m Outgoing = Ok ys /\
     ys ≡ₚ (if decide (m = from) then [e] else []) ++ xs) /\
  (forall m, live_node (srun ops) m -> exists xs ys,
     node_edges g m Incoming = Ok xs /\ node_edges g' m Incoming = Ok ys /\
     ys ≡ₚ (if decide (m = to) then [e] else []) ++ xs).
Proof. exact (new_edge_effect ops g from to label p g' e). Qed.
Print Assumptions C23_creates_the_edge.
(** In full it should also always return for nodes of the graph: *)
Definition C23_statement : Prop := forall ops g from to label p,
  valid_history ops -> run ops = Ok g -> live_node (srun ops) from -> live_node (srun ops) to ->
  exists g' e, new_edge g from to label p = Ok (g', e).
(** This is false: a damaged list of edges (C06) makes it panic on live nodes. *)
Definition C23_witness : list op :=
  [ONewNode ∅ ∅ []; ONewEdge 0 0 "A" ∅; ONewEdge 0 0 "B" ∅; ONewEdge 0 0 "A" ∅; ONewEdge 0 0 "B" ∅;
   OSetEdgeLabel 2 "A"; ORemoveEdge 2; ORemoveEdge 4; ORemoveEdge 1].
Theorem C23_refuted : exists ops g,
  valid_history ops /\ run ops = Ok g /\ live_node (srun ops) 0 /\ new_edge g 0 0 "A" ∅ = Panic.
Proof. exists C23_witness, (result C23_witness). by_witness. Qed.
Print Assumptions C23_refuted.
(** It does return if the list of edges is intact and no given property is indexed (missing for
    the full statement: damaged lists; values an index cannot hold, see C16). *)
Theorem C23_partial ops g from to label p :
  valid_history ops -> run ops = Ok g -> edge_list_safe ops ->
  live_node (srun ops) from -> live_node (srun ops) to ->
  (forall k, k ∈ dom (g_eix g) -> p !! k = None) ->
  exists g' e, new_edge g from to label p = Ok (g', e).
Proof. exact (new_edge_progress ops g from to label p). Qed.
Print Assumptions C23_partial.
Example C23_ex : valid_history ex_ops /\ run ex_ops = Ok ex_graph /\ edge_list_safe ex_ops /\
  live_node (srun ex_ops) 0 /\ live_node (srun ex_ops) 1 /\
  (forall k, k ∈ dom (g_eix ex_graph) -> ({["w"%string := VInt 1]} : props) !! k = None) /\
  exists g', new_edge ex_graph 0 1 "B" {["w"%string := VInt 1]} = Ok (g', 8).
Proof.
  split; [exact ex_valid|]. split; [exact ex_run|]. split; [exact ex_esafe|].
  split; [by_compute|]. split; [by_compute|]. split; [|by_compute].
  assert (dom (g_eix ex_graph) = ∅) as -> by by_compute. set_solver.
Qed.
