(** C58-C61: loops over edges and nodes that change the graph they iterate over
    (edgemap.go, list.go, itr.go, node.go, graph.go). *)
From Verif Require Import Base Assoc Value Links EdgeMap Graph GraphSpec EdgeMapPtr ItrLive ItrLiveSpec StoreProofs LiveLoopProofs LiveUseProofs GraphExamples.
Local Open Scope string_scope.
Local Open Scope list_scope.

(** ** C58: a loop may remove the edges it visits *)
(** C58 in full: a loop over edges of a node that removes each edge visits the edges that were there. *)
Definition C58_statement : Prop := forall ops g n d q es k,
  valid_history ops -> run ops = Ok g -> live_node (srun ops) n -> query_ok q -> node_query g n d q = Ok es -> length es < k ->
  exists vis x', (let! x := x_run ops in node_loop k removing x n d q) = Ok (vis, x') /\ forall e, e ∈ vis <-> e ∈ es.
(** False in direction AnyEdge: a loop 0 -> 0 is visited and removed twice, ... *)
Definition C58_witness : list op :=
  [ONewNode ∅ ∅ []; ONewNode ∅ ∅ []; ONewEdge 0 0 "a" ∅; ONewEdge 0 1 "a" ∅; ONewEdge 0 1 "a" ∅].
(** [what]: the edges visited, the edges found afterwards at node 0 (outgoing) and 1 (incoming), and all edges *)
Definition what (r : res (list nat * xgraph)) : option (list nat * (res (list nat) * res (list nat) * res (list nat))) :=
  match r with
  | Ok (vis, x) => Some (vis, (node_edges (x_g x) 0 Outgoing, node_edges (x_g x) 1 Incoming, get_edges (x_g x)))
  | _ => None
  end.
(** ... and edges 3 and 4 are not visited; afterwards GetEdges panics. *)
Theorem C58_refuted : (valid_history C58_witness /\ run C58_witness = Ok (result C58_witness)) /\
  live_node (srun C58_witness) 0 /\ node_query (result C58_witness) 0 AnyDir QAll = Ok [2; 2; 3; 4] /\
  forall k, 5 <= k -> what (let! x := x_run C58_witness in node_loop k removing x 0 AnyDir QAll) = Some ([2; 2], (Panic, Ok [3; 4], Panic)).
Proof.
  split; [split; [by_compute|apply run_result; vm_compute; reflexivity]|]. split; [by_compute|]. split; [vm_compute; reflexivity|].
  intros k Hk. do 5 (destruct k as [|k]; [lia|]). vm_compute. reflexivity.
Qed.
Print Assumptions C58_refuted.
Example C58_refutes : ~ C58_statement.
Proof.
  intros H. destruct C58_refuted as ((Hv & Hr) & Hn & Hq & Hw). destruct (H _ _ 0 AnyDir QAll _ 5 Hv Hr Hn I Hq) as (vis & x' & E & He); [cbn; lia|].
  specialize (Hw 5 ltac:(lia)). rewrite E in Hw. cbn [what] in Hw. assert (vis = [2; 2]) as -> by (clear -Hw; congruence). clear -He.
  assert (3 ∈ [2; 2]) as Hx by (apply He; by_compute). revert Hx. by_compute.
Qed.
(** It holds for loops that yield no edge twice (missing: loops at the node in direction AnyEdge);
    the graph at the end is the one after removing these edges one by one. *)
Theorem C58_partial ops g n d q es k :
  valid_history ops -> run ops = Ok g -> live_node (srun ops) n -> query_ok q -> node_query g n d q = Ok es -> NoDup es -> length es < k ->
  exists g' a', (let! x := x_run ops in node_loop k removing x n d q) = Ok (es, XG g' a') /\
    valid_history (ops ++ map ORemoveEdge es) /\ run (ops ++ map ORemoveEdge es) = Ok g' /\
    forall e, live_edge (srun (ops ++ map ORemoveEdge es)) e <-> live_edge (srun ops) e /\ e ∉ es.
Proof. exact (removing_ok ops g n d q es k). Qed.
Print Assumptions C58_partial.
Example C58_ex : (valid_history C58_witness /\ run C58_witness = Ok (result C58_witness)) /\ live_node (srun C58_witness) 0 /\
  node_query (result C58_witness) 0 Outgoing QAll = Ok [2; 3; 4] /\ NoDup [2; 3; 4] /\
  what (let! x := x_run C58_witness in node_loop 5 removing x 0 Outgoing QAll) = Some ([2; 3; 4], (Ok [], Ok [], Ok [])) /\
  what (let! x := x_run C58_witness in node_loop 5 removing x 1 Incoming (QAny ["b"; "a"] ["a"; "b"])) = Some ([3; 4], (Ok [2], Ok [], Ok [2])).
Proof.
  split; [split; [by_compute|apply run_result; vm_compute; reflexivity]|]. split; [by_compute|]. split; [vm_compute; reflexivity|].
  split; [by_compute|]. split; vm_compute; reflexivity.
Qed.
(** In general: a loop visits the edges that were there if no call of its body interferes with the rest of it
    ([node_keeps]).  The graph at the end is the one after the calls of the body in this order. *)
Theorem C58_node_partial ops body n d q g g' es k :
  valid_history (ops ++ loop_calls body [] es) -> run ops = Ok g -> run (ops ++ loop_calls body [] es) = Ok g' ->
  live_node (srun ops) n -> query_ok q -> node_query g n d q = Ok es ->
  loop_keeps (node_keeps n d q) body (srun ops) [] es -> length es < k ->
  exists a', (let! x := x_run ops in node_loop k body x n d q) = Ok (es, XG g' a').
Proof. exact (node_loop_ok ops body n d q g g' es k). Qed.
Print Assumptions C58_node_partial.
(** The same for Graph.GetEdges and Graph.GetEdgesWithAnyLabel. *)
Theorem C58_graph_partial ops body q g g' es k :
  valid_history (ops ++ loop_calls body [] es) -> run ops = Ok g -> run (ops ++ loop_calls body [] es) = Ok g' ->
  edge_list_safe (ops ++ loop_calls body [] es) -> query_ok q -> (forall l, q <> QLabel l) -> graph_query g q = Ok es ->
  loop_keeps graph_keeps body (srun ops) [] es -> length es < k ->
  exists a', (let! x := x_run ops in graph_loop k body x q) = Ok (es, XG g' a').
Proof. exact (graph_loop_ok ops body q g g' es k). Qed.
Print Assumptions C58_graph_partial.
(** a body that makes several calls: a node and an edge between other nodes, then the edge visited is removed *)
Definition C58_ops : list op := [ONewNode ∅ ∅ []; ONewNode ∅ ∅ []; ONewEdge 0 1 "a" ∅; ONewEdge 0 1 "b" ∅; ONewEdge 0 0 "a" ∅].
Definition C58_body (vis : list nat) : list op :=
  [ONewNode ∅ ∅ []; ONewEdge 1 1 "a" ∅] ++ removing vis.
Definition C58_body_all (vis : list nat) : list op := [ONewNode ∅ ∅ []; OSetNodeProp 0 "k" (VInt 1)] ++ removing vis.
Example C58_node_ex :
  (valid_history (C58_ops ++ loop_calls C58_body [] [2; 4; 3]) /\ run C58_ops = Ok (result C58_ops)) /\
  run (C58_ops ++ loop_calls C58_body [] [2; 4; 3]) = Ok (result (C58_ops ++ loop_calls C58_body [] [2; 4; 3])) /\
  live_node (srun C58_ops) 0 /\ node_query (result C58_ops) 0 Outgoing QAll = Ok [2; 4; 3] /\
  loop_keeps (node_keeps 0 Outgoing QAll) C58_body (srun C58_ops) [] [2; 4; 3] /\
  what (let! x := x_run C58_ops in node_loop 5 C58_body x 0 Outgoing QAll) = Some ([2; 4; 3], (Ok [], Ok [6; 8; 10], Ok [6; 8; 10])).
Proof.
  split; [split; [by_compute|apply run_result; vm_compute; reflexivity]|]. split; [apply run_result; vm_compute; reflexivity|].
  split; [by_compute|]. split; [vm_compute; reflexivity|]. split; [|vm_compute; reflexivity].
  cbn [loop_keeps calls_keep C58_body removing last app node_keeps]. split_and!; try done; set_solver.
Qed.
(** a loop over the edges labelled "a" that gives each another label, and creates an edge like it *)
Definition C58_moving (vis : list nat) : list op := relabelling "b" vis ++ [ONewEdge 0 1 "c" ∅].
Example C58_label_ex :
  (valid_history (C58_ops ++ loop_calls C58_moving [] [2; 4]) /\ run C58_ops = Ok (result C58_ops)) /\
  run (C58_ops ++ loop_calls C58_moving [] [2; 4]) = Ok (result (C58_ops ++ loop_calls C58_moving [] [2; 4])) /\
  live_node (srun C58_ops) 0 /\ node_query (result C58_ops) 0 Outgoing (QLabel "a") = Ok [2; 4] /\
  loop_keeps (node_keeps 0 Outgoing (QLabel "a")) C58_moving (srun C58_ops) [] [2; 4] /\
  what (let! x := x_run C58_ops in node_loop 5 C58_moving x 0 Outgoing (QLabel "a")) = Some ([2; 4], (Ok [3; 2; 4; 5; 6], Ok [3; 2; 5; 6], Ok [2; 4; 3; 5; 6])).
Proof.
  split; [split; [by_compute|apply run_result; vm_compute; reflexivity]|]. split; [apply run_result; vm_compute; reflexivity|].
  split; [by_compute|]. split; [vm_compute; reflexivity|]. split; [|vm_compute; reflexivity].
  cbn [loop_keeps calls_keep C58_moving relabelling last app node_keeps selects]. split_and!; try done; try (intros _; right; split; [done|set_solver]).
Qed.
Example C58_graph_ex :
  (valid_history (C58_ops ++ loop_calls C58_body_all [] [2; 4; 3]) /\ run C58_ops = Ok (result C58_ops)) /\
  run (C58_ops ++ loop_calls C58_body_all [] [2; 4; 3]) = Ok (result (C58_ops ++ loop_calls C58_body_all [] [2; 4; 3])) /\
  edge_list_safe (C58_ops ++ loop_calls C58_body_all [] [2; 4; 3]) /\ graph_query (result C58_ops) QAll = Ok [2; 4; 3] /\
  loop_keeps graph_keeps C58_body_all (srun C58_ops) [] [2; 4; 3] /\
  what (let! x := x_run C58_ops in graph_loop 5 C58_body_all x QAll) = Some ([2; 4; 3], (Ok [], Ok [], Ok [])).
Proof.
  split; [split; [by_compute|apply run_result; vm_compute; reflexivity]|]. split; [apply run_result; vm_compute; reflexivity|].
  split; [by_compute|]. split; [vm_compute; reflexivity|]. split; [|vm_compute; reflexivity].
  cbn [loop_keeps calls_keep C58_body_all removing last app graph_keeps]. split_and!; try done; set_solver.
Qed.
(** The maps and lists with explicit pointers, which the iterators hold, follow the model of Graph.v; so a loop that
    changes nothing yields the lists that all other theorems speak of. *)
Theorem C58_pointers ops g : valid_history ops -> run ops = Ok g -> exists a, x_run ops = Ok (XG g a).
Proof. exact (x_run_ok ops g). Qed.
Print Assumptions C58_pointers.
Theorem C58_quiet_node ops n d q g es k : valid_history ops -> run ops = Ok g -> live_node (srun ops) n -> query_ok q ->
  node_query g n d q = Ok es -> length es < k -> exists a', (let! x := x_run ops in node_loop k nothing x n d q) = Ok (es, XG g a').
Proof. exact (quiet_node_loop ops n d q g es k). Qed.
Print Assumptions C58_quiet_node.
Theorem C58_quiet_graph_partial ops q g es k : valid_history ops -> run ops = Ok g -> edge_list_safe ops -> query_ok q -> (forall l, q <> QLabel l) ->
  graph_query g q = Ok es -> length es < k -> exists a', (let! x := x_run ops in graph_loop k nothing x q) = Ok (es, XG g a').
Proof. exact (quiet_graph_loop ops q g es k). Qed.
Print Assumptions C58_quiet_graph_partial.
Example C58_quiet_ex : (valid_history C58_witness /\ run C58_witness = Ok (result C58_witness)) /\ edge_list_safe C58_witness /\
  live_node (srun C58_witness) 0 /\ query_ok (QAny ["b"; "a"] ["a"; "b"]) /\
  node_query (result C58_witness) 0 AnyDir (QAny ["b"; "a"] ["a"; "b"]) = Ok [2; 2; 3; 4] /\
  what (let! x := x_run C58_witness in node_loop 5 nothing x 0 AnyDir (QAny ["b"; "a"] ["a"; "b"])) = Some ([2; 2; 3; 4], (Ok [2; 3; 4], Ok [3; 4], Ok [2; 3; 4])).
Proof.
  split; [split; [by_compute|apply run_result; vm_compute; reflexivity]|]. split; [by_compute|]. split; [by_compute|].
  split; [exists {["a"; "b"]}; split; by_compute|]. split; vm_compute; reflexivity.
Qed.

(** ** C59: a loop may relabel the edges it visits *)
(** C59 in full: each edge that was there is visited once. *)
Definition C59_statement : Prop := forall ops g n d l es k,
  valid_history ops -> run ops = Ok g -> live_node (srun ops) n -> node_edges g n d = Ok es -> NoDup es -> length es < k ->
  exists x', (let! x := x_run ops in node_loop k (relabelling l) x n d QAll) = Ok (es, x').
(** False: the edge moves to another list at the node, which the loop may not have reached yet; edge 3 is visited twice. *)
Definition C59_witness : list op := [ONewNode ∅ ∅ []; ONewNode ∅ ∅ []; ONewNode ∅ ∅ []; ONewEdge 0 1 "a" ∅; ONewEdge 0 2 "b" ∅].
Theorem C59_refuted : (valid_history C59_witness /\ run C59_witness = Ok (result C59_witness)) /\
  live_node (srun C59_witness) 0 /\ node_edges (result C59_witness) 0 Outgoing = Ok [3; 4] /\
  what (let! x := x_run C59_witness in node_loop 10 (relabelling "b") x 0 Outgoing QAll) = Some ([3; 4; 3], (Ok [4; 3], Ok [3], Ok [3; 4])).
Proof.
  split; [split; [by_compute|apply run_result; vm_compute; reflexivity]|]. split; [by_compute|]. split; vm_compute; reflexivity.
Qed.
Print Assumptions C59_refuted.
Example C59_refutes : ~ C59_statement.
Proof.
  intros H. destruct C59_refuted as ((Hv & Hr) & Hn & Hq & Hw). destruct (H _ _ 0 Outgoing "b" _ 10 Hv Hr Hn Hq) as (x' & E); [by_compute|cbn; lia|].
  rewrite E in Hw. clear -Hw. cbn [what] in Hw. congruence.
Qed.
(** It holds for Graph.GetEdges, as relabelling does not move an edge in the list of all edges (see C06 for what
    goes wrong there). *)
Theorem C59_partial ops g l es k : valid_history ops -> run ops = Ok g -> edge_list_safe ops -> get_edges g = Ok es -> length es < k ->
  exists g' a', (let! x := x_run ops in graph_loop k (relabelling l) x QAll) = Ok (es, XG g' a') /\
    valid_history (ops ++ map (fun e => OSetEdgeLabel e l) es) /\ run (ops ++ map (fun e => OSetEdgeLabel e l) es) = Ok g' /\
    forall e, s_edges (srun (ops ++ map (fun e => OSetEdgeLabel e l) es)) !! e =
      (fun x => Edge (e_from x) (e_to x) l (e_props x)) <$> s_edges (srun ops) !! e.
Proof. exact (relabelling_all ops g l es k). Qed.
Print Assumptions C59_partial.
Example C59_ex : (valid_history C58_ops /\ run C58_ops = Ok (result C58_ops)) /\ edge_list_safe C58_ops /\ get_edges (result C58_ops) = Ok [2; 4; 3] /\
  what (let! x := x_run C58_ops in graph_loop 5 (relabelling "b") x QAll) = Some ([2; 4; 3], (Ok [3; 2; 4], Ok [3; 2], Ok [2; 4; 3])).
Proof.
  split; [split; [by_compute|apply run_result; vm_compute; reflexivity]|]. split; [by_compute|]. split; vm_compute; reflexivity.
Qed.
(** It holds at a node if the loop selects labels and the new one is not among them (and no edge is yielded twice). *)
Theorem C59_label_partial ops g n d q l es k : valid_history ops -> run ops = Ok g -> live_node (srun ops) n -> query_ok q ->
  node_query g n d q = Ok es -> NoDup es -> ~ selects q l -> length es < k ->
  exists g' a', (let! x := x_run ops in node_loop k (relabelling l) x n d q) = Ok (es, XG g' a') /\
    valid_history (ops ++ map (fun e => OSetEdgeLabel e l) es) /\ run (ops ++ map (fun e => OSetEdgeLabel e l) es) = Ok g' /\
    forall e, s_edges (srun (ops ++ map (fun e => OSetEdgeLabel e l) es)) !! e =
      (fun x => if decide (e ∈ es) then Edge (e_from x) (e_to x) l (e_props x) else x) <$> s_edges (srun ops) !! e.
Proof. exact (relabelling_away ops g n d q l es k). Qed.
Print Assumptions C59_label_partial.
Example C59_label_ex : (valid_history C58_ops /\ run C58_ops = Ok (result C58_ops)) /\ live_node (srun C58_ops) 0 /\
  query_ok (QAny ["c"; "a"] ["a"; "c"]) /\ node_query (result C58_ops) 0 Outgoing (QAny ["c"; "a"] ["a"; "c"]) = Ok [2; 4] /\
  ~ selects (QAny ["c"; "a"] ["a"; "c"]) "b" /\
  what (let! x := x_run C58_ops in node_loop 5 (relabelling "b") x 0 Outgoing (QAny ["c"; "a"] ["a"; "c"])) =
    Some ([2; 4], (Ok [3; 2; 4], Ok [3; 2], Ok [2; 4; 3])).
Proof.
  split; [split; [by_compute|apply run_result; vm_compute; reflexivity]|]. split; [by_compute|].
  split; [exists {["a"; "c"]}; split; by_compute|]. split; [vm_compute; reflexivity|]. split; [by_compute|vm_compute; reflexivity].
Qed.
(** The label selected must not be the new one: if it is among them, edge 3 is visited again. *)
Theorem C59_label_refuted : (valid_history C59_witness /\ run C59_witness = Ok (result C59_witness)) /\
  node_query (result C59_witness) 0 Outgoing (QAny ["a"; "b"] ["a"; "b"]) = Ok [3; 4] /\
  what (let! x := x_run C59_witness in node_loop 10 (relabelling "b") x 0 Outgoing (QAny ["a"; "b"] ["a"; "b"])) = Some ([3; 4; 3], (Ok [4; 3], Ok [3], Ok [3; 4])).
Proof.
  split; [split; [by_compute|apply run_result; vm_compute; reflexivity]|]. split; vm_compute; reflexivity.
Qed.
Print Assumptions C59_label_refuted.

(** ** C60: a loop may remove the nodes at the other ends of the edges it visits *)
(** C60 in full: every edge is visited, or removed by the loop. *)
Definition C60_statement : Prop := forall ops g n ordf es k,
  valid_history ops -> run ops = Ok g -> live_node (srun ops) n -> node_edges g n Outgoing = Ok es -> length es < k ->
  (forall e x, s_edges (srun ops) !! e = Some x -> e_from x = n -> e_to x <> n) ->
  (forall m x, s_nodes (srun ops) !! m = Some x -> order_of (sn_labels x) (ordf m)) ->
  exists vis x', (let! x := x_run ops in node_loop k (detaching ordf (srun ops)) x n Outgoing QAll) = Ok (vis, x') /\
    node_edges (x_g x') n Outgoing = Ok [].
(** False: DetachAndRemove also removes the next edge, if it is parallel, and Next follows its cleared links. *)
Definition C60_witness : list op :=
  [ONewNode ∅ ∅ []; ONewNode ∅ ∅ []; ONewNode ∅ ∅ []; ONewEdge 0 1 "a" ∅; ONewEdge 0 1 "a" ∅; ONewEdge 0 2 "a" ∅].
Theorem C60_refuted : (valid_history C60_witness /\ run C60_witness = Ok (result C60_witness)) /\
  live_node (srun C60_witness) 0 /\ node_edges (result C60_witness) 0 Outgoing = Ok [3; 4; 5] /\
  what (let! x := x_run C60_witness in node_loop 4 (detaching (fun _ => []) (srun C60_witness)) x 0 Outgoing QAll) = Some ([3; 4], (Ok [5], Ok [], Ok [5])).
Proof.
  split; [split; [by_compute|apply run_result; vm_compute; reflexivity]|]. split; [by_compute|]. split; vm_compute; reflexivity.
Qed.
Print Assumptions C60_refuted.
Example C60_refutes : ~ C60_statement.
Proof.
  intros H. destruct C60_refuted as ((Hv & Hr) & Hn & Hq & Hw). destruct (H _ _ 0 (fun _ => []) _ 4 Hv Hr Hn Hq) as (vis & x' & E & He).
  - cbn. lia.
  - intros e x He Hf. assert (map_Forall (fun _ x => e_from x = 0 -> e_to x <> 0) (s_edges (srun C60_witness))) as Ha by by_compute. by eapply Ha.
  - intros m x Hm. assert (map_Forall (fun _ x => sn_labels x = ∅) (s_nodes (srun C60_witness))) as Ha by by_compute.
    rewrite (Ha m x Hm). clear. by_compute.
  - rewrite E in Hw. cbn [what] in Hw. clear -Hw He. congruence.
Qed.
(** It holds if no two edges from the node have the same target (and none is a loop). *)
Theorem C60_partial ops g g' n ordf es k :
  valid_history (ops ++ loop_calls (detaching ordf (srun ops)) [] es) -> run ops = Ok g ->
  run (ops ++ loop_calls (detaching ordf (srun ops)) [] es) = Ok g' -> live_node (srun ops) n -> node_edges g n Outgoing = Ok es ->
  (forall e e' x x', s_edges (srun ops) !! e = Some x -> s_edges (srun ops) !! e' = Some x' -> e_from x = n -> e_from x' = n ->
     e_to x <> n /\ (e_to x = e_to x' -> e = e')) -> length es < k ->
  exists a', (let! x := x_run ops in node_loop k (detaching ordf (srun ops)) x n Outgoing QAll) = Ok (es, XG g' a').
Proof. exact (detaching_ok ops g g' n ordf es k). Qed.
Print Assumptions C60_partial.
Definition C60_ops : list op :=
  [ONewNode ∅ ∅ []; ONewNode {["P"; "Q"]} ∅ ["Q"; "P"]; ONewNode ∅ ∅ []; ONewEdge 0 1 "a" ∅; ONewEdge 1 2 "a" ∅; ONewEdge 0 2 "a" ∅; ONewEdge 1 1 "b" ∅].
Definition C60_ord (n : nat) : list string := if decide (n = 1) then ["P"; "Q"] else [].
Example C60_ex : (valid_history (C60_ops ++ loop_calls (detaching C60_ord (srun C60_ops)) [] [3; 5]) /\ run C60_ops = Ok (result C60_ops)) /\
  (exists g', run (C60_ops ++ loop_calls (detaching C60_ord (srun C60_ops)) [] [3; 5]) = Ok g') /\
  live_node (srun C60_ops) 0 /\ node_edges (result C60_ops) 0 Outgoing = Ok [3; 5] /\
  (forall e e' x x', s_edges (srun C60_ops) !! e = Some x -> s_edges (srun C60_ops) !! e' = Some x' -> e_from x = 0 -> e_from x' = 0 ->
     e_to x <> 0 /\ (e_to x = e_to x' -> e = e')) /\
  what (let! x := x_run C60_ops in node_loop 4 (detaching C60_ord (srun C60_ops)) x 0 Outgoing QAll) = Some ([3; 5], (Ok [], Ok [], Ok [])).
Proof.
  split; [split; [by_compute|apply run_result; vm_compute; reflexivity]|]. split; [eexists; apply run_result; vm_compute; reflexivity|].
  split; [by_compute|]. split; [vm_compute; reflexivity|]. split; [|vm_compute; reflexivity].
  intros e e' x x' He He' Hf Hf'.
  assert (map_Forall (fun e x => map_Forall (fun e' x' => e_from x = 0 -> e_from x' = 0 -> e_to x <> 0 /\ (e_to x = e_to x' -> e = e')) (s_edges (srun C60_ops)))
    (s_edges (srun C60_ops))) as Ha by by_compute.
  exact (Ha e x He e' x' He' Hf Hf').
Qed.

(** ** C61: a loop over all nodes may change the graph *)
(** C61 in full: a loop over all nodes whose body makes calls that return ends, and visits the nodes that were there
    before and are not removed. *)
Definition C61_statement : Prop := forall ops body g ns,
  (forall es, valid_history (ops ++ loop_calls body [] es) /\ exists g', run (ops ++ loop_calls body [] es) = Ok g') ->
  run ops = Ok g -> get_nodes g = Ok ns -> exists k vis g', nodes_loop k body g = Ok (vis, g') /\ forall n, n ∈ ns -> live_node (srun (ops ++ loop_calls body [] vis)) n -> n ∈ vis.
(** False: if a node is created for each one visited, the loop never ends (two nodes suffice). *)
Theorem C61_refuted ops g ns k : valid_history ops -> run ops = Ok g -> node_list_safe (ops ++ creating []) -> get_nodes g = Ok ns ->
  2 <= length ns -> nodes_loop k creating g = Diverge.
Proof. exact (creating_nodes ops g ns k). Qed.
Print Assumptions C61_refuted.
Definition C61_ops : list op := [ONewNode ∅ ∅ []; ONewNode ∅ ∅ []].
Example C61_refuted_ex : (valid_history C61_ops /\ run C61_ops = Ok (result C61_ops)) /\ node_list_safe (C61_ops ++ creating []) /\
  get_nodes (result C61_ops) = Ok [0; 1] /\ nodes_loop 100 creating (result C61_ops) = Diverge.
Proof.
  split; [split; [by_compute|apply run_result; vm_compute; reflexivity]|]. split; [by_compute|]. split; vm_compute; reflexivity.
Qed.
Example C61_refutes : ~ C61_statement.
Proof.
  intros H. destruct C61_refuted_ex as ((Hv & Hr) & Hs & Hn & _). destruct (H C61_ops creating _ _ (fun es => creating_runs C61_ops _ es Hv Hr) Hr Hn) as (k & vis & g' & E & _).
  rewrite (C61_refuted C61_ops _ _ k Hv Hr Hs Hn) in E by (cbn; lia). clear -E. discriminate E.
Qed.
(** It holds if the body creates no nodes and removes none that are still to be visited (and the list of nodes
    stays right, C01). *)
Theorem C61_partial ops body g g' ns k :
  valid_history (ops ++ loop_calls body [] ns) -> run ops = Ok g -> run (ops ++ loop_calls body [] ns) = Ok g' ->
  node_list_safe (ops ++ loop_calls body [] ns) -> get_nodes g = Ok ns -> loop_keeps nodes_keep body (srun ops) [] ns -> length ns < k ->
  nodes_loop k body g = Ok (ns, g').
Proof. exact (nodes_loop_ok ops body g g' ns k). Qed.
Print Assumptions C61_partial.
(** In particular, the nodes visited may be removed. *)
Theorem C61_removing_partial ops g g' ordf ns k : valid_history (ops ++ map (fun n => ODetachRemove n (ordf n)) ns) -> run ops = Ok g ->
  run (ops ++ map (fun n => ODetachRemove n (ordf n)) ns) = Ok g' -> node_list_safe (ops ++ map (fun n => ODetachRemove n (ordf n)) ns) ->
  get_nodes g = Ok ns -> length ns < k -> nodes_loop k (removing_nodes ordf) g = Ok (ns, g').
Proof. exact (removing_nodes_ok ops g g' ordf ns k). Qed.
Print Assumptions C61_removing_partial.
(** a loop without calls: GetNodes as modelled in Graph.v *)
Theorem C61_quiet_partial ops g ns k : valid_history ops -> run ops = Ok g -> node_list_safe ops -> get_nodes g = Ok ns -> length ns < k ->
  nodes_loop k nothing g = Ok (ns, g).
Proof. exact (quiet_nodes_loop ops g ns k). Qed.
Print Assumptions C61_quiet_partial.
Definition C61_calls : list op := map (fun n => ODetachRemove n (C60_ord n)) [0; 1; 2].
Example C61_ex : (valid_history (C60_ops ++ C61_calls) /\ run C60_ops = Ok (result C60_ops)) /\
  (exists g', run (C60_ops ++ C61_calls) = Ok g') /\ node_list_safe (C60_ops ++ C61_calls) /\ get_nodes (result C60_ops) = Ok [0; 1; 2] /\
  loop_calls (removing_nodes C60_ord) [] [0; 1; 2] = C61_calls /\ loop_keeps nodes_keep (removing_nodes C60_ord) (srun C60_ops) [] [0; 1; 2] /\
  match nodes_loop 4 (removing_nodes C60_ord) (result C60_ops) with Ok (vis, g) => vis = [0; 1; 2] /\ get_nodes g = Ok [] | _ => False end.
Proof.
  split; [split; [by_compute|apply run_result; vm_compute; reflexivity]|]. split; [eexists; apply run_result; vm_compute; reflexivity|].
  split; [by_compute|]. split; [vm_compute; reflexivity|]. split; [vm_compute; reflexivity|]. split; [apply removing_nodes_keeps; by_compute|].
  vm_compute. done.
Qed.
