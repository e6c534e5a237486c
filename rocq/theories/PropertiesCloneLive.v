(** C69: clone.go with target = source. *)
From Verif Require Import Base Value Links Graph GraphSpec Sizes EdgeMapPtr ItrLive ItrLiveSpec Clone CloneSpec CloneLive CloneProofs CloneLiveProofs GraphExamples.
From Verif Require Import PropertiesClone.
Local Open Scope string_scope.
Local Open Scope list_scope.

(** C69 in full: copying a graph into itself returns (if adding nodes and edges does), and adds one copy of each node and edge
    that was there. *)
Definition C69_statement : Prop := forall ops g f ord,
  valid_history ops -> run ops = Ok g -> label_orders (srun ops) ord ->
  node_list_safe ops -> edge_list_safe ops -> calls_safe ops -> can_hold ops f (srun ops) ->
  exists k m x' ops' h, (let! x := x_run ops in x_copy_graph f ord k x) = Ok (m, x') /\ valid_history (ops ++ ops') /\ run (ops ++ ops') = Ok (x_g x') /\
    copied f (srun ops) (srun ops) (srun (ops ++ ops')) m h.
(** False for every graph with two nodes or more: the loop over the nodes visits the copies as well and never ends
    (or panics, if an index refuses a value). *)
Theorem C69_refuted ops g ns f ord k r : valid_history ops -> run ops = Ok g -> node_list_safe (ops ++ creating []) -> get_nodes g = Ok ns ->
  2 <= length ns -> (let! x := x_run ops in x_copy_graph f ord k x) <> Ok r.
Proof. exact (copy_graph_never ops g ns f ord k r). Qed.
Print Assumptions C69_refuted.
Definition C69_ops : list op := [ONewNode ∅ ∅ []; ONewNode ∅ ∅ []; ONewEdge 0 1 "a" ∅].
Example C69_refuted_ex : (valid_history C69_ops /\ run C69_ops = Ok (result C69_ops)) /\ node_list_safe (C69_ops ++ creating []) /\
  get_nodes (result C69_ops) = Ok [0; 1] /\ (let! x := x_run C69_ops in x_copy_graph (fun _ v => v) (fun _ => []) 100 x) = Diverge.
Proof.
  split; [split; [by_compute|apply run_result; vm_compute; reflexivity]|]. split; [by_compute|]. split; vm_compute; reflexivity.
Qed.
Example C69_refutes : ~ C69_statement.
Proof.
  intros H. destruct C69_refuted_ex as ((Hv & Hr) & Hs & Hn & _).
  destruct (H C69_ops _ (fun _ v => v) (fun _ => []) Hv Hr) as (k & m & x' & ops' & h & E & _).
  - intros n x Hx. assert (map_Forall (fun _ x => sn_labels x = ∅) (s_nodes (srun C69_ops))) as Ha by by_compute.
    rewrite (Ha n x Hx). clear. by_compute.
  - by_compute.
  - by_compute.
  - split; [by_compute|]. split; intros k it Hk; discriminate Hk.
  - split; intros k it Hk; discriminate Hk.
  - revert E. apply (C69_refuted C69_ops _ _ _ _ _ _ Hv Hr Hs Hn). cbn. lia.
Qed.
(** With one node it returns.  The loop over all edges visits copies as well, and skips them: their ends have no copies. *)
Definition C69_loops : list op := [ONewNode {["P"]} {["k" := VInt 1]} ["P"]; ONewEdge 0 0 "a" ∅; ONewEdge 0 0 "a" ∅; ONewEdge 0 0 "b" ∅].
Example C69_one : (valid_history C69_loops /\ run C69_loops = Ok (result C69_loops)) /\
  match (let! x := x_run C69_loops in x_copy_graph (fun _ v => v) (fun _ => ["P"]) 10 x) with
  | Ok (m, x) => bool_decide (m = {[0 := 4]}) = true /\ get_nodes (x_g x) = Ok [0; 4] /\ get_edges (x_g x) = Ok [1; 2; 5; 6; 3; 7] /\
      node_edges (x_g x) 0 AnyDir = Ok [1; 2; 3; 1; 2; 3] /\ node_edges (x_g x) 4 Outgoing = Ok [5; 6; 7] /\ node_edges (x_g x) 4 Incoming = Ok [5; 6; 7]
  | _ => False
  end.
Proof. split; [split; [by_compute|apply run_result; vm_compute; reflexivity]|]. vm_compute. split_and!; reflexivity. Qed.

(** CopySubgraph may copy into the same graph (missing: CopyGraph), for every graph, start node and initial map to nodes
    of the graph: the result is the graph with one copy added of each node reachable (without passing nodes with an image)
    and each edge from these, as they were at the start.  The graph is then as after a history of valid calls. *)
Theorem C69_partial ops g f ord j k n m0 m x' :
  valid_history ops -> run ops = Ok g -> label_orders (srun ops) ord -> live_node (srun ops) n -> (forall a b, m0 !! a = Some b -> live_node (srun ops) b) ->
  size (s_nodes (srun ops)) < k -> size (s_edges (srun ops)) < j ->
  (let! x := x_run ops in x_copy_subgraph f ord j k n x m0) = Ok (m, x') ->
  exists ops' h, valid_history (ops ++ ops') /\ run (ops ++ ops') = Ok (x_g x') /\ Forall (clone_op f (srun ops)) ops' /\
    copied_part f (srun ops) (srun ops) (srun (ops ++ ops')) n m0 m h.
Proof. exact (fun Hv Hr Ho => self_sound ops g f ord Hv Hr Ho j k n m0 m x'). Qed.
Print Assumptions C69_partial.
(** It ends, and returns if adding nodes and edges does. *)
Theorem C69_returns_partial ops g f ord j k n m0 :
  valid_history ops -> run ops = Ok g -> label_orders (srun ops) ord -> live_node (srun ops) n -> (forall a b, m0 !! a = Some b -> live_node (srun ops) b) ->
  size (s_nodes (srun ops)) < k -> size (s_edges (srun ops)) < j -> calls_safe ops -> can_hold ops f (srun ops) ->
  exists r, (let! x := x_run ops in x_copy_subgraph f ord j k n x m0) = Ok r.
Proof. exact (fun Hv Hr Ho => self_returns ops g f ord Hv Hr Ho j k n m0). Qed.
Print Assumptions C69_returns_partial.
(** the graph of C34: a cycle 0 → 1 → 2 → 0 with 1 → 3 → 4 and 5 → 0; copies are to use node 3 itself *)
Example C69_ex : (valid_history C34_sops /\ run C34_sops = Ok (result C34_sops)) /\ label_orders (srun C34_sops) (fun _ => []) /\
  live_node (srun C34_sops) 0 /\ live_node (srun C34_sops) 3 /\ size (s_nodes (srun C34_sops)) < 7 /\ size (s_edges (srun C34_sops)) < 7 /\
  calls_safe C34_sops /\ (forall f s, can_hold C34_sops f s) /\
  match (let! x := x_run C34_sops in x_copy_subgraph (fun _ v => v) (fun _ => []) 7 7 0 x {[3 := 3]}) with
  | Ok (m, x) => bool_decide (m = {[3 := 3; 0 := 12; 1 := 13; 2 := 14]}) = true /\ get_nodes (x_g x) = Ok [0; 1; 2; 3; 4; 5; 12; 13; 14] /\
      get_edges (x_g x) = Ok [6; 7; 8; 9; 10; 11; 15; 16; 17; 18] /\ node_edges (x_g x) 13 Outgoing = Ok [16; 17] /\
      node_edges (x_g x) 3 AnyDir = Ok [9; 17; 10] /\ node_edges (x_g x) 0 AnyDir = Ok [8; 11; 6]
  | _ => False
  end.
Proof.
  split; [split; [by_compute|apply run_result; vm_compute; reflexivity]|]. split.
  { intros n x Hx. assert (map_Forall (fun _ x => sn_labels x = ∅) (s_nodes (srun C34_sops))) as Ha by by_compute.
    rewrite (Ha n x Hx). clear. by_compute. }
  split; [by_compute|]. split; [by_compute|]. split; [by_compute|]. split; [by_compute|].
  split; [split; [by_compute|split; intros k it H; discriminate H]|]. split; [intros f s; split; intros k it H; discriminate H|].
  vm_compute. split_and!; reflexivity.
Qed.
