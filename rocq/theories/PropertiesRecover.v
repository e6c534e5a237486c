(** C65: calls that panic in an index, when the caller recovers and goes on (graph.go, indexes.go, hashindex.go,
    btreeindex.go). *)
From Verif Require Import Base Value Links EdgeMap Index Graph GraphSpec Recover RecoverSpec RecoverProofs RecoverNewProofs GraphExamples.
Local Open Scope string_scope.
Local Open Scope list_scope.

(** ** C65: a call that panics leaves the graph as it was *)
Definition C65_statement : Prop := panics_change_nothing.
(** False: NewNode with a value that the B-tree index refuses panics, but the node is in the graph.  It is not in the index. *)
Definition some_order : nat -> props -> list (string * value) := fun _ p => map_to_list p.
Definition C65_calls : list ((nat -> props -> list (string * value)) * op) :=
  map (pair some_order) [OAddNodeIndex "k" BtreeIndex; ONewNode ∅ {["k" := VInt 1]} []].
Theorem C65_refuted : exists g g', prop_order some_order /\ run_st C65_calls = Ok g /\
  step_st some_order g (ONewNode ∅ {["k" := VStr "x"]} []) = Ok (g', false) /\
  get_nodes g = Ok [0] /\ get_nodes g' = Ok [0; 1] /\ get_nodes_with_property g' "k" = Ok [0] /\ node_prop g' 1 "k" = Some (VStr "x").
Proof. eexists _, _. split; [intros id p; reflexivity|]. split_and!; vm_compute; reflexivity. Qed.
Print Assumptions C65_refuted.
Example C65_refutes : ~ C65_statement.
Proof.
  intros H. destruct C65_refuted as (g & g' & Hp & Hr & Hs & H1 & H2 & _). assert (g' = g) as ->.
  { apply (H C65_calls g some_order (ONewNode ∅ {["k" := VStr "x"]} []) g'); [repeat constructor; exact Hp|exact Hp|exact Hr|exact Hs]. }
  rewrite H1 in H2. discriminate.
Qed.

(** What [step_st] adds to the calls of Graph.v is the state after a panic: a call returns with a state iff it does there,
    and the order of the loops matters only when something panics. *)
Theorem C65_same_calls po g o : prop_order po ->
  step g o = let! x := step_st po g o in if (x.2 : bool) then Ok x.1 else Panic.
Proof. exact (step_outcome po g o). Qed.
Print Assumptions C65_same_calls.

(** What remains true: apart from the indexes, the graph is that after a history of calls that return.  A call that panics
    counts as one that returns, or as none, or (Detach) as removing some of the edges. *)
Theorem C65_start : reads_as new_graph [].
Proof. exact (conj I (conj eq_refl (Forall_nil_2 _))). Qed.
Print Assumptions C65_start.
Theorem C65_effect po g eff o g' b : reads_as g eff -> valid (srun eff) o -> step_st po g o = Ok (g', b) ->
  exists os, effect (srun eff) o b os /\ reads_as g' (eff ++ os).
Proof. exact (step_reads po g eff o g' b). Qed.
Print Assumptions C65_effect.
(** So the queries that use no property index answer as after that history. *)
Theorem C65_queries g eff : reads_as g eff ->
  (forall n x, s_nodes (srun eff) !! n = Some x -> labels_of g n = sn_labels x /\ forall k, node_prop g n k = sn_props x !! k) /\
  (forall e x, s_edges (srun eff) !! e = Some x -> g_edges g !! e = Some x) /\
  (forall n d, live_node (srun eff) n -> exists xs, node_edges g n d = Ok xs /\ forall e, e ∈ xs <-> at_node (srun eff) n d e) /\
  (node_list_safe eff -> exists xs, get_nodes g = Ok xs /\ lists (live_node (srun eff)) xs) /\
  (edge_list_safe eff -> exists xs, get_edges g = Ok xs /\ lists (live_edge (srun eff)) xs).
Proof. exact (reads_queries g eff). Qed.
Print Assumptions C65_queries.
(** Nothing else panics, and every call comes back. *)
Theorem C65_comes_back po g eff o : reads_as g eff -> valid (srun eff) o -> node_list_safe eff -> edge_list_safe (eff ++ [o]) ->
  exists g' b, step_st po g o = Ok (g', b).
Proof. exact (step_comes_back po g eff o). Qed.
Print Assumptions C65_comes_back.
Theorem C65_no_index po g o g' b : g_nix g = ∅ -> g_eix g = ∅ -> index_call o = false ->
  match o with ONewEdge from to _ _ => is_Some (g_nodes g !! from) /\ is_Some (g_nodes g !! to) | _ => True end ->
  step_st po g o = Ok (g', b) -> b = true.
Proof. exact (step_none po g o g' b). Qed.
Print Assumptions C65_no_index.

(** Detach that stops half-way: edge 3 has a value the index has refused; edges 2 and 3 are gone, edge 4 is not *)
Definition C65_detach : list ((nat -> props -> list (string * value)) * op) :=
  map (pair some_order) [ONewNode ∅ ∅ []; ONewNode ∅ ∅ []; OAddEdgeIndex "w" BtreeIndex; ONewEdge 0 1 "x" {["w" := VInt 1]};
    ONewEdge 0 1 "x" {["w" := VStr "a"]}; ONewEdge 0 1 "x" {["w" := VInt 2]}].
Definition C65_eff : list op :=
  [ONewNode ∅ ∅ []; ONewNode ∅ ∅ []; ONewEdge 0 1 "x" {["w" := VInt 1]}; ONewEdge 0 1 "x" {["w" := VStr "a"]}; ONewEdge 0 1 "x" {["w" := VInt 2]}].
Definition state_of (r : res graph) : graph := match r with Ok g => g | _ => new_graph end.
Example C65_effect_ex : let g := state_of (run_st C65_detach) in
  reads_as g C65_eff /\ valid (srun C65_eff) (ODetach 0) /\
  (exists g', step_st some_order g (ODetach 0) = Ok (g', false) /\ node_edges g' 0 Outgoing = Ok [4]) /\
  node_list_safe C65_eff /\ edge_list_safe (C65_eff ++ [ODetach 0]).
Proof.
  intros g. split; [split; [by_compute|split; [vm_compute; reflexivity|repeat constructor]]|]. split; [by_compute|].
  split; [eexists; split; vm_compute; reflexivity|]. split; by_compute.
Qed.

(** A property whose value was refused cannot be changed any more: every SetProperty and RemoveProperty of it panics and
    changes nothing. *)
Theorem C65_stuck_node po g n k v g' : step_st po g (OSetNodeProp n k v) = Ok (g', false) ->
  (forall po' w, step_st po' g' (OSetNodeProp n k w) = Ok (g', false)) /\ (forall po', step_st po' g' (ORemNodeProp n k) = Ok (g', false)).
Proof. exact (set_node_prop_stuck po g n k v g'). Qed.
Print Assumptions C65_stuck_node.
Theorem C65_stuck_edge po g e k v g' : step_st po g (OSetEdgeProp e k v) = Ok (g', false) ->
  (forall po' w, step_st po' g' (OSetEdgeProp e k w) = Ok (g', false)) /\ (forall po', step_st po' g' (ORemEdgeProp e k) = Ok (g', false)).
Proof. exact (set_edge_prop_stuck po g e k v g'). Qed.
Print Assumptions C65_stuck_edge.
(** A hash index lists the object for ever, whatever is called afterwards, even when the object is removed. *)
Theorem C65_listed_node calls po g n k v g' rest g'' : run_st calls = Ok g -> hash_indexed (g_nix g) k -> node_prop g n k = None ->
  step_st po g (OSetNodeProp n k v) = Ok (g', false) -> run_st_from g' rest = Ok g'' ->
  exists xs, get_nodes_with_property g'' k = Ok xs /\ n ∈ xs.
Proof. exact (node_listed calls po g n k v g' rest g''). Qed.
Print Assumptions C65_listed_node.
Theorem C65_listed_edge calls po g e k v g' rest g'' : run_st calls = Ok g -> hash_indexed (g_eix g) k -> edge_prop g e k = None ->
  step_st po g (OSetEdgeProp e k v) = Ok (g', false) -> run_st_from g' rest = Ok g'' ->
  exists xs, get_edges_with_property g'' k = Ok xs /\ e ∈ xs.
Proof. exact (edge_listed calls po g e k v g' rest g''). Qed.
Print Assumptions C65_listed_edge.
(** a node with a []string under a hash index, then removed (which panics too): it is in no list of nodes, but listed *)
Example C65_listed_ex : let g := state_of (run_st (map (pair some_order)
      [ONewNode ∅ ∅ []; ONewNode ∅ ∅ []; OAddNodeIndex "k" HashIndex])) in
  hash_indexed (g_nix g) "k" /\ node_prop g 0 "k" = None /\
  exists g' g'', step_st some_order g (OSetNodeProp 0 "k" (VStrs ["a"])) = Ok (g', false) /\
    step_st some_order g' (ODetachRemove 0 []) = Ok (g'', false) /\ get_nodes g'' = Ok [1] /\ get_nodes_with_property g'' "k" = Ok [0].
Proof. intros g. split; [eexists _, _, _; vm_compute; reflexivity|]. split; [vm_compute; reflexivity|]. eexists _, _. split_and!; vm_compute; reflexivity. Qed.
(** The same for NewNode and NewEdge: one of the indexes has refused a value.  If it is a hash index, it lists the new object for ever,
    also after it is removed; a B-tree index answers as before. *)
Theorem C65_listed_new_node calls po g labels p ord g' : prop_order po -> run_st calls = Ok g -> step_st po g (ONewNode labels p ord) = Ok (g', false) ->
  exists k, is_Some (p !! k) /\ is_Some (g_nix g !! k) /\
    (hash_indexed (g_nix g) k -> forall rest g'', run_st_from g' rest = Ok g'' -> exists xs, get_nodes_with_property g'' k = Ok xs /\ g_next g ∈ xs) /\
    (~ hash_indexed (g_nix g) k -> get_nodes_with_property g' k = get_nodes_with_property g k).
Proof. exact (new_node_listed calls po g labels p ord g'). Qed.
Print Assumptions C65_listed_new_node.
Theorem C65_listed_new_edge calls po g from to label p g' : prop_order po -> run_st calls = Ok g -> is_Some (g_nodes g !! from) -> is_Some (g_nodes g !! to) ->
  step_st po g (ONewEdge from to label p) = Ok (g', false) ->
  exists k, is_Some (p !! k) /\ is_Some (g_eix g !! k) /\
    (hash_indexed (g_eix g) k -> forall rest g'', run_st_from g' rest = Ok g'' -> exists xs, get_edges_with_property g'' k = Ok xs /\ g_next g ∈ xs) /\
    (~ hash_indexed (g_eix g) k -> get_edges_with_property g' k = get_edges_with_property g k).
Proof. exact (new_edge_listed calls po g from to label p g'). Qed.
Print Assumptions C65_listed_new_edge.
(** a new node with a []string under a hash index, then removed (which panics too) *)
Example C65_listed_new_ex : let g := state_of (run_st (map (pair some_order) [ONewNode ∅ ∅ []; OAddNodeIndex "k" HashIndex; OAddEdgeIndex "w" HashIndex])) in
  hash_indexed (g_nix g) "k" /\ hash_indexed (g_eix g) "w" /\
  (exists g' g'', step_st some_order g (ONewNode ∅ {["k" := VStrs ["a"]]} []) = Ok (g', false) /\ g_next g = 1 /\
    step_st some_order g' (ODetachRemove 1 []) = Ok (g'', false) /\ get_nodes g'' = Ok [0] /\ get_nodes_with_property g'' "k" = Ok [1]) /\
  (exists g', step_st some_order g (ONewEdge 0 0 "x" {["w" := VStrs ["a"]]}) = Ok (g', false) /\ get_edges_with_property g' "w" = Ok [1]).
Proof.
  intros g. split; [eexists _, _, _; vm_compute; reflexivity|]. split; [eexists _, _, _; vm_compute; reflexivity|].
  split; [eexists _, _; split_and!; vm_compute; reflexivity|]. eexists. split; vm_compute; reflexivity.
Qed.
Example C65_stuck_edge_ex : let g := state_of (run_st C65_detach) in exists g',
  step_st some_order g (OSetEdgeProp 2 "w" (VStr "b")) = Ok (g', false) /\ edge_prop g' 2 "w" = Some (VStr "b").
Proof. eexists. split; vm_compute; reflexivity. Qed.
