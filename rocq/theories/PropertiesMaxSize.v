(** C89: what MaxSize of the iterators is, exactly (node.go:83-99, graph.go:127-214, edgemap.go:160-186, btreeindex.go:68-83, hashindex.go:80-85). *)
From Verif Require Import Base Value Index Graph GraphSpec IndexGraphProofs Itr ItrSpec Sizes QueryOrderSpec MaxSizeSpec HashOnlyProofs MaxSizeProofs GraphExamples.

(** GetNodes: the number of nodes, in every graph, even if it lists others (C48_nodes_refuted). *)
Theorem C89_nodes ops g : valid_history ops -> run ops = Ok g -> get_nodes_size g = Z.of_nat (size (s_nodes (srun ops))).
Proof. exact (nodes_max ops g). Qed.
Print Assumptions C89_nodes.
(** Node.GetEdgesWithAnyLabel: known for each direction with at most one edge or without labels. *)
Theorem C89_node_any ops g n d ord1 ord2 : valid_history ops -> run ops = Ok g -> live_node (srun ops) n ->
  node_edges_any_size g n d ord1 ord2 = Ok (node_any_size (srun ops) n d ord1 ord2).
Proof. exact (node_any_max ops g n d ord1 ord2). Qed.
Print Assumptions C89_node_any.
(** When C48 fails for both directions: exactly then MaxSize is neither -1 nor a bound. *)
Theorem C89_wrong ops g n ord1 ord2 xs m : valid_history ops -> run ops = Ok g -> live_node (srun ops) n -> ord1 <> [] -> ord2 <> [] ->
  node_edges_any g n AnyDir ord1 ord2 = Ok xs -> node_edges_any_size g n AnyDir ord1 ord2 = Ok m ->
  (~ bounds m xs <-> both_wrong ord1 ord2 (edges_at (srun ops) e_to n) (edges_at (srun ops) e_from n)).
Proof. exact (any_both_wrong ops g n ord1 ord2 xs m). Qed.
Print Assumptions C89_wrong.
(** Nodes and edges with a property, and edges with one of some labels: *)
Definition C89_statement : Prop := forall ops g k ord, valid_history ops -> run ops = Ok g ->
  prop_size (node_index ops k) (size (s_nodes (srun ops))) (size (node_vals (srun ops) k)) (node_filed ops k) (get_nodes_with_property_size g k) /\
  prop_size (edge_index ops k) (size (s_edges (srun ops))) (size (edge_entries ops k)) (edge_filed ops k) (get_edges_with_property_size g k) /\
  get_edges_any_label_size g ord = any_size ord (s_edges (srun ops)).
(** False for the histories of C01: an index is built with a removed node in it. *)
Definition C89_stale : list op :=
  [ONewNode ∅ ∅ []; ODetachRemove 0 []; ONewNode ∅ {["k" := VInt 1]} []; ODetachRemove 1 []; OAddNodeIndex "k" HashIndex]%string.
Theorem C89_refuted : exists ops g k, valid_history ops /\ run ops = Ok g /\
  ~ prop_size (node_index ops k) (size (s_nodes (srun ops))) (size (node_vals (srun ops) k)) (node_filed ops k) (get_nodes_with_property_size g k).
Proof.
  exists C89_stale, (result C89_stale), "k"%string. split; [by_compute|]. split; [apply run_result; vm_compute; reflexivity|].
  intros H. vm_compute in H. discriminate H.
Qed.
Print Assumptions C89_refuted.
(** Proved where the lists that are read are right (missing: the other histories). *)
Theorem C89_partial ops g k : valid_history ops -> run ops = Ok g -> node_scan_safe ops k ->
  prop_size (node_index ops k) (size (s_nodes (srun ops))) (size (node_vals (srun ops) k)) (node_filed ops k) (get_nodes_with_property_size g k).
Proof. exact (nodes_with_property_max ops g k). Qed.
Print Assumptions C89_partial.
Theorem C89_edges_partial ops g k : valid_history ops -> run ops = Ok g -> edge_scan_safe ops k -> edge_list_safe ops \/ is_Some (edge_index ops k) ->
  prop_size (edge_index ops k) (size (s_edges (srun ops))) (size (edge_entries ops k)) (edge_filed ops k) (get_edges_with_property_size g k).
Proof. exact (edges_with_property_max ops g k). Qed.
Print Assumptions C89_edges_partial.
Theorem C89_edges_any_partial ops g ord : valid_history ops -> run ops = Ok g -> edge_list_safe ops ->
  get_edges_any_label_size g ord = any_size ord (s_edges (srun ops)).
Proof. exact (edges_any_max ops g ord). Qed.
Print Assumptions C89_edges_any_partial.

(** Three nodes, two with [k]; two edges come in at node 0, one goes out. *)
Definition C89_ops (it : index_type) : list op :=
  [ONewNode ∅ {["k" := VInt 1]} []; ONewNode ∅ {["k" := VInt 2]} []; ONewNode ∅ ∅ []; OAddNodeIndex "k" it; OAddNodeIndex "j" it; OAddEdgeIndex "k" it;
   ONewEdge 1 0 "A" {["k" := VInt 1]}; ONewEdge 1 0 "B" ∅; ONewEdge 0 1 "A" {["k" := VInt 1]}; ORemoveEdge 3]%string.
Example C89_ex : let h := C89_ops HashIndex in let b := C89_ops BtreeIndex in let w := take 9 h in
  (valid_history h /\ run h = Ok (result h) /\ live_node (srun h) 0 /\ node_scan_safe h "k" /\ edge_scan_safe h "k" /\ edge_list_safe h /\
   get_nodes_size (result h) = 3%Z /\ get_nodes_with_property_size (result h) "k" = 2%Z /\ get_nodes_with_property_size (result h) "j" = 0%Z /\
   get_nodes_with_property_size (result h) "x" = 3%Z /\
   size (edge_entries h "k") = 2 /\ get_edges_with_property_size (result h) "k" = 2%Z /\
   get_edges_any_label_size (result h) ["A"] = (-1)%Z /\ node_edges_any_size (result h) 0 AnyDir ["A"] ["A"] = Ok 1%Z)%string /\
  (valid_history b /\ run b = Ok (result b) /\ node_scan_safe b "k" /\ node_scan_safe b "j" /\
   (exists v, node_filed b "k" v) /\ (forall v, ~ node_filed b "j" v) /\
   get_nodes_with_property_size (result b) "k" = (-1)%Z /\ get_nodes_with_property_size (result b) "j" = 0%Z)%string /\
  (valid_history w /\ run w = Ok (result w) /\ live_node (srun w) 0 /\ node_edges_any (result w) 0 AnyDir ["A"] ["A"] = Ok [3; 5] /\
   node_edges_any_size (result w) 0 AnyDir ["A"] ["A"] = Ok 0%Z /\
   both_wrong ["A"] ["A"] (edges_at (srun w) e_to 0) (edges_at (srun w) e_from 0))%string.
Proof.
  intros h b w. split; [|split].
  - split; [by_compute|]. split; [apply run_result; vm_compute; reflexivity|]. split; [by_compute|]. split; [apply node_scans_safe; by_compute|].
    split; [apply edge_scans_safe; by_compute|]. by_compute.
  - split; [by_compute|]. split; [apply run_result; vm_compute; reflexivity|]. split; [apply node_scans_safe; by_compute|]. split; [apply node_scans_safe; by_compute|].
    split. { exists (VInt 1). apply (node_has_filed _ _ _ 0); [by eexists|]. eexists. split; vm_compute; reflexivity. }
    split. { intros v H. refine (node_filed_list _ _ (fun _ => False) _ v H). by_compute. }
    by_compute.
  - split; [by_compute|]. split; [apply run_result; vm_compute; reflexivity|]. split; [by_compute|]. split; [by_compute|]. split; [by_compute|].
    right. left. vm_compute. lia.
Qed.
