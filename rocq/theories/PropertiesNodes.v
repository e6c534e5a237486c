(** C01, C02, C08: the nodes of the graph (graph.go:114-146, node.go:130-190, nodemap.go). *)
From Verif Require Import Base Value Graph GraphSpec NodeListProofs LabelProofs GraphExamples.

(** C01 in full: after every valid history, GetNodes yields the live nodes in creation order.
    This is false: after the newest node has been removed, [nodeList.tail] still points to it. *)
Definition C01_statement : Prop := forall ops g,
  valid_history ops -> run ops = Ok g -> exists xs, get_nodes g = Ok xs /\ lists_nodes (srun ops) xs.
(** Three nodes are created, the last is removed, another is created: it is missing. *)
Definition C01_witness : list op :=
  [ONewNode ∅ ∅ []; ONewNode ∅ ∅ []; ONewNode ∅ ∅ []; ODetachRemove 2 []; ONewNode ∅ ∅ []].
Theorem C01_refuted : exists ops g,
  valid_history ops /\ run ops = Ok g /\ live_node (srun ops) 3 /\ get_nodes g = Ok [0; 1].
Proof. exists C01_witness, (result C01_witness). by_witness. Qed.
Print Assumptions C01_refuted.
(** The only node is removed, a second created and removed: it is still listed. *)
Definition C01_witness2 : list op :=
  [ONewNode ∅ ∅ []; ODetachRemove 0 []; ONewNode ∅ ∅ []; ODetachRemove 1 []].
Theorem C01_removed_node_listed_refuted : exists ops g,
  valid_history ops /\ run ops = Ok g /\ s_nodes (srun ops) = ∅ /\ get_nodes g = Ok [1].
Proof. exists C01_witness2, (result C01_witness2). by_witness. Qed.
Print Assumptions C01_removed_node_listed_refuted.

(** What holds: exactness for all histories accepted by [node_list_safe] (missing for the full
    statement: the others). *)
Theorem C01_partial ops g :
  valid_history ops -> run ops = Ok g -> node_list_safe ops ->
  exists xs, get_nodes g = Ok xs /\ lists_nodes (srun ops) xs.
Proof. exact (get_nodes_ok ops g). Qed.
Print Assumptions C01_partial.
(** The guard is exact: GetNodes is right throughout a history iff the history is accepted. *)
Theorem C01_characterised ops g :
  valid_history ops -> run ops = Ok g ->
  (forall ops1 ops2 g1, ops = ops1 ++ ops2 -> run ops1 = Ok g1 ->
     exists xs, get_nodes g1 = Ok xs /\ lists_nodes (srun ops1) xs)
  <-> node_list_safe ops.
Proof. exact (get_nodes_characterised ops g). Qed.
Print Assumptions C01_characterised.
Example C01_ex : valid_history ex_ops /\ run ex_ops = Ok ex_graph /\ node_list_safe ex_ops /\
  get_nodes ex_graph = Ok [0; 1; 2].
Proof. split; [exact ex_valid|]. split; [exact ex_run|]. split; [exact ex_nsafe|]. by_compute. Qed.

(** C02 *)
Theorem C02_num_nodes_exact ops g :
  valid_history ops -> run ops = Ok g -> num_nodes g = Z.of_nat (size (s_nodes (srun ops))).
Proof. exact (num_nodes_ok ops g). Qed.
Print Assumptions C02_num_nodes_exact.
Example C02_ex : valid_history ex_ops /\ run ex_ops = Ok ex_graph /\ num_nodes ex_graph = 3%Z.
Proof. split; [exact ex_valid|]. split; [exact ex_run|]. by_compute. Qed.

(** C08: for every non-empty label set and every iteration order of it; [m] is MaxSize. *)
Theorem C08_nodes_with_all_labels_exact ops g S ord :
  valid_history ops -> run ops = Ok g -> S <> ∅ -> order_of S ord ->
  exists xs m, get_nodes_all_labels g S ord = Ok (xs, m) /\
    lists (fun n => exists x, s_nodes (srun ops) !! n = Some x /\ S ⊆ sn_labels x) xs /\
    (Z.of_nat (length xs) <= m)%Z.
Proof. exact (get_nodes_all_labels_ok ops g S ord). Qed.
Print Assumptions C08_nodes_with_all_labels_exact.
Example C08_ex : valid_history ex_ops /\ run ex_ops = Ok ex_graph /\
  order_of {["P"]}%string ["P"]%string /\ get_nodes_all_labels ex_graph {["P"]}%string ["P"]%string = Ok ([0; 2; 1], 3%Z).
Proof.
  split; [exact ex_valid|]. split; [exact ex_run|].
  by_compute.
Qed.
(** With the empty set the call panics. *)
Theorem C08_empty_set_panics_refuted : exists ops g,
  valid_history ops /\ run ops = Ok g /\ get_nodes_all_labels g ∅ [] = Panic.
Proof. exact (ex_intro _ ex_ops (ex_intro _ ex_graph (conj ex_valid (conj ex_run eq_refl)))). Qed.
Print Assumptions C08_empty_set_panics_refuted.
