(** C92, C93: queries in every graph, also where the list of nodes is wrong (graph.go:173-189, 413-474, indexes.go:47-132, alg.go:22-61, 181-188). *)
From Verif Require Import Base Value Index Graph GraphSpec Alg AlgSpec ListedSpec ListedProofs HeldSpec HeldProofs WalkProofs GraphExamples.

(** C92.  Without an index: what GetNodes lists, if it has or, removed, had the property. *)
Theorem C92_scan ops g k : valid_history ops -> run ops = Ok g -> node_index ops k = None ->
  get_nodes_with_property g k = Ok (filter (fun n => is_Some (last_value ops k n)) (listed ops)).
Proof. exact (with_property_scan ops g k). Qed.
Print Assumptions C92_scan.
(** With an index over values it can hold: what it was given when it was made, and what came later. *)
Theorem C92_index ops1 it ops2 k g : let ops := ops1 ++ OAddNodeIndex k it :: ops2 in
  valid_history ops -> run ops = Ok g -> node_index ops1 k = None -> storable it (given ops k) ->
  exists xs, get_nodes_with_property g k = Ok xs /\ lists (fun n => exists v, held ops1 ops2 it k n v) xs.
Proof. exact (with_property_held ops1 it ops2 k g). Qed.
Print Assumptions C92_index.
(** When the answer of the index is right: the converse of C13_partial too. *)
Theorem C92_right ops1 it ops2 k g xs : let ops := ops1 ++ OAddNodeIndex k it :: ops2 in
  valid_history ops -> run ops = Ok g -> node_index ops1 k = None -> storable it (given ops k) -> get_nodes_with_property g k = Ok xs ->
  (lists (fun n => exists v, node_has (srun ops) k v n) xs <->
   (forall n v, n ∈ hidden ops1 -> node_has (srun ops) k v n -> set_in ops2 k n) /\ (forall n, n ∈ l_dead (rows_of ops1) -> last_value ops1 k n = None)).
Proof. exact (with_property_right ops1 it ops2 k g xs). Qed.
Print Assumptions C92_right.
(** Nodes 2 and 3 are not listed, 4 is removed and listed.  The index is made; then 2 gets the property anew, 3 does not. *)
Definition C92_ops1 : list op :=
  [ONewNode ∅ {["k" := VInt 1]} []; ONewNode ∅ ∅ []; ODetachRemove 1 []; ONewNode ∅ {["k" := VInt 2]} []; ONewNode ∅ {["k" := VInt 3]} [];
   ODetachRemove 0 []; ONewNode ∅ {["k" := VInt 4]} []; ONewNode ∅ {["k" := VInt 5]} []; ODetachRemove 4 []]%string.
Definition C92_ops2 : list op := [OSetNodeProp 2 "k" (VInt 7); ONewNode ∅ {["k" := VInt 6]} []; ODetachRemove 5 []]%string.
Example C92_ex : let ops it := C92_ops1 ++ OAddNodeIndex "k" it :: C92_ops2 in
  (valid_history C92_ops1 /\ run C92_ops1 = Ok (result C92_ops1) /\ node_index C92_ops1 "k" = None /\ listed C92_ops1 = [4; 5] /\ hidden C92_ops1 = [2; 3] /\
   l_dead (rows_of C92_ops1) = [4] /\ last_value C92_ops1 "k" 4 = Some (VInt 4) /\ get_nodes_with_property (result C92_ops1) "k" = Ok [4; 5])%string /\
  forall it, valid_history (ops it) /\ run (ops it) = Ok (result (ops it)) /\ storable it (given (ops it) "k") /\
    (get_nodes_with_property (result (ops it)) "k" = Ok [4; 6; 2] \/ get_nodes_with_property (result (ops it)) "k" = Ok [4; 2; 6])%string /\
    (node_has (srun (ops it)) "k" (VInt 3) 3 /\ ~ set_in C92_ops2 "k" 3 /\ set_in C92_ops2 "k" 2)%string.
Proof.
  intros ops. split; [split; [by_compute|]; split; [apply run_result; vm_compute; reflexivity|]; by_compute|].
  intros it. split; [destruct it; by_compute|]. split; [destruct it; apply run_result; vm_compute; reflexivity|]. split; [|split].
  - assert (forall v, given (ops it) "k" v -> exists z, v = VInt z) as H.
    { intros v (o & Ho & Hw). assert (Forall (fun o => forall v, writes_node o "k" v -> exists z, v = VInt z) (ops it)) as HF.
      { repeat constructor; intros w Hx; simpl in Hx; try done; try (injection Hx as <-; eauto); try (destruct Hx as [_ <-]; eauto). }
      rewrite Forall_forall in HF. by eapply HF. }
    destruct it; simpl.
    + intros v w Hv Hw. destruct (H v Hv) as [z ->], (H w Hw) as [z' ->]. done.
    + intros v Hv. by destruct (H v Hv) as [z ->].
  - destruct it; [left|right]; by_compute.
  - split; [exists (SNode ∅ {["k" := VInt 3]})%string; destruct it; by_compute|]. split.
    + intros [v Hv]. repeat (apply elem_of_cons in Hv as [Hv|Hv]; [done|]). by apply elem_of_nil in Hv.
    + exists (VInt 7). left.
Qed.

(** C93.  A removed node keeps the labels and properties it had and has no edges. *)
Theorem C93_read ops g n x : valid_history ops -> run ops = Ok g -> s_nodes (srun (ghosts ops)) !! n = Some x ->
  labels_of g n = sn_labels x /\ forall k, node_prop g n k = sn_props x !! k.
Proof. exact (removed_read ops g n x). Qed.
Print Assumptions C93_read.
Theorem C93_edges ops g n d : valid_history ops -> run ops = Ok g -> removed_node ops n -> node_edges g n d = Ok [].
Proof. exact (removed_edges ops g n d). Qed.
Print Assumptions C93_edges.
(** So the removed nodes that GetNodes lists are sources and sinks, *)
Theorem C93_stale ops g n : valid_history ops -> run ops = Ok g -> n ∈ l_dead (rows_of ops) ->
  removed_node ops n /\ nothing_in (srun ops) n /\ nothing_out (srun ops) n.
Proof. exact (removed_everywhere ops g n). Qed.
Print Assumptions C93_stale.
(** and Sources, Sinks and ForEachNode go through the list of C91 in every graph. *)
Theorem C93_sources ops g : valid_history ops -> run ops = Ok g -> sources g = Ok (filter (nothing_in (srun ops)) (listed ops)).
Proof. exact (sources_listed ops g). Qed.
Print Assumptions C93_sources.
Theorem C93_sinks ops g : valid_history ops -> run ops = Ok g -> sinks g = Ok (filter (nothing_out (srun ops)) (listed ops)).
Proof. exact (sinks_listed ops g). Qed.
Print Assumptions C93_sinks.
Theorem C93_for_each T ops g (pred : nat -> T -> bool * T) t : valid_history ops -> run ops = Ok g ->
  exists x, for_each_node g pred t = Ok x /\ in_turn pred (listed ops) t x.
Proof. exact (each_listed ops g pred t). Qed.
Print Assumptions C93_for_each.
(** As above, with edges; the removed node 4 had one and counts as a source now, the live node 2 is a source that is missing. *)
Definition C93_ops : list op :=
  take 8 C92_ops1 ++ [OSetLabels 4 {["L"]} [] ["L"]; ONewEdge 5 4 "E" ∅; ONewEdge 2 5 "E" ∅; ODetachRemove 4 ["L"]]%string.
Example C93_ex : valid_history C93_ops /\ run C93_ops = Ok (result C93_ops) /\ removed_node C93_ops 4 /\ 4 ∈ l_dead (rows_of C93_ops) /\
  s_nodes (srun (ghosts C93_ops)) !! 4 = Some (SNode {["L"]} {["k" := VInt 4]})%string /\ labels_of (result C93_ops) 4 = {["L"]}%string /\
  listed C93_ops = [4; 5] /\ sources (result C93_ops) = Ok [4] /\ sinks (result C93_ops) = Ok [4; 5] /\
  (live_node (srun C93_ops) 2 /\ nothing_in (srun C93_ops) 2) /\
  for_each_node (result C93_ops) (fun n ns => (bool_decide (n < 5), ns ++ [n])) [] = Ok (false, [4; 5]).
Proof. split; [by_compute|]. split; [apply run_result; vm_compute; reflexivity|]. split; [split; by_compute|]. by_compute. Qed.
