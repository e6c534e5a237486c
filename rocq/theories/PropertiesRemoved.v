(** C51: calls on removed objects (edgemap.go:73-103, list.go:42-58, 111-123). *)
From Verif Require Import Base Value Graph GraphSpec SizeProofs GraphExamples.

(** In full: removing an edge again changes nothing that can be read of the live nodes. *)
Definition C51_statement : Prop := forall ops g g' e n xs,
  valid_history (ops ++ [ORemoveEdge e]) -> run (ops ++ [ORemoveEdge e]) = Ok g -> step g (ORemoveEdge e) = Ok g' ->
  live_node (srun ops) n -> node_edges g n Outgoing = Ok xs -> node_edges g' n Outgoing = Ok xs.
(** False: the links of the removed edge are nil, so list.go:45-54 empty the whole list of its label. *)
Definition C51_witness : list op :=
  [ONewNode ∅ ∅ []; ONewEdge 0 0 "A" ∅; ONewEdge 0 0 "A" ∅; ONewEdge 0 0 "A" ∅; ONewEdge 0 0 "B" ∅].
Theorem C51_refuted : exists ops g g' e n,
  (valid_history (ops ++ [ORemoveEdge e]) /\ live_node (srun ops) n) /\ run (ops ++ [ORemoveEdge e]) = Ok g /\
  run (ops ++ [ORemoveEdge e; ORemoveEdge e]) = Ok g' /\
  node_edges g n Outgoing = Ok [2; 3; 4] /\ node_edges g' n Outgoing = Ok [4].
Proof.
  exists C51_witness, (result (C51_witness ++ [ORemoveEdge 1])),
    (result (C51_witness ++ [ORemoveEdge 1; ORemoveEdge 1])), 1, 0.
  split; [by_compute|]. split; [apply run_result; vm_compute; reflexivity|]. 
  split; [apply run_result; vm_compute; reflexivity|]. by_compute.
Qed.
Print Assumptions C51_refuted.
(** Removing a node again counts it down again. *)
Theorem C51_nodes_refuted : exists ops g,
  valid_history (ops ++ [ODetachRemove 0 []]) /\ run (ops ++ [ODetachRemove 0 []; ODetachRemove 0 []]) = Ok g /\
  s_nodes (srun (ops ++ [ODetachRemove 0 []])) !! 1 = Some (SNode ∅ ∅) /\ num_nodes g = 0%Z.
Proof.
  exists [ONewNode ∅ ∅ []; ONewNode ∅ ∅ []], (result ([ONewNode ∅ ∅ []; ONewNode ∅ ∅ []] ++ [ODetachRemove 0 []; ODetachRemove 0 []])).
  split; [by_compute|]. split; [apply run_result; vm_compute; reflexivity|]. by_compute.
Qed.
Print Assumptions C51_nodes_refuted.
(** Removing an edge again is harmless - it does not even change the representation - if no live
    edge has its label (missing: the other edges, for which it is false, and nodes). *)
Theorem C51_partial ops g e ed :
  valid_history ops -> run ops = Ok g -> edge_list_safe ops -> (forall x, filed_ok (filed ops) (srun ops) x) ->
  g_edges g !! e = Some ed -> ~ live_edge (srun ops) e ->
  live_node (srun ops) (e_from ed) -> live_node (srun ops) (e_to ed) ->
  (forall x, ~ has_label (srun ops) (e_label ed) x) ->
  step g (ORemoveEdge e) = Ok g.
Proof. exact (remove_twice ops g e ed). Qed.
Print Assumptions C51_partial.
Definition C51_ops : list op :=
  [ONewNode ∅ ∅ []; ONewEdge 0 0 "A" ∅; ONewEdge 0 0 "B" ∅; ONewEdge 0 0 "B" ∅; ORemoveEdge 1].
Example C51_ex : exists ed,
  valid_history C51_ops /\ run C51_ops = Ok (result C51_ops) /\ edge_list_safe C51_ops /\
  (forall x, filed_ok (filed C51_ops) (srun C51_ops) x) /\
  g_edges (result C51_ops) !! 1 = Some ed /\ ~ live_edge (srun C51_ops) 1 /\
  live_node (srun C51_ops) (e_from ed) /\ live_node (srun C51_ops) (e_to ed) /\
  (forall x, ~ has_label (srun C51_ops) (e_label ed) x).
Proof.
  exists (Edge 0 0 "A" ∅). split; [by_compute|]. split; [apply run_result; vm_compute; reflexivity|].
  split; [by_compute|]. split; [apply filed_ok_all; by_compute|]. split; [by_compute|]. split; [by_compute|].
  split; [by_compute|]. split; [by_compute|].
  intros x (y & Hy & Hl).
  assert (map_Forall (fun _ (z : edge) => e_label z <> "A"%string) (s_edges (srun C51_ops))) as H by by_compute.
  exact (H x y Hy Hl).
Qed.
