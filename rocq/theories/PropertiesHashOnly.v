(** C88: with hash indexes, exactly the calls that file a value that cannot be hashed panic (hashindex.go, indexes.go, graph.go:418-468). *)
From Verif Require Import Base Value Index Graph GraphSpec IndexGraphProofs Find HashOnlySpec HashOnlyProofs GraphExamples.

(** C88: in a graph with hash indexes only, a call panics if and only if it gives an index a value
    that cannot be a key of a Go map: a value written to an indexed property, or one present when the
    index is created. *)
Definition C88_statement : Prop := forall ops g o,
  valid_history ops -> run ops = Ok g -> valid (srun ops) o -> hash_only (ops ++ [o]) ->
  (step g o = Panic <-> files_unhashable ops o).
(** False for the histories of C01: a removed node that is still listed is given to a new index ... *)
Definition C88_stale : list op :=
  [ONewNode ∅ ∅ []; ODetachRemove 0 []; ONewNode ∅ {["k" := VStrs []]} []; ODetachRemove 1 []]%string.
Theorem C88_refuted : exists ops g o,
  (valid_history ops /\ run ops = Ok g /\ valid (srun ops) o /\ hash_only (ops ++ [o]) /\ step g o = Panic) /\ ~ files_unhashable ops o.
Proof.
  exists C88_stale, (result C88_stale), (OAddNodeIndex "k" HashIndex). split.
  - split; [by_compute|]. split; [apply run_result; vm_compute; reflexivity|]. split; [exact I|]. split; [by repeat constructor|]. vm_compute. reflexivity.
  - apply files_nothing; [intros ? ? []|intros ? ? []| |by intros]. intros k v it n _ _ (x & Hx & _). by rewrite (eq_refl : s_nodes (srun C88_stale) = ∅) in Hx.
Qed.
Print Assumptions C88_refuted.
(** ... and a node that is not listed is not. *)
Definition C88_missed : list op :=
  [ONewNode ∅ ∅ []; ONewNode ∅ ∅ []; ONewNode ∅ ∅ []; ODetachRemove 2 []; ONewNode ∅ {["k" := VStrs []]} []]%string.
Theorem C88_missed_refuted : exists ops g o g',
  (valid_history ops /\ run ops = Ok g /\ valid (srun ops) o /\ hash_only (ops ++ [o]) /\ step g o = Ok g') /\ files_unhashable ops o.
Proof.
  exists C88_missed, (result C88_missed), (OAddNodeIndex "k" HashIndex), (result (C88_missed ++ [OAddNodeIndex "k" HashIndex])). split.
  - split; [by_compute|]. split; [apply run_result; vm_compute; reflexivity|]. split; [exact I|]. split; [by repeat constructor|]. vm_compute. reflexivity.
  - exists "k"%string, (VStrs []). split; [done|]. left. split; [by eexists|]. right. split; [done|]. exists 3. eexists. split; vm_compute; reflexivity.
Qed.
Print Assumptions C88_missed_refuted.
(** Proved for all other histories in which the list of edges is right, without any assumption about
    the values (missing for the full statement: the histories of C01 and C06): every other call
    returns. *)
Theorem C88_partial ops g o :
  valid_history ops -> run ops = Ok g -> valid (srun ops) o -> hash_only (ops ++ [o]) -> lists_safe (ops ++ [o]) ->
  (step g o = Panic <-> files_unhashable ops o) /\ ((exists g', step g o = Ok g') <-> ~ files_unhashable ops o).
Proof. exact (hash_calls ops g o). Qed.
Print Assumptions C88_partial.
(** All calls of a history return if and only if no index is ever given an unhashable value. *)
Theorem C88_histories_partial ops :
  valid_history ops -> hash_only ops -> lists_safe ops ->
  ((exists g, run ops = Ok g) <-> forall k v, node_filed ops k v \/ edge_filed ops k v -> ~ unhashable v).
Proof. exact (hash_histories ops). Qed.
Print Assumptions C88_histories_partial.
(** So the condition of C13-C16, C86 and C87 on the values of a hash index holds in every graph there is. *)
Theorem C88_storable_partial ops g k :
  valid_history ops -> run ops = Ok g -> node_index ops k = Some HashIndex -> node_scan_safe ops k ->
  storable HashIndex (node_filed ops k).
Proof. exact (node_hash_storable ops g k). Qed.
Print Assumptions C88_storable_partial.
Theorem C88_storable_edges_partial ops g k :
  valid_history ops -> run ops = Ok g -> edge_index ops k = Some HashIndex -> edge_scan_safe ops k ->
  storable HashIndex (edge_filed ops k).
Proof. exact (edge_hash_storable ops g k). Qed.
Print Assumptions C88_storable_edges_partial.
(** FindNodes and FindEdges panic if asked for an unhashable value of a property whose hash index was
    ever given a value, even if it is empty by now ... *)
Theorem C88_find_partial ops g L p lord pord qord ford k v :
  valid_history ops -> run ops = Ok g -> L <> ∅ -> order_of L lord -> order_of (dom p) pord ->
  p !! k = Some v -> unhashable v -> node_index ops k = Some HashIndex -> node_scan_safe ops k ->
  (exists w, node_filed ops k w) -> find_nodes g L p lord pord qord ford = Panic.
Proof. exact (find_nodes_unhashable ops g L p lord pord qord ford k v). Qed.
Print Assumptions C88_find_partial.
Theorem C88_find_edges_partial ops g L p lord pord qord ford k v :
  valid_history ops -> run ops = Ok g -> edge_list_safe ops -> L <> ∅ -> order_of L lord -> order_of (dom p) pord ->
  p !! k = Some v -> unhashable v -> edge_index ops k = Some HashIndex -> edge_scan_safe ops k ->
  (exists w, edge_filed ops k w) -> find_edges g L p lord pord qord ford = Panic.
Proof. exact (find_edges_unhashable ops g L p lord pord qord ford k v). Qed.
Print Assumptions C88_find_edges_partial.
(** ... and find nothing if it never was. *)
Theorem C88_unused_partial ops g L lord pord qord ford k v :
  valid_history ops -> run ops = Ok g -> L <> ∅ -> order_of L lord -> order_of {[k]} pord -> order_of {[k]} qord ->
  unhashable v -> node_index ops k = Some HashIndex -> node_scan_safe ops k ->
  (forall w, ~ node_filed ops k w) -> find_nodes g L {[k := v]} lord pord qord ford = Ok ([], 0%Z).
Proof. exact (find_nodes_unused ops g L lord pord qord ford k v). Qed.
Print Assumptions C88_unused_partial.
Theorem C88_unused_edges_partial ops g L lord pord qord ford k v :
  valid_history ops -> run ops = Ok g -> edge_list_safe ops -> L <> ∅ -> order_of L lord -> order_of {[k]} pord -> order_of {[k]} qord ->
  unhashable v -> edge_index ops k = Some HashIndex -> edge_scan_safe ops k ->
  (forall w, ~ edge_filed ops k w) -> find_edges g L {[k := v]} lord pord qord ford = Ok ([], 0%Z).
Proof. exact (find_edges_unused ops g L lord pord qord ford k v). Qed.
Print Assumptions C88_unused_edges_partial.

(** Node 0 has a list as [k] first and an int when the index is created; the index on [k] is emptied
    in the end, the one on [j] never given anything. *)
Definition C88_ops : list op :=
  [ONewNode {["A"]} {["k" := VStrs []; "x" := VStrs []]} ["A"]; OSetNodeProp 0 "k" (VInt 1);
   OAddNodeIndex "k" HashIndex; OAddNodeIndex "j" HashIndex; OAddEdgeIndex "k" HashIndex; OAddEdgeIndex "j" HashIndex;
   ONewEdge 0 0 "E" {["k" := VInt 2]}; ORemNodeProp 0 "k"]%string.
Definition C88_list : value := VStrs ["a"]%string.
Example C88_ex : let g := result C88_ops in
  lists_safe (C88_ops ++ [OSetNodeProp 0 "k" C88_list]) /\ hash_only (C88_ops ++ [OSetNodeProp 0 "k" C88_list]) /\
  files_unhashable C88_ops (OSetNodeProp 0 "k" C88_list) /\ ~ files_unhashable C88_ops (ORemNodeProp 0 "x") /\
  (exists w, node_filed C88_ops "k" w) /\ (forall w, ~ node_filed C88_ops "j" w) /\ ~ node_filed C88_ops "k" (VStrs []) /\
  run C88_ops = Ok g /\
  (valid_history (C88_ops ++ [OSetNodeProp 0 "k" C88_list]) /\ valid_history (C88_ops ++ [OSetNodeProp 0 "x" C88_list]) /\
   node_index C88_ops "k" = Some HashIndex /\ node_index C88_ops "j" = Some HashIndex /\
   order_of (dom ({["k" := C88_list]} : props)) ["k"] /\ order_of {["j"]} ["j"])%string /\
  find_nodes g {["A"]} {["k" := C88_list]} ["A"] ["k"] ["k"] (fun _ => [("k", C88_list)])%string = Panic /\
  find_nodes g {["A"]} {["j" := C88_list]} ["A"] ["j"] ["j"] (fun _ => [("j", C88_list)])%string = Ok ([], 0%Z) /\
  (exists w, edge_filed C88_ops "k" w) /\ (forall w, ~ edge_filed C88_ops "j" w) /\
  find_edges g {["E"]} {["k" := C88_list]} ["E"] ["k"] ["k"] (fun _ => [("k", C88_list)])%string = Panic /\
  find_edges g {["E"]} {["j" := C88_list]} ["E"] ["j"] ["j"] (fun _ => [("j", C88_list)])%string = Ok ([], 0%Z) /\
  step g (OSetNodeProp 0 "k" C88_list) = Panic /\
  (exists g', step g (OSetNodeProp 0 "x" C88_list) = Ok g').
Proof.
  intros g. split; [apply scans_lists_safe; by_compute|]. split; [by repeat constructor|].
  split. { exists "k"%string, C88_list. split; [done|]. left. split; [by eexists|by left]. }
  split; [apply files_nothing; try (by intros); intros ? ? []|].
  split. { exists (VInt 1). apply (node_filed_app (take 3 C88_ops) (drop 3 C88_ops)). apply (node_has_filed _ _ _ 0); [by eexists|]. eexists. split; vm_compute; reflexivity. }
  split. { intros w H. refine (node_filed_list _ _ (fun _ => False) _ w H). by_compute. }
  split. { intros H. apply (proj1 (hash_histories C88_ops ltac:(by_compute) ltac:(by repeat constructor) ltac:(apply scans_lists_safe; by_compute))
      (ex_intro _ _ (run_result C88_ops ltac:(vm_compute; reflexivity))) "k"%string (VStrs [])); [by left|done]. }
  split; [apply run_result; vm_compute; reflexivity|]. split; [split; [by_compute|]; split; [by_compute|]; split; [done|]; split; [done|]; by_compute|].
  split; [vm_compute; reflexivity|]. split; [vm_compute; reflexivity|].
  split. { exists (VInt 2). apply (edge_filed_app (take 7 C88_ops) (drop 7 C88_ops)). apply (edge_has_filed _ _ _ 1); [by eexists|]. eexists. split; vm_compute; reflexivity. }
  split. { intros w H. refine (edge_filed_list _ _ (fun _ => False) _ w H). by_compute. }
  split; [vm_compute; reflexivity|]. split; [vm_compute; reflexivity|]. split; [vm_compute; reflexivity|].
  exists (result (C88_ops ++ [OSetNodeProp 0 "x" C88_list]%string)). vm_compute. reflexivity.
Qed.
