(** C90: which calls and queries panic with B-tree and hash indexes (btreeindex.go, hashindex.go, indexes.go, graph.go:216-351, 418-468). *)
From Verif Require Import Base Value Index Graph GraphSpec CoreStep IndexGraphProofs Find QueryOrderSpec HashOnlySpec HashOnlyProofs QueryOrderProofs JamSpec JamProofs JamStepProofs JamFindProofs GraphExamples.

(** C90: with any mixture of hash and B-tree indexes, a call panics if and only if it gives a hash
    index an unhashable value, gives a B-tree that holds anything a value that does not compare with
    it, or takes a value out of a B-tree that does not compare with itself. *)
Definition C90_statement : Prop := forall ops g o,
  valid_history ops -> run ops = Ok g -> valid (srun ops) o -> (step g o = Panic <-> jams ops o).
(** False for the histories of C01: a removed node that is still listed is given to a new index. *)
Definition C90_stale : list op :=
  [ONewNode ∅ ∅ []; ODetachRemove 0 []; ONewNode ∅ {["k" := VStrs []]} []; ODetachRemove 1 []]%string.
Theorem C90_refuted : exists ops g o,
  (valid_history ops /\ run ops = Ok g /\ valid (srun ops) o /\ step g o = Panic) /\ ~ jams ops o.
Proof.
  exists C90_stale, (result C90_stale), (OAddNodeIndex "k" HashIndex). split.
  - split; [by_compute|]. split; [apply run_result; vm_compute; reflexivity|]. split; [exact I|]. vm_compute. reflexivity.
  - intros (k & [[_ (i & v & Hv & _)]|[]]). rewrite node_vals_lookup in Hv. by rewrite (eq_refl : s_nodes (srun C90_stale) = ∅) in Hv.
Qed.
Print Assumptions C90_refuted.
(** Proved for all histories in which the lists are right when read and B-trees are given no
    []interface{} (missing for the full statement: the histories of C01 and C06, and such values,
    for which whether two compare depends on their elements): every other call returns. *)
Theorem C90_partial ops g o :
  valid_history ops -> run ops = Ok g -> valid (srun ops) o -> lists_safe (ops ++ [o]) -> plain_trees (ops ++ [o]) ->
  (step g o = Panic <-> jams ops o) /\ ((exists g', step g o = Ok g') <-> ~ jams ops o).
Proof. exact (jam_calls ops g o). Qed.
Print Assumptions C90_partial.
(** So all calls of a history return if and only if none of them does this. *)
Theorem C90_histories_partial ops :
  valid_history ops -> lists_safe ops -> plain_trees ops ->
  ((exists g, run ops = Ok g) <-> forall ops1 o ops2, ops = ops1 ++ o :: ops2 -> ~ jams ops1 o).
Proof. exact (jam_histories ops). Qed.
Print Assumptions C90_histories_partial.
(** FindNodes and FindEdges with labels panic if and only if a value asked for does not compare with
    one that the B-tree on its property holds, or is unhashable and the hash index on its property
    was ever given a value. *)
Theorem C90_find_partial ops g L p lord pord qord ford :
  valid_history ops -> run ops = Ok g -> lists_safe ops -> plain_trees ops -> L <> ∅ -> order_of L lord -> order_of (dom p) pord ->
  (forall k v, p !! k = Some v -> node_index ops k = Some BtreeIndex -> plain v) ->
  let bad := jams_find (node_index ops) (node_filed ops) (node_vals (srun ops)) p in
  (find_nodes g L p lord pord qord ford = Panic <-> bad) /\ ((exists r, find_nodes g L p lord pord qord ford = Ok r) <-> ~ bad).
Proof. exact (jam_find_nodes ops g L p lord pord qord ford). Qed.
Print Assumptions C90_find_partial.
Theorem C90_find_edges_partial ops g L p lord pord qord ford :
  valid_history ops -> run ops = Ok g -> lists_safe ops -> plain_trees ops -> L <> ∅ -> order_of L lord -> order_of (dom p) pord ->
  (forall k v, p !! k = Some v -> edge_index ops k = Some BtreeIndex -> plain v) ->
  let bad := jams_find (edge_index ops) (edge_filed ops) (edge_entries ops) p in
  (find_edges g L p lord pord qord ford = Panic <-> bad) /\ ((exists r, find_edges g L p lord pord qord ford = Ok r) <-> ~ bad).
Proof. exact (jam_find_edges ops g L p lord pord qord ford). Qed.
Print Assumptions C90_find_edges_partial.

(** The B-tree on [k] of nodes holds ints, is emptied, and holds strings; the one on [x] holds one
    value that does not compare with itself, so node 1 can no longer be removed nor another [x] be
    set; the one on [k] of edges still has the removed edge with an int, so no edge with a string can
    be added. *)
Definition C90_odd : value := VOther true 7.
Definition C90_ops : list op :=
  [ONewNode {["A"]} {["k" := VInt 1; "h" := VInt 1]} ["A"]; OAddNodeIndex "k" BtreeIndex; OAddNodeIndex "h" HashIndex; OAddNodeIndex "x" BtreeIndex;
   OAddEdgeIndex "k" BtreeIndex; ORemNodeProp 0 "k"; ONewNode {["A"]} {["k" := VStr "a"; "x" := C90_odd]} ["A"]; OSetNodeProp 0 "k" (VStr "b");
   ONewEdge 0 1 "E" {["k" := VInt 1]}; ORemoveEdge 2]%string.
Definition C90_calls : list (op * bool) :=
  [(OSetNodeProp 0 "k" (VInt 1), true); (OSetNodeProp 0 "k" (VNative (VStr "a")), false); (OSetNodeProp 0 "x" (VInt 1), true); (OSetNodeProp 0 "y" C90_odd, false);
   (OSetNodeProp 0 "h" (VStrs []), true); (OSetNodeProp 0 "h" (VStr "a"), false); (ORemNodeProp 1 "x", true); (ODetachRemove 1 ["A"], true); (ODetachRemove 0 ["A"], false);
   (ONewEdge 0 0 "E" {["k" := VStr "a"]}, true); (ONewEdge 0 0 "E" {["k" := VInt 5]}, false); (OAddNodeIndex "k" HashIndex, false)]%string.
Example C90_ex : let g := result C90_ops in
  run C90_ops = Ok g /\
  (forall (o : op) (b : bool), (o, b) ∈ C90_calls -> valid_history (C90_ops ++ [o]) /\ lists_safe (C90_ops ++ [o]) /\ plain_trees (C90_ops ++ [o])) /\
  (forall (o : op) (b : bool), (o, b) ∈ C90_calls -> if b then jams C90_ops o /\ step g o = Panic else ~ jams C90_ops o /\ exists g', step g o = Ok g') /\
  find_nodes g {["A"]} {["k" := VInt 1]} ["A"] ["k"] ["k"] (fun _ => [("k", VInt 1)])%string = Panic /\
  (exists r, find_nodes g {["A"]} {["k" := VStr "a"]} ["A"] ["k"] ["k"] (fun _ => [("k", VStr "a")])%string = Ok r) /\
  find_edges g {["E"]} {["k" := VStr "a"]} ["E"] ["k"] ["k"] (fun _ => [("k", VStr "a")])%string = Panic /\
  jams_find (node_index C90_ops) (node_filed C90_ops) (node_vals (srun C90_ops)) {["k" := VInt 1]}%string.
Proof.
  intros g.
  assert (run C90_ops = Ok g) as Hr by (apply run_result; vm_compute; reflexivity).
  assert (valid_history C90_ops) as Hv by by_compute.
  assert (forall (o : op) (b : bool), (o, b) ∈ C90_calls -> valid_history (C90_ops ++ [o]) /\ lists_safe (C90_ops ++ [o]) /\ plain_trees (C90_ops ++ [o])) as HC.
  { assert (Forall (fun p => valid_history (C90_ops ++ [p.1])) C90_calls) as H1 by by_compute.
    assert (Forall (fun p => edge_list_safe (C90_ops ++ [p.1])) C90_calls) as H2 by by_compute.
    assert (Forall (fun p => scans_all (C90_ops ++ [p.1])) C90_calls) as H3 by by_compute.
    assert (Forall (fun p => Forall op_plain (C90_ops ++ [p.1])) C90_calls) as H4 by by_compute.
    rewrite Forall_forall in H1, H2, H3, H4. intros o b H. split; [exact (H1 _ H)|]. split; [exact (scans_lists_safe _ (H2 _ H) (H3 _ H))|]. exact (all_plain_trees _ (H4 _ H)). }
  assert (forall (o : op) (b : bool), (o, b) ∈ C90_calls -> if b then step g o = Panic else exists g', step g o = Ok g') as HS.
  { assert (forallb (fun p => match step g p.1 with Panic => p.2 | Ok _ => negb p.2 | Diverge => false end) C90_calls = true) as H1 by (vm_compute; reflexivity).
    intros o b H. apply elem_of_list_In in H. rewrite forallb_forall in H1. specialize (H1 _ H). cbn [fst snd] in H1. clear -H1.
    destruct (step g o) as [g'| |], b; try discriminate H1; [exists g'; reflexivity|reflexivity]. }
  split; [done|]. split; [done|]. split.
  { intros o b H. specialize (HS o b H). destruct (HC o b H) as (Hvo & Hl & Hp). apply valid_history_snoc in Hvo as [_ Ho].
    destruct (jam_calls C90_ops g o Hv Hr Ho Hl Hp) as [H1 H2]. destruct b; [by split; [apply H1|]|by split; [apply H2|]]. }
  clear. split; [vm_compute; reflexivity|]. split; [eexists; vm_compute; reflexivity|]. split; [vm_compute; reflexivity|].
  exists "k"%string, (VInt 1). split; [done|]. exists 0, (VStr "b"). split; [vm_compute; reflexivity|]. by intros [? _].
Qed.
