(** C62-C63: loops over nodes with given labels, and over nodes or edges with a property, that change the graph they
    iterate over (sets.go, maps.go, hashindex.go, indexes.go, itr.go, graph.go). *)
From Verif Require Import Base Assoc Value Links EdgeMap Index Graph GraphSpec ItrLiveSpec SetLive SetLiveSpec SetLiveProofs SetGoneProofs HashLiveProofs EdgeMapPtr ItrLive EdgeScanProofs GraphExamples.
Local Open Scope string_scope.
Local Open Scope list_scope.

(** ** C62: a loop over the nodes with given labels may change labels and remove nodes *)
(** C62 in full: a loop over GetNodesWithAllLabels whose body makes calls that return ends, and visits all nodes that
    have the labels at the start and at the end. *)
Definition C62_statement : Prop := forall ops body g labels ord es m,
  (forall es, valid_history (ops ++ loop_calls body [] es) /\ exists g', run (ops ++ loop_calls body [] es) = Ok g') ->
  run ops = Ok g -> order_of labels ord -> get_nodes_all_labels g labels ord = Ok (es, m) ->
  exists k vis g', labels_loop k body g labels ord = Ok (vis, g') /\ forall n, n ∈ es -> labels ⊆ labels_of g' n -> n ∈ vis.
(** False: if the body takes the label from the node that comes next, the loop ends there, and node 2 is not visited. *)
Definition C62_ops : list op :=
  [ONewNode {["a"]} ∅ ["a"]; ONewNode {["a"]} ∅ ["a"]; ONewNode {["a"]} ∅ ["a"]; ONewNode {["b"]} ∅ ["b"]].
Definition C62_body (vis : list nat) : list op := if decide (vis = [0]) then [OSetLabels 1 {["b"]} ["a"] ["b"]] else [].
(** [who]: the nodes visited, and the nodes with label a afterwards *)
Definition who (r : res (list nat * graph)) : option (list nat * res (list nat * Z)) :=
  match r with Ok (vis, g) => Some (vis, get_nodes_all_labels g {["a"]} ["a"]) | _ => None end.
Theorem C62_refuted : (valid_history C62_ops /\ run C62_ops = Ok (result C62_ops)) /\
  get_nodes_all_labels (result C62_ops) {["a"]} ["a"] = Ok ([0; 1; 2], 3%Z) /\
  forall k, 2 <= k -> exists g', labels_loop k C62_body (result C62_ops) {["a"]} ["a"] = Ok ([0], g') /\ labels_of g' 2 = {["a"]}.
Proof.
  split; [split; [by_compute|apply run_result; vm_compute; reflexivity]|]. split; [vm_compute; reflexivity|].
  intros k Hk. do 2 (destruct k as [|k]; [lia|]). eexists. split; vm_compute; reflexivity.
Qed.
Print Assumptions C62_refuted.
Example C62_refutes : ~ C62_statement.
Proof.
  intros H. destruct C62_refuted as ((Hv & Hr) & Hq & Hw).
  assert (forall es, loop_calls C62_body [] es = [] \/ loop_calls C62_body [] es = [OSetLabels 1 {["b"]} ["a"] ["b"]]) as Hcalls.
  { assert (forall r vis, 1 <= length vis -> loop_calls C62_body vis r = []) as Hlate.
    { clear. induction r as [|x r IH]; intros vis Hvis; [done|]. cbn [loop_calls]. rewrite IH by (rewrite app_length; cbn; lia). rewrite app_nil_r. unfold C62_body.
      rewrite decide_False; [done|]. intros E%(f_equal length). rewrite app_length in E. cbn in E. lia. }
    clear -Hlate. intros [|x es]; [by left|]. cbn [loop_calls]. rewrite Hlate by (cbn; lia). rewrite app_nil_r. unfold C62_body. destruct (decide _); [by right|by left]. }
  destruct (H C62_ops C62_body (result C62_ops) {["a"]} ["a"] [0; 1; 2] 3%Z) as (k & vis & g' & E & He).
  - clear -Hcalls Hv Hr. intros es. destruct (Hcalls es) as [-> | ->]; [rewrite app_nil_r; by split; [|eexists]|].
    split; [by_compute|]. eexists. apply run_result. vm_compute. reflexivity.
  - done.
  - split; [by_compute|]. intros x. rewrite elem_of_list_singleton, elem_of_singleton. done.
  - done.
  - destruct (le_lt_dec 2 k) as [Hk|Hk].
    + destruct (Hw k Hk) as (g2 & E2 & Hl2). rewrite E in E2. injection E2 as -> ->. assert (2 ∈ [0]) as Hbad; [|revert Hbad; by_compute].
      clear -He Hl2. apply He; [by_compute|]. rewrite Hl2. done.
    + exfalso. clear -E Hk. destruct k as [|[|k]]; [| |lia]; revert E; vm_compute; discriminate.
Qed.
(** A body that takes a label from each node visited and gives it back never ends: *)
Definition C62_again (vis : list nat) : list op :=
  match last vis with Some n => [OSetLabels n {["b"]} ["a"] ["b"]; OSetLabels n {["a"]} ["b"] ["a"]] | None => [] end.
Example C62_again_ex : labels_loop 100 C62_again (result C62_ops) {["a"]} ["a"] = Diverge.
Proof. vm_compute. reflexivity. Qed.
(** If the calls of a round leave no node in the set of the label, be it for a moment (MaxSize of the query is 0 then), the loop visits at
    most one more node, also if all nodes are given the label again: the map has another set then. *)
Theorem C62_gone ops g l body k vis x r g' c1 c2 g1 m :
  run ops = Ok g -> labels_loop k body g {[l]} [l] = Ok (vis ++ x :: r, g') -> body (vis ++ [x]) = c1 ++ c2 -> c1 <> [] ->
  valid_history (ops ++ loop_calls body [] vis ++ c1) -> run (ops ++ loop_calls body [] vis ++ c1) = Ok g1 ->
  get_nodes_all_labels g1 {[l]} [l] = Ok (m, 0%Z) -> length r <= 1.
Proof. exact (labels_loop_ends ops g l body k vis x r g' c1 c2 g1 m). Qed.
Print Assumptions C62_gone.
Definition C62_off : list op := map (fun n => OSetLabels n {["b"]} ["a"] ["b"]) [0; 1; 2].
Definition C62_on : list op := map (fun n => OSetLabels n {["a"]} ["b"] ["a"]) [0; 1; 2].
Definition C62_off_on (vis : list nat) : list op := if decide (vis = [0]) then C62_off ++ C62_on else [].
Example C62_gone_ex : valid_history (C62_ops ++ C62_off) /\ run (C62_ops ++ C62_off) = Ok (result (C62_ops ++ C62_off)) /\
  get_nodes_all_labels (result (C62_ops ++ C62_off)) {["a"]} ["a"] = Ok ([], 0%Z) /\
  who (labels_loop 10 C62_off_on (result C62_ops) {["a"]} ["a"]) = Some ([0; 1], Ok ([0; 1; 2], 3%Z)).
Proof. split; [by_compute|]. split; [apply run_result; vm_compute; reflexivity|]. split; vm_compute; reflexivity. Qed.
(** It holds if no call gives a node the last label missing, and none takes one of the labels from a node not yet visited
    ([labels_keep]).  The graph at the end is the one after the calls of the body in this order. *)
Theorem C62_partial ops body g g' labels ord es m k :
  valid_history (ops ++ loop_calls body [] es) -> run ops = Ok g -> run (ops ++ loop_calls body [] es) = Ok g' -> order_of labels ord ->
  get_nodes_all_labels g labels ord = Ok (es, m) -> loop_keeps_vis (labels_keep labels) body (srun ops) [] es -> length es < k ->
  labels_loop k body g labels ord = Ok (es, g').
Proof. exact (labels_loop_ok ops body g g' labels ord es m k). Qed.
Print Assumptions C62_partial.
(** In particular, the labels of the nodes visited may be set, and these nodes may be removed. *)
Theorem C62_labelling_partial ops g g' labels ord ls f es m k : valid_history (ops ++ map (fun n => OSetLabels n ls (f n).1 (f n).2) es) -> run ops = Ok g ->
  run (ops ++ map (fun n => OSetLabels n ls (f n).1 (f n).2) es) = Ok g' -> labels <> ∅ -> order_of labels ord ->
  get_nodes_all_labels g labels ord = Ok (es, m) -> length es < k ->
  labels_loop k (labelling ls f) g labels ord = Ok (es, g').
Proof. exact (labelling_ok ops g g' labels ord ls f es m k). Qed.
Print Assumptions C62_labelling_partial.
Theorem C62_removing_partial ops g g' labels ord ordf es m k : valid_history (ops ++ map (fun n => ODetachRemove n (ordf n)) es) -> run ops = Ok g ->
  run (ops ++ map (fun n => ODetachRemove n (ordf n)) es) = Ok g' -> order_of labels ord ->
  get_nodes_all_labels g labels ord = Ok (es, m) -> length es < k ->
  labels_loop k (removing_nodes ordf) g labels ord = Ok (es, g').
Proof. exact (removing_labels_ok ops g g' labels ord ordf es m k). Qed.
Print Assumptions C62_removing_partial.
(** a loop without calls: GetNodesWithAllLabels as modelled in Graph.v *)
Theorem C62_quiet_partial ops g labels ord es m k : valid_history ops -> run ops = Ok g -> order_of labels ord -> get_nodes_all_labels g labels ord = Ok (es, m) ->
  length es < k -> labels_loop k nothing g labels ord = Ok (es, g).
Proof. exact (quiet_labels ops g labels ord es m k). Qed.
Print Assumptions C62_quiet_partial.
Definition C62_calls : list op := map (fun n => OSetLabels n {["b"]} ["a"] ["b"]) [0; 1; 2].
Example C62_ex : (valid_history (C62_ops ++ C62_calls) /\ run C62_ops = Ok (result C62_ops)) /\
  (exists g', run (C62_ops ++ C62_calls) = Ok g') /\ order_of {["a"]} ["a"] /\
  get_nodes_all_labels (result C62_ops) {["a"]} ["a"] = Ok ([0; 1; 2], 3%Z) /\
  loop_calls (labelling {["b"]} (fun _ => (["a"], ["b"]))) [] [0; 1; 2] = C62_calls /\
  loop_keeps_vis (labels_keep {["a"]}) (labelling {["b"]} (fun _ => (["a"], ["b"]))) (srun C62_ops) [] [0; 1; 2] /\
  who (labels_loop 4 (labelling {["b"]} (fun _ => (["a"], ["b"]))) (result C62_ops) {["a"]} ["a"]) = Some ([0; 1; 2], Ok ([], 0%Z)) /\
  who (labels_loop 4 (removing_nodes (fun _ => ["a"])) (result C62_ops) {["a"]} ["a"]) = Some ([0; 1; 2], Ok ([], 0%Z)).
Proof.
  split; [split; [by_compute|apply run_result; vm_compute; reflexivity]|]. split; [eexists; apply run_result; vm_compute; reflexivity|].
  split; [split; [by_compute|]; intros x; rewrite elem_of_list_singleton, elem_of_singleton; done|]. split; [vm_compute; reflexivity|].
  split; [reflexivity|]. split; [|split; vm_compute; reflexivity]. apply labelling_keeps; [by_compute|].
  assert (Forall (fun n => match s_nodes (srun C62_ops) !! n with Some x => bool_decide ({["a"]} ⊆ sn_labels x) | None => false end = true) [0; 1; 2]) as Ha by by_compute.
  rewrite Forall_forall in Ha. intros n Hn. specialize (Ha n Hn). destruct (s_nodes (srun C62_ops) !! n) as [x|]; [|done]. apply bool_decide_eq_true in Ha. by exists x.
Qed.

(** ** C63: a loop over the nodes or edges with a property may set and remove properties *)
(** C63 in full: a loop over GetNodesWithProperty may set that property of each node, with a hash index and without. *)
Definition C63_statement : Prop := forall ops g k v es,
  valid_history ops -> run ops = Ok g -> node_query_safe ops k -> storable HashIndex (fun w => node_filed ops k w \/ w = v) ->
  get_nodes_with_property g k = Ok es ->
  (node_index ops k = None -> exists fuel g', scan_loop fuel (setting k v) g k = Ok (es, g')) /\
  (node_index ops k = Some HashIndex -> exists fuel g', hash_loop g_nix fuel (setting k v) g k = Ok (es, g')).
(** False: with a hash index it never ends (two nodes suffice): the node moves to the end of the list of the index. *)
Theorem C63_refuted ops g k v es fuel : valid_history ops -> run ops = Ok g -> node_index ops k = Some HashIndex ->
  storable HashIndex (fun w => node_filed ops k w \/ w = v) -> node_scan_safe ops k -> get_nodes_with_property g k = Ok es -> 2 <= length es ->
  hash_loop g_nix fuel (setting k v) g k = Diverge.
Proof. exact (setting_diverges ops g k v es fuel). Qed.
Print Assumptions C63_refuted.
Definition C63_ops : list op :=
  [OAddNodeIndex "k" HashIndex; ONewNode ∅ {["k" := VInt 1]} []; ONewNode ∅ ∅ []; ONewNode ∅ {["k" := VInt 1]} []; ONewNode ∅ {["k" := VInt 2]} [];
   OAddEdgeIndex "e" HashIndex; ONewEdge 0 1 "x" {["e" := VInt 1]}; ONewEdge 0 1 "x" ∅; ONewEdge 1 1 "y" {["e" := VInt 2]}].
(** [which]: the nodes visited, and the nodes with property k and edges with property e afterwards *)
Definition which (r : res (list nat * graph)) : option (list nat * res (list nat) * res (list nat)) :=
  match r with Ok (vis, g) => Some (vis, get_nodes_with_property g "k", get_edges_with_property g "e") | _ => None end.
Example C63_refuted_ex : (valid_history C63_ops /\ run C63_ops = Ok (result C63_ops)) /\ node_index C63_ops "k" = Some HashIndex /\
  storable HashIndex (fun w => node_filed C63_ops "k" w \/ w = VInt 3) /\ node_scan_safe C63_ops "k" /\
  get_nodes_with_property (result C63_ops) "k" = Ok [0; 2; 3] /\ hash_loop g_nix 100 (setting "k" (VInt 3)) (result C63_ops) "k" = Diverge.
Proof.
  split; [split; [by_compute|apply run_result; vm_compute; reflexivity]|]. split; [reflexivity|].
  split; [apply storable_int; intros w [Hw | ->]; [|done]; revert w Hw; apply node_filed_list; by_compute|].
  split; [apply node_scans_safe; by_compute|]. split; vm_compute; reflexivity.
Qed.
Example C63_refutes : ~ C63_statement.
Proof.
  intros H. destruct C63_refuted_ex as ((Hv & Hr) & Hi & Hst & Hs & Hq & _).
  assert (node_query_safe C63_ops "k") as Hqs.
  { unfold node_query_safe. rewrite Hi. split; [|done]. clear -Hst. intros v Hw. apply Hst. by left. }
  destruct (H C63_ops _ "k" (VInt 3) _ Hv Hr Hqs Hst Hq) as [_ H2]. destruct (H2 Hi) as (fuel & g' & E).
  rewrite (C63_refuted C63_ops _ "k" (VInt 3) _ fuel Hv Hr Hi Hst Hs Hq) in E by (cbn; lia). clear -E. discriminate E.
Qed.
(** Without index it holds. *)
Theorem C63_setting_partial ops g k v ns es fuel : valid_history ops -> run ops = Ok g -> node_list_safe ops -> node_index ops k = None ->
  get_nodes g = Ok ns -> get_nodes_with_property g k = Ok es -> length ns + length es < fuel ->
  exists g', scan_loop fuel (setting k v) g k = Ok (es, g') /\ run (ops ++ map (fun n => OSetNodeProp n k v) es) = Ok g'.
Proof. exact (setting_scan_ok ops g k v ns es fuel). Qed.
Print Assumptions C63_setting_partial.
(** With a hash index, the property may be removed from the nodes visited; then no node has it. *)
Theorem C63_unsetting_partial ops g k es fuel : valid_history ops -> run ops = Ok g -> node_index ops k = Some HashIndex ->
  storable HashIndex (node_filed ops k) -> node_scan_safe ops k -> get_nodes_with_property g k = Ok es -> length es < fuel ->
  exists g', hash_loop g_nix fuel (unsetting k) g k = Ok (es, g') /\ valid_history (ops ++ map (fun n => ORemNodeProp n k) es) /\
    run (ops ++ map (fun n => ORemNodeProp n k) es) = Ok g' /\ forall n v, ~ node_has (srun (ops ++ map (fun n => ORemNodeProp n k) es)) k v n.
Proof. exact (unsetting_ok ops g k es fuel). Qed.
Print Assumptions C63_unsetting_partial.
(** In general: a loop visits the nodes that were there if no call of its body interferes with the rest of it, for nodes
    with a hash index ([prop_keeps]), for edges with a hash index ([eprop_keeps]), for nodes without index ([scan_keeps])
    and for edges without index ([escan_keeps], below).  Not covered: B-tree indexes. *)
Theorem C63_partial ops body g g' k es fuel :
  valid_history (ops ++ loop_calls body [] es) -> run ops = Ok g -> run (ops ++ loop_calls body [] es) = Ok g' ->
  node_index ops k = Some HashIndex -> storable HashIndex (node_filed (ops ++ loop_calls body [] es) k) ->
  node_scan_safe (ops ++ loop_calls body [] es) k ->
  get_nodes_with_property g k = Ok es -> loop_keeps (prop_keeps k) body (srun ops) [] es -> length es < fuel ->
  hash_loop g_nix fuel body g k = Ok (es, g').
Proof. exact (hash_loop_ok ops body g g' k es fuel). Qed.
Print Assumptions C63_partial.
Theorem C63_edges_partial ops body g g' k es fuel :
  valid_history (ops ++ loop_calls body [] es) -> run ops = Ok g -> run (ops ++ loop_calls body [] es) = Ok g' ->
  edge_index ops k = Some HashIndex -> storable HashIndex (edge_filed (ops ++ loop_calls body [] es) k) ->
  edge_scan_safe (ops ++ loop_calls body [] es) k ->
  get_edges_with_property g k = Ok es -> loop_keeps (eprop_keeps k) body (srun ops) [] es -> length es < fuel ->
  hash_loop g_eix fuel body g k = Ok (es, g').
Proof. exact (ehash_loop_ok ops body g g' k es fuel). Qed.
Print Assumptions C63_edges_partial.
Theorem C63_scan_partial ops body g g' k ns es fuel :
  valid_history (ops ++ loop_calls body [] es) -> run ops = Ok g -> run (ops ++ loop_calls body [] es) = Ok g' ->
  node_list_safe (ops ++ loop_calls body [] es) -> node_index ops k = None -> get_nodes g = Ok ns -> get_nodes_with_property g k = Ok es ->
  loop_keeps_vis (scan_keeps k) body (srun ops) [] es -> length ns + length (loop_calls body [] es) < fuel ->
  scan_loop fuel body g k = Ok (es, g').
Proof. exact (scan_loop_ok ops body g g' k ns es fuel). Qed.
Print Assumptions C63_scan_partial.
Definition C63_rest : list op := map (fun n => ORemNodeProp n "k") [0; 2; 3].
Example C63_ex : valid_history (C63_ops ++ C63_rest) /\ (exists g', run (C63_ops ++ C63_rest) = Ok g') /\
  storable HashIndex (node_filed (C63_ops ++ C63_rest) "k") /\ node_scan_safe (C63_ops ++ C63_rest) "k" /\
  loop_calls (unsetting "k") [] [0; 2; 3] = C63_rest /\ loop_keeps (prop_keeps "k") (unsetting "k") (srun C63_ops) [] [0; 2; 3] /\
  which (hash_loop g_nix 4 (unsetting "k") (result C63_ops) "k") = Some ([0; 2; 3], Ok [], Ok [4; 6]).
Proof.
  split; [by_compute|]. split; [eexists; apply run_result; vm_compute; reflexivity|].
  split; [apply storable_int, node_filed_list; by_compute|]. split; [apply node_scans_safe; by_compute|]. split; [reflexivity|].
  split; [apply unsetting_keeps; by_compute|]. vm_compute. reflexivity.
Qed.
(** removing the property of the edges visited *)
Example C63_edges_ex : edge_index C63_ops "e" = Some HashIndex /\ storable HashIndex (edge_filed C63_ops "e") /\ edge_scan_safe C63_ops "e" /\
  valid_history (C63_ops ++ [ORemEdgeProp 4 "e"; ORemEdgeProp 6 "e"]) /\
  (exists g', run (C63_ops ++ [ORemEdgeProp 4 "e"; ORemEdgeProp 6 "e"]) = Ok g') /\
  storable HashIndex (edge_filed (C63_ops ++ [ORemEdgeProp 4 "e"; ORemEdgeProp 6 "e"]) "e") /\
  get_edges_with_property (result C63_ops) "e" = Ok [4; 6] /\
  loop_keeps (eprop_keeps "e") (fun vis => match last vis with Some x => [ORemEdgeProp x "e"] | None => [] end) (srun C63_ops) [] [4; 6] /\
  which (hash_loop g_eix 4 (fun vis => match last vis with Some x => [ORemEdgeProp x "e"] | None => [] end) (result C63_ops) "e") = Some ([4; 6], Ok [0; 2; 3], Ok []).
Proof.
  split; [reflexivity|]. split; [apply storable_int, edge_filed_list; by_compute|]. split; [apply edge_scans_safe; by_compute|].
  split; [by_compute|]. split; [eexists; apply run_result; vm_compute; reflexivity|]. split; [apply storable_int, edge_filed_list; by_compute|].
  split; [vm_compute; reflexivity|]. split; [|vm_compute; reflexivity]. cbn. split; [split; [|done]|split; [split; [|done]|done]]; intros _; by_compute.
Qed.
(** without the index: setting the property in each round, and creating a node without it *)
Definition C63_plain : list op :=
  [ONewNode ∅ {["k" := VInt 1]} []; ONewNode ∅ ∅ []; ONewNode ∅ {["k" := VInt 1]} []; ONewNode ∅ {["k" := VInt 2]} []].
Definition C63_body (vis : list nat) : list op := setting "k" (VInt 3) vis ++ [ONewNode ∅ ∅ []].
Example C63_scan_ex : (valid_history (C63_plain ++ loop_calls C63_body [] [0; 2; 3]) /\ run C63_plain = Ok (result C63_plain)) /\
  (exists g', run (C63_plain ++ loop_calls C63_body [] [0; 2; 3]) = Ok g') /\ node_list_safe (C63_plain ++ loop_calls C63_body [] [0; 2; 3]) /\
  node_index C63_plain "k" = None /\ get_nodes (result C63_plain) = Ok [0; 1; 2; 3] /\ get_nodes_with_property (result C63_plain) "k" = Ok [0; 2; 3] /\
  loop_keeps_vis (scan_keeps "k") C63_body (srun C63_plain) [] [0; 2; 3] /\
  which (scan_loop 11 C63_body (result C63_plain) "k") = Some ([0; 2; 3], Ok [0; 2; 3], Ok []).
Proof.
  split; [split; [by_compute|apply run_result; vm_compute; reflexivity]|]. split; [eexists; apply run_result; vm_compute; reflexivity|].
  split; [by_compute|]. split; [reflexivity|]. split; [vm_compute; reflexivity|]. split; [vm_compute; reflexivity|]. split; [|vm_compute; reflexivity].
  assert (forall s n k, match s_nodes s !! n with Some x => bool_decide (is_Some (sn_props x !! k)) | None => false end = true -> exists x, s_nodes s !! n = Some x /\ is_Some (sn_props x !! k)) as Hx.
  { intros s n k Hs. destruct (s_nodes s !! n) as [x|]; [|done]. apply bool_decide_eq_true in Hs. by exists x. }
  split; [|split; [|split; [|done]]]; (split; [intros _; apply Hx; by_compute|split; [by_compute|done]]).
Qed.
(** Edges: the same for setting the property of each edge.  With a hash index the loop never ends; *)
Theorem C63_edges_refuted ops g k v es fuel : valid_history ops -> run ops = Ok g -> edge_index ops k = Some HashIndex ->
  storable HashIndex (fun w => edge_filed ops k w \/ w = v) -> edge_scan_safe ops k -> (forall w e, ~ left_over ops k w e) ->
  get_edges_with_property g k = Ok es -> 2 <= length es ->
  hash_loop g_eix fuel (esetting k v) g k = Diverge.
Proof. exact (esetting_diverges ops g k v es fuel). Qed.
Print Assumptions C63_edges_refuted.
Example C63_edges_refuted_ex : (valid_history C63_ops /\ run C63_ops = Ok (result C63_ops)) /\ edge_index C63_ops "e" = Some HashIndex /\
  storable HashIndex (fun w => edge_filed C63_ops "e" w \/ w = VInt 3) /\ edge_scan_safe C63_ops "e" /\ (forall w e, ~ left_over C63_ops "e" w e) /\
  get_edges_with_property (result C63_ops) "e" = Ok [4; 6] /\ hash_loop g_eix 100 (esetting "e" (VInt 3)) (result C63_ops) "e" = Diverge.
Proof.
  split; [split; [by_compute|apply run_result; vm_compute; reflexivity]|]. split; [reflexivity|].
  split; [apply storable_int; intros w [Hw | ->]; [|done]; revert w Hw; apply edge_filed_list; by_compute|].
  split; [apply edge_scans_safe; by_compute|]. split; [apply no_left_over; by_compute|]. split; vm_compute; reflexivity.
Qed.
(** without index it visits the edges that had the property; *)
Theorem C63_edge_setting_partial ops g k v all es fuel : valid_history ops -> run ops = Ok g -> edge_list_safe ops -> edge_index ops k = None ->
  get_edges g = Ok all -> get_edges_with_property g k = Ok es -> length all < fuel ->
  exists g' a', (let! x := x_run ops in escan_loop fuel (esetting k v) x k) = Ok (es, XG g' a') /\ run (ops ++ map (fun e => OSetEdgeProp e k v) es) = Ok g'.
Proof. exact (esetting_scan_ok ops g k v all es fuel). Qed.
Print Assumptions C63_edge_setting_partial.
(** and so does every loop that creates no edge, removes none that is not yet reached, gives the property to none of
    these that has it not, and takes it from none of these. *)
Theorem C63_edge_scan_partial ops body g g' k all es fuel :
  valid_history (ops ++ loop_calls body [] es) -> run ops = Ok g -> run (ops ++ loop_calls body [] es) = Ok g' ->
  edge_list_safe (ops ++ loop_calls body [] es) -> edge_index ops k = None -> get_edges g = Ok all -> get_edges_with_property g k = Ok es ->
  loop_keeps (escan_keeps k) (only es body) (srun ops) [] all -> length all < fuel ->
  exists a', (let! x := x_run ops in escan_loop fuel body x k) = Ok (es, XG g' a').
Proof. exact (escan_loop_ok ops body g g' k all es fuel). Qed.
Print Assumptions C63_edge_scan_partial.
(** four edges, three with the property: each round sets the property and another one of the edge visited, and removes
    the edge before it *)
Definition C63_eplain : list op :=
  [ONewNode ∅ ∅ []; ONewEdge 0 0 "x" {["e" := VInt 1]}; ONewEdge 0 0 "y" ∅; ONewEdge 0 0 "x" {["e" := VInt 1]}; ONewEdge 0 0 "z" {["e" := VInt 2]}].
Definition C63_ebody (vis : list nat) : list op :=
  esetting "e" (VInt 3) vis ++ esetting "f" (VInt 4) vis ++ match vis with [1; 3] => [ORemoveEdge 1] | [1; 3; 4] => [ORemoveEdge 3] | _ => [] end.
Example C63_edge_scan_ex : (valid_history (C63_eplain ++ loop_calls C63_ebody [] [1; 3; 4]) /\ run C63_eplain = Ok (result C63_eplain)) /\
  (exists g', run (C63_eplain ++ loop_calls C63_ebody [] [1; 3; 4]) = Ok g') /\ edge_list_safe (C63_eplain ++ loop_calls C63_ebody [] [1; 3; 4]) /\
  edge_index C63_eplain "e" = None /\ get_edges (result C63_eplain) = Ok [1; 3; 2; 4] /\ get_edges_with_property (result C63_eplain) "e" = Ok [1; 3; 4] /\
  loop_keeps (escan_keeps "e") (only [1; 3; 4] C63_ebody) (srun C63_eplain) [] [1; 3; 2; 4] /\
  which (let! x := x_run C63_eplain in let! r := escan_loop 5 C63_ebody x "e" in Ok (r.1, x_g r.2)) = Some ([1; 3; 4], Ok [], Ok [4]).
Proof.
  split; [split; [by_compute|apply run_result; vm_compute; reflexivity]|]. split; [eexists; apply run_result; vm_compute; reflexivity|].
  split; [|split; [reflexivity|split; [vm_compute; reflexivity|split; [vm_compute; reflexivity|split; [|vm_compute; reflexivity]]]]].
  - by_compute.
  - assert (forall (s : sgraph) (rest : list nat) (e : nat) k v, e ∉ rest -> escan_keeps "e" s rest (OSetEdgeProp e k v)) as Hset by (intros s rest e k v He _ Hin; by destruct He).
    cbn [loop_keeps app].
    assert (only [1; 3; 4] C63_ebody [1] = [OSetEdgeProp 1 "e" (VInt 3); OSetEdgeProp 1 "f" (VInt 4)]) as -> by (vm_compute; reflexivity).
    assert (only [1; 3; 4] C63_ebody [1; 3] = [OSetEdgeProp 3 "e" (VInt 3); OSetEdgeProp 3 "f" (VInt 4); ORemoveEdge 1]) as -> by (vm_compute; reflexivity).
    assert (only [1; 3; 4] C63_ebody [1; 3; 2] = []) as -> by (vm_compute; reflexivity).
    assert (only [1; 3; 4] C63_ebody [1; 3; 2; 4] = [OSetEdgeProp 4 "e" (VInt 3); OSetEdgeProp 4 "f" (VInt 4); ORemoveEdge 3]) as -> by (vm_compute; reflexivity).
    cbn [calls_keep]. repeat split; first [apply Hset; by_compute | cbn [escan_keeps graph_keeps]; by_compute].
Qed.
