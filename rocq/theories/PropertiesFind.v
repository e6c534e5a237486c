(** C14, C15, C18: FindNodes, FindEdges and the filters (graph.go:216-411). *)
From Verif Require Import Base Value Index Graph GraphSpec Find FindProofs GraphExamples.

(** C18: the filters decide exactly, for every iteration order of the requested properties;
    being total functions of the model they never panic. *)
Theorem C18_node_filter_exact g L p l n : prop_order p l ->
  node_filter g L l n = true <->
  L ⊆ labels_of g n /\ forall k v, p !! k = Some v -> exists w, node_prop g n k = Some w /\ answers v w.
Proof. exact (node_filter_ok g L p l n). Qed.
Print Assumptions C18_node_filter_exact.
Theorem C18_edge_filter_exact g L p l e : prop_order p l ->
  edge_filter g L l e = true <->
  (L <> ∅ -> lbl g e ∈ L) /\ forall k v, p !! k = Some v -> exists w, edge_prop g e k = Some w /\ answers v w.
Proof. exact (edge_filter_ok g L p l e). Qed.
Print Assumptions C18_edge_filter_exact.
Example C18_ex : prop_order {["k" := VInt 7]} [("k", VInt 7)]%string /\
  node_filter ex_graph {["P"]} [("k", VInt 7)]%string 1 = true /\
  node_filter ex_graph {["P"]} [("k", VInt 7)]%string 0 = false /\
  node_filter ex_graph {["P"]} [("k", VStr "a")]%string 0 = false /\
  edge_filter ex_graph {["A"; "B"]} [("w", VStr "x")]%string 5 = true /\
  edge_filter ex_graph {["A"]} [("w", VStr "x")]%string 5 = false.
Proof. split; [unfold prop_order; by rewrite map_to_list_singleton|]. by_compute. Qed.

(** C14 in full: FindNodes returns exactly the matching nodes. *)
Definition C14_statement : Prop := forall ops g L p lord pord qord ford,
  valid_history ops -> run ops = Ok g -> order_of L lord -> order_of (dom p) pord -> order_of (dom p) qord ->
  (forall n, prop_order p (ford n)) ->
  exists xs m, find_nodes g L p lord pord qord ford = Ok (xs, m) /\ lists (node_match (srun ops) L p) xs.
(** False: properties without labels always panic ... *)
Theorem C14_refuted g p lord pord qord ford : p <> ∅ -> find_nodes g ∅ p lord pord qord ford = Panic.
Proof. exact (find_nodes_panics g p lord pord qord ford). Qed.
Print Assumptions C14_refuted.
(** ... and a hash index misses an equal value wrapped twice. *)
Definition C14_witness : list op :=
  [OAddNodeIndex "k" HashIndex; ONewNode {["A"]} {["k" := VNative (VNative (VInt 1))]} ["A"]%string; ONewNode {["A"]} ∅ ["A"]%string].
Theorem C14_hash_refuted : exists ops g,
  valid_history ops /\ run ops = Ok g /\
  bool_decide (compare_value (VInt 1) (VNative (VNative (VInt 1))) = Some Eq) = true /\
  find_nodes g {["A"]} {["k" := VInt 1]} ["A"] ["k"] ["k"] (fun _ => [("k", VInt 1)])%string = Ok ([], 0%Z).
Proof. exists C14_witness, (result C14_witness). by_witness. Qed.
Print Assumptions C14_hash_refuted.
(** What holds: exactness for every non-empty label set, all properties, all indexes (over values
    they can be asked for), all orders; [m] is MaxSize.  Missing for the full statement: properties
    without labels, and values the indexes cannot be asked for. *)
Theorem C14_partial ops g L p lord pord qord ford :
  valid_history ops -> run ops = Ok g -> L <> ∅ -> node_askable ops p ->
  order_of L lord -> order_of (dom p) pord -> order_of (dom p) qord -> (forall n, prop_order p (ford n)) ->
  exists xs m, find_nodes g L p lord pord qord ford = Ok (xs, m) /\
    lists (node_match (srun ops) L p) xs /\ (Z.of_nat (length xs) <= m)%Z.
Proof. exact (find_nodes_ok ops g L p lord pord qord ford). Qed.
Print Assumptions C14_partial.
Theorem C14_no_criteria_partial ops g lord pord qord ford :
  valid_history ops -> run ops = Ok g -> node_list_safe ops ->
  exists xs m, find_nodes g ∅ ∅ lord pord qord ford = Ok (xs, m) /\
    lists (live_node (srun ops)) xs /\ Z.of_nat (length xs) = m.
Proof. exact (find_nodes_all ops g lord pord qord ford). Qed.
Print Assumptions C14_no_criteria_partial.
(** Asking an index that holds something for a value it cannot compare or hash panics. *)
Theorem C14_refused_value ops g L p lord pord qord ford k v it n w :
  valid_history ops -> run ops = Ok g -> L <> ∅ -> order_of L lord -> order_of (dom p) pord ->
  p !! k = Some v -> node_index ops k = Some it -> storable it (node_filed ops k) -> node_scan_safe ops k ->
  node_has (srun ops) k w n -> refuses it (node_filed ops k) v -> find_nodes g L p lord pord qord ford = Panic.
Proof. exact (find_nodes_refused ops g L p lord pord qord ford k v it n w). Qed.
Print Assumptions C14_refused_value.
Definition C14_ops : list op :=
  [OAddNodeIndex "k" BtreeIndex;
   ONewNode {["A"]} {["k" := VInt 1]} ["A"]%string; ONewNode {["A"; "B"]} {["k" := VInt 1; "z" := VStr "u"]} ["A"; "B"]%string;
   ONewNode {["B"]} {["k" := VInt 1; "z" := VStr "u"]} ["B"]%string; ONewNode {["A"]} {["k" := VInt 2]} ["A"]%string].
Example C14_ex : valid_history C14_ops /\ node_askable C14_ops {["k" := VInt 1]} /\ node_list_safe C14_ops /\
  exists g, run C14_ops = Ok g /\
  find_nodes g {["A"]} {["k" := VInt 1]} ["A"] ["k"] ["k"] (fun _ => [("k", VInt 1)])%string = Ok ([0; 1], 3%Z).
Proof.
  split; [by_compute|]. split; [apply node_askable_int; by_compute|]. by_compute.
Qed.
(** a slice of strings asked of a hash index, an integer asked of a B-tree of strings *)
Definition C14_hash : list op := [OAddNodeIndex "k" HashIndex; ONewNode {["A"]} {["k" := VInt 1]} ["A"]%string].
Definition C14_tree : list op := [OAddNodeIndex "k" BtreeIndex; ONewNode {["A"]} {["k" := VStr "a"]} ["A"]%string].
Example C14_refused_ex :
  (valid_history C14_hash /\ node_index C14_hash "k" = Some HashIndex /\ storable HashIndex (node_filed C14_hash "k") /\
   node_scan_safe C14_hash "k" /\ node_has (srun C14_hash) "k" (VInt 1) 0 /\ refuses HashIndex (node_filed C14_hash "k") (VStrs ["a"%string])) /\
  (valid_history C14_tree /\ node_index C14_tree "k" = Some BtreeIndex /\ storable BtreeIndex (node_filed C14_tree "k") /\
   node_scan_safe C14_tree "k" /\ node_has (srun C14_tree) "k" (VStr "a") 0 /\ refuses BtreeIndex (node_filed C14_tree "k") (VInt 1)).
Proof.
  assert (forall v, node_filed C14_hash "k" v -> v = VInt 1) as W1.
  { apply node_filed_list. repeat constructor. }
  assert (forall v, node_filed C14_tree "k" v -> v = VStr "a") as W2.
  { apply node_filed_list. repeat constructor. }
  split; (split; [by_compute|]; split; [done|]; split; [|split; [apply node_scans_safe; by_compute|split; [eexists; split; vm_compute; reflexivity|]]]).
  - intros v Hv. by rewrite (W1 v Hv).
  - done.
  - intros v w Hv Hw. by rewrite (W2 v Hv), (W2 w Hw).
  - intros w Hw. by rewrite (W2 w Hw).
Qed.

(** C15 in full: FindEdges returns exactly the matching edges. *)
Definition C15_statement : Prop := forall ops g L p lord pord qord ford,
  valid_history ops -> run ops = Ok g -> order_of L lord -> order_of (dom p) pord -> order_of (dom p) qord ->
  (forall n, prop_order p (ford n)) ->
  exists xs m, find_edges g L p lord pord qord ford = Ok (xs, m) /\ lists (edge_match (srun ops) L p) xs.
(** False: properties without labels always panic; labels without indexed property return every
    edge; and removed edges are found through an index. *)
Theorem C15_refuted g p lord pord qord ford : p <> ∅ -> find_edges g ∅ p lord pord qord ford = Panic.
Proof. exact (find_edges_panics g p lord pord qord ford). Qed.
Print Assumptions C15_refuted.
Definition C15_witness : list op := [ONewNode ∅ ∅ []; ONewEdge 0 0 "A" ∅; ONewEdge 0 0 "B" ∅].
Theorem C15_labels_refuted : exists ops g,
  valid_history ops /\ run ops = Ok g /\ find_edges g {["A"]} ∅ ["A"]%string [] [] (fun _ => []) = Ok ([1; 2], 2%Z).
Proof. exists C15_witness, (result C15_witness). by_witness. Qed.
Print Assumptions C15_labels_refuted.
Definition C15_witness2 : list op :=
  [OAddEdgeIndex "k" BtreeIndex; ONewNode ∅ ∅ []; ONewEdge 0 0 "A" {["k" := VInt 1]};
   ONewEdge 0 0 "A" ∅; ONewEdge 0 0 "A" ∅; ORemoveEdge 1].
Theorem C15_removed_refuted : exists ops g,
  valid_history ops /\ run ops = Ok g /\ ~ live_edge (srun ops) 1 /\
  find_edges g {["A"]} {["k" := VInt 1]} ["A"] ["k"] ["k"] (fun _ => [("k", VInt 1)])%string = Ok ([1], 1%Z).
Proof. exists C15_witness2, (result C15_witness2). by_witness. Qed.
Print Assumptions C15_removed_refuted.
(** What holds for non-empty label sets, if no removed edge is left in an index and the edge list
    is right: FindEdges is exact if a requested property is indexed or there is at most one edge,
    and otherwise returns all edges, unfiltered. *)
Theorem C15_characterised ops g L p lord pord qord ford :
  valid_history ops -> run ops = Ok g -> edge_list_safe ops -> L <> ∅ -> edge_askable ops p ->
  (forall k v w e, p !! k = Some v -> ~ left_over ops k w e) ->
  order_of L lord -> order_of (dom p) pord -> order_of (dom p) qord -> (forall n, prop_order p (ford n)) ->
  exists xs m, find_edges g L p lord pord qord ford = Ok (xs, m) /\
    ((m = -1)%Z \/ (Z.of_nat (length xs) <= m)%Z) /\
    ((size (s_edges (srun ops)) <= 1 \/ exists k v, p !! k = Some v /\ is_Some (edge_index ops k)) ->
       lists (edge_match (srun ops) L p) xs) /\
    (2 <= size (s_edges (srun ops)) -> (forall k v, p !! k = Some v -> edge_index ops k = None) ->
       lists (live_edge (srun ops)) xs).
Proof. exact (find_edges_ok ops g L p lord pord qord ford). Qed.
Print Assumptions C15_characterised.
Theorem C15_no_criteria_partial ops g lord pord qord ford :
  valid_history ops -> run ops = Ok g -> edge_list_safe ops ->
  exists xs m, find_edges g ∅ ∅ lord pord qord ford = Ok (xs, m) /\ lists (live_edge (srun ops)) xs.
Proof. exact (find_edges_all ops g lord pord qord ford). Qed.
Print Assumptions C15_no_criteria_partial.
Theorem C15_refused_value ops g L p lord pord qord ford k v it e w :
  valid_history ops -> run ops = Ok g -> edge_list_safe ops -> L <> ∅ -> order_of L lord -> order_of (dom p) pord ->
  p !! k = Some v -> edge_index ops k = Some it -> storable it (edge_filed ops k) -> edge_scan_safe ops k ->
  edge_has (srun ops) k w e -> refuses it (edge_filed ops k) v -> find_edges g L p lord pord qord ford = Panic.
Proof. exact (find_edges_refused ops g L p lord pord qord ford k v it e w). Qed.
Print Assumptions C15_refused_value.
Definition C15_ops : list op :=
  [OAddEdgeIndex "k" HashIndex; ONewNode ∅ ∅ []; ONewEdge 0 0 "A" {["k" := VInt 1]};
   ONewEdge 0 0 "B" {["k" := VInt 1]}; ONewEdge 0 0 "A" {["k" := VInt 2]}].
Example C15_ex : valid_history C15_ops /\ edge_list_safe C15_ops /\ edge_askable C15_ops {["k" := VInt 1]} /\
  (forall k v w e, ({["k" := VInt 1]} : props) !! k = Some v -> ~ left_over C15_ops k w e) /\
  (exists k v, ({["k" := VInt 1]} : props) !! k = Some v /\ is_Some (edge_index C15_ops k)) /\
  exists g, run C15_ops = Ok g /\
  find_edges g {["A"]} {["k" := VInt 1]} ["A"] ["k"] ["k"] (fun _ => [("k", VInt 1)])%string = Ok ([1], 2%Z).
Proof.
  split; [by_compute|]. split; [by_compute|]. split; [apply edge_askable_int; by_compute|]. split.
  - intros k v w e _. apply no_left_over. by_compute.
  - split; [exists "k"%string, (VInt 1); split; [done|by eexists]|]. by_compute.
Qed.
Example C15_refused_ex : valid_history C15_ops /\ edge_list_safe C15_ops /\ edge_index C15_ops "k" = Some HashIndex /\
  storable HashIndex (edge_filed C15_ops "k") /\ edge_scan_safe C15_ops "k" /\ edge_has (srun C15_ops) "k" (VInt 1) 1 /\
  refuses HashIndex (edge_filed C15_ops "k") (VStrs ["a"%string]).
Proof.
  split; [by_compute|]. split; [by_compute|]. split; [done|]. split; [apply storable_int, edge_filed_list; by_compute|].
  split; [apply edge_scans_safe; by_compute|].
  split; [eexists; split; vm_compute; reflexivity|done].
Qed.
