(** C33, C34: clone.go. *)
From Verif Require Import Base Value Index Graph GraphSpec Sizes AlgSpec Clone CloneSpec CloneProofs GraphExamples.
From Verif Require Import PropertiesNodes PropertiesAlg.
Local Open Scope string_scope.

(** the orders in which the label sets of the source nodes may be ranged over *)
Notation label_orders s ord := (forall n x, s_nodes s !! n = Some x -> order_of (sn_labels x) (ord n)).

(** C33 in full: the target gets one copy of each live node and edge of the source, with labels, mapped
    properties and corresponding ends, and nothing else; the result maps nodes to their copies.
    ([copied] is in CloneSpec.v.)  The source is an argument that is only read. *)
Definition C33_statement : Prop := forall sops tops src tgt f ord m tgt',
  valid_history sops -> run sops = Ok src -> valid_history tops -> run tops = Ok tgt -> label_orders (srun sops) ord ->
  copy_graph src tgt f ord = Ok (m, tgt') ->
  exists ops' h, valid_history (tops ++ ops') /\ run (tops ++ ops') = Ok tgt' /\
    copied f (srun sops) (srun tops) (srun (tops ++ ops')) m h.
(** False for a source as in C01, whose last node GetNodes does not list: it is not copied. *)
Theorem C33_refuted : exists sops src m tgt',
  (valid_history sops /\ run sops = Ok src) /\ live_node (srun sops) 3 /\
  copy_graph src new_graph (fun _ v => v) (fun _ => []) = Ok (m, tgt') /\ m !! 3 = None.
Proof.
  destruct (ok_match (copy_graph (result C01_witness) new_graph (fun _ v => v) (fun _ => [])) (fun mt => mt.1 !! 3 = None)) as ([m g] & E & H);
    [vm_compute; reflexivity|].
  exists C01_witness, (result C01_witness), m, g.
  split; [split; [by_compute|apply run_result; vm_compute; reflexivity]|]. split; [by_compute|]. split; [exact E|exact H].
Qed.
Print Assumptions C33_refuted.
(** What holds: it is right if the lists of all nodes and edges of the source are (missing: other
    sources).  The target is then as after a history of valid calls, each creating a copy. *)
Theorem C33_partial sops tops src tgt f ord m tgt' :
  valid_history sops -> run sops = Ok src -> valid_history tops -> run tops = Ok tgt -> label_orders (srun sops) ord ->
  node_list_safe sops -> edge_list_safe sops -> copy_graph src tgt f ord = Ok (m, tgt') ->
  exists ops' h, valid_history (tops ++ ops') /\ run (tops ++ ops') = Ok tgt' /\ Forall (clone_op f (srun sops)) ops' /\
    copied f (srun sops) (srun tops) (srun (tops ++ ops')) m h.
Proof. exact (fun Hs Hr Ht Hr' Ho => copy_graph_sound sops tops src tgt f ord Hs Hr Ht Hr' Ho m tgt'). Qed.
Print Assumptions C33_partial.
(** It returns if adding to the target does (C53) and its property indexes can hold the copied values. *)
Theorem C33_returns_partial sops tops src tgt f ord :
  valid_history sops -> run sops = Ok src -> valid_history tops -> run tops = Ok tgt -> label_orders (srun sops) ord ->
  node_list_safe sops -> edge_list_safe sops -> calls_safe tops -> can_hold tops f (srun sops) ->
  exists r, copy_graph src tgt f ord = Ok r.
Proof. exact (copy_graph_returns sops tops src tgt f ord). Qed.
Print Assumptions C33_returns_partial.
(** Otherwise it may panic half-way: the target has a B-tree index of numbers, the source has a string. *)
Theorem C33_index_refuted : exists sops src tops tgt,
  (valid_history sops /\ run sops = Ok src) /\ (valid_history tops /\ run tops = Ok tgt) /\
  copy_graph src tgt (fun _ v => v) (fun _ => []) = Panic.
Proof.
  exists [ONewNode ∅ {["k" := VStr "a"]} []], (result [ONewNode ∅ {["k" := VStr "a"]} []]),
    [OAddNodeIndex "k" BtreeIndex; ONewNode ∅ {["k" := VInt 1]} []],
    (result [OAddNodeIndex "k" BtreeIndex; ONewNode ∅ {["k" := VInt 1]} []]).
  split; [split; [by_compute|apply run_result; vm_compute; reflexivity]|].
  split; [split; [by_compute|apply run_result; vm_compute; reflexivity]|]. vm_compute. reflexivity.
Qed.
Print Assumptions C33_index_refuted.
(** A copy into a graph without nodes and edges is isomorphic to the source (see C35). *)
Theorem C33_isomorphic f s t t' m h neq eeq : s_nodes t = ∅ -> s_edges t = ∅ -> copied f s t t' m h ->
  (forall n n' x y, s_nodes s !! n = Some x -> s_nodes t' !! n' = Some y -> node_copy f x y -> neq n n' = true) ->
  (forall e e' x y, s_edges s !! e = Some x -> s_edges t' !! e' = Some y ->
     e_label y = e_label x /\ mapped f (e_props x) (e_props y) -> eeq e e' = true) ->
  isomorphism s t' neq eeq (fun n => default 0 (m !! n)) (fun e => default 0 (h !! e)).
Proof. exact (copied_isomorphism f s t t' m h neq eeq). Qed.
Print Assumptions C33_isomorphic.
(** CopyGraphf with arbitrary functions, which may refuse nodes: copyNodeFunc gets every node in creation
    order, copyEdgeFunc exactly the edges both ends of which have copies. *)
Theorem C33_graphf_partial T sops src (cn : nat -> gmap nat nat -> T -> res (option nat * T)) (ce : nat -> gmap nat nat -> T -> res T) t :
  valid_history sops -> run sops = Ok src -> node_list_safe sops -> edge_list_safe sops ->
  exists ns es, lists_nodes (srun sops) ns /\ lists (live_edge (srun sops)) es /\
    copy_graphf src cn ce t =
      (let! mt := rfold (fun mt n => let! r := cn n mt.1 mt.2 in
         Ok (match r.1 with Some n' => <[n := n']> mt.1 | None => mt.1 end, r.2)) ns (∅, t) in
       let! t' := rfold (fun t e => ce e mt.1 t)
         (filter (fun e => is_Some (mt.1 !! edge_from src e) /\ is_Some (mt.1 !! edge_to src e)) es) mt.2 in
       Ok (mt.1, t')).
Proof. exact (copy_graphf_ok sops src cn ce t). Qed.
Print Assumptions C33_graphf_partial.
Definition C33_tops : list op :=
  [OAddNodeIndex "k" HashIndex; ONewNode {["T"]} ∅ ["T"]; ONewNode ∅ ∅ []; ONewEdge 0 1 "A" ∅; ODetachRemove 1 []; ONewNode ∅ ∅ []].
Definition C33_sops : list op :=
  [ONewNode ∅ ∅ []; ODetachRemove 0 []; ONewNode {["P"; "Q"]} {["k" := VInt 1]} ["P"; "Q"]; ONewNode ∅ ∅ []; ONewEdge 1 2 "A" {["w" := VInt 2]}; ONewEdge 2 2 "B" ∅].
Definition C33_ord (n : nat) : list string := if decide (n = 1) then ["Q"; "P"] else [].
Definition C33_f (k : string) (v : value) : value := if decide (k = "k") then VStr "new" else v.
Example C33_ex : valid_history C33_sops /\ edge_list_safe C33_sops /\ node_list_safe C33_sops /\ valid_history C33_tops /\
  map_Forall (fun n x => order_of (sn_labels x) (C33_ord n)) (s_nodes (srun C33_sops)) /\
  match copy_graph (result C33_sops) (result C33_tops) C33_f C33_ord with
  | Ok (m, g) => (m !! 1, m !! 2) = (Some 4, Some 5) /\ get_edges g = Ok [6; 7] /\ node_edges g 4 Outgoing = Ok [6] /\
      node_edges g 5 Outgoing = Ok [7] /\ get_nodes_all_labels g {["P"]} ["P"] = Ok ([4], 1%Z) /\
      get_nodes_with_property g "k" = Ok [4] /\ node_prop g 4 "k" = Some (VStr "new") /\ edge_prop g 6 "w" = Some (VInt 2)
  | _ => False
  end.
Proof. 
  split; [by_compute|]. split; [by_compute|]. split; [by_compute|]. split; [by_compute|]. split; [by_compute|].
  vm_compute. split_and!; reflexivity.
Qed.

(** C34: for every source graph, start node, target and initial map to nodes of the target.
    [k] bounds the depth of the recursion: it never exceeds the number of nodes, so the call terminates,
    also on cyclic graphs. *)
Theorem C34_copy_subgraph sops tops src tgt f ord k n m0 m tgt' :
  valid_history sops -> run sops = Ok src -> valid_history tops -> run tops = Ok tgt -> label_orders (srun sops) ord ->
  live_node (srun sops) n -> (forall a b, m0 !! a = Some b -> live_node (srun tops) b) -> size (s_nodes (srun sops)) < k ->
  copy_subgraph k src f ord n tgt m0 = Ok (m, tgt') ->
  exists ops' h, valid_history (tops ++ ops') /\ run (tops ++ ops') = Ok tgt' /\ Forall (clone_op f (srun sops)) ops' /\
    copied_part f (srun sops) (srun tops) (srun (tops ++ ops')) n m0 m h.
Proof. exact (fun Hs Hr Ht Hr' Ho => copy_sub_sound sops tops src tgt f ord Hs Hr Ht Hr' Ho k n m0 m tgt'). Qed.
Print Assumptions C34_copy_subgraph.
Theorem C34_returns sops tops src tgt f ord k n m0 :
  valid_history sops -> run sops = Ok src -> valid_history tops -> run tops = Ok tgt -> label_orders (srun sops) ord ->
  live_node (srun sops) n -> (forall a b, m0 !! a = Some b -> live_node (srun tops) b) -> size (s_nodes (srun sops)) < k ->
  calls_safe tops -> can_hold tops f (srun sops) -> exists r, copy_subgraph k src f ord n tgt m0 = Ok r.
Proof. exact (fun Hs Hr Ht Hr' Ho => copy_sub_returns sops tops src tgt f ord Hs Hr Ht Hr' Ho k n m0). Qed.
Print Assumptions C34_returns.
(** a cycle 0 → 1 → 2 → 0, an edge 1 → 3 → 4; 3 is already in the map, 5 → 0 is not reachable *)
Definition C34_sops : list op :=
  [ONewNode ∅ ∅ []; ONewNode ∅ ∅ []; ONewNode ∅ ∅ []; ONewNode ∅ ∅ []; ONewNode ∅ ∅ []; ONewNode ∅ ∅ [];
   ONewEdge 0 1 "A" ∅; ONewEdge 1 2 "A" ∅; ONewEdge 2 0 "A" ∅; ONewEdge 1 3 "A" ∅; ONewEdge 3 4 "A" ∅; ONewEdge 5 0 "A" ∅].
Definition C34_tops : list op := [ONewNode ∅ ∅ []].
Example C34_ex : valid_history C34_sops /\ run C34_sops = Ok (result C34_sops) /\ valid_history C34_tops /\ live_node (srun C34_tops) 0 /\
  match copy_subgraph 7 (result C34_sops) (fun _ v => v) (fun _ => []) 0 (result C34_tops) {[3 := 0]} with
  | Ok (m, g) => bool_decide (m = {[3 := 0; 0 := 1; 1 := 2; 2 := 3]}) = true /\ get_nodes g = Ok [0; 1; 2; 3] /\ get_edges g = Ok [4; 5; 6; 7] /\
      node_edges g 3 Outgoing = Ok [4] /\ node_edges g 0 Incoming = Ok [6] /\ node_edges g 2 Outgoing = Ok [5; 6]
  | _ => False
  end.
Proof.
  split; [by_compute|]. split; [apply run_result; vm_compute; reflexivity|]. split; [by_compute|]. split; [by_compute|].
  vm_compute. split_and!; reflexivity.
Qed.
Example C34_ex_holds : calls_safe C34_tops /\ forall f s, can_hold C34_tops f s.
Proof. split; [split; [by_compute|]; split; intros k it H; discriminate H|]. intros f s. split; intros k it H; discriminate H. Qed.
(** CopyEdge creates one edge, between the images of the ends; *)
Theorem C34_copy_edge sops tops src tgt f m e x a b tgt' e' : valid_history sops -> run sops = Ok src ->
  valid_history tops -> run tops = Ok tgt -> s_edges (srun sops) !! e = Some x ->
  m !! e_from x = Some a -> m !! e_to x = Some b -> live_node (srun tops) a -> live_node (srun tops) b ->
  copy_edge src tgt f m e = Ok (tgt', e') ->
  exists p, mapped f (e_props x) p /\ e' = s_next (srun tops) /\
    valid_history (tops ++ [ONewEdge a b (e_label x) p]) /\ run (tops ++ [ONewEdge a b (e_label x) p]) = Ok tgt'.
Proof. exact (copy_edge_sound sops tops src tgt f m e x a b tgt' e'). Qed.
Print Assumptions C34_copy_edge.
(** it returns if the indexes of the target can hold the values, and panics if an end has no image. *)
Theorem C34_copy_edge_returns sops tops src tgt f m e x a b : valid_history sops -> run sops = Ok src ->
  valid_history tops -> run tops = Ok tgt -> s_edges (srun sops) !! e = Some x ->
  m !! e_from x = Some a -> m !! e_to x = Some b -> live_node (srun tops) a -> live_node (srun tops) b ->
  calls_safe tops -> can_hold tops f (srun sops) -> exists r, copy_edge src tgt f m e = Ok r.
Proof. exact (copy_edge_returns sops tops src tgt f m e x a b). Qed.
Print Assumptions C34_copy_edge_returns.
Theorem C34_copy_edge_unmapped sops src tgt f m e x : valid_history sops -> run sops = Ok src -> s_edges (srun sops) !! e = Some x ->
  m !! e_from x = None \/ m !! e_to x = None -> copy_edge src tgt f m e = Panic.
Proof. exact (copy_edge_unmapped sops src tgt f m e x). Qed.
Print Assumptions C34_copy_edge_unmapped.
Example C34_copy_edge_ex : bool_decide (s_edges (srun C34_sops) !! 10 = Some (Edge 3 4 "A" ∅)) = true /\
  (let! r := copy_edge (result C34_sops) (result C34_tops) (fun _ v => v) {[3 := 0; 4 := 0]} 10 in Ok r.2) = Ok 1 /\
  (let! r := copy_edge (result C34_sops) (result C34_tops) (fun _ v => v) {[3 := 0]} 10 in Ok r.2) = Panic.
Proof. split_and!; vm_compute; reflexivity. Qed.
