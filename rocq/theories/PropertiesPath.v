(** C27-C32: paths (path.go).  [from] and [to] give the ends of the edges. *)
From Verif Require Import Base Graph GraphSpec Sizes Path PathSpec PathProofs CursorProofs GraphExamples.

(** For the examples: edge [e] leads from node [e] to node [e+1]; edge 9 is a loop at node 9. *)
Definition ex_from (e : nat) : nat := e.
Definition ex_to (e : nat) : nat := if decide (e = 9) then 9 else S e.
Definition ex_path : path := Path None [PE 1 false; PE 2 false; PE 2 true].
Definition ex_walk : pwalk := WalkFrom 1 [(1, 2); (2, 3); (2, 2)].
Lemma ex_denotes : denotes ex_from ex_to ex_path ex_walk.
Proof. constructor. repeat (econstructor; [done|]). constructor. Qed.

(** C27: Append to a connected non-empty path: the concatenation if the elements are connected
    and start at its last node, a panic otherwise. *)
Theorem C27_append p n ss els ts from to : denotes from to p (WalkFrom n ss) ->
  takes from to (default 0 (last (walk_nodes (WalkFrom n ss)))) els ts ->
  exists p', path_append from to p els = Ok p' /\ denotes from to p' (WalkFrom n (ss ++ ts)).
Proof. exact (append_ok from to p n ss els ts). Qed.
Print Assumptions C27_append.
Theorem C27_append_panics p n ss els from to : denotes from to p (WalkFrom n ss) ->
  (forall ts, ~ takes from to (default 0 (last (walk_nodes (WalkFrom n ss)))) els ts) ->
  path_append from to p els = Panic.
Proof. exact (append_panics from to p n ss els). Qed.
Print Assumptions C27_append_panics.
Example C27_ex : denotes ex_from ex_to ex_path ex_walk /\ takes ex_from ex_to 2 [PE 2 false; PE 3 false] [(2, 3); (3, 4)] /\
  (forall ts, ~ takes ex_from ex_to 2 [PE 2 false; PE 2 false] ts) /\
  path_append ex_from ex_to ex_path [PE 2 false; PE 2 false] = Panic.
Proof.
  split; [exact ex_denotes|]. split; [repeat (econstructor; [done|]); constructor|]. split; [|done].
  intros ts (? & _ & _ & (? & _ & H & _)%takes_cons_inv)%takes_cons_inv. done.
Qed.

(** C28: the accessors agree with the walk that the path denotes, *)
Theorem C28_accessors p w from to : denotes from to p w ->
  num_path_nodes p = Z.of_nat (length (walk_nodes w)) /\ num_path_edges p = Z.of_nat (length (walk_edges w)) /\
  path_first from to p = head (walk_nodes w) /\ path_last from to p = last (walk_nodes w).
Proof. exact (fun H => conj (den_num_nodes _ _ _ _ H) (conj (den_num_edges _ _ _ _ H) (conj (den_first _ _ _ _ H) (den_last _ _ _ _ H)))). Qed.
Print Assumptions C28_accessors.
Theorem C28_get_node p w i from to : denotes from to p w ->
  path_get_node from to p (Z.of_nat i) = match walk_nodes w !! i with Some n => Ok n | None => Panic end.
Proof. exact (den_get_node from to p w i). Qed.
Print Assumptions C28_get_node.
Theorem C28_get_edge p w i from to : denotes from to p w ->
  path_get_edge p (Z.of_nat i) = Ok (walk_edges w !! i).
Proof. exact (den_get_edge from to p w i). Qed.
Print Assumptions C28_get_edge.
(** consecutive nodes are the ends of the edge between them, *)
Theorem C28_edges_join p w i e from to : denotes from to p w -> walk_edges w !! i = Some e ->
  exists rev a b, walk_nodes w !! i = Some a /\ walk_nodes w !! S i = Some b /\ joins from to e rev a b.
Proof. exact (den_joined from to p w i e). Qed.
Print Assumptions C28_edges_join.
(** and paths made with checks denote walks. *)
Theorem C28_made_paths p from to : made from to p -> exists w, denotes from to p w.
Proof. exact (made_denotes from to p). Qed.
Print Assumptions C28_made_paths.
(** A path made from a list of edges takes them all forwards: it is a walk iff each starts where the one before
    it ends. *)
Theorem C28_from_edges from to e es :
  denotes from to (path_from_elements (elements_from_edges (e :: es))) (WalkFrom (from e) (map (fun e => (e, to e)) (e :: es))) <->
  forall i a b, (e :: es) !! i = Some a -> (e :: es) !! S i = Some b -> to a = from b.
Proof. exact (from_edges_denotes from to e es). Qed.
Print Assumptions C28_from_edges.
(** In full: all paths made with the API denote walks.  False: NewPathFromElements, and Append on
    an empty path, do not check; GetEdge(1) does not start at GetNode(1). *)
Definition C28_statement : Prop := forall from to els p, path_append from to path_empty els = Ok p -> exists w, denotes from to p w.
Theorem C28_refuted : exists from to els p e n,
  path_append from to path_empty els = Ok p /\ path_from_elements els = p /\
  path_get_edge p 1 = Ok (Some e) /\ path_get_node from to p 1 = Ok n /\ from e <> n /\ to e <> n.
Proof. exists ex_from, ex_to, [PE 1 false; PE 3 false], (Path None [PE 1 false; PE 3 false]), 3, 2. done. Qed.
Print Assumptions C28_refuted.
Example C28_ex : denotes ex_from ex_to ex_path ex_walk /\ walk_edges ex_walk !! 1 = Some 2 /\
  path_get_node ex_from ex_to ex_path 2 = Ok 3 /\ path_get_edge ex_path 1 = Ok (Some 2) /\ path_get_edge ex_path 3 = Ok None /\
  path_get_node ex_from ex_to ex_path 4 = Panic /\ ex_to 1 = ex_from 2 /\ ex_to 2 <> ex_from 2 /\ made ex_from ex_to ex_path.
Proof.
  split; [exact ex_denotes|]. do 7 (split; [done|]).
  eapply (made_append _ _ (path_from_node 1) (p_path ex_path)); [constructor|done|done].
Qed.

(** C29 in full: RemoveLast does not change the graph and leaves the walk without its last step. *)
Definition C29_statement : Prop := forall g p g' p' n ss st,
  denotes (edge_from g) (edge_to g) p (WalkFrom n (ss ++ [st])) -> path_remove_last g p = Ok (g', p') ->
  g' = g /\ denotes (edge_from g) (edge_to g) p' (WalkFrom n ss).
(** False: the edge is removed from the graph (path.go:301, 315), *)
Definition C29_witness : list op := [ONewNode ∅ ∅ []; ONewEdge 0 0 "A" ∅; ONewEdge 0 0 "B" ∅].
Theorem C29_refuted : exists ops g p g' p',
  (valid_history ops /\ run ops = Ok g /\ denotes (edge_from g) (edge_to g) p (WalkFrom 0 [(1, 0); (2, 0)])) /\
  path_remove_last g p = Ok (g', p') /\ node_edges g 0 Outgoing = Ok [1; 2] /\ node_edges g' 0 Outgoing = Ok [1].
Proof.
  exists C29_witness, (result C29_witness), (Path None [PE 1 false; PE 2 false]),
    (result (C29_witness ++ [ORemoveEdge 2])), (Path None [PE 1 false]).
  split; [split; [by_compute|]; split; [apply run_result; vm_compute; reflexivity|]|].
  { constructor. repeat (econstructor; [split; vm_compute; reflexivity|]). constructor. }
  split; [|by_compute]. unfold path_remove_last. cbn [p_only p_path last pe_edge].
  change (remove_edge ?g ?e) with (step g (ORemoveEdge e)). rewrite result_step by (vm_compute; reflexivity). reflexivity.
Qed.
Print Assumptions C29_refuted.
(** and a path of one edge becomes empty instead of a single node. *)
Theorem C29_single_edge_refuted : forall g e rev g', step g (ORemoveEdge e) = Ok g' ->
  path_remove_last g (Path None [PE e rev]) = Ok (g', path_empty) /\
  path_remove_first g (Path None [PE e rev]) = Ok (g', path_empty).
Proof. exact remove_one_edge. Qed.
Print Assumptions C29_single_edge_refuted.
(** The path itself is right if it has two edges or more, and the change of the graph is the
    removal of that edge (missing: paths of one edge, and that the graph is unchanged: false). *)
Theorem C29_last_partial g p g' p' n ss st :
  denotes (edge_from g) (edge_to g) p (WalkFrom n (ss ++ [st])) -> ss <> [] ->
  path_remove_last g p = Ok (g', p') ->
  denotes (edge_from g) (edge_to g) p' (WalkFrom n ss) /\ step g (ORemoveEdge st.1) = Ok g'.
Proof. exact (remove_last_path g p g' p' n ss st). Qed.
Print Assumptions C29_last_partial.
Theorem C29_first_partial g p g' p' n st ss :
  denotes (edge_from g) (edge_to g) p (WalkFrom n (st :: ss)) -> ss <> [] ->
  path_remove_first g p = Ok (g', p') ->
  denotes (edge_from g) (edge_to g) p' (WalkFrom st.2 ss) /\ step g (ORemoveEdge st.1) = Ok g'.
Proof. exact (remove_first_path g p g' p' n st ss). Qed.
Print Assumptions C29_first_partial.
Theorem C29_node_partial g n : path_remove_last g (path_from_node n) = Ok (g, path_empty) /\
  path_remove_first g (path_from_node n) = Ok (g, path_empty).
Proof. exact (remove_only g n). Qed.
Print Assumptions C29_node_partial.
Example C29_ex : (exists g' p', path_remove_first (result C29_witness) (Path None [PE 1 false; PE 2 false]) = Ok (g', p')) /\
  denotes (edge_from (result C29_witness)) (edge_to (result C29_witness)) (Path None [PE 1 false; PE 2 false]) (WalkFrom 0 [(1, 0); (2, 0)]).
Proof.
  split.
  - eexists. eexists. unfold path_remove_first. cbn [p_only p_path pe_edge].
    change (remove_edge ?g ?e) with (step g (ORemoveEdge e)). rewrite result_step by (vm_compute; reflexivity). reflexivity.
  - constructor. repeat (econstructor; [split; vm_compute; reflexivity|]). constructor.
Qed.

(** C30 in full: AppendPath yields the concatenation if there is one and panics otherwise, and
    does not change its argument. *)
Definition C30_statement : Prop := forall from to p q v w, denotes from to p v -> denotes from to q w ->
  match walk_app v w with
  | Some u => exists p', path_append_path from to p q = Ok (p', q) /\ denotes from to p' u
  | None => path_append_path from to p q = Panic
  end.
(** False: a single node loses its node, and the connection is not checked, *)
Theorem C30_refuted : exists from to q w, denotes from to q w /\
  walk_app (WalkFrom 5 []) w = None /\ path_append_path from to (path_from_node 5) q = Ok (q, q).
Proof.
  exists ex_from, ex_to, ex_path, ex_walk. split; [exact ex_denotes|]. split; reflexivity.
Qed.
Print Assumptions C30_refuted.
Theorem C30_nodes_refuted : forall from to n,
  path_append_path from to (path_from_node n) (path_from_node n) = Ok (path_empty, path_from_node n) /\
  path_append_path from to path_empty (path_from_node n) = Ok (path_empty, path_from_node n).
Proof. done. Qed.
Print Assumptions C30_nodes_refuted.
(** and a single node argument becomes empty, and is not compared. *)
Theorem C30_argument_refuted : exists from to p w n, denotes from to p w /\ walk_app w (WalkFrom n []) = None /\
  path_append_path from to p (path_from_node n) = Ok (p, path_empty).
Proof. exists ex_from, ex_to, ex_path, ex_walk, 7. split; [exact ex_denotes|]. split; reflexivity. Qed.
Print Assumptions C30_argument_refuted.
(** It holds if both paths have edges (missing: the cases refuted above, *)
Theorem C30_partial from to p n ss q m ts : denotes from to p (WalkFrom n ss) -> denotes from to q (WalkFrom m ts) ->
  ss <> [] -> ts <> [] ->
  match walk_app (WalkFrom n ss) (WalkFrom m ts) with
  | Some w => exists p', path_append_path from to p q = Ok (p', q) /\ denotes from to p' w
  | None => path_append_path from to p q = Panic
  end.
Proof. exact (append_path_ok from to p n ss q m ts). Qed.
Print Assumptions C30_partial.
(** which are exactly these). *)
Theorem C30_short_argument from to p n ss q w : denotes from to p (WalkFrom n ss) -> ss <> [] ->
  denotes from to q w -> walk_edges w = [] -> path_append_path from to p q = Ok (p, path_empty).
Proof. exact (append_path_short from to p n ss q w). Qed.
Print Assumptions C30_short_argument.
Theorem C30_short_receiver from to p q w : denotes from to p w -> walk_edges w = [] ->
  path_append_path from to p q = Ok (Path None (p_path q), q).
Proof. exact (append_path_to_short from to p q w). Qed.
Print Assumptions C30_short_receiver.
Example C30_ex : denotes ex_from ex_to ex_path ex_walk /\
  denotes ex_from ex_to (Path None [PE 2 false]) (WalkFrom 2 [(2, 3)]) /\
  walk_app ex_walk (WalkFrom 2 [(2, 3)]) = Some (WalkFrom 1 [(1, 2); (2, 3); (2, 2); (2, 3)]) /\
  walk_app ex_walk ex_walk = None /\ path_append_path ex_from ex_to ex_path ex_path = Panic.
Proof.
  split; [exact ex_denotes|]. split; [|by split_and!]. constructor. econstructor; [done|]. constructor.
Qed.

(** C31 in full: HasPrefixPath decides whether the argument is a prefix. *)
Definition C31_statement : Prop := forall from to p q v w, denotes from to p v -> denotes from to q w ->
  path_has_prefix_path from to p q = true <-> walk_prefix w v.
(** False: a loop traversed backwards is the same walk, but a different element. *)
Theorem C31_refuted : exists from to p q w, denotes from to p w /\ denotes from to q w /\
  path_has_prefix_path from to p q = false.
Proof.
  exists ex_from, ex_to, (Path None [PE 9 false]), (Path None [PE 9 true]), (WalkFrom 9 [(9, 9)]).
  split_and!; [..|reflexivity]; constructor; (econstructor; [done|]); constructor.
Qed.
Print Assumptions C31_refuted.
(** It holds if loops are traversed forwards, as CollectAllPaths does (missing: backward loops). *)
Theorem C31_partial from to p q v w : denotes from to p v -> denotes from to q w -> plain from to p -> plain from to q ->
  path_has_prefix_path from to p q = true <-> walk_prefix w v.
Proof. exact (has_prefix_path_ok from to p q v w). Qed.
Print Assumptions C31_partial.
(** HasPrefix, exactly, for all paths and elements; a path without edges has no prefix, not even the empty one. *)
Theorem C31_elements p els : path_has_prefix p els = true <-> p_only p = None /\ p_path p <> [] /\ exists r, p_path p = els ++ r.
Proof. exact (has_prefix_ok p els). Qed.
Print Assumptions C31_elements.
Example C31_elements_ex : path_has_prefix ex_path [PE 1 false] = true /\ path_has_prefix ex_path [PE 1 true] = false /\
  path_has_prefix ex_path [] = true /\ path_has_prefix (path_from_node 1) [] = false /\
  path_has_prefix (Path None [PE 1 false]) [PE 1 false; PE 2 false] = false.
Proof. done. Qed.
Example C31_ex : denotes ex_from ex_to ex_path ex_walk /\
  denotes ex_from ex_to (Path None [PE 1 false]) (WalkFrom 1 [(1, 2)]) /\
  plain ex_from ex_to ex_path /\ plain ex_from ex_to (Path None [PE 1 false]) /\
  path_has_prefix_path ex_from ex_to ex_path (Path None [PE 1 false]) = true /\
  path_has_prefix_path ex_from ex_to (Path None [PE 1 false]) ex_path = false.
Proof.
  split; [exact ex_denotes|]. split; [constructor; (econstructor; [done|]); constructor|].
  split; [repeat constructor; done|]. split; [repeat constructor; done|]. done.
Qed.

(** C32 in full: Slice(i, j) denotes nodes [i], ..., [j-1]; [jz] is the argument for [j]. *)
Definition C32_statement : Prop := forall from to p w (i j : nat) (jz : Z), denotes from to p w ->
  i < j <= length (walk_nodes w) ->
  (jz = Z.of_nat j \/ j = length (walk_nodes w) /\ (jz = -1 \/ jz > Z.of_nat j))%Z ->
  exists p', path_slice from to p (Z.of_nat i) jz = Ok p' /\ denotes from to p' (walk_slice w i j).
(** False: a single node that is not the last is an empty path instead, *)
Theorem C32_refuted from to p w (i : nat) : denotes from to p w -> i + 1 < length (walk_nodes w) ->
  path_slice from to p (Z.of_nat i) (Z.of_nat (S i)) = Ok path_empty.
Proof. exact (slice_one from to p w i). Qed.
Print Assumptions C32_refuted.
(** and where no nodes are asked for one is returned, or there is a panic. *)
Theorem C32_empty_refuted : exists from to p w, denotes from to p w /\
  path_slice from to p 0 0 = Ok (path_from_node 1) /\ path_slice from to p 2 2 = Ok (path_from_node 3) /\
  path_slice from to p 3 3 = Panic.
Proof. exists ex_from, ex_to, ex_path, ex_walk. split; [exact ex_denotes|]. done. Qed.
Print Assumptions C32_empty_refuted.
(** It holds for two nodes and more, and for the last node (missing: other single nodes). *)
Theorem C32_partial from to p w (i j : nat) (jz : Z) : denotes from to p w ->
  i < j <= length (walk_nodes w) ->
  (jz = Z.of_nat j \/ j = length (walk_nodes w) /\ (jz = -1 \/ jz > Z.of_nat j))%Z ->
  i + 2 <= j \/ i + 1 = length (walk_nodes w) ->
  exists p', path_slice from to p (Z.of_nat i) jz = Ok p' /\ denotes from to p' (walk_slice w i j).
Proof. exact (slice_ok from to p w i j jz). Qed.
Print Assumptions C32_partial.
Example C32_ex : denotes ex_from ex_to ex_path ex_walk /\ length (walk_nodes ex_walk) = 4 /\
  walk_slice ex_walk 1 3 = WalkFrom 2 [(2, 3)] /\ path_slice ex_from ex_to ex_path 1 3 = Ok (Path None [PE 2 false]) /\
  path_slice ex_from ex_to ex_path 3 (-1) = Ok (path_from_node 2).
Proof. split; [exact ex_denotes|]. done. Qed.
