(** C24, C25, C26: CollectAllPaths (vpathitr.go); C38, C55: cursors (cursor.go). *)
From Verif Require Import Base Graph GraphSpec CoreStep Sizes Path PathSpec PathProofs VPath VPathSpec VPathProofs
  Cursor CursorSpec CursorProofs GraphExamples.

(** C24, C25, C26: for every graph, node, first leg (edges at that node), filter, direction and
    bounds there is a list of all trails, each once, such that every run of CollectAllPaths feeds
    exactly this list to the accumulator, in this order, until the accumulator returns false.
    [k] bounds the depth of the recursion: it never exceeds the number of edges, so the call
    terminates. *)
Theorem C24_C25_C26_collect_all_paths ops g filt d min max n leg :
  valid_history ops -> run ops = Ok g -> (forall e, e ∈ leg -> incident (srun ops) n e) ->
  exists all, NoDup all /\ (forall p, p ∈ all <-> trail (srun ops) d filt n leg min max p) /\
    forall (T : Type) (acc : path -> T -> bool * T) k t, size (s_edges (srun ops)) <= k ->
      collect_all_paths T g n filt d min max acc k leg t = Ok (feed acc all t).2.
Proof. exact (collect_ok ops g filt d min max n leg). Qed.
Print Assumptions C24_C25_C26_collect_all_paths.

(** C24: an accumulator that collects paths and may stop at any time collects only trails. *)
Theorem C24_only_trails ops g filt d min max n leg stop k :
  valid_history ops -> run ops = Ok g -> (forall e, e ∈ leg -> incident (srun ops) n e) ->
  size (s_edges (srun ops)) <= k ->
  exists ps, collect_all_paths _ g n filt d min max (collecting stop) k leg [] = Ok ps /\
    forall p, p ∈ ps -> trail (srun ops) d filt n leg min max p.
Proof. exact (collect_sound ops g filt d min max n leg stop k). Qed.
Print Assumptions C24_only_trails.
(** C25: one that never stops collects every trail, once. *)
Theorem C25_all_trails_once ops g filt d min max n leg k :
  valid_history ops -> run ops = Ok g -> (forall e, e ∈ leg -> incident (srun ops) n e) ->
  size (s_edges (srun ops)) <= k ->
  exists ps, collect_all_paths _ g n filt d min max (collecting (fun _ => false)) k leg [] = Ok ps /\
    NoDup ps /\ forall p, p ∈ ps <-> trail (srun ops) d filt n leg min max p.
Proof. exact (collect_complete ops g filt d min max n leg k). Qed.
Print Assumptions C25_all_trails_once.
(** C26: it terminates; what is reported before the accumulator stops it is a prefix of what is
    reported to one that never stops. *)
Theorem C26_terminates_prefix ops g filt d min max n leg stop k :
  valid_history ops -> run ops = Ok g -> (forall e, e ∈ leg -> incident (srun ops) n e) ->
  size (s_edges (srun ops)) <= k ->
  exists ps all, collect_all_paths _ g n filt d min max (collecting stop) k leg [] = Ok ps /\
    collect_all_paths _ g n filt d min max (collecting (fun _ => false)) k leg [] = Ok all /\
    (exists r, all = ps ++ r /\ (r <> [] -> stop ps = true)) /\
    (forall qs r, ps = qs ++ r -> qs <> [] -> r <> [] -> stop qs = false).
Proof. exact (collect_prefix ops g filt d min max n leg stop k). Qed.
Print Assumptions C26_terminates_prefix.
(** every trail is a connected path of live edges in the sense of C28 *)
Theorem C24_trails_connected ops g filt d min max n leg p :
  valid_history ops -> run ops = Ok g -> trail (srun ops) d filt n leg min max p ->
  exists ss, denotes (edge_from g) (edge_to g) p (WalkFrom n ss) /\ forall e, e ∈ map fst ss -> live_edge (srun ops) e.
Proof. exact (trail_denotes ops g filt d min max n leg p). Qed.
Print Assumptions C24_trails_connected.
Definition C25_ops : list op :=
  [ONewNode ∅ ∅ []; ONewNode ∅ ∅ []; ONewEdge 0 1 "A" ∅; ONewEdge 1 0 "B" ∅; ONewEdge 0 0 "C" ∅].
Example C25_ex : (valid_history C25_ops /\ forall e, e ∈ [2; 2] -> incident (srun C25_ops) 0 e) /\
  run C25_ops = Ok (result C25_ops) /\ size (s_edges (srun C25_ops)) <= 3 /\
  collect_all_paths _ (result C25_ops) 0 (fun _ => true) Outgoing (-1) (-1) (collecting (fun _ => false)) 3 [2; 2] [] =
    Ok [Path None [PE 2 false]; Path None [PE 2 false; PE 3 false]; Path None [PE 2 false; PE 3 false; PE 4 false]] /\
  collect_all_paths _ (result C25_ops) 0 (fun _ => true) AnyDir 2 2 (collecting (fun _ => false)) 3 [3] [] =
    Ok [Path None [PE 3 true; PE 2 true]].
Proof.
  split; [split; [by_compute|]|].
  { intros e He. apply elem_of_cons in He as [->|He]; [by_compute|]. apply elem_of_list_singleton in He as ->. by_compute. }
  split; [apply run_result; vm_compute; reflexivity|]. by_compute.
Qed.

(** C38 in full: Nodes and NodesWith yield the nodes at the other end, each once. *)
Definition C38_statement : Prop := forall ops g c n d,
  valid_history ops -> run ops = Ok g -> live_node (srun ops) n -> c_node c = Some n ->
  exists xs, c_nodes g c d = Ok xs /\ lists (neighbour (srun ops) d (fun _ => True) n) xs.
(** False with AnyEdge: itr.go:284-290 takes the target of incoming edges as well, *)
Theorem C38_refuted : exists ops g c, (valid_history ops /\ live_node (srun ops) 1 /\ c_node c = Some 1) /\ run ops = Ok g /\
  node_edges g 1 AnyDir = Ok [2] /\ s_edges (srun ops) !! 2 = Some (Edge 0 1 "A" ∅) /\ c_nodes g c AnyDir = Ok [1].
Proof.
  exists [ONewNode ∅ ∅ []; ONewNode ∅ ∅ []; ONewEdge 0 1 "A" ∅], (result [ONewNode ∅ ∅ []; ONewNode ∅ ∅ []; ONewEdge 0 1 "A" ∅]), (Cursor (Some 1) None).
  split; [by_compute|]. split; [apply run_result; vm_compute; reflexivity|]. by_compute.
Qed.
Print Assumptions C38_refuted.
(** in general: *)
Theorem C38_any_characterised ops g c n :
  valid_history ops -> run ops = Ok g -> live_node (srun ops) n -> c_node c = Some n ->
  exists xs, c_nodes g c AnyDir = Ok xs /\
    lists (fun m => exists e ed, s_edges (srun ops) !! e = Some ed /\ (e_from ed = n \/ e_to ed = n) /\ e_to ed = m) xs.
Proof. exact (fun Hv Hr => c_nodes_any g _ (core_run _ _ Hv Hr) c n). Qed.
Print Assumptions C38_any_characterised.
(** It holds one direction at a time (missing: AnyEdge). *)
Theorem C38_nodes_partial ops g c n d :
  valid_history ops -> run ops = Ok g -> live_node (srun ops) n -> c_node c = Some n -> d <> AnyDir ->
  exists xs, c_nodes g c d = Ok xs /\ lists (neighbour (srun ops) d (fun _ => True) n) xs.
Proof. exact (fun Hv Hr => c_nodes_ok g _ (core_run _ _ Hv Hr) c n d). Qed.
Print Assumptions C38_nodes_partial.
Theorem C38_nodes_with_partial ops g c n d l :
  valid_history ops -> run ops = Ok g -> live_node (srun ops) n -> c_node c = Some n -> d <> AnyDir ->
  exists xs, c_nodes_with g c d l = Ok xs /\ lists (neighbour (srun ops) d (fun x => x = l) n) xs.
Proof. exact (fun Hv Hr => c_nodes_with_ok g _ (core_run _ _ Hv Hr) c n d l). Qed.
Print Assumptions C38_nodes_with_partial.
Theorem C38_no_node g p d l : c_nodes g (Cursor None p) d = Ok [] /\ c_nodes_with g (Cursor None p) d l = Ok [] /\
  c_edges g (Cursor None p) d = Ok [] /\ c_edges_with g (Cursor None p) d l = Ok [].
Proof. exact (conj eq_refl (conj eq_refl (conj eq_refl eq_refl))). Qed.
Print Assumptions C38_no_node.
(** Forward, Backward, NextNodes, PrevNodes and the versions with a label, one by one *)
Theorem C38_named ops g c n l : valid_history ops -> run ops = Ok g -> live_node (srun ops) n -> c_node c = Some n ->
  exists fw bw fl bl nn pn nl pl,
    c_forward g c = Ok fw /\ lists (fun e => exists ed, s_edges (srun ops) !! e = Some ed /\ e_from ed = n) fw /\
    c_backward g c = Ok bw /\ lists (fun e => exists ed, s_edges (srun ops) !! e = Some ed /\ e_to ed = n) bw /\
    c_forward_with g c l = Ok fl /\
      lists (fun e => exists ed, s_edges (srun ops) !! e = Some ed /\ e_from ed = n /\ e_label ed = l) fl /\
    c_backward_with g c l = Ok bl /\
      lists (fun e => exists ed, s_edges (srun ops) !! e = Some ed /\ e_to ed = n /\ e_label ed = l) bl /\
    c_next_nodes g c = Ok nn /\
      lists (fun m => exists e ed, s_edges (srun ops) !! e = Some ed /\ e_from ed = n /\ e_to ed = m) nn /\
    c_prev_nodes g c = Ok pn /\
      lists (fun m => exists e ed, s_edges (srun ops) !! e = Some ed /\ e_to ed = n /\ e_from ed = m) pn /\
    c_next_nodes_with g c l = Ok nl /\
      lists (fun m => exists e ed, s_edges (srun ops) !! e = Some ed /\ e_label ed = l /\ e_from ed = n /\ e_to ed = m) nl /\
    c_prev_nodes_with g c l = Ok pl /\
      lists (fun m => exists e ed, s_edges (srun ops) !! e = Some ed /\ e_label ed = l /\ e_to ed = n /\ e_from ed = m) pl.
Proof. exact (fun Hv Hr => c_named g _ (core_run _ _ Hv Hr) c n l). Qed.
Print Assumptions C38_named.
Example C38_named_ex : (valid_history ex_ops /\ live_node (srun ex_ops) 0) /\ run ex_ops = Ok ex_graph /\
  c_forward ex_graph (Cursor (Some 0) None) = Ok [6] /\ c_backward ex_graph (Cursor (Some 0) None) = Ok [7; 6] /\
  c_backward_with ex_graph (Cursor (Some 0) None) "A" = Ok [7] /\ c_prev_nodes ex_graph (Cursor (Some 0) None) = Ok [2; 0].
Proof. split; [split; [exact ex_valid|by_compute]|]. split; [exact ex_run|]. by_compute. Qed.
Example C38_ex : valid_history ex_ops /\ run ex_ops = Ok ex_graph /\ live_node (srun ex_ops) 0 /\
  c_nodes ex_graph (Cursor (Some 0) None) Incoming = Ok [2; 0] /\ c_nodes ex_graph (Cursor (Some 0) None) Outgoing = Ok [0] /\
  c_nodes_with ex_graph (Cursor (Some 0) None) Incoming "A" = Ok [2].
Proof. split; [exact ex_valid|]. split; [exact ex_run|]. by_compute. Qed.

(** C55: StartPath and PushToPath keep the cursor at the last node of its path, *)
Theorem C55_start_path g c c' : c_start_path c = Ok c' -> at_end (edge_from g) (edge_to g) c'.
Proof. exact (c_start_at g c c'). Qed.
Print Assumptions C55_start_path.
Theorem C55_push g c e c' : at_end (edge_from g) (edge_to g) c -> c_push g c e = Ok c' -> at_end (edge_from g) (edge_to g) c'.
Proof. exact (c_push_at g c e c'). Qed.
Print Assumptions C55_push.
(** PushToPath takes exactly the edges leaving the cursor's node, *)
Theorem C55_push_exact g c n e p w : c_path c = Some p -> denotes (edge_from g) (edge_to g) p w -> w <> NoWalk ->
  c_node c = last (walk_nodes w) -> c_node c = Some n ->
  (edge_from g e = n -> exists p', c_push g c e = Ok (Cursor (Some (edge_to g e)) (Some p')) /\
     walk_edges w ++ [e] = map pe_edge (p_path p') /\ path_last (edge_from g) (edge_to g) p' = Some (edge_to g e)) /\
  (edge_from g e <> n -> c_push g c e = Panic).
Proof. exact (c_push_iff g c n e p w). Qed.
Print Assumptions C55_push_exact.
(** and there must be a path, as there must be a node to start one. *)
Theorem C55_not_started g n p e : c_push g (Cursor n None) e = Panic /\ c_pop g (Cursor n None) = Panic /\ c_start_path (Cursor None p) = Panic.
Proof. exact (conj eq_refl (conj eq_refl eq_refl)). Qed.
Print Assumptions C55_not_started.
(** In full, so does PopFromPath (cursor.go:52: "This also moves the cursor to the previous node"). *)
Definition C55_statement : Prop := forall g c g' c', at_end (edge_from g) (edge_to g) c -> c_pop g c = Ok (g', c') ->
  at_end (edge_from g') (edge_to g') c'.
(** False: it does not move the cursor. *)
Theorem C55_refuted : exists ops g c0 c1 c2 g' c', (valid_history ops /\ run ops = Ok g) /\
  c_start_path (Cursor (Some 0) None) = Ok c0 /\ c_push g c0 2 = Ok c1 /\ c_push g c1 3 = Ok c2 /\
  c_pop g c2 = Ok (g', c') /\ c_node c' = Some 0 /\ c_path c' = Some (Path None [PE 2 false]) /\
  path_last (edge_from g') (edge_to g') (Path None [PE 2 false]) = Some 1.
Proof.
  exists C25_ops, (result C25_ops), (Cursor (Some 0) (Some (path_from_node 0))),
    (Cursor (Some 1) (Some (Path None [PE 2 false]))), (Cursor (Some 0) (Some (Path None [PE 2 false; PE 3 false]))),
    (result (C25_ops ++ [ORemoveEdge 3])), (Cursor (Some 0) (Some (Path None [PE 2 false]))).
  split; [split; [by_compute|apply run_result; vm_compute; reflexivity]|].
  split; [reflexivity|]. split; [vm_compute; reflexivity|]. split; [vm_compute; reflexivity|].
  split; [|by_compute]. unfold c_pop, path_remove_last. cbn [c_path c_node p_only p_path last pe_edge].
  change (remove_edge ?g ?e) with (step g (ORemoveEdge e)). rewrite result_step by (vm_compute; reflexivity). reflexivity.
Qed.
Print Assumptions C55_refuted.
Example C55_ex : exists c1 c2, c_start_path (Cursor (Some 0) None) = Ok c1 /\ c_push (result C25_ops) c1 2 = Ok c2 /\ c_node c2 = Some 1.
Proof. eexists. eexists. split; [reflexivity|]. split; vm_compute; reflexivity. Qed.
Example C55_push_ex : exists c1, c_start_path (Cursor (Some 0) None) = Ok c1 /\ c_push (result C25_ops) c1 3 = Panic.
Proof. eexists. split; [reflexivity|]. vm_compute; reflexivity. Qed.
