(** C48, C50, C52: iterators (itr.go, list.go:60-150, edgemap.go:109-221, node.go:57-99, 139-147). *)
From Verif Require Import Base Value Assoc Links EdgeMap Index Graph GraphSpec Itr ItrSpec Sizes.
From Verif Require Import CoreStep ItrProofs SizeProofs GraphExamples PropertiesNodes PropertiesEdges.

(** C50: what the combinators yield, driven with Next and Value, in terms of what the underlying
    iterators yield.  [k] bounds the rounds of each loop; every large enough bound works. *)
Theorem C50_filter {S A} (m : machine S A) (P : A -> bool) k s c l :
  yields m k s l -> length l < k ->
  yields (filter_machine m (fun (_ : unit) a => (P a, ()))) k (s, (), c) (filter P l).
Proof. exact (filter_pure_yields m P k s c l). Qed.
Print Assumptions C50_filter.
Theorem C50_unique {S A} `{EqDecision A} (m : machine S A) k s c l :
  yields m k s l -> length l < k ->
  yields (unique_machine m) k (s, [], c) (firsts [] l) /\
  NoDup (firsts [] l) /\ forall a, a ∈ firsts [] l <-> a ∈ l.
Proof. exact (unique_ok m k s c l). Qed.
Print Assumptions C50_unique.
Theorem C50_proc {S A B} (m : machine S A) (f : A -> B) k s l :
  yields m k s l -> yields (proc_machine m f) k s (f <$> l).
Proof. exact (proc_yields m f k s l). Qed.
Print Assumptions C50_proc.
Theorem C50_multi {S A} (m : machine S A) k its ls :
  Forall2 (yields m k) its ls -> length its < k -> yields (multi_machine m) k (its, None) (concat ls).
Proof. exact (multi_yields m k its ls). Qed.
Print Assumptions C50_multi.
Theorem C50_list {A} k (l : list A) c : yields list_machine k (ListState l c) l.
Proof. exact (list_yields k l c). Qed.
Print Assumptions C50_list.
Theorem C50_nodes_from_edges {S} (m : machine S nat) from to inc k s l :
  yields m k s l -> length l < k ->
  yields (nfe_machine m from to inc) k (s, []) (firsts [] ((fun e => if inc : bool then from e else to e) <$> l)).
Proof. exact (nfe_yields m from to inc k s [] l). Qed.
Print Assumptions C50_nodes_from_edges.
(** NodeSlice and EdgeSlice return what the iterator yields, and that is determined. *)
Theorem C50_slice {S A} (m : machine S A) k s l : yields m k s l -> length l < k -> slice m k s = Ok l.
Proof. exact (slice_ok m k s l). Qed.
Print Assumptions C50_slice.
Theorem C50_deterministic {S A} (m : machine S A) k s l l' : yields m k s l -> yields m k s l' -> l = l'.
Proof. exact (yields_det m k s l l'). Qed.
Print Assumptions C50_deterministic.
(** The lists used in the model of the graph are what the iterators over its lists yield. *)
Theorem C50_node_and_edge_lists L f cur c l k :
  walk f L cur = Ok l -> yields (edge_list_machine L) k (ElState c cur) l.
Proof. exact (edge_list_yields L f cur c l k). Qed.
Print Assumptions C50_node_and_edge_lists.
Theorem C50_edge_map f L em l k :
  em_iter f L em = Ok l -> length (em_bkts em) < k -> yields (iter_machine L) k (iter_start em) l.
Proof. exact (iter_yields f L em l k). Qed.
Print Assumptions C50_edge_map.
Theorem C50_edge_map_label lb f L em lab l k : em_iter_label lb f L em lab = Ok l ->
  exists s, label_start lb em lab = Ok s /\ yields (label_machine L) k s l.
Proof. exact (label_yields lb f L em lab l k). Qed.
Print Assumptions C50_edge_map_label.
Theorem C50_edge_map_any_label lb f L em ord l k :
  em_iter_any lb f L em ord = Ok l -> em_n em <> 0%Z -> em_n em <> 1%Z -> length ord < k ->
  yields (any_machine L em) k (ord, None) l.
Proof. exact (any_yields lb f L em ord l k). Qed.
Print Assumptions C50_edge_map_any_label.
Example C50_ex : yields list_machine 9 (ListState [3; 1; 3; 2] None) [3; 1; 3; 2] /\
  slice (filter_machine list_machine (fun (_ : unit) a => (1 <? a, ()))) 9 (ListState [3; 1; 3; 2] None, (), None) = Ok [3; 3; 2] /\
  slice (unique_machine list_machine) 9 (ListState [3; 1; 3; 2] None, [], None) = Ok [3; 1; 2] /\
  slice (multi_machine list_machine) 9 ([ListState [] None; ListState [1; 2] None; ListState [] None; ListState [3] None], None) = Ok [1; 2; 3].
Proof. split; [apply list_yields|]. by_compute. Qed.
Example C50_graph_ex : exists nd, g_nodes ex_graph !! 0 = Some nd /\
  em_iter 20 (g_l2 ex_graph) (n_in nd) = Ok [7; 6] /\ length (em_bkts (n_in nd)) = 2 /\
  slice (iter_machine (g_l2 ex_graph)) 20 (iter_start (n_in nd)) = Ok [7; 6] /\
  em_iter_any (lbl ex_graph) 20 (g_l2 ex_graph) (n_in nd) ["B"; "C"; "A"]%string = Ok [6; 7] /\
  slice (any_machine (g_l2 ex_graph) (n_in nd)) 20 (["B"; "C"; "A"]%string, None) = Ok [6; 7].
Proof. destruct (g_nodes ex_graph !! 0) as [nd|] eqn:E; [|vm_compute in E; discriminate E]. exists nd. split; [done|].
  assert (nd = default (Node ∅ ∅ em_empty em_empty) (g_nodes ex_graph !! 0)) as -> by (by rewrite E). by_compute. Qed.

(** C48: MaxSize is unknown (-1) or at least the number of elements; for the edges of a node it
    is exact. *)
Theorem C48_node_edges ops g n d xs :
  valid_history ops -> run ops = Ok g -> live_node (srun ops) n -> node_edges g n d = Ok xs ->
  node_edges_size g n d = Ok (Z.of_nat (length xs)).
Proof. exact (fun Hv Hr => node_edges_size_ok g _ (core_run _ _ Hv Hr) n d xs). Qed.
Print Assumptions C48_node_edges.
Theorem C48_node_edges_label ops g n d l xs :
  valid_history ops -> run ops = Ok g -> live_node (srun ops) n -> node_edges_label g n d l = Ok xs ->
  node_edges_label_size g n d l = Ok (Z.of_nat (length xs)).
Proof. exact (fun Hv Hr => node_edges_label_size_ok g _ (core_run _ _ Hv Hr) n d l xs). Qed.
Print Assumptions C48_node_edges_label.
(** In full, also for a set of labels and any direction: *)
Definition C48_statement : Prop := forall ops g n d ord1 ord2 xs m,
  valid_history ops -> run ops = Ok g -> live_node (srun ops) n -> order_of (list_to_set ord1) ord1 ->
  node_edges_any g n d ord1 ord2 = Ok xs -> node_edges_any_size g n d ord1 ord2 = Ok m -> bounds m xs.
(** This is false: node.go:98 adds sizes that may be -1.  Two edges come in, one goes out, MaxSize
    is 0; and with two edges out as well it is -2. *)
Definition C48_witness : list op :=
  [ONewNode ∅ ∅ []; ONewNode ∅ ∅ []; ONewEdge 1 0 "A" ∅; ONewEdge 1 0 "A" ∅; ONewEdge 0 1 "A" ∅].
Theorem C48_refuted : exists ops g n ord xs m,
  valid_history ops /\ run ops = Ok g /\ live_node (srun ops) n /\ order_of {["A"]}%string ord /\
  node_edges_any g n AnyDir ord ord = Ok xs /\ node_edges_any_size g n AnyDir ord ord = Ok m /\
  length xs = 3 /\ m = 0%Z.
Proof. exists C48_witness, (result C48_witness), 0, ["A"]%string, [2; 3; 4], 0%Z. by_witness. Qed.
Print Assumptions C48_refuted.
Theorem C48_minus_two_refuted : exists ops g n ord m,
  valid_history ops /\ run ops = Ok g /\ live_node (srun ops) n /\ order_of {["A"]}%string ord /\
  node_edges_any_size g n AnyDir ord ord = Ok m /\ m = (-2)%Z.
Proof.
  exists (C48_witness ++ [ONewEdge 0 1 "A" ∅]), (result (C48_witness ++ [ONewEdge 0 1 "A" ∅])), 0, ["A"]%string, (-2)%Z. by_witness.
Qed.
Print Assumptions C48_minus_two_refuted.
(** GetNodes may yield a node although MaxSize is 0 (C01), *)
Theorem C48_nodes_refuted : exists ops g xs,
  valid_history ops /\ run ops = Ok g /\ get_nodes g = Ok xs /\ length xs = 1 /\ get_nodes_size g = 0%Z.
Proof. exists C01_witness2, (result C01_witness2), [1]. by_witness. Qed.
Print Assumptions C48_nodes_refuted.
(** One direction at a time it is right (missing: AnyEdge with a set of labels). *)
Theorem C48_partial ops g n d ord1 ord2 xs :
  valid_history ops -> run ops = Ok g -> live_node (srun ops) n -> d <> AnyDir ->
  node_edges_any g n d ord1 ord2 = Ok xs ->
  exists m, node_edges_any_size g n d ord1 ord2 = Ok m /\ bounds m xs.
Proof. exact (fun Hv Hr => node_edges_any_size_ok g _ (core_run _ _ Hv Hr) n d ord1 ord2 xs). Qed.
Print Assumptions C48_partial.
Theorem C48_nodes_partial ops g xs : valid_history ops -> run ops = Ok g -> node_list_safe ops ->
  get_nodes g = Ok xs -> get_nodes_size g = Z.of_nat (length xs).
Proof. exact (get_nodes_size_ok ops g xs). Qed.
Print Assumptions C48_nodes_partial.
Theorem C48_edges_partial ops g xs : valid_history ops -> run ops = Ok g -> edge_list_safe ops ->
  get_edges g = Ok xs -> get_edges_size g = Z.of_nat (length xs).
Proof. exact (get_edges_size_ok ops g xs). Qed.
Print Assumptions C48_edges_partial.
Theorem C48_edges_any_label g ord xs :
  get_edges_any_label g ord = Ok xs -> bounds (get_edges_any_label_size g ord) xs.
Proof. exact (any_bound _ _ _ _ ord xs). Qed.
Print Assumptions C48_edges_any_label.
Theorem C48_nodes_with_property_partial ops g k xs :
  valid_history ops -> run ops = Ok g -> node_list_safe ops \/ is_Some (g_nix g !! k) ->
  get_nodes_with_property g k = Ok xs -> bounds (get_nodes_with_property_size g k) xs.
Proof. exact (nodes_with_property_size_ok ops g k xs). Qed.
Print Assumptions C48_nodes_with_property_partial.
Theorem C48_edges_with_property_partial ops g k xs :
  valid_history ops -> run ops = Ok g -> edge_list_safe ops \/ is_Some (g_eix g !! k) ->
  get_edges_with_property g k = Ok xs -> bounds (get_edges_with_property_size g k) xs.
Proof. exact (edges_with_property_size_ok ops g k xs). Qed.
Print Assumptions C48_edges_with_property_partial.
Example C48_ex : valid_history ex_ops /\ run ex_ops = Ok ex_graph /\ live_node (srun ex_ops) 0 /\
  node_list_safe ex_ops /\ edge_list_safe ex_ops /\
  node_edges ex_graph 0 AnyDir = Ok [7; 6; 6] /\ node_edges_size ex_graph 0 AnyDir = Ok 3%Z /\
  node_edges_label ex_graph 0 AnyDir "B" = Ok [6; 6] /\ node_edges_label_size ex_graph 0 AnyDir "B" = Ok 2%Z /\
  node_edges_any ex_graph 0 Incoming ["A"]%string [] = Ok [7] /\ node_edges_any_size ex_graph 0 Incoming ["A"]%string [] = Ok (-1)%Z /\
  get_nodes ex_graph = Ok [0; 1; 2] /\ get_edges_any_label ex_graph ["A"]%string = Ok [6; 7] /\
  get_nodes_with_property ex_graph "k" = Ok [0; 1] /\ get_nodes_with_property_size ex_graph "k" = 3%Z.
Proof. split; [exact ex_valid|]. split; [exact ex_run|]. by_compute. Qed.

(** C52: exactly the distinct ends of the edges. *)
Theorem C52_next_nodes_with ops g n l :
  valid_history ops -> run ops = Ok g -> live_node (srun ops) n ->
  exists X, next_nodes_with g n l = Ok X /\
    forall m, m ∈ X <-> exists e x, s_edges (srun ops) !! e = Some x /\ e_from x = n /\ e_label x = l /\ e_to x = m.
Proof. exact (fun Hv Hr => next_nodes_with_ok g _ n l (core_run _ _ Hv Hr)). Qed.
Print Assumptions C52_next_nodes_with.
Theorem C52_prev_nodes_with ops g n l :
  valid_history ops -> run ops = Ok g -> live_node (srun ops) n ->
  exists X, prev_nodes_with g n l = Ok X /\
    forall m, m ∈ X <-> exists e x, s_edges (srun ops) !! e = Some x /\ e_to x = n /\ e_label x = l /\ e_from x = m.
Proof. exact (fun Hv Hr => prev_nodes_with_ok g _ n l (core_run _ _ Hv Hr)). Qed.
Print Assumptions C52_prev_nodes_with.
(** TargetNodes ([h]: GetTo) and SourceNodes ([h]: GetFrom), of any iterator *)
Theorem C52_target_and_source_nodes {S} (m : machine S nat) h k s l : yields m k s l -> length l < k ->
  exists X, node_set_loop m h k k s ∅ = Ok X /\ forall x, x ∈ X <-> exists e, e ∈ l /\ h e = x.
Proof. exact (node_set_yields m h k s l). Qed.
Print Assumptions C52_target_and_source_nodes.
Example C52_ex : valid_history ex_ops /\ run ex_ops = Ok ex_graph /\ live_node (srun ex_ops) 0 /\
  next_nodes_with ex_graph 0 "B" = Ok {[0]} /\ prev_nodes_with ex_graph 0 "A" = Ok {[2]} /\
  node_set_loop list_machine (edge_to ex_graph) 9 9 (ListState [5; 6; 7] None) ∅ = Ok {[0; 2]}.
Proof. split; [exact ex_valid|]. split; [exact ex_run|]. by_compute. Qed.
