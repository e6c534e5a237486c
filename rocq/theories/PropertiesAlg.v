(** C35, C36, C37: alg.go. *)
From Verif Require Import Base Graph GraphSpec CoreStep Sizes Alg AlgSpec AlgProofs GraphExamples PropertiesNodes.

(** an order in which a Go map of nodes may be ranged over *)
Notation map_order ord := (forall m : gmap nat nat, ord m ≡ₚ (map_to_list m).*1).

(** C35 in full: if the graphs are isomorphic, CheckIsomorphism returns true.  [k] bounds the number
    of mappings tried. *)
Definition C35_statement : Prop := forall ops1 ops2 g1 g2 neq eeq ord k f h,
  valid_history ops1 -> run ops1 = Ok g1 -> valid_history ops2 -> run ops2 = Ok g2 -> map_order ord ->
  size (s_nodes (srun ops2)) ^ size (s_nodes (srun ops1)) <= k ->
  isomorphism (srun ops1) (srun ops2) neq eeq f h -> check_isomorphism g1 g2 neq eeq ord k = Ok true.
(** False: the second graph is the one of C01, whose last node GetNodes does not list. *)
Theorem C35_refuted : exists ops1 ops2 g1 g2 neq eeq f h,
  (valid_history ops1 /\ run ops1 = Ok g1) /\ (valid_history ops2 /\ run ops2 = Ok g2) /\
  isomorphism (srun ops1) (srun ops2) neq eeq f h /\
  forall ord k, check_isomorphism g1 g2 neq eeq ord k = Ok false.
Proof.
  set (f := fun n => if decide (n = 2) then 3 else n).
  exists [ONewNode ∅ ∅ []; ONewNode ∅ ∅ []; ONewNode ∅ ∅ []], C01_witness, (result [ONewNode ∅ ∅ []; ONewNode ∅ ∅ []; ONewNode ∅ ∅ []]),
    (result C01_witness), (fun n m => bool_decide (m = f n)), (fun _ _ => true), f, (fun e => e).
  split; [split; [by_compute|apply run_result; vm_compute; reflexivity]|].
  split; [split; [by_compute|apply run_result; vm_compute; reflexivity]|].
  split; [apply iso_tested; by_compute|]. intros ord k. vm_compute. reflexivity.
Qed.
Print Assumptions C35_refuted.
(** What holds: it does for graphs whose lists of all nodes and edges are right (missing: the others),
    for every order in which the map is ranged over. *)
Theorem C35_partial ops1 ops2 g1 g2 neq eeq ord k f h :
  valid_history ops1 -> run ops1 = Ok g1 -> node_list_safe ops1 -> edge_list_safe ops1 ->
  valid_history ops2 -> run ops2 = Ok g2 -> node_list_safe ops2 -> edge_list_safe ops2 ->
  map_order ord -> size (s_nodes (srun ops2)) ^ size (s_nodes (srun ops1)) <= k ->
  isomorphism (srun ops1) (srun ops2) neq eeq f h -> check_isomorphism g1 g2 neq eeq ord k = Ok true.
Proof. exact (check_complete ops1 ops2 g1 g2 neq eeq ord k f h). Qed.
Print Assumptions C35_partial.
(** C35, C36: it terminates, after at most |N2|^|N1| mappings, and this is what it decides. *)
Theorem C35_C36_characterised ops1 ops2 g1 g2 neq eeq ord k :
  valid_history ops1 -> run ops1 = Ok g1 -> node_list_safe ops1 -> edge_list_safe ops1 ->
  valid_history ops2 -> run ops2 = Ok g2 -> node_list_safe ops2 -> edge_list_safe ops2 ->
  map_order ord -> size (s_nodes (srun ops2)) ^ size (s_nodes (srun ops1)) <= k ->
  exists b, check_isomorphism g1 g2 neq eeq ord k = Ok b /\
    (b = true <-> size (s_nodes (srun ops1)) = size (s_nodes (srun ops2)) /\
      size (s_edges (srun ops1)) = size (s_edges (srun ops2)) /\
      exists f, weak_match (srun ops1) (srun ops2) neq eeq f).
Proof. exact (check_ok ops1 ops2 g1 g2 neq eeq ord k). Qed.
Print Assumptions C35_C36_characterised.
Definition C35_ops1 : list op := [ONewNode ∅ ∅ []; ONewNode ∅ ∅ []; ONewEdge 0 1 "A" ∅; ONewEdge 0 1 "B" ∅].
Definition C35_ops2 : list op := [ONewNode ∅ ∅ []; ONewNode ∅ ∅ []; ONewEdge 1 0 "B" ∅; ONewEdge 1 0 "A" ∅].
(** [eeq]: edge 2 corresponds to edge 3, edge 3 to edge 2; the mapping found is the second of four *)
Example C35_ex : (valid_history C35_ops1 /\ edge_list_safe C35_ops1 /\ valid_history C35_ops2 /\ edge_list_safe C35_ops2) /\
  (node_list_safe C35_ops1 /\ node_list_safe C35_ops2) /\
  (run C35_ops1 = Ok (result C35_ops1) /\ run C35_ops2 = Ok (result C35_ops2)) /\
  isomorphism (srun C35_ops1) (srun C35_ops2) (fun _ _ => true) (fun a b => bool_decide (a + b = 5)) (fun n => 1 - n) (fun e => 5 - e) /\
  check_isomorphism (result C35_ops1) (result C35_ops2) (fun _ _ => true) (fun a b => bool_decide (a + b = 5)) (fun m => (map_to_list m).*1) 4 = Ok true /\
  check_isomorphism (result C35_ops1) (result C35_ops2) (fun _ _ => true) (fun a b => bool_decide (a = b + 5)) (fun m => (map_to_list m).*1) 4 = Ok false.
Proof.
  split; [by_compute|]. split; [by_compute|]. split; [split; apply run_result; vm_compute; reflexivity|].
  split; [apply iso_tested; by_compute|]. split; vm_compute; reflexivity.
Qed.

(** C36 in full: if CheckIsomorphism returns true, the graphs are isomorphic. *)
Definition C36_statement : Prop := forall ops1 ops2 g1 g2 neq eeq ord k,
  valid_history ops1 -> run ops1 = Ok g1 -> valid_history ops2 -> run ops2 = Ok g2 -> map_order ord ->
  check_isomorphism g1 g2 neq eeq ord k = Ok true ->
  exists f h, isomorphism (srun ops1) (srun ops2) neq eeq f h.
(** False: a→b, c→d is accepted against x→y, z→y, w, because two nodes may be mapped to the same
    node (also nothing is removed here: the lists of nodes and edges are right). *)
Definition C36_ops1 : list op :=
  [ONewNode ∅ ∅ []; ONewNode ∅ ∅ []; ONewNode ∅ ∅ []; ONewNode ∅ ∅ []; ONewEdge 0 1 "A" ∅; ONewEdge 2 3 "A" ∅].
Definition C36_ops2 : list op :=
  [ONewNode ∅ ∅ []; ONewNode ∅ ∅ []; ONewNode ∅ ∅ []; ONewNode ∅ ∅ []; ONewEdge 0 1 "A" ∅; ONewEdge 2 1 "A" ∅].
Theorem C36_refuted :
  (valid_history C36_ops1 /\ run C36_ops1 = Ok (result C36_ops1)) /\
  (valid_history C36_ops2 /\ run C36_ops2 = Ok (result C36_ops2)) /\
  check_isomorphism (result C36_ops1) (result C36_ops2) (fun _ _ => true) (fun _ _ => true) (fun m => (map_to_list m).*1) 256 = Ok true /\
  forall neq eeq f h, ~ isomorphism (srun C36_ops1) (srun C36_ops2) neq eeq f h.
Proof.
  split; [split; [by_compute|apply run_result; vm_compute; reflexivity]|].
  split; [split; [by_compute|apply run_result; vm_compute; reflexivity]|].
  split; [vm_compute; reflexivity|]. intros neq eeq f h ((_ & Hinj & _) & _ & _ & He).
  assert (map_Forall (fun _ x => e_to x = 1) (s_edges (srun C36_ops2))) as H1 by by_compute.
  destruct (He 4 (Edge 0 1 "A" ∅)) as (_ & y & Hy & _ & Ty); [by_compute|].
  destruct (He 5 (Edge 2 3 "A" ∅)) as (_ & z & Hz & _ & Tz); [by_compute|].
  apply H1 in Hy. apply H1 in Hz. cbn [e_to] in Ty, Tz.
  assert (1 = 3) as [=]. apply Hinj; [by_compute|by_compute|congruence].
Qed.
Print Assumptions C36_refuted.
(** The same happens to parallel edges: with equal out-degrees, two edges may be matched with one. *)
Definition C36_ops3 : list op :=
  [ONewNode ∅ ∅ []; ONewNode ∅ ∅ []; ONewEdge 0 1 "A" ∅; ONewEdge 0 1 "A" ∅].
Definition C36_ops4 : list op :=
  [ONewNode ∅ ∅ []; ONewNode ∅ ∅ []; ONewEdge 0 1 "A" ∅; ONewEdge 0 0 "B" ∅].
Theorem C36_parallel_refuted :
  (valid_history C36_ops3 /\ run C36_ops3 = Ok (result C36_ops3)) /\
  (valid_history C36_ops4 /\ run C36_ops4 = Ok (result C36_ops4)) /\
  check_isomorphism (result C36_ops3) (result C36_ops4) (fun a b => bool_decide (a = b)) (fun _ _ => true) (fun m => (map_to_list m).*1) 1 = Ok true /\
  forall eeq f h, ~ isomorphism (srun C36_ops3) (srun C36_ops4) (fun a b => bool_decide (a = b)) eeq f h.
Proof.
  split; [split; [by_compute|apply run_result; vm_compute; reflexivity]|].
  split; [split; [by_compute|apply run_result; vm_compute; reflexivity]|].
  split; [vm_compute; reflexivity|]. intros eeq f h (_ & (_ & _ & Hsur) & Hn & He).
  destruct (Hsur 3) as (e & [x Hx] & E); [by_compute|].
  assert (map_Forall (fun _ x => e_to x = 1) (s_edges (srun C36_ops3))) as H1 by by_compute.
  destruct (He e x Hx) as (_ & y & Hy & _ & Ty). rewrite E in Hy. rewrite (H1 _ _ Hx) in Ty.
  assert (bool_decide (1 = f 1) = true) as Hf%bool_decide_eq_true by (apply (Hn 1); by_compute).
  assert (s_edges (srun C36_ops4) !! 3 = Some (Edge 0 0 "B" ∅)) as Hy' by by_compute.
  rewrite Hy in Hy'. injection Hy' as ->. cbn [e_to] in Ty. congruence.
Qed.
Print Assumptions C36_parallel_refuted.
(** What holds: it is right if no two nodes of the first graph are equivalent to the same node, and
    no two parallel edges of it to the same edge (missing: the others, see [C35_C36_characterised],
    and histories whose lists of nodes or edges go wrong). *)
Theorem C36_partial ops1 ops2 g1 g2 neq eeq ord k :
  valid_history ops1 -> run ops1 = Ok g1 -> node_list_safe ops1 -> edge_list_safe ops1 ->
  valid_history ops2 -> run ops2 = Ok g2 -> node_list_safe ops2 -> edge_list_safe ops2 ->
  map_order ord -> size (s_nodes (srun ops2)) ^ size (s_nodes (srun ops1)) <= k ->
  (forall n n' m, live_node (srun ops1) n -> live_node (srun ops1) n' -> neq n m = true -> neq n' m = true -> n = n') ->
  (forall e e' x x' m, s_edges (srun ops1) !! e = Some x -> s_edges (srun ops1) !! e' = Some x' ->
     e_from x = e_from x' -> e_to x = e_to x' -> eeq e m = true -> eeq e' m = true -> e = e') ->
  check_isomorphism g1 g2 neq eeq ord k = Ok true ->
  exists f h, isomorphism (srun ops1) (srun ops2) neq eeq f h.
Proof. exact (check_sound ops1 ops2 g1 g2 neq eeq ord k). Qed.
Print Assumptions C36_partial.
Example C36_ex :
  (forall n n' m, bool_decide (n + m = 1) = true -> bool_decide (n' + m = 1) = true -> n = n') /\
  (forall e e' m, bool_decide (e + m = 5) = true -> bool_decide (e' + m = 5) = true -> e = e') /\
  check_isomorphism (result C35_ops1) (result C35_ops2) (fun a b => bool_decide (a + b = 1)) (fun a b => bool_decide (a + b = 5)) (fun m => (map_to_list m).*1) 4 = Ok true.
Proof.
  split; [|split].
  - intros n n' m H1%bool_decide_eq_true H2%bool_decide_eq_true. lia.
  - intros n n' m H1%bool_decide_eq_true H2%bool_decide_eq_true. lia.
  - vm_compute; reflexivity.
Qed.

(** C37 in full *)
Definition C37_statement : Prop := forall ops g, valid_history ops -> run ops = Ok g ->
  (exists xs, sources g = Ok xs /\ lists (fun n => live_node (srun ops) n /\ forall e, ~ is_in (srun ops) n e) xs) /\
  (exists xs, sinks g = Ok xs /\ lists (fun n => live_node (srun ops) n /\ forall e, ~ is_out (srun ops) n e) xs) /\
  (forall a b, live_node (srun ops) a -> exists xs, edges_between g a b = Ok xs /\
     lists (fun e => exists x, s_edges (srun ops) !! e = Some x /\ e_from x = a /\ e_to x = b) xs) /\
  (exists ns, lists_nodes (srun ops) ns /\
     forall T (pred : nat -> T -> bool * T) t, exists x, for_each_node g pred t = Ok x /\ in_turn pred ns t x).
(** False for the node lists of C01: the last node has no edges, and is neither among the sources,
    nor the sinks, nor the nodes visited. *)
Theorem C37_refuted : exists ops g, valid_history ops /\ run ops = Ok g /\
  (live_node (srun ops) 3 /\ s_edges (srun ops) = ∅) /\ sources g = Ok [0; 1] /\ sinks g = Ok [0; 1] /\
  for_each_node g (fun n ns => (true, ns ++ [n])) [] = Ok (true, [0; 1]).
Proof. exists C01_witness, (result C01_witness). by_witness. Qed.
Print Assumptions C37_refuted.
(** What holds (missing: histories after which GetNodes is wrong) *)
Theorem C37_sources_partial ops g : valid_history ops -> run ops = Ok g -> node_list_safe ops ->
  exists xs, sources g = Ok xs /\ lists (fun n => live_node (srun ops) n /\ forall e, ~ is_in (srun ops) n e) xs.
Proof. exact (sources_ok ops g). Qed.
Print Assumptions C37_sources_partial.
Theorem C37_sinks_partial ops g : valid_history ops -> run ops = Ok g -> node_list_safe ops ->
  exists xs, sinks g = Ok xs /\ lists (fun n => live_node (srun ops) n /\ forall e, ~ is_out (srun ops) n e) xs.
Proof. exact (sinks_ok ops g). Qed.
Print Assumptions C37_sinks_partial.
(** The predicate is called for each node of the list in turn until it returns false. *)
Theorem C37_for_each_partial T ops g (pred : nat -> T -> bool * T) t : valid_history ops -> run ops = Ok g -> node_list_safe ops ->
  exists ns x, lists_nodes (srun ops) ns /\ for_each_node g pred t = Ok x /\ in_turn pred ns t x.
Proof. exact (for_each_ok ops g pred t). Qed.
Print Assumptions C37_for_each_partial.
Theorem C37_edges_between ops g a b : valid_history ops -> run ops = Ok g -> live_node (srun ops) a ->
  exists xs, edges_between g a b = Ok xs /\
    lists (fun e => exists x, s_edges (srun ops) !! e = Some x /\ e_from x = a /\ e_to x = b) xs.
Proof. exact (fun Hv Hr => edges_between_ok g _ (core_run _ _ Hv Hr) a b). Qed.
Print Assumptions C37_edges_between.
Example C37_ex : valid_history C36_ops2 /\ run C36_ops2 = Ok (result C36_ops2) /\
  sources (result C36_ops2) = Ok [0; 2; 3] /\ sinks (result C36_ops2) = Ok [1; 3] /\
  edges_between (result C36_ops2) 2 1 = Ok [5] /\ edges_between (result C36_ops2) 1 2 = Ok [] /\
  for_each_node (result C36_ops2) (fun n ns => (bool_decide (n < 2), ns ++ [n])) [] = Ok (false, [0; 1; 2]).
Proof. by_witness. Qed.
Example C37_ex_safe : node_list_safe C36_ops2.
Proof. by_compute. Qed.

(** C64: CheckIsomorphism with a context.  [err i]: whether call number [i] of ctx.Err() returns an error.
    An answer without error is the answer that is given without cancellation, and an error comes with
    false and from the context. *)
Theorem C64_sound g1 g2 neq eeq ord err k b e : check_isomorphism_ctx g1 g2 neq eeq ord err k = Ok (b, e) ->
  (e = false -> check_isomorphism g1 g2 neq eeq ord k = Ok b) /\ (e = true -> b = false /\ exists j, err j = true).
Proof. exact (check_ctx_sound g1 g2 neq eeq ord err k b e). Qed.
Print Assumptions C64_sound.
Theorem C64_not_cancelled g1 g2 neq eeq ord err k : (forall j, err j = false) ->
  check_isomorphism_ctx g1 g2 neq eeq ord err k = let! b := check_isomorphism g1 g2 neq eeq ord k in Ok (b, false).
Proof. exact (check_ctx_same g1 g2 neq eeq ord err k). Qed.
Print Assumptions C64_not_cancelled.
(** Cancelling ends the call: no mapping is tried after the first error, and as many are tried
    before it as there were calls of ctx.Err() at most. *)
Theorem C64_stops g1 g2 neq eeq ord err j K b : check_isomorphism g1 g2 neq eeq ord K = Ok b -> err j = true ->
  exists r, check_isomorphism_ctx g1 g2 neq eeq ord err (S j) = Ok r.
Proof. exact (check_ctx_stops g1 g2 neq eeq ord err j K b). Qed.
Print Assumptions C64_stops.
Theorem C64_ends ops1 ops2 g1 g2 neq eeq ord err j :
  valid_history ops1 -> run ops1 = Ok g1 -> node_list_safe ops1 -> edge_list_safe ops1 ->
  valid_history ops2 -> run ops2 = Ok g2 -> node_list_safe ops2 -> edge_list_safe ops2 ->
  map_order ord -> err j = true -> exists r, check_isomorphism_ctx g1 g2 neq eeq ord err (S j) = Ok r.
Proof. exact (check_ctx_ends ops1 ops2 g1 g2 neq eeq ord err j). Qed.
Print Assumptions C64_ends.
(** the graphs of C35_ex: two calls of ctx.Err() while the candidates are collected, then one after each
    mapping but the last; cancelled before, during and after *)
Example C64_ex : let check j := check_isomorphism_ctx (result C35_ops1) (result C35_ops2) (fun _ _ => true)
    (fun a b => bool_decide (a + b = 5)) (fun m => (map_to_list m).*1) (fun i => bool_decide (j <= i)) (S j) in
  check 0 = Ok (false, true) /\ check 2 = Ok (false, true) /\ check 3 = Ok (true, false).
Proof. vm_compute. split_and!; reflexivity. Qed.
