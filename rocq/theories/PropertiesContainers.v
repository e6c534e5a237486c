(** C19, C20: StringSet; C21: NodeSet, EdgeSet; C22, C54: NodeMap. *)
From Verif Require Import Base Value ValueSpec StringSet FastSet NodeMap GraphSpec ContainerSpec ContainerProofs NmapEverySpec NmapEveryProofs GraphExamples ContainerExamples.

(** ** C19: StringSet operations are finite set operations.
    [h]: any heap, [v], [s]: any sets; [ord], [ord']: any iteration orders of their maps. *)
Theorem C19_new (h : sheap) (ss : list string) :
  ss_at (ss_new h ss).1 (ss_new h ss).2 = list_to_set ss.
Proof. exact (ss_new_at h ss). Qed.
Print Assumptions C19_new.
Theorem C19_add (h : sheap) (v : sset) (ord ss : list string) :
  order_of (ss_at h v) ord ->
  ss_at (ss_add h v ord ss).1 (ss_add h v ord ss).2 = ss_at h v ∪ list_to_set ss.
Proof. exact (ss_add_at h v ord ss). Qed.
Print Assumptions C19_add.
Theorem C19_add_set (h : sheap) (v s : sset) (ord ord' : list string) :
  order_of (ss_at h v) ord -> order_of (ss_at h s) ord' ->
  ss_at (ss_add h v ord ord').1 (ss_add h v ord ord').2 = ss_at h v ∪ ss_at h s.
Proof. exact (ss_add_set_at h v s ord ord'). Qed.
Print Assumptions C19_add_set.
Theorem C19_remove (h : sheap) (v : sset) (ord ss : list string) :
  order_of (ss_at h v) ord ->
  ss_at (ss_remove h v ord ss).1 (ss_remove h v ord ss).2 = ss_at h v ∖ list_to_set ss.
Proof. exact (ss_remove_at h v ord ss). Qed.
Print Assumptions C19_remove.
Theorem C19_has (h : sheap) (v : sset) (x : string) : ss_has h v x = true <-> x ∈ ss_at h v.
Proof. exact (bool_decide_eq_true _). Qed.
Print Assumptions C19_has.
Theorem C19_has_any (h : sheap) (v : sset) (ss : list string) :
  ss_has_any h v ss = true <-> exists x, x ∈ ss /\ x ∈ ss_at h v.
Proof. exact (ss_has_any_ok h v ss). Qed.
Print Assumptions C19_has_any.
Theorem C19_has_all (h : sheap) (v : sset) (ss : list string) :
  ss_has_all h v ss = true <-> forall x, x ∈ ss -> x ∈ ss_at h v.
Proof. exact (ss_has_all_ok h v ss). Qed.
Print Assumptions C19_has_all.
Theorem C19_has_any_set (h : sheap) (v s : sset) (ord : list string) :
  order_of (ss_at h s) ord -> ss_has_any h v ord = true <-> ~ ss_at h v ## ss_at h s.
Proof. exact (ss_has_any_set_ok h v s ord). Qed.
Print Assumptions C19_has_any_set.
Theorem C19_has_all_set (h : sheap) (v s : sset) (ord : list string) :
  order_of (ss_at h s) ord -> ss_has_all h v ord = true <-> ss_at h s ⊆ ss_at h v.
Proof. exact (ss_has_all_set_ok h v s ord). Qed.
Print Assumptions C19_has_all_set.
Theorem C19_is_equal (h : sheap) (v s : sset) (ord : list string) :
  order_of (ss_at h s) ord -> ss_is_equal h v s ord = true <-> ss_at h v = ss_at h s.
Proof. exact (ss_is_equal_ok h v s ord). Qed.
Print Assumptions C19_is_equal.
Theorem C19_slice (h : sheap) (v : sset) (ord : list string) :
  order_of (ss_at h v) ord -> order_of (ss_at h v) (ss_slice ord) /\ ss_len h v = length (ss_slice ord).
Proof. exact (ss_slice_len h v ord). Qed.
Print Assumptions C19_slice.
Theorem C19_sorted_slice (h : sheap) (v : sset) (ord : list string) :
  order_of (ss_at h v) ord ->
  order_of (ss_at h v) (ss_sorted ord) /\ StronglySorted bytes_lt (ss_sorted ord).
Proof. exact (ss_sorted_ok (ss_at h v) ord). Qed.
Print Assumptions C19_sorted_slice.
Example C19_ex :
  let h := (ss_new sh_empty ["b"; "a"; "b"]%string).1 in
  ss_at h (Some 0) = {["a"; "b"]}%string /\ order_of (ss_at h (Some 0)) ["b"; "a"]%string /\
  ss_sorted ["b"; "a"]%string = ["a"; "b"]%string.
Proof.
  cbv zeta. assert (ss_at (ss_new sh_empty ["b"; "a"; "b"]%string).1 (Some 0) = {["a"; "b"]}%string) as H.
  { apply (bool_decide_unpack _). vm_compute. exact I. }
  rewrite H. split; [reflexivity|]. split; [|reflexivity]. split.
  - apply (bool_decide_unpack _). vm_compute. exact I.
  - set_solver.
Qed.

(** ** C20: every program over StringSet variables behaves as if each variable held its own
    set; in particular a call changes what is seen through its own variable only.  The [labels]
    fields of nodes are variables too: GetLabels is [SSClone] into a new variable. *)
Theorem C20_independent (ops : list ss_op) (x : nat) :
  ss_history ops -> ss_view (ss_run ops) x = ss_spec_run ops x.
Proof. exact (ss_run_ok ops x). Qed.
Print Assumptions C20_independent.
Theorem C20_frame (ops : list ss_op) (o : ss_op) (x : nat) :
  ss_history (ops ++ [o]) -> x <> ss_target o ->
  ss_view (ss_run (ops ++ [o])) x = ss_view (ss_run ops) x.
Proof. exact (ss_frame ops o x). Qed.
Print Assumptions C20_frame.
(** clone, then add to the clone, then remove from the original *)
Example C20_ex :
  let ops := [SSNew 0 ["a"]%string; SSClone 1 0; SSAdd 1 ["a"]%string ["b"]%string; SSRemove 0 ["a"]%string ["a"]%string] in
  ss_history ops /\ ss_view (ss_run ops) 0 = ∅ /\ ss_view (ss_run ops) 1 = {["a"; "b"]}%string.
Proof.
  assert (ss_history [SSNew 0 ["a"]%string; SSClone 1 0; SSAdd 1 ["a"]%string ["b"]%string; SSRemove 0 ["a"]%string ["a"]%string]) as H.
  { unfold ss_history, order_of; simpl. repeat split; try apply NoDup_singleton; set_solver. }
  split; [exact H|]. rewrite !(C20_independent _ _ H). split; apply (bool_decide_unpack _); vm_compute; exact I.
Qed.

(** ** C21: NodeSet and EdgeSet, for nodes (edges) whose ids differ, i.e. of one graph.
    [N]: nodes or edges, [nid]: their ids. *)
Theorem C21_partial {N : Type} `{EqDecision N} (nid : N -> nat) (ops : list is_op) (x : N) :
  (forall x y, x ∈ map is_arg ops -> y ∈ map is_arg ops -> nid x = nid y -> x = y) ->
  is_slice (is_run nid ops) = is_spec_run ops /\
  is_len (is_run nid ops) = length (is_spec_run ops) /\
  (x ∈ map is_arg ops -> is_has nid (is_run nid ops) x = bool_decide (x ∈ is_spec_run ops)).
Proof. exact (is_exact nid ops x). Qed.
Print Assumptions C21_partial.
Example C21_ex :
  let ops := [ISAdd 3; ISAdd 1; ISAdd 3; ISAdd 2; ISRemove 1; ISAdd 1] in
  is_slice (is_run (fun x : nat => x) ops) = [3; 2; 1] /\ is_spec_run ops = [3; 2; 1].
Proof. vm_compute. auto. Qed.
(** Ids are unique within one graph only: a node of another graph with the same id is taken for
    the node in the set.  Nodes are pairs (graph, id) here. *)
Theorem C21_refuted :
  exists (ops : list (@is_op (nat * nat))) (x : nat * nat),
    is_slice (is_run snd ops) <> is_spec_run ops /\
    is_has snd (is_run snd ops) x = true /\ x ∉ is_spec_run ops.
Proof.
  exists [ISAdd (0, 5); ISAdd (1, 6); ISRemove (0, 6)], (1, 5).
  split; [apply (bool_decide_unpack _); vm_compute; exact I|]. split; [reflexivity|]. apply (bool_decide_unpack _). vm_compute. exact I.
Qed.
Print Assumptions C21_refuted.

(** ** C22: NodeMap.Iterator, as long as [Replace] does not take away all labels of a node. *)
Theorem C22_partial (ops : list nm_op) :
  nm_history ops -> nm_keeps_from ∅ ops ->
  exists xs, nm_iter (ns_label_of (nm_run ops)) (ns_map (nm_run ops)) = Ok xs /\
    lists (fun n => is_Some (nm_spec_run ops !! n)) xs.
Proof. exact (nm_iter_run ops). Qed.
Print Assumptions C22_partial.
Example C22_ex :
  let ops := [NMAdd 1 {["A"; "B"]}%string ["B"; "A"]%string; NMAdd 2 ∅ []; NMAdd 3 {["A"]}%string ["A"]%string;
              NMReplace 3 {["C"]}%string ["A"]%string ["C"]%string; NMRemove 2 []] in
  nm_history ops /\ nm_keeps_from ∅ ops /\
  nm_iter (ns_label_of (nm_run ops)) (ns_map (nm_run ops)) = Ok [1; 3].
Proof. split; [by_compute|]. split; [by_compute|]. vm_compute. reflexivity. Qed.
(** [Replace] with an empty new set returns before taking the node out of the sets of its old
    labels (maps.go:43-46): the iterator yields it twice. *)
Theorem C22_refuted :
  exists ops, nm_history ops /\
    nm_iter (ns_label_of (nm_run ops)) (ns_map (nm_run ops)) = Ok [0; 0].
Proof.
  exists [NMAdd 0 {["A"]}%string ["A"]%string; NMReplace 0 ∅ ["A"]%string []].
  split; [by_compute|]. vm_compute. reflexivity.
Qed.
Print Assumptions C22_refuted.

(** What the iterator yields in every history: [nm_sets ops n], the labels whose sets hold [n] (NmapEverySpec.v), are the labels of
    [n] and those that [Replace] left behind.  All nodes of the map are yielded, and nodes that are not in it any more, once for
    each set that still holds them; a node without labels once more than that.  A node with labels may come as often as there are
    sets left behind, and once for its labels: how often depends on the order in which the sets were made. *)
Theorem C22_every (ops : list nm_op) : nm_history ops ->
  exists xs, nm_iter (ns_label_of (nm_run ops)) (ns_map (nm_run ops)) = Ok xs /\
    (forall n, n ∈ xs <-> is_Some (nm_spec_run ops !! n) \/ nm_sets ops n <> ∅) /\
    (forall n, nm_spec_run ops !! n = None -> times n xs = size (nm_sets ops n)) /\
    (forall n, nm_spec_run ops !! n = Some ∅ -> times n xs = S (size (nm_sets ops n))) /\
    (forall n X, nm_spec_run ops !! n = Some X -> X <> ∅ -> 1 <= times n xs <= S (size (nm_sets ops n ∖ X))).
Proof. exact (nm_iter_every ops). Qed.
Print Assumptions C22_every.
(** Only [Replace] by no labels leaves anything behind. *)
Theorem C22_sets (ops : list nm_op) : nm_history ops -> nm_keeps_from ∅ ops -> forall n, nm_sets ops n = default ∅ (nm_spec_run ops !! n).
Proof. exact (nm_sets_keep ops). Qed.
Print Assumptions C22_sets.
(** 1 has lost its labels A and B; 2 too, and was removed; 3 lost A and got C; 4 lost C and has B *)
Definition C22_left : list nm_op :=
  [NMAdd 1 {["A"; "B"]}%string ["B"; "A"]%string; NMAdd 2 {["A"; "B"]}%string ["A"; "B"]%string; NMAdd 3 {["A"]}%string ["A"]%string; NMAdd 4 {["C"]}%string ["C"]%string;
   NMReplace 1 ∅ ["A"; "B"]%string []; NMReplace 2 ∅ ["A"; "B"]%string []; NMRemove 2 []; NMReplace 3 ∅ ["A"]%string [];
   NMReplace 3 {["C"]}%string [] ["C"]%string; NMReplace 4 ∅ ["C"]%string []; NMReplace 4 {["B"]}%string [] ["B"]%string].
Example C22_every_ex : nm_history C22_left /\ map (fun n => size (nm_sets C22_left n)) [0; 1; 2; 3; 4] = [0; 2; 2; 2; 2] /\
  map (fun n => nm_spec_run C22_left !! n) [0; 1; 2; 3; 4] = [None; Some ∅; None; Some {["C"]}%string; Some {["B"]}%string] /\
  nm_iter (ns_label_of (nm_run C22_left)) (ns_map (nm_run C22_left)) = Ok [1; 2; 4; 1; 2; 3; 4; 3; 1] /\
  nm_history [NMAdd 1 {["A"]}%string ["A"]%string] /\ nm_keeps_from ∅ [NMAdd 1 {["A"]}%string ["A"]%string].
Proof. split; [by_compute|]. split; [vm_compute; reflexivity|]. split; [by_compute|]. split; [vm_compute; reflexivity|]. split; by_compute. Qed.

(** ** C54: IsEmpty only looks at the labelled nodes. *)
Theorem C54_characterised (ops : list nm_op) :
  nm_history ops -> nm_keeps_from ∅ ops ->
  nm_is_empty (ns_map (nm_run ops)) = true <-> forall n X, nm_spec_run ops !! n = Some X -> X = ∅.
Proof. exact (nm_is_empty_run ops). Qed.
Print Assumptions C54_characterised.
Theorem C54_every (ops : list nm_op) : nm_history ops -> nm_is_empty (ns_map (nm_run ops)) = true <-> forall n, nm_sets ops n = ∅.
Proof. exact (nm_is_empty_every ops). Qed.
Print Assumptions C54_every.
(** the node has been removed *)
Example C54_every_ex : let ops := [NMAdd 0 {["A"]}%string ["A"]%string; NMReplace 0 ∅ ["A"]%string []; NMRemove 0 []] in
  nm_history ops /\ nm_spec_run ops = ∅ /\ nm_sets ops 0 = {["A"]}%string /\ nm_is_empty (ns_map (nm_run ops)) = false.
Proof. split; [by_compute|]. split; [by_compute|]. split; [by_compute|]. vm_compute. reflexivity. Qed.
Theorem C54_refuted :
  exists ops, nm_history ops /\ nm_keeps_from ∅ ops /\ nm_spec_run ops !! 0 = Some ∅ /\
    nm_is_empty (ns_map (nm_run ops)) = true.
Proof.
  exists [NMAdd 0 ∅ []]. split; [by_compute|]. split; [by_compute|]. split; by_compute.
Qed.
Print Assumptions C54_refuted.
