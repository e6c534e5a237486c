(** C78: the item at which matching starts (pattern.go:113-216, 350-371). *)
From Verif Require Import Base Value Index Graph GraphSpec Sizes Pattern PlanSpec PlanProofs GraphExamples PatternExamples PlanExamples.
Local Open Scope string_scope.
Local Open Scope list_scope.

(** C78 in full: of all ways to enumerate candidates for an item of the pattern, matching starts with one of the
    smallest MaxSize. *)
Definition C78_statement : Prop := forall ops g syms pat lord pord xs start sz i ys m,
  valid_history ops -> run ops = Ok g -> (forall i it, pat !! i = Some it -> order_of (dom (pi_props it)) (pord i)) ->
  fastest g syms pat lord pord = Ok (Some xs, start, sz) ->
  item_source g syms pat lord i ys m \/ item_indexed g pat i ys m -> m <> (-1)%Z -> (sz <= m)%Z.
(** False: an index for edges is not used, even if it has one edge only.  (pattern.go:195 compares the size with -1.) *)
Theorem C78_refuted : exists ops g syms pat lord pord xs start sz i ys m,
  (valid_history ops /\ run ops = Ok g /\ forall i it, pat !! i = Some it -> order_of (dom (pi_props it)) (pord i)) /\
  fastest g syms pat lord pord = Ok (Some xs, start, sz) /\ item_indexed g pat i ys m /\ ys = [2] /\ m = 1%Z /\ xs = [0; 1] /\ start = 0 /\ sz = 2%Z.
Proof.
  exists plan_ops, (result plan_ops), ∅, plan_pat, (lords plan_pat), (pords plan_pat), [0; 1], 0, 2%Z, 1, [2], 1%Z.
  split; [split; [by_compute|]; split; [apply run_result; vm_compute; reflexivity|exact (plan_orders plan_pat)]|].
  split; [vm_compute; reflexivity|]. split; [exact plan_indexed|]. done.
Qed.
Print Assumptions C78_refuted.
(** What holds (missing: indexes for edges): it starts with one of these; the MaxSize is smallest, except for indexes
    for edges, and no item before the start has one as small. *)
Theorem C78_partial g syms pat lord pord o start sz : (forall i it, pat !! i = Some it -> order_of (dom (pi_props it)) (pord i)) ->
  fastest g syms pat lord pord = Ok (o, start, sz) ->
  (forall xs, o = Some xs -> sz <> (-1)%Z /\ (item_source g syms pat lord start xs sz \/ item_indexed g pat start xs sz)) /\
  forall i ys m, item_source g syms pat lord i ys m -> m <> (-1)%Z -> is_Some o /\ (sz <= m)%Z /\ (i < start -> (sz < m)%Z).
Proof. exact (fastest_best g syms pat lord pord o start sz). Qed.
Print Assumptions C78_partial.
(** The MaxSize for a set of labels is that of the rarest label. *)
Theorem C78_labels g L ord l xs m ys k : order_of L ord -> l ∈ L -> get_nodes_all_labels g L ord = Ok (xs, m) ->
  get_nodes_all_labels g {[l]} [l] = Ok (ys, k) -> (m <= k)%Z.
Proof. exact (rarest_label g L ord l xs m ys k). Qed.
Print Assumptions C78_labels.
(** A label, an index for nodes, a symbol. *)
Example C78_ex : fastest (result plan_ops) ∅ plan_node_pat (lords plan_node_pat) (pords plan_node_pat) = Ok (Some [1], 2, 1%Z) /\
  item_source (result plan_ops) ∅ plan_node_pat (lords plan_node_pat) 0 [0; 1] 2 /\
  item_source (result plan_ops) ∅ plan_node_pat (lords plan_node_pat) 2 [1] 1 /\
  fastest (result plan_ops) {["r" := PSym None (Some [3])]} plan_sym_pat (lords plan_sym_pat) (pords plan_sym_pat) = Ok (Some [3], 1, 1%Z) /\
  get_nodes_all_labels (result plan_ops) {["x"; "y"]} ["x"; "y"] = Ok ([1], 1%Z) /\ get_nodes_all_labels (result plan_ops) {["x"]} ["x"] = Ok ([0; 1], 2%Z).
Proof.
  split; [vm_compute; reflexivity|]. split; [exact (proj1 plan_sources)|]. split; [exact (proj2 plan_sources)|].
  split; [vm_compute; reflexivity|]. split; vm_compute; reflexivity.
Qed.
(** Of two sources of the same size for an item, the first one counts: here a label before a symbol. *)
Example C78_tie_ex : fastest (result plan_ops) {["a" := PSym (Some [0]) None]} [ndl "y" "a"] (lords [ndl "y" "a"]) (pords [ndl "y" "a"]) = Ok (Some [1], 0, 1%Z) /\
  fastest (result plan_ops) {["a" := PSym (Some [0]) None]} [ndl "x" "a"] (lords [ndl "x" "a"]) (pords [ndl "x" "a"]) = Ok (Some [0], 0, 1%Z).
Proof. split; vm_compute; reflexivity. Qed.
(** A pattern that ends with an undirected relationship, started there, panics (pattern.go:446, 501: the node after it); with a
    directed one, or with a node after it, it does not. *)
Definition plan_end (und : bool) : list pitem := [nd "a"; PItem {["Z"]} ∅ 1 1 false und ""].
Definition plan_end_ops : list op := [ONewNode ∅ ∅ []; ONewNode ∅ ∅ []; ONewEdge 0 1 "Z" ∅].
Example C78_end_ex : fastest (result plan_end_ops) ∅ (plan_end true) (lords (plan_end true)) (pords (plan_end true)) = Ok (Some [2], 1, 1%Z) /\
  get_plan (result plan_end_ops) ∅ (plan_end true) (lords (plan_end true)) (pords (plan_end true)) = Panic /\
  get_plan (result plan_end_ops) ∅ (plan_end false) (lords (plan_end false)) (pords (plan_end false)) = Ok (Plan [IterEdges 1 [2]; ConnNodes 0 1 UseFrom None] 0) /\
  get_plan (result plan_end_ops) ∅ (plan_end true ++ [nd "b"]) (lords (plan_end true ++ [nd "b"])) (pords (plan_end true ++ [nd "b"])) =
    Ok (Plan [IterEdges 1 [2]; ConnNodes 2 1 UseAny None; ConnNodes 0 1 UseAny (Some 2)] 1).
Proof. split; [vm_compute; reflexivity|]. split; [vm_compute; reflexivity|]. split; vm_compute; reflexivity. Qed.
