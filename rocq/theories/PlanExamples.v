(** Patterns for the examples of plans. *)
From Verif Require Import Base Value Index Graph GraphSpec Sizes Pattern PlanSpec GraphExamples PatternExamples PatternStartProofs.
Local Open Scope string_scope.
Local Open Scope list_scope.

(** nodes 0:x 1:x,y; edges 2, 3, 4: 0 -A-> 1; k is 1 for node 1 and edge 2, 2 for the others *)
Definition plan_ops : list op :=
  [OAddNodeIndex "k" BtreeIndex; OAddEdgeIndex "k" HashIndex; ONewNode {["x"]} {["k" := VInt 2]} ["x"]; ONewNode {["x"; "y"]} {["k" := VInt 1]} ["x"; "y"];
   ONewEdge 0 1 "A" {["k" := VInt 1]}; ONewEdge 0 1 "A" {["k" := VInt 2]}; ONewEdge 0 1 "A" {["k" := VInt 2]}].
(** (a)-[{k:1}]->(b) *)
Definition plan_pat : list pitem := [nd "a"; PItem ∅ {["k" := VInt 1]} 1 1 false false ""; nd "b"].
(** (a)-[]->({k:1}) *)
Definition plan_node_pat : list pitem := [nd "a"; rel 1 1 false false ""; PItem ∅ {["k" := VInt 1]} 0 0 false false ""].
(** (a:x)-[r]->(b) *)
Definition plan_sym_pat : list pitem := [ndl "x" "a"; rel 1 1 false false "r"; nd "b"].
Lemma plan_orders pat : forall i it, pat !! i = Some it -> order_of (dom (pi_props it)) (pords pat i).
Proof. intros i it Hi. by apply (some_orders pat i it Hi). Qed.
Lemma asked (o : option index) v r : match o with Some ix => ix_find ix v | None => Panic end = Ok r -> exists ix, o = Some ix /\ ix_find ix v = Ok r.
Proof. destruct o as [ix|]; [by exists ix|done]. Qed.
Lemma plan_indexed : item_indexed (result plan_ops) plan_pat 1 [2] 1.
Proof.
  exists (PItem ∅ {["k" := VInt 1]} 1 1 false false ""). split; [reflexivity|]. split; [reflexivity|]. split; [unfold one_edge; cbn; lia|].
  destruct (asked (g_eix (result plan_ops) !! "k") (VInt 1) ([2], 1%Z)) as (ix & Hix & Hf); [vm_compute; reflexivity|].
  exists "k", (VInt 1), ix. split; [cbn; apply lookup_singleton|]. split; [exact Hix|exact Hf].
Qed.
Lemma plan_sources : item_source (result plan_ops) ∅ plan_node_pat (lords plan_node_pat) 0 [0; 1] 2 /\
  item_source (result plan_ops) ∅ plan_node_pat (lords plan_node_pat) 2 [1] 1.
Proof.
  split.
  - exists (nd "a"). split; [reflexivity|]. cbn [Nat.even].
    assert (get_nodes_size (result plan_ops) = 2%Z) as E by (vm_compute; reflexivity). rewrite <-E. constructor; [|vm_compute; reflexivity].
    clear E. intros ys m [xs k Hne _|k v ix xs k' Hk _ _|x _ Hx].
    + by destruct Hne.
    + cbn [nd pi_props] in Hk. by apply lookup_empty_Some in Hk.
    + by apply lookup_empty_Some in Hx.
  - exists (PItem ∅ {["k" := VInt 1]} 0 0 false false ""). split; [reflexivity|]. cbn [Nat.even]. constructor.
    destruct (asked (g_nix (result plan_ops) !! "k") (VInt 1) ([1], 1%Z)) as (ix & Hix & Hf); [vm_compute; reflexivity|].
    apply (node_indexed _ _ _ _ "k" (VInt 1) ix); [cbn; apply lookup_singleton|exact Hix|exact Hf].
Qed.
