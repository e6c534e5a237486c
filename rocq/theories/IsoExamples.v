(** Histories and patterns for the examples about graphs that are the same but for their ids. *)
From Verif Require Import Base Value Index Graph GraphSpec Path PathSpec PathProofs Pattern PatternSpec GraphExamples.
From Verif Require Import Sizes PatternStartProofs PatternMatchProofs PatternProofs PatternExamples AlgSpec AlgProofs IsoSpec.
Local Open Scope string_scope.
Local Open Scope list_scope.

(** a test for [same_graph] *)
Definition same_node (s1 s2 : sgraph) (a b : nat) : bool :=
  match s_nodes s1 !! a, s_nodes s2 !! b with
  | Some x, Some y => bool_decide (sn_labels x = sn_labels y) && bool_decide (sn_props x = sn_props y)
  | _, _ => false
  end.
Definition same_edge (s1 s2 : sgraph) (a b : nat) : bool :=
  match s_edges s1 !! a, s_edges s2 !! b with
  | Some x, Some y => bool_decide (e_label x = e_label y) && bool_decide (e_props x = e_props y)
  | _, _ => false
  end.
Lemma same_tested f h s1 s2 : iso_test s1 s2 (same_node s1 s2) (same_edge s1 s2) f h -> same_graph f h s1 s2.
Proof.
  intros (Hbn & Hbe & Hn & He)%iso_tested. split; [done|done| |].
  - intros n x Hx. assert (live_node s1 n) as Hl by by exists x. apply Hn in Hl. unfold same_node in Hl. rewrite Hx in Hl.
    destruct (s_nodes s2 !! f n) as [y|]; [|done]. apply andb_true_iff in Hl as [H1%bool_decide_eq_true H2%bool_decide_eq_true].
    f_equal. destruct x, y; simpl in *; congruence.
  - intros e x Hx. destruct (He e x Hx) as (Hq & y & Hy & Hf & Ht). unfold same_edge in Hq. rewrite Hx, Hy in Hq.
    apply andb_true_iff in Hq as [H1%bool_decide_eq_true H2%bool_decide_eq_true]. rewrite Hy. f_equal. destruct x, y; simpl in *; congruence.
Qed.

(** nodes 0, 1, 2 {k: 1}; edges 3: 0 -A-> 1, 4: 1 -A-> 2; with or without an index for k *)
Definition ix_ops (b : bool) : list op :=
  (if b then [OAddNodeIndex "k" HashIndex] else []) ++
  [ONewNode ∅ ∅ []; ONewNode ∅ ∅ []; ONewNode ∅ {["k" := VInt 1]} []; ONewEdge 0 1 "A" ∅; ONewEdge 1 2 "A" ∅].
(** (name {k: 1}) *)
Definition ndk (name : string) : pitem := PItem ∅ {["k" := VInt 1]} 0 0 false false name.
(** (a)-[*1..2]->(b {k: 1}): matched from b if there is an index *)
Definition ix_pat : list pitem := [nd "a"; rel 1 2 false false ""; ndk "b"].
Lemma ix_same : same_graph id id (srun (ix_ops false)) (srun (ix_ops true)).
Proof. apply same_tested. by_compute. Qed.
Lemma ix_unsound : exists r, r ∈ found (ix_ops true) ∅ ix_pat /\
  forall m, ~ reported (edge_from (result (ix_ops true))) (edge_to (result (ix_ops true))) ix_pat m r.
Proof.
  set (f := fun i => match found (ix_ops true) ∅ ix_pat !! i with Some r => r | None => (path_empty, ∅) end).
  exists (f 1). split.
  - apply elem_of_list_lookup_2 with 1. vm_compute. reflexivity.
  - intros m (Hd & _ & Hs). apply den_first_node in Hd.
    assert (path_get_node (edge_from (result (ix_ops true))) (edge_to (result (ix_ops true))) (f 1).1 0 = Ok 1) as E by (vm_compute; reflexivity).
    rewrite E in Hd. injection Hd as Hd.
    destruct (Hs "a" (RNode 0)) as (_ & i & it & Hi & Hnm & k & Ek & Hk); [vm_compute; reflexivity|].
    subst i. node_item Hi; [|done]. unfold pm_nodes in Hk. rewrite hop_nodes_0 in Hk. injection Hk as Hk. congruence.
Qed.

(** the same graph as for [ix_ops]: nodes 4, 1, 0 {k: 1}; edges 5: 4 -A-> 1, 3: 1 -A-> 0 *)
Definition other_ops : list op :=
  [OAddNodeIndex "k" HashIndex; ONewNode {["z"]} {["k" := VInt 1]} ["z"]; ONewNode ∅ ∅ []; ONewNode {["z"]} {["k" := VInt 1]} ["z"];
   ONewEdge 1 0 "A" ∅; ONewNode ∅ ∅ []; ONewEdge 4 1 "A" ∅; ONewEdge 2 1 "A" ∅; OSetLabels 0 ∅ ["z"] []; ODetachRemove 2 ["z"]].
Definition to_node (n : nat) : nat := match n with 0 => 4 | 1 => 1 | _ => 0 end.
Definition to_edge (e : nat) : nat := match e with 3 => 5 | _ => 3 end.
Lemma other_same : same_graph to_node to_edge (srun (ix_ops false)) (srun other_ops).
Proof. apply same_tested. by_compute. Qed.
(** (a)-[]->(b)-[r*0..1]->(c {k: 1}) with b one of 1, 2 *)
Definition two_pat : list pitem := [nd "a"; rel 1 1 false false ""; nd "b"; rel 0 1 false false "r"; ndk "c"].
Definition two_syms : symbols := {["b" := PSym (Some [1; 2]) None]}.
Lemma two_syms_moved : move_sym to_node to_edge <$> two_syms = {["b" := PSym (Some [1; 0]) None]}.
Proof. unfold two_syms. by rewrite map_fmap_singleton. Qed.
Lemma two_askable ops : Forall (fun o => Forall is_int (node_writes "k" o)) ops -> node_scans "k" ops -> pattern_askable ops two_pat.
Proof.
  intros H1 H2. split; intros i it Hi; [node_item Hi|edge_item Hi]; cbn [pi_props nd ndk rel]; try (intros k v x Hk; by apply lookup_empty_Some in Hk).
  apply node_askable_int. intros k v [<- <-]%lookup_singleton_Some. done.
Qed.
Lemma two_hyps : well_formed two_pat /\ names_ok (srun (ix_ops false)) two_syms two_pat /\ one_edge_right two_pat /\ repeated_fixed two_syms two_pat.
Proof.
  split; [by exists 2|]. split; [split_and!|].
  - intros i j it jt Hi Hj Hne. node_item Hi; edge_item Hj; done.
  - intros i it x Hi _ Hx. unfold two_syms in Hx. apply lookup_singleton_Some in Hx as [_ <-]. split; [done|]. exists [1; 2].
    split; [done|]. split; [by_compute|]. intros n [->|[->|?%elem_of_nil]%elem_of_cons]%elem_of_cons; try done; by_compute.
  - intros i it Hi Hne. edge_item Hi; [done|]. vm_compute. reflexivity.
  - split; [intros i it Hi; edge_item Hi; cbn; lia|].
    intros i j it jt Hij Hi Hj Hne Hnm. node_item Hi; node_item Hj; cbn in Hnm; try done.
Qed.
