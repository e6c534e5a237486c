(** C44: dotrenderer.go. *)
From Verif Require Import Base Value Index Graph GraphSpec Sizes CloneProofs Dot DotSpec DotProofs GraphExamples.
From Verif Require Import PropertiesNodes.
Local Open Scope string_scope.
Local Open Scope list_scope.

(** C44 in full, for all renderers with any state: with [log_node], [log_edge] the calls of the renderers are
    logged, which makes no difference otherwise.  Only live elements are rendered, none twice, edges with the
    identifiers of their ends, and accepted nodes have distinct identifiers ([faithful]); nothing is left out
    ([complete]), unless a renderer fails: then its call is the last ([stopped]). *)
Definition C44_statement : Prop := forall (T : Type) ops g (nr : node_renderer T) (er : edge_renderer T) t,
  valid_history ops -> run ops = Ok g ->
  exists ok t' l, render_nodes_edges g (log_node nr) (log_edge er) (t, []) = Ok (ok, (t', l)) /\ render_nodes_edges g nr er t = Ok (ok, t') /\
    faithful (srun ops) l /\ if ok then complete (srun ops) l else stopped l.
(** False for a graph as in C01, whose last node GetNodes does not list: it is not rendered. *)
Theorem C44_refuted : exists ops g l, (valid_history ops /\ run ops = Ok g) /\
  render_nodes_edges g (log_node (default_node builder)) (log_edge (default_edge g builder)) ("", []) = Ok (true, ("  n0;" +:+ nl +:+ "  n1;" +:+ nl, l)) /\
  live_node (srun ops) 3 /\ 3 ∉ nodes_of l.
Proof.
  exists C01_witness, (result C01_witness), [ENode "n0" 0 (Some true); ENode "n1" 1 (Some true)].
  split; [split; [by_compute|apply run_result; vm_compute; reflexivity]|]. split; [vm_compute; reflexivity|]. split; by_compute.
Qed.
Print Assumptions C44_refuted.
(** What holds: the statement if the lists of nodes and edges are right (missing: other graphs). *)
Theorem C44_partial (T : Type) ops g (nr : node_renderer T) (er : edge_renderer T) t :
  valid_history ops -> run ops = Ok g -> node_list_safe ops -> edge_list_safe ops ->
  exists ok t' l, render_nodes_edges g (log_node nr) (log_edge er) (t, []) = Ok (ok, (t', l)) /\ render_nodes_edges g nr er t = Ok (ok, t') /\
    faithful (srun ops) l /\ if ok then complete (srun ops) l else stopped l.
Proof. exact (fun Hv Hr => render_ok ops g Hv Hr nr er t). Qed.
Print Assumptions C44_partial.
(** Render, for all renderers and writers, which may fail: the calls are those of [rendering]. *)
Theorem C44_render_partial (T : Type) ops g (nr : node_renderer T) (er : edge_renderer T) write name t :
  valid_history ops -> run ops = Ok g -> node_list_safe ops -> edge_list_safe ops ->
  exists ok t' l, render g (log_node nr) (log_edge er) (log_write write) name (t, []) = Ok (ok, (t', l)) /\
    render g nr er write name t = Ok (ok, t') /\ rendering (srun ops) name ok l.
Proof. exact (fun Hv Hr => render_all ops g Hv Hr nr er write name t). Qed.
Print Assumptions C44_render_partial.
(** Render with the default renderers: the exact text. *)
Theorem C44_default_partial ops g name : valid_history ops -> run ops = Ok g -> node_list_safe ops -> edge_list_safe ops ->
  exists ns es lines, lists_nodes (srun ops) ns /\ lists (live_edge (srun ops)) es /\ edge_lines (srun ops) ns es lines /\
    render g (default_node builder) (default_edge g builder) builder name "" =
      Ok (true, "digraph " +:+ name +:+ " {" +:+ nl +:+ "rankdir=" +:+ quote +:+ "LR" +:+ quote +:+ ";" +:+ nl +:+
        concat_text (map node_line (seq 0 (length ns))) +:+ concat_text lines +:+ "}" +:+ nl).
Proof. exact (fun Hv Hr => default_text ops g Hv Hr name). Qed.
Print Assumptions C44_default_partial.
(** nodes 0, 2, 3, of which 0 is refused; edges 4: 2 -A-> 3, 5: 0 -> 2, 6: 3 -> 3 *)
Definition C44_ops : list op :=
  [ONewNode ∅ ∅ []; ONewNode ∅ ∅ []; ONewNode ∅ ∅ []; ONewNode ∅ ∅ []; ODetachRemove 1 [];
   ONewEdge 2 3 "A" ∅; ONewEdge 0 2 "" ∅; ONewEdge 3 3 "" ∅].
Definition C44_nr : node_renderer nat := fun _ n t => (Some (bool_decide (n <> 0)), S t).
Definition C44_er (bad : bool) : edge_renderer nat := fun _ _ e t => (if bad then None else Some false, t + 10).
Example C44_ex : (valid_history C44_ops /\ run C44_ops = Ok (result C44_ops)) /\ node_list_safe C44_ops /\ edge_list_safe C44_ops /\
  render_nodes_edges (result C44_ops) (log_node C44_nr) (log_edge (C44_er false)) (0, []) =
    Ok (true, (23, [ENode "n0" 0 (Some false); ENode "n0" 2 (Some true); ENode "n1" 3 (Some true); EEdge "n0" "n1" 4 (Some false); EEdge "n1" "n1" 6 (Some false)])) /\
  render_nodes_edges (result C44_ops) (log_node C44_nr) (log_edge (C44_er true)) (0, []) =
    Ok (false, (13, [ENode "n0" 0 (Some false); ENode "n0" 2 (Some true); ENode "n1" 3 (Some true); EEdge "n0" "n1" 4 None])).
Proof.
  split; [split; [by_compute|apply run_result; vm_compute; reflexivity]|]. split; [by_compute|]. split; [by_compute|].
  split; vm_compute; reflexivity.
Qed.
(** a writer that fails for the [n]th time, with the default renderers *)
Definition short (w : string) (n : nat) : bool * nat := (bool_decide (n <> 1), n - 1).
Example C44_render_ex :
  render (result C44_ops) C44_nr (C44_er true) (fun _ n => (true, n)) "g" 0 = Ok (false, 13) /\
  render (result C44_ops) (log_node (default_node short)) (log_edge (default_edge (result C44_ops) short)) (log_write short) "g" (6, []) =
    Ok (false, (0, [EWrite (first_line "g") true; EWrite second_line true; ENode "n0" 0 (Some true); ENode "n1" 2 (Some true); ENode "n2" 3 (Some true);
      EEdge "n1" "n2" 4 None])) /\
  match render (result C44_ops) (default_node short) (default_edge (result C44_ops) short) short "g" 9 with Ok (ok, n) => ok = false /\ n = 0 | _ => False end.
Proof. split; [vm_compute; reflexivity|]. split; [vm_compute; reflexivity|]. vm_compute. done. Qed.
(** Labels are not escaped: this one closes the quotation and adds a statement. *)
Example C44_label_ex : edge_line 0 1 ("x" +:+ quote +:+ "]; n7 -> n8 [label=" +:+ quote) =
  "  n0 -> n1 [label=" +:+ quote +:+ "x" +:+ quote +:+ "]; n7 -> n8 [label=" +:+ quote +:+ quote +:+ "];" +:+ nl.
Proof. vm_compute. reflexivity. Qed.
