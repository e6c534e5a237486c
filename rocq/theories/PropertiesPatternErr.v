(** C77: variables for nodes and relationships (pattern.go:65-87). *)
From Verif Require Import Base Value Graph GraphSpec Path Pattern PatternErrSpec PatternErrProofs GraphExamples PatternExamples PatternErrExamples.
Local Open Scope string_scope.
Local Open Scope list_scope.

(** C77 in full: matching fails exactly if a variable names nodes of the pattern, and edges. *)
Definition C77_statement : Prop := forall ops g syms pat lord pord eord o rs,
  valid_history ops -> run ops = Ok g -> find_paths g syms pat lord pord eord = Ok (o, rs) ->
  (o <> None <-> exists v, clash syms pat v).
(** False: (a:x)-[a]->(b) is matched from the first node, and gives a result without an error. *)
Theorem C77_refuted : exists ops g syms pat lord pord eord r v,
  (valid_history ops /\ run ops = Ok g) /\ clash syms pat v /\ find_paths g syms pat lord pord eord = Ok (None, [r]).
Proof.
  destruct one_found as [r Hr].
  exists chain_ops, (result chain_ops), ∅, err_pat, (lords err_pat), (pords err_pat), (fun _ => lords err_pat), r, "a".
  split; [split; [by_compute|apply run_result; vm_compute; reflexivity]|]. split; [exact err_clash|exact Hr].
Qed.
Print Assumptions C77_refuted.
(** What holds: the error names such a variable, where the edges are given with the symbols, or those of a
    relationship matched before the node.  (Missing: that there is an error for these; there is none if the items
    before the node match nothing.) *)
Theorem C77_partial g syms pat lord pord eord T (store : path -> gmap string sres -> T -> T) t v t' :
  pattern_run T g syms pat eord store lord pord t = Ok (Some v, t') ->
  clash syms pat v /\ exists xs start sz, fastest g syms pat lord pord = Ok (xs, start, sz) /\ clash_from syms pat start v.
Proof. exact (pattern_run_clash g syms pat lord pord eord store t v t'). Qed.
Print Assumptions C77_partial.
(** In these cases, nothing is ever reported, with or without the error. *)
Theorem C77_nothing_partial g syms pat lord pord eord T (store : path -> gmap string sres -> T -> T) t xs start sz v o t' :
  fastest g syms pat lord pord = Ok (xs, start, sz) -> clash_from syms pat start v ->
  pattern_run T g syms pat eord store lord pord t = Ok (o, t') -> t' = t.
Proof. exact (pattern_run_stops g syms pat eord store lord pord xs start sz v t o t'). Qed.
Print Assumptions C77_nothing_partial.
(** So an error comes before all results, with any start. *)
Theorem C77_error_partial g syms pat lord pord eord T (store : path -> gmap string sres -> T -> T) t v t' :
  pattern_run T g syms pat eord store lord pord t = Ok (Some v, t') -> t' = t.
Proof. exact (pattern_run_error g syms pat lord pord eord store t v t'). Qed.
Print Assumptions C77_error_partial.
(** There is an error if matching starts from a node with a variable given as edges. *)
Theorem C77_start_partial g syms pat lord pord eord T (store : path -> gmap string sres -> T -> T) t xs start sz v o t' :
  fastest g syms pat lord pord = Ok (xs, start, sz) -> names_node pat v start -> edges_given syms v ->
  pattern_run T g syms pat eord store lord pord t = Ok (o, t') -> o = Some v.
Proof. exact (pattern_run_start g syms pat lord pord eord store t xs start sz v o t'). Qed.
Print Assumptions C77_start_partial.
(** (a)-[a]->(b:z) from b: the relationship comes first. *)
Example C77_ex : search chain_ops ∅ [nd "a"; rel 1 1 false false "a"; ndl "z" "b"] = Ok (Some "a", []) /\
  starts_at chain_ops ∅ [nd "a"; rel 1 1 false false "a"; ndl "z" "b"] = Some 2 /\ before 2 1 0 /\
  clash_from ∅ [nd "a"; rel 1 1 false false "a"; ndl "z" "b"] 2 "a".
Proof.
  split; [vm_compute; reflexivity|]. split; [vm_compute; reflexivity|]. split; [unfold before; lia|].
  exists 0. split; [split; [done|]; split; [done|]; by exists (nd "a")|]. right. split; [apply lookup_empty|].
  exists 1. split; [|unfold before; lia]. split; [done|]. split; [done|]. by exists (rel 1 1 false false "a").
Qed.
(** (:x)-[a*1..2]->(a) and (:x)-[]->(b)-[a*1..2]-(a) *)
Example C77_long_ex : search chain_ops ∅ [ndl "x" ""; rel 1 2 false false "a"; nd "a"] = Ok (Some "a", []) /\
  search chain_ops ∅ [ndl "x" ""; rel 1 1 false false ""; nd "b"; rel 1 2 false true "a"; nd "a"] = Ok (Some "a", []).
Proof. split; vm_compute; reflexivity. Qed.
(** a given as edges, (a:x) and (b:y)-[]->(a): with y, the error; with an unknown label, neither error nor result. *)
Example C77_given_ex :
  search chain_ops {["a" := PSym None (Some [3])]} [ndl "x" "a"] = Ok (Some "a", []) /\
  search chain_ops {["a" := PSym None (Some [3])]} [ndl "y" "b"; rel 1 1 false false ""; nd "a"] = Ok (Some "a", []) /\
  search chain_ops {["a" := PSym None (Some [3])]} [ndl "w" "b"; rel 1 1 false false ""; nd "a"] = Ok (None, []) /\
  edges_given {["a" := PSym None (Some [3])]} "a".
Proof.
  split; [vm_compute; reflexivity|]. split; [vm_compute; reflexivity|]. split; [vm_compute; reflexivity|].
  exists (PSym None (Some [3])), [3]. split; [|reflexivity]. apply lookup_singleton.
Qed.
