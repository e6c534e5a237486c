(** C80: what is found depends on the graph only up to isomorphism. *)
From Verif Require Import Base Value Index Graph GraphSpec Sizes Path PathSpec AlgSpec Pattern PatternSpec PatternProofs.
From Verif Require Import IsoSpec IsoProofs IsoExamples GraphExamples PatternExamples.
Local Open Scope string_scope.
Local Open Scope list_scope.

(** C80 in full: in two graphs that are the same but for the ids, whatever their histories, indexes and orders of maps,
    FindPaths reports the same matches. *)
Definition C80_statement : Prop := forall f h ops1 ops2 g1 g2 syms pat lord1 pord1 eord1 lord2 pord2 eord2 rs1 rs2,
  valid_history ops1 -> run ops1 = Ok g1 -> valid_history ops2 -> run ops2 = Ok g2 ->
  same_graph f h (srun ops1) (srun ops2) ->
  well_formed pat -> item_orders pat lord1 pord1 eord1 -> item_orders pat lord2 pord2 eord2 -> names_ok (srun ops1) syms pat ->
  find_paths g1 syms pat lord1 pord1 eord1 = Ok (None, rs1) ->
  find_paths g2 (move_sym f h <$> syms) pat lord2 pord2 eord2 = Ok (None, rs2) ->
  exists ms1 ms2, Forall2 (reported (edge_from g1) (edge_to g1) pat) ms1 rs1 /\
    Forall2 (reported (edge_from g2) (edge_to g2) pat) ms2 rs2 /\ ms2 ≡ₚ map (move_match f h) ms1.
(** False: with an index for k, (a)-[*1..2]->(b {k: 1}) is matched from b, and gives a result of no match; without
    it, from a. *)
Theorem C80_refuted : exists ops1 ops2 g1 g2 syms pat lord pord eord rs1 rs2 r,
  (valid_history ops1 /\ run ops1 = Ok g1 /\ valid_history ops2 /\ run ops2 = Ok g2 /\ same_graph id id (srun ops1) (srun ops2)) /\
  ops2 = OAddNodeIndex "k" HashIndex :: ops1 /\
  (well_formed pat /\ item_orders pat lord pord eord /\ names_ok (srun ops1) syms pat) /\
  find_paths g1 syms pat lord pord eord = Ok (None, rs1) /\
  find_paths g2 (move_sym id id <$> syms) pat lord pord eord = Ok (None, rs2) /\
  (length rs1 = 2 /\ length rs2 = 2 /\ r ∈ rs2) /\ forall m, ~ reported (edge_from g2) (edge_to g2) pat m r.
Proof.
  destruct ix_unsound as (r & Hr & Hno).
  exists (ix_ops false), (ix_ops true), (result (ix_ops false)), (result (ix_ops true)), ∅, ix_pat, (lords ix_pat), (pords ix_pat), (fun _ => lords ix_pat),
    (found (ix_ops false) ∅ ix_pat), (found (ix_ops true) ∅ ix_pat), r.
  split; [split; [by_compute|]; split; [apply run_result; vm_compute; reflexivity|]; split; [by_compute|]; split; [apply run_result; vm_compute; reflexivity|exact ix_same]|].
  split; [reflexivity|].
  split; [split; [by exists 1|]; split; [apply some_orders|apply no_symbols; intros i it Hi; edge_item Hi; reflexivity]|].
  split; [apply search_found; vm_compute; reflexivity|]. split; [rewrite fmap_empty; apply search_found; vm_compute; reflexivity|].
  split; [split; [vm_compute; reflexivity|]; split; [vm_compute; reflexivity|exact Hr]|exact Hno].
Qed.
Print Assumptions C80_refuted.
(** What holds (missing: the histories and patterns that C45 to C47 leave out): the matches reported for the one graph are
    those of the other, each as often. *)
Theorem C80_partial f h ops1 ops2 g1 g2 syms pat lord1 pord1 eord1 lord2 pord2 eord2 :
  valid_history ops1 -> run ops1 = Ok g1 -> node_list_safe ops1 -> edge_list_safe ops1 ->
  valid_history ops2 -> run ops2 = Ok g2 -> node_list_safe ops2 -> edge_list_safe ops2 ->
  same_graph f h (srun ops1) (srun ops2) ->
  well_formed pat -> item_orders pat lord1 pord1 eord1 -> item_orders pat lord2 pord2 eord2 ->
  pattern_askable ops1 pat -> pattern_askable ops2 pat -> names_ok (srun ops1) syms pat ->
  (forall xs start sz, fastest g1 syms pat lord1 pord1 = Ok (xs, start, sz) -> starts_well pat start) ->
  (forall xs start sz, fastest g2 (move_sym f h <$> syms) pat lord2 pord2 = Ok (xs, start, sz) -> starts_well pat start) ->
  repeated_fixed syms pat -> no_undirected_loops (srun ops1) pat ->
  exists rs1 rs2 ms1 ms2, find_paths g1 syms pat lord1 pord1 eord1 = Ok (None, rs1) /\
    find_paths g2 (move_sym f h <$> syms) pat lord2 pord2 eord2 = Ok (None, rs2) /\
    Forall2 (reported (edge_from g1) (edge_to g1) pat) ms1 rs1 /\ Forall2 (reported (edge_from g2) (edge_to g2) pat) ms2 rs2 /\
    ms2 ≡ₚ map (move_match f h) ms1.
Proof. exact (find_paths_same f h ops1 ops2 g1 g2 syms pat lord1 pord1 eord1 lord2 pord2 eord2). Qed.
Print Assumptions C80_partial.
(** With single edges to the right, whichever items the two searches start from. *)
Theorem C80_right_partial f h ops1 ops2 g1 g2 syms pat lord1 pord1 eord1 lord2 pord2 eord2 :
  valid_history ops1 -> run ops1 = Ok g1 -> node_list_safe ops1 -> edge_list_safe ops1 ->
  valid_history ops2 -> run ops2 = Ok g2 -> node_list_safe ops2 -> edge_list_safe ops2 ->
  same_graph f h (srun ops1) (srun ops2) ->
  well_formed pat -> item_orders pat lord1 pord1 eord1 -> item_orders pat lord2 pord2 eord2 ->
  pattern_askable ops1 pat -> pattern_askable ops2 pat -> names_ok (srun ops1) syms pat ->
  one_edge_right pat -> repeated_fixed syms pat ->
  exists rs1 rs2 ms1 ms2, find_paths g1 syms pat lord1 pord1 eord1 = Ok (None, rs1) /\
    find_paths g2 (move_sym f h <$> syms) pat lord2 pord2 eord2 = Ok (None, rs2) /\
    Forall2 (reported (edge_from g1) (edge_to g1) pat) ms1 rs1 /\ Forall2 (reported (edge_from g2) (edge_to g2) pat) ms2 rs2 /\
    ms2 ≡ₚ map (move_match f h) ms1.
Proof. exact (find_paths_same_right f h ops1 ops2 g1 g2 syms pat lord1 pord1 eord1 lord2 pord2 eord2). Qed.
Print Assumptions C80_right_partial.
(** (a)-[]->(b)-[r*0..1]->(c {k: 1}): without an index it is matched from the first relationship, with other ids and an index from c. *)
Example C80_ex :
  (valid_history (ix_ops false) /\ run (ix_ops false) = Ok (result (ix_ops false)) /\ node_list_safe (ix_ops false) /\ edge_list_safe (ix_ops false)) /\
  (valid_history other_ops /\ run other_ops = Ok (result other_ops) /\ node_list_safe other_ops /\ edge_list_safe other_ops) /\
  same_graph to_node to_edge (srun (ix_ops false)) (srun other_ops) /\
  item_orders two_pat (lords two_pat) (pords two_pat) (fun _ => lords two_pat) /\
  (pattern_askable (ix_ops false) two_pat /\ pattern_askable other_ops two_pat) /\
  (well_formed two_pat /\ names_ok (srun (ix_ops false)) two_syms two_pat /\ one_edge_right two_pat /\ repeated_fixed two_syms two_pat) /\
  move_sym to_node to_edge <$> two_syms = {["b" := PSym (Some [1; 0]) None]} /\
  (starts_at (ix_ops false) two_syms two_pat = Some 1 /\ starts_at other_ops {["b" := PSym (Some [1; 0]) None]} two_pat = Some 4) /\
  map (fun r => (view r).1) (found (ix_ops false) two_syms two_pat) = [[(3, false); (4, false)]] /\
  map (fun r => (view r).1) (found other_ops {["b" := PSym (Some [1; 0]) None]} two_pat) = [[(5, false); (3, false)]].
Proof.
  split; [split; [by_compute|]; split; [apply run_result; vm_compute; reflexivity|split; by_compute]|].
  split; [split; [by_compute|]; split; [apply run_result; vm_compute; reflexivity|split; by_compute]|].
  split; [exact other_same|]. split; [apply some_orders|]. split; [split; apply two_askable; by_compute|].
  split; [exact two_hyps|]. split; [exact two_syms_moved|]. split; [split; vm_compute; reflexivity|]. split; vm_compute; reflexivity.
Qed.
