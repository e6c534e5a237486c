(** C45, C46, C47, C56, C67: pattern.go, planprocessors.go. *)
From Verif Require Import Base Value Graph GraphSpec Sizes Path PathSpec Pattern PatternSpec PatternProofs GraphExamples PatternExamples.
Local Open Scope string_scope.
Local Open Scope list_scope.

(** C45 in full: every result is that of a walk matching all items. *)
Definition C45_statement : Prop := forall ops g syms pat lord pord eord rs,
  valid_history ops -> run ops = Ok g -> well_formed pat -> item_orders pat lord pord eord -> names_ok (srun ops) syms pat ->
  find_paths g syms pat lord pord eord = Ok (None, rs) ->
  forall r, r ∈ rs -> exists m, fits_items (srun ops) syms pat m /\ reported (edge_from g) (edge_to g) pat m r.
(** False: (a)-[*1..2]->(b:z) is matched from b; of a path of two edges only one is reported, which does not
    start at the node reported for a. *)
Theorem C45_refuted : exists ops g syms pat lord pord eord rs r,
  (valid_history ops /\ run ops = Ok g /\ well_formed pat /\ item_orders pat lord pord eord /\ names_ok (srun ops) syms pat) /\
  find_paths g syms pat lord pord eord = Ok (None, rs) /\ r ∈ rs /\
  forall m, ~ reported (edge_from g) (edge_to g) pat m r.
Proof.
  destruct back_unsound as (r & Hr & Hno).
  exists chain_ops, (result chain_ops), ∅, back_pat, (lords back_pat), (pords back_pat), (fun _ => lords back_pat), (found chain_ops ∅ back_pat), r.
  split; [split; [by_compute|]; split; [apply run_result; vm_compute; reflexivity|]; split; [by exists 1|]; split; [apply some_orders|apply no_symbols; intros i it Hi; edge_item Hi; reflexivity]|].
  split; [apply search_found; vm_compute; reflexivity|]. split; [exact Hr|exact Hno].
Qed.
Print Assumptions C45_refuted.
(** What holds (missing: patterns matched from an item after a relationship of variable length, or from a
    relationship that is not a single edge to the right; symbols for relationships). *)
Theorem C45_partial ops g syms pat lord pord eord :
  valid_history ops -> run ops = Ok g -> node_list_safe ops -> edge_list_safe ops ->
  well_formed pat -> item_orders pat lord pord eord -> pattern_askable ops pat -> names_ok (srun ops) syms pat ->
  (forall xs start sz, fastest g syms pat lord pord = Ok (xs, start, sz) -> starts_well pat start) ->
  exists rs ms, find_paths g syms pat lord pord eord = Ok (None, rs) /\
    Forall2 (reported (edge_from g) (edge_to g) pat) ms rs /\
    (forall m, m ∈ ms -> fits_items (srun ops) syms pat m) /\
    (forall m, is_match (srun ops) syms pat m -> m ∈ ms) /\
    (no_undirected_loops (srun ops) pat -> NoDup ms).
Proof. exact (find_paths_ok ops g syms pat lord pord eord). Qed.
Print Assumptions C45_partial.
(** The same for any accumulator: it gets the results in this order. *)
Theorem C45_run_partial ops g syms pat lord pord eord T (store : path -> gmap string sres -> T -> T) t :
  valid_history ops -> run ops = Ok g -> node_list_safe ops -> edge_list_safe ops ->
  well_formed pat -> item_orders pat lord pord eord -> pattern_askable ops pat -> names_ok (srun ops) syms pat ->
  (forall xs start sz, fastest g syms pat lord pord = Ok (xs, start, sz) -> starts_well pat start) ->
  exists rs ms, pattern_run T g syms pat eord store lord pord t = Ok (None, fold_left (fun t r => store r.1 r.2 t) rs t) /\
    Forall2 (reported (edge_from g) (edge_to g) pat) ms rs /\
    (forall m, m ∈ ms -> fits_items (srun ops) syms pat m) /\
    (forall m, is_match (srun ops) syms pat m -> m ∈ ms) /\
    (no_undirected_loops (srun ops) pat -> NoDup ms).
Proof. exact (pattern_run_ok ops g syms pat lord pord eord T store t). Qed.
Print Assumptions C45_run_partial.
(** (a:x)-[r*1..2]->(b)-[]-(c) *)
Example C45_ex : (valid_history chain_ops /\ run chain_ops = Ok (result chain_ops)) /\ (node_list_safe chain_ops /\ edge_list_safe chain_ops) /\
  item_orders good_pat (lords good_pat) (pords good_pat) (fun _ => lords good_pat) /\
  (well_formed good_pat /\ pattern_askable chain_ops good_pat /\ names_ok (srun chain_ops) ∅ good_pat /\
   starts_at chain_ops ∅ good_pat = Some 0 /\ starts_well good_pat 0 /\ no_undirected_loops (srun chain_ops) good_pat /\ repeated_fixed ∅ good_pat) /\
  map (fun r => (view r).1) (found chain_ops ∅ good_pat) = [[(3, false); (3, true)]; [(3, false); (4, false)]; [(3, false); (4, false); (4, true)]].
Proof.
  split; [split; [by_compute|apply run_result; vm_compute; reflexivity]|]. split; [split; by_compute|]. split; [apply some_orders|].
  split; [exact good_hyps|]. vm_compute. reflexivity.
Qed.
(** From a relationship to the left, the path runs from the last to the first node ... *)
Example C45_left_ex : map view (found chain_ops ∅ [nd "a"; rel 1 1 true false ""; nd "b"]) =
  [([(3, false)], [("b", RNode 0); ("a", RNode 1)]); ([(4, false)], [("b", RNode 1); ("a", RNode 2)])].
Proof. vm_compute. reflexivity. Qed.
(** ... and bounds of 0 are taken as 1. *)
Example C45_zero_ex : map view (found chain_ops ∅ [nd ""; rel 0 0 false false ""; nd ""]) = [([(3, false)], []); ([(4, false)], [])].
Proof. vm_compute. reflexivity. Qed.

(** With symbols for relationships too, C45 in full would be: *)
Definition C45_symbol_statement : Prop := forall ops g syms pat lord pord eord rs,
  valid_history ops -> run ops = Ok g -> well_formed pat -> item_orders pat lord pord eord -> names_apart (srun ops) syms pat ->
  find_paths g syms pat lord pord eord = Ok (None, rs) ->
  forall r, r ∈ rs -> exists m, fits_items (srun ops) syms pat m /\ reported (edge_from g) (edge_to g) pat m r.
(** False: they only count if matching starts from them.  (a:y)-[r]->(b) with r = 3 is matched from a, and gives
    edge 4. *)
Theorem C45_symbol_refuted : exists ops g syms pat lord pord eord rs r,
  (valid_history ops /\ run ops = Ok g /\ well_formed pat /\ item_orders pat lord pord eord /\ names_apart (srun ops) syms pat /\ one_edge_right pat) /\
  find_paths g syms pat lord pord eord = Ok (None, rs) /\ r ∈ rs /\
  forall m, fits_items (srun ops) syms pat m -> ~ reported (edge_from g) (edge_to g) pat m r.
Proof.
  destruct sym_unsound as (r & Hr & Hno). destruct sym_hyps as [(Hwf & _ & Hnames) _].
  exists chain_ops, (result chain_ops), (rel_syms [3]), sym_pat, (lords sym_pat), (pords sym_pat), (fun _ => lords sym_pat), (found chain_ops (rel_syms [3]) sym_pat), r.
  split; [split; [by_compute|]; split; [apply run_result; vm_compute; reflexivity|]; split; [exact Hwf|]; split; [apply some_orders|]; split; [exact Hnames|intros i it Hi; edge_item Hi; by split_and!]|].
  split; [apply search_found; vm_compute; reflexivity|]. split; [exact Hr|exact Hno].
Qed.
Print Assumptions C45_symbol_refuted.
Example C45_symbol_ex : map (fun r => (view r).1) (found chain_ops {["r" := PSym None (Some [3])]} [ndl "y" ""; rel 1 1 false false "r"; nd ""]) = [[(4, false)]].
Proof. vm_compute. reflexivity. Qed.

(** C46 in full: the results are those of the matches, each once. *)
Definition C46_statement : Prop := forall ops g syms pat lord pord eord,
  valid_history ops -> run ops = Ok g -> well_formed pat -> item_orders pat lord pord eord -> names_ok (srun ops) syms pat ->
  exists rs ms, find_paths g syms pat lord pord eord = Ok (None, rs) /\
    Forall2 (reported (edge_from g) (edge_to g) pat) ms rs /\ NoDup ms /\
    (forall m, m ∈ ms -> fits_items (srun ops) syms pat m) /\ forall m, is_match (srun ops) syms pat m -> m ∈ ms.
(** False: (a)<-[]-(b)<-[]-(c), matched from the first relationship, panics ... *)
Theorem C46_refuted : exists ops g syms pat lord pord eord m,
  (valid_history ops /\ run ops = Ok g /\ well_formed pat /\ item_orders pat lord pord eord /\ names_ok (srun ops) syms pat) /\
  is_match (srun ops) syms pat m /\ find_paths g syms pat lord pord eord = Panic.
Proof.
  exists chain_ops, (result chain_ops), ∅, left_pat, (lords left_pat), (pords left_pat), (fun _ => lords left_pat), (PM 2 [[(4, 1)]; [(3, 0)]]).
  split; [split; [by_compute|]; split; [apply run_result; vm_compute; reflexivity|]; split; [by exists 2|]; split; [apply some_orders|apply no_symbols; intros i it Hi; edge_item Hi; reflexivity]|].
  split; [exact left_match|]. vm_compute. reflexivity.
Qed.
Print Assumptions C46_refuted.
(** ... as does (a)-[]-(b), matched from the relationship ... *)
Theorem C46_undirected_refuted : exists ops g syms pat lord pord eord,
  (valid_history ops /\ run ops = Ok g /\ well_formed pat /\ item_orders pat lord pord eord /\ names_ok (srun ops) syms pat) /\
  pat = [nd "a"; rel 1 1 false true ""; nd "b"] /\ find_paths g syms pat lord pord eord = Panic.
Proof.
  exists chain_ops, (result chain_ops), ∅, und_pat, (lords und_pat), (pords und_pat), (fun _ => lords und_pat).
  split; [split; [by_compute|]; split; [apply run_result; vm_compute; reflexivity|]; split; [by exists 1|]; split; [apply some_orders|apply no_symbols; intros i it Hi; edge_item Hi; reflexivity]|].
  split; [reflexivity|]. vm_compute. reflexivity.
Qed.
Print Assumptions C46_undirected_refuted.
(** ... and matched from a, it reports a loop twice. *)
Theorem C46_twice_refuted : exists ops g syms pat lord pord eord rs,
  (valid_history ops /\ run ops = Ok g /\ well_formed pat /\ item_orders pat lord pord eord /\ names_ok (srun ops) syms pat) /\
  find_paths g syms pat lord pord eord = Ok (None, rs) /\
  forall ms, Forall2 (reported (edge_from g) (edge_to g) pat) ms rs -> (forall m, m ∈ ms -> fits_items (srun ops) syms pat m) -> ~ NoDup ms.
Proof.
  exists loop_ops, (result loop_ops), ∅, und_pat, (lords und_pat), (pords und_pat), (fun _ => lords und_pat), (found loop_ops ∅ und_pat).
  split; [split; [by_compute|]; split; [apply run_result; vm_compute; reflexivity|]; split; [by exists 1|]; split; [apply some_orders|apply no_symbols; intros i it Hi; edge_item Hi; reflexivity]|].
  split; [apply search_found; vm_compute; reflexivity|]. exact und_twice.
Qed.
Print Assumptions C46_twice_refuted.
(** What holds: C45_partial; if all relationships are single edges to the right, then whichever item the
    matching starts from. *)
Theorem C46_partial ops g syms pat lord pord eord :
  valid_history ops -> run ops = Ok g -> node_list_safe ops -> edge_list_safe ops ->
  well_formed pat -> item_orders pat lord pord eord -> pattern_askable ops pat -> names_ok (srun ops) syms pat ->
  one_edge_right pat ->
  exists rs ms, find_paths g syms pat lord pord eord = Ok (None, rs) /\
    Forall2 (reported (edge_from g) (edge_to g) pat) ms rs /\ NoDup ms /\
    (forall m, m ∈ ms -> fits_items (srun ops) syms pat m) /\ (forall m, is_match (srun ops) syms pat m -> m ∈ ms).
Proof. exact (find_paths_right ops g syms pat lord pord eord). Qed.
Print Assumptions C46_partial.
(** (a)-[]->(b)-[r*0..1]->(c:z) with b one of 1, 2 *)
Example C46_ex : (valid_history chain_ops /\ run chain_ops = Ok (result chain_ops)) /\ (node_list_safe chain_ops /\ edge_list_safe chain_ops) /\
  item_orders right_pat (lords right_pat) (pords right_pat) (fun _ => lords right_pat) /\
  (well_formed right_pat /\ pattern_askable chain_ops right_pat /\ names_ok (srun chain_ops) right_syms right_pat /\
   one_edge_right right_pat /\ repeated_fixed right_syms right_pat) /\
  starts_at chain_ops right_syms right_pat = Some 4 /\
  map (fun r => (view r).1) (found chain_ops right_syms right_pat) = [[(3, false); (4, false)]].
Proof.
  split; [split; [by_compute|apply run_result; vm_compute; reflexivity]|]. split; [split; by_compute|]. split; [apply some_orders|].
  split; [exact right_hyps|]. split; vm_compute; reflexivity.
Qed.

(** C47 in full: every result is that of a match with one node for each name. *)
Definition C47_statement : Prop := forall ops g syms pat lord pord eord rs,
  valid_history ops -> run ops = Ok g -> well_formed pat -> item_orders pat lord pord eord -> names_ok (srun ops) syms pat ->
  find_paths g syms pat lord pord eord = Ok (None, rs) ->
  forall r m, r ∈ rs -> fits_items (srun ops) syms pat m -> reported (edge_from g) (edge_to g) pat m r -> same_names pat m.
(** False: after the loop at 0 has been reported for (a)-[]->(a), so is the edge from 0 to 1. *)
Theorem C47_refuted : exists ops g syms pat lord pord eord rs r,
  (valid_history ops /\ run ops = Ok g /\ well_formed pat /\ item_orders pat lord pord eord /\ names_ok (srun ops) syms pat) /\
  find_paths g syms pat lord pord eord = Ok (None, rs) /\ r ∈ rs /\
  forall m, fits_items (srun ops) syms pat m -> reported (edge_from g) (edge_to g) pat m r -> ~ same_names pat m.
Proof.
  destruct same_unsound as (r & Hr & Hno).
  exists loop_ops, (result loop_ops), ∅, same_pat, (lords same_pat), (pords same_pat), (fun _ => lords same_pat), (found loop_ops ∅ same_pat), r.
  split; [split; [by_compute|]; split; [apply run_result; vm_compute; reflexivity|]; split; [by exists 1|]; split; [apply some_orders|apply no_symbols; intros i it Hi; edge_item Hi; reflexivity]|].
  split; [apply search_found; vm_compute; reflexivity|]. split; [exact Hr|exact Hno].
Qed.
Print Assumptions C47_refuted.
(** What holds: if repeated names are symbols with one node, the results are exactly those of the matches
    (missing: other repeated names). *)
Theorem C47_partial ops g syms pat lord pord eord :
  valid_history ops -> run ops = Ok g -> node_list_safe ops -> edge_list_safe ops ->
  well_formed pat -> item_orders pat lord pord eord -> pattern_askable ops pat -> names_ok (srun ops) syms pat ->
  (forall xs start sz, fastest g syms pat lord pord = Ok (xs, start, sz) -> starts_well pat start) -> repeated_fixed syms pat ->
  exists rs ms, find_paths g syms pat lord pord eord = Ok (None, rs) /\
    Forall2 (reported (edge_from g) (edge_to g) pat) ms rs /\ (forall m, m ∈ ms <-> is_match (srun ops) syms pat m) /\
    (no_undirected_loops (srun ops) pat -> NoDup ms).
Proof. exact (find_paths_exact ops g syms pat lord pord eord). Qed.
Print Assumptions C47_partial.
(** (a)-[]->(a) with a = 0 *)
Example C47_ex : (valid_history loop_ops /\ run loop_ops = Ok (result loop_ops)) /\ (node_list_safe loop_ops /\ edge_list_safe loop_ops) /\
  item_orders same_pat (lords same_pat) (pords same_pat) (fun _ => lords same_pat) /\
  (well_formed same_pat /\ pattern_askable loop_ops same_pat /\ names_ok (srun loop_ops) fixed_syms same_pat /\
   one_edge_right same_pat /\ repeated_fixed fixed_syms same_pat) /\
  map view (found loop_ops fixed_syms same_pat) = [([(2, false)], [("a", RNode 0)])] /\
  map view (found loop_ops ∅ same_pat) = [([(2, false)], [("a", RNode 0)]); ([(3, false)], [("a", RNode 0)])].
Proof.
  split; [split; [by_compute|apply run_result; vm_compute; reflexivity]|]. split; [split; by_compute|]. split; [apply some_orders|].
  split; [exact fixed_hyps|]. split; vm_compute; reflexivity.
Qed.

(** C56: FindMatchNodes and GetHeadNodes give the first nodes of the matches, GetTailNodes the last. *)
Definition C56_statement : Prop := forall ops g syms pat lord pord eord,
  valid_history ops -> run ops = Ok g -> well_formed pat -> item_orders pat lord pord eord -> names_ok (srun ops) syms pat ->
  exists rs X Y, find_paths g syms pat lord pord eord = Ok (None, rs) /\ find_match_nodes g syms pat lord pord eord = Ok (Some X) /\
    head_nodes g rs = Ok X /\ tail_nodes g rs = Ok Y /\
    (forall n, n ∈ X <-> exists m, is_match (srun ops) syms pat m /\ pm_first m = n) /\
    (forall n, n ∈ Y <-> exists m, is_match (srun ops) syms pat m /\ last (pm_nodes m) = Some n).
(** False: see C46_refuted. *)
Theorem C56_refuted : exists ops g syms pat lord pord eord m,
  (valid_history ops /\ run ops = Ok g /\ well_formed pat /\ item_orders pat lord pord eord /\ names_ok (srun ops) syms pat) /\
  is_match (srun ops) syms pat m /\ find_match_nodes g syms pat lord pord eord = Panic.
Proof.
  exists chain_ops, (result chain_ops), ∅, left_pat, (lords left_pat), (pords left_pat), (fun _ => lords left_pat), (PM 2 [[(4, 1)]; [(3, 0)]]).
  split; [split; [by_compute|]; split; [apply run_result; vm_compute; reflexivity|]; split; [by exists 2|]; split; [apply some_orders|apply no_symbols; intros i it Hi; edge_item Hi; reflexivity]|].
  split; [exact left_match|]. vm_compute. reflexivity.
Qed.
Print Assumptions C56_refuted.
(** What holds: the statement under the conditions of C47_partial (missing: see there). *)
Theorem C56_partial ops g syms pat lord pord eord :
  valid_history ops -> run ops = Ok g -> node_list_safe ops -> edge_list_safe ops ->
  well_formed pat -> item_orders pat lord pord eord -> pattern_askable ops pat -> names_ok (srun ops) syms pat ->
  (forall xs start sz, fastest g syms pat lord pord = Ok (xs, start, sz) -> starts_well pat start) -> repeated_fixed syms pat ->
  exists rs X Y, find_paths g syms pat lord pord eord = Ok (None, rs) /\ find_match_nodes g syms pat lord pord eord = Ok (Some X) /\
    head_nodes g rs = Ok X /\ tail_nodes g rs = Ok Y /\
    (forall n, n ∈ X <-> exists m, is_match (srun ops) syms pat m /\ pm_first m = n) /\
    (forall n, n ∈ Y <-> exists m, is_match (srun ops) syms pat m /\ last (pm_nodes m) = Some n).
Proof. exact (find_match_nodes_ok ops g syms pat lord pord eord). Qed.
Print Assumptions C56_partial.
Example C56_ex :
  rmap (fun x => Ok (elements x)) [match head_nodes (result chain_ops) (found chain_ops ∅ good_pat) with Ok X => X | _ => ∅ end;
        match tail_nodes (result chain_ops) (found chain_ops ∅ good_pat) with Ok X => X | _ => ∅ end] = Ok [[0]; [0; 1; 2]] /\
  bool_decide (find_match_nodes (result chain_ops) ∅ good_pat (lords good_pat) (pords good_pat) (fun _ => lords good_pat) = Ok (Some {[0]})) = true.
Proof. split; vm_compute; reflexivity. Qed.

(** C67: what FindPaths gives, whatever item the matching starts from.  From an undirected relationship, it
    panics if an edge has its labels and properties, and finds nothing otherwise.  From any other item, the
    matches of the pattern (a relationship as start is one edge) are found with the right values for all names;
    the path consists of the last step of each relationship before the start and of the walks from there on (the
    start backwards if it points to the left).  If the steps do not join for one of the matches, it panics. *)
Theorem C67_from ops g syms pat lord pord eord :
  valid_history ops -> run ops = Ok g -> node_list_safe ops -> edge_list_safe ops ->
  well_formed pat -> item_orders pat lord pord eord -> pattern_askable ops pat -> names_ok (srun ops) syms pat ->
  exists xs start sz, fastest g syms pat lord pord = Ok (Some xs, start, sz) /\ start < length pat /\
   (undirected_start pat start -> exists it, pat !! start = Some it /\
      (((exists e, edge_match (srun ops) (pi_labels it) (pi_props it) e) /\ find_paths g syms pat lord pord eord = Panic) \/
       ((forall e, ~ edge_match (srun ops) (pi_labels it) (pi_props it) e) /\ find_paths g syms pat lord pord eord = Ok (None, [])))) /\
   (~ undirected_start pat start ->
    exists ms, (forall m, m ∈ ms -> fits_items (srun ops) syms (as_started pat start) m) /\
      (forall m, is_match (srun ops) syms (as_started pat start) m -> m ∈ ms) /\
      (repeated_fixed syms pat -> forall m, m ∈ ms -> is_match (srun ops) syms (as_started pat start) m) /\
      (no_undirected_loops (srun ops) pat -> NoDup ms) /\
      (((forall m, m ∈ ms -> joined (pm_pieces pat start m)) /\
        exists rs, find_paths g syms pat lord pord eord = Ok (None, rs) /\ Forall2 (reported_from (edge_from g) (edge_to g) pat start) ms rs) \/
       ((exists m, m ∈ ms /\ ~ joined (pm_pieces pat start m)) /\ find_paths g syms pat lord pord eord = Panic))).
Proof. exact (find_paths_from ops g syms pat lord pord eord). Qed.
Print Assumptions C67_from.
(** (a)<-[r]-(b)-[*]->(c:z), matched from c: with a loop at b the path leaves the loop out and joins ... *)
Example C67_ex : (valid_history far_ops /\ run far_ops = Ok (result far_ops)) /\ (node_list_safe far_ops /\ edge_list_safe far_ops) /\
  item_orders far_pat (lords far_pat) (pords far_pat) (fun _ => lords far_pat) /\
  (well_formed far_pat /\ pattern_askable far_ops far_pat /\ names_ok (srun far_ops) ∅ far_pat /\ repeated_fixed ∅ far_pat) /\
  starts_at far_ops ∅ far_pat = Some 4 /\
  map (fun r => (view r).1) (found far_ops ∅ far_pat) = [[(2, true); (2, false)]; [(3, true); (2, false)]; [(2, true); (2, false)]; [(3, true); (2, false)]] /\
  map (pm_pieces far_pat 4) [PM 1 [[(2, 0)]; [(2, 1)]]; PM 1 [[(2, 0)]; [(3, 0); (2, 1)]]] = [[(1, (2, 0)); (0, (2, 1))]; [(1, (2, 0)); (0, (2, 1))]].
Proof.
  split; [split; [by_compute|apply run_result; vm_compute; reflexivity]|]. split; [split; by_compute|]. split; [apply some_orders|].
  split; [exact far_hyps|]. split; [vm_compute; reflexivity|]. split; vm_compute; reflexivity.
Qed.
(** ... with two edges in a row it does not: 1 is b of (1)<-[3]-(0)-[3]->(1)-[4]->(2), of which 4 from 1 is left. *)
Example C67_panic_ex : starts_at chain_ops ∅ far_pat = Some 4 /\ search chain_ops ∅ far_pat = Panic /\
  pm_pieces far_pat 4 (PM 1 [[(3, 0)]; [(3, 1); (4, 2)]]) = [(1, (3, 0)); (1, (4, 2))].
Proof. split; [vm_compute; reflexivity|]. split; vm_compute; reflexivity. Qed.

(** The same with symbols for relationships: they restrict nothing (the matches are those for the other symbols),
    but if matching starts from a relationship, it may start from the edges of its symbol only. *)
Theorem C67_symbols ops g syms pat lord pord eord :
  valid_history ops -> run ops = Ok g -> node_list_safe ops -> edge_list_safe ops ->
  well_formed pat -> item_orders pat lord pord eord -> pattern_askable ops pat -> names_apart (srun ops) syms pat ->
  exists xs start sz, fastest g syms pat lord pord = Ok (Some xs, start, sz) /\ start < length pat /\
   (forall it, Nat.odd start = true -> pat !! start = Some it -> edges_tried (srun ops) syms it xs) /\
   (undirected_start pat start -> exists it, pat !! start = Some it /\
      (((exists e, e ∈ xs /\ edge_match (srun ops) (pi_labels it) (pi_props it) e) /\ find_paths g syms pat lord pord eord = Panic) \/
       ((forall e, e ∈ xs -> ~ edge_match (srun ops) (pi_labels it) (pi_props it) e) /\ find_paths g syms pat lord pord eord = Ok (None, [])))) /\
   (~ undirected_start pat start ->
    exists ms, (forall m, m ∈ ms -> fits_items (srun ops) (node_symbols syms pat) (as_started pat start) m /\ begins_in start xs m) /\
      (forall m, is_match (srun ops) (node_symbols syms pat) (as_started pat start) m -> begins_in start xs m -> m ∈ ms) /\
      (repeated_fixed syms pat -> forall m, m ∈ ms -> is_match (srun ops) (node_symbols syms pat) (as_started pat start) m) /\
      (no_undirected_loops (srun ops) pat -> NoDup ms) /\
      (((forall m, m ∈ ms -> joined (pm_pieces pat start m)) /\
        exists rs, find_paths g syms pat lord pord eord = Ok (None, rs) /\ Forall2 (reported_from (edge_from g) (edge_to g) pat start) ms rs) \/
       ((exists m, m ∈ ms /\ ~ joined (pm_pieces pat start m)) /\ find_paths g syms pat lord pord eord = Panic))).
Proof. exact (find_paths_symbols ops g syms pat lord pord eord). Qed.
Print Assumptions C67_symbols.
(** (a)-[r]->(b) with r = 4; with a symbol r for nodes, nothing is found. *)
Example C67_symbols_ex : (valid_history chain_ops /\ run chain_ops = Ok (result chain_ops)) /\ (node_list_safe chain_ops /\ edge_list_safe chain_ops) /\
  item_orders from_pat (lords from_pat) (pords from_pat) (fun _ => lords from_pat) /\
  (well_formed from_pat /\ pattern_askable chain_ops from_pat /\ names_apart (srun chain_ops) (rel_syms [4]) from_pat) /\
  starts_at chain_ops (rel_syms [4]) from_pat = Some 1 /\
  map (fun r => (view r).1) (found chain_ops (rel_syms [4]) from_pat) = [[(4, false)]] /\
  map (fun r => (view r).1) (found chain_ops {["r" := PSym (Some [0]) None]} from_pat) = [] /\
  map (fun r => (view r).1) (found chain_ops ∅ from_pat) = [[(3, false)]; [(4, false)]].
Proof.
  split; [split; [by_compute|apply run_result; vm_compute; reflexivity]|]. split; [split; by_compute|]. split; [apply some_orders|].
  split; [exact (proj2 sym_hyps)|]. split; [vm_compute; reflexivity|]. split; [vm_compute; reflexivity|]. split; vm_compute; reflexivity.
Qed.
