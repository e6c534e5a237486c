(** C81, C82: copies of a graph in a graph without nodes. *)
From Verif Require Import Base Value Index Graph GraphSpec Sizes Alg AlgSpec AlgProofs Clone CloneSpec CloneProofs JsonText Json JsonSpec JsonTripProofs.
From Verif Require Import Path PathSpec Pattern PatternSpec PatternProofs IsoSpec IsoProofs IsoCopyProofs IsoExamples GraphExamples JsonExamples PatternExamples.
From Verif Require Import PropertiesNodes PropertiesAlg PropertiesClone PropertiesJson.
Local Open Scope string_scope.
Local Open Scope list_scope.

(** C81 in full: CheckIsomorphism, comparing labels and properties, accepts a graph and what CopyGraph makes of it in a
    graph without nodes, in both directions. *)
Definition C81_statement : Prop := forall sops src tops tgt ord m g' mord k,
  valid_history sops -> run sops = Ok src -> valid_history tops -> run tops = Ok tgt -> s_nodes (srun tops) = ∅ ->
  label_orders (srun sops) ord -> copy_graph src tgt (fun _ v => v) ord = Ok (m, g') ->
  map_order mord -> size (s_nodes (srun sops)) ^ size (s_nodes (srun sops)) <= k ->
  check_isomorphism src g' (nodes_equal src g') (edges_equal src g') mord k = Ok true /\
  check_isomorphism g' src (nodes_equal g' src) (edges_equal g' src) mord k = Ok true.
(** False for the graphs of C01: the edge to the node that is not listed is not copied. *)
Definition C81_witness : list op := C01_witness ++ [ONewEdge 0 3 "A" ∅].
Theorem C81_refuted : exists sops src m g', (valid_history sops /\ run sops = Ok src) /\
  label_orders (srun sops) (fun _ => []) /\ copy_graph src new_graph (fun _ v => v) (fun _ => []) = Ok (m, g') /\
  forall mord k, check_isomorphism src g' (nodes_equal src g') (edges_equal src g') mord k = Ok false.
Proof.
  set (x := match copy_graph (result C81_witness) new_graph (fun _ v => v) (fun _ => []) with Ok x => x | _ => (∅, new_graph) end).
  exists C81_witness, (result C81_witness), x.1, x.2.
  split; [split; [by_compute|apply run_result; vm_compute; reflexivity]|].
  split; [intros n y Hy; assert (map_Forall (fun _ y => order_of (sn_labels y) []) (s_nodes (srun C81_witness))) as H by by_compute; exact (H n y Hy)|].
  split; [vm_compute; reflexivity|]. intros mord k. vm_compute. reflexivity.
Qed.
Print Assumptions C81_refuted.
(** What holds: it does if the lists of all nodes and edges of both graphs are right (missing: others). *)
Theorem C81_partial sops src tops tgt ord m g' mord k :
  valid_history sops -> run sops = Ok src -> valid_history tops -> run tops = Ok tgt ->
  node_list_safe sops -> edge_list_safe sops -> node_list_safe tops -> edge_list_safe tops -> s_nodes (srun tops) = ∅ ->
  label_orders (srun sops) ord -> copy_graph src tgt (fun _ v => v) ord = Ok (m, g') ->
  map_order mord -> size (s_nodes (srun sops)) ^ size (s_nodes (srun sops)) <= k ->
  check_isomorphism src g' (nodes_equal src g') (edges_equal src g') mord k = Ok true /\
  check_isomorphism g' src (nodes_equal g' src) (edges_equal g' src) mord k = Ok true.
Proof.
  exact (fun Hv Hr Hvt Hrt Hns Hes Hnt Het He Ho Hc => match copy_graph_made sops src tops tgt Hv Hr Hvt Hrt Hns Hes Hnt Het He ord m g' Ho Hc with
    ex_intro _ h Hm => made_check sops src tops Hv Hr Hns Hes g' _ h mord k Hm end).
Qed.
Print Assumptions C81_partial.
(** The same for what Decode makes of what Encode writes, if labels and properties survive (C39, C40). *)
Theorem C81_json_partial sops src tops tgt pm pu sep ord lord lord' r ts g' b mord k :
  valid_history sops -> run sops = Ok src -> valid_history tops -> run tops = Ok tgt ->
  node_list_safe sops -> edge_list_safe sops -> node_list_safe tops -> edge_list_safe tops -> s_nodes (srun tops) = ∅ ->
  (sep = true -> s_nodes (srun sops) <> ∅) ->
  writable pm pu (srun sops) -> node_order src ord -> label_order (srun sops) lord -> (forall i X, order_of X (lord' i X)) ->
  encode src pm sep ord lord = Ok (Some ts) -> decode pu lord' tgt (ts ++ r) = Ok (g', b) ->
  map_order mord -> size (s_nodes (srun sops)) ^ size (s_nodes (srun sops)) <= k ->
  b = true /\ check_isomorphism src g' (nodes_equal src g') (edges_equal src g') mord k = Ok true /\
  check_isomorphism g' src (nodes_equal g' src) (edges_equal g' src) mord k = Ok true.
Proof.
  exact (fun Hv Hr Hvt Hrt Hns Hes Hnt Het He Hne Hw Ho Hl Hl' H1 H2 Hm Hk =>
    match json_made sops src tops tgt Hv Hr Hvt Hrt Hns Hes Hnt Het He pm pu sep ord lord lord' r ts g' b Hne Hw Ho Hl Hl' H1 H2 with
    conj Hb (ex_intro _ f (ex_intro _ h H)) => conj Hb (made_check sops src tops Hv Hr Hns Hes g' f h mord k H Hm Hk) end).
Qed.
Print Assumptions C81_json_partial.
(** the graph of C39_ex, copied to a graph whose only node was removed; with one property or label changed it is not accepted *)
Definition C81_tops : list op := [pnode "x"; ODetachRemove 0 ["x"]].
Definition keys (m : gmap nat nat) : list nat := (map_to_list m).*1.
Definition C81_check (g1 g2 : graph) : res bool := check_isomorphism g1 g2 (nodes_equal g1 g2) (edges_equal g1 g2) keys 27.
Definition C81_changed (o : op) : res bool :=
  let ops := C39_sops ++ [o] in
  let! x := copy_graph (result ops) (result C81_tops) (fun _ v => v) (fun n => match s_nodes (srun ops) !! n with Some x => elements (sn_labels x) | None => [] end) in
  C81_check (result C39_sops) x.2.
Example C81_ex : (valid_history C39_sops /\ run C39_sops = Ok (result C39_sops) /\ node_list_safe C39_sops /\ edge_list_safe C39_sops) /\
  (valid_history C81_tops /\ run C81_tops = Ok (result C81_tops) /\ node_list_safe C81_tops /\ edge_list_safe C81_tops /\ s_nodes (srun C81_tops) = ∅) /\
  (writable dm du (srun C39_sops) /\ node_order (result C39_sops) [3; 0; 2] /\ label_orders (srun C39_sops) C39_lord /\ (forall i X, order_of X (sorted i X))) /\
  (map_order keys /\ size (s_nodes (srun C39_sops)) ^ size (s_nodes (srun C39_sops)) = 27) /\
  match copy_graph (result C39_sops) (result C81_tops) (fun _ v => v) C39_lord with
  | Ok (m, g) => m !! 3 = Some 3 /\ C81_check (result C39_sops) g = Ok true /\ C81_check g (result C39_sops) = Ok true | _ => False end /\
  match decode du sorted (result C81_tops) (written C39_sops true [3; 0; 2] C39_lord) with
  | Ok (g, b) => b = true /\ get_nodes g = Ok [1; 2; 3] /\ C81_check (result C39_sops) g = Ok true /\ C81_check g (result C39_sops) = Ok true | _ => False end /\
  map C81_changed [OSetNodeProp 3 "k" VNil; OSetLabels 2 {["P"]} [] ["P"]; OSetEdgeProp 7 "w" VNil; OSetEdgeLabel 5 "A"; OAddNodeIndex "m" HashIndex] =
    [Ok false; Ok false; Ok false; Ok false; Ok true].
Proof.
  split; [split; [by_compute|]; split; [apply run_result; vm_compute; reflexivity|split; by_compute]|].
  split; [split; [by_compute|]; split; [apply run_result; vm_compute; reflexivity|]; split; [by_compute|]; split; [by_compute|]; by_compute|].
  split; [split; [apply check_writable; by_compute|]; split; [apply (check_node_order _ _ [0; 2; 3]); [vm_compute; reflexivity|by_compute]|];
    split; [apply check_label_order; by_compute|exact elements_order]|].
  split; [split; [intros ?; reflexivity|vm_compute; reflexivity]|].
  split; [vm_compute; split_and!; reflexivity|]. split; [vm_compute; split_and!; reflexivity|]. vm_compute. reflexivity.
Qed.

(** C82 in full: FindPaths finds in a copy what it finds in the graph, [h] giving the copies of edges. *)
Definition C82_statement : Prop := forall sops src tops tgt ord m g' syms pat lord1 pord1 eord1 lord2 pord2 eord2 rs1 rs2,
  valid_history sops -> run sops = Ok src -> valid_history tops -> run tops = Ok tgt -> s_nodes (srun tops) = ∅ ->
  label_orders (srun sops) ord -> copy_graph src tgt (fun _ v => v) ord = Ok (m, g') ->
  well_formed pat -> item_orders pat lord1 pord1 eord1 -> item_orders pat lord2 pord2 eord2 -> names_ok (srun sops) syms pat ->
  let f n := default 0 (m !! n) in exists h,
  find_paths src syms pat lord1 pord1 eord1 = Ok (None, rs1) -> find_paths g' (move_sym f h <$> syms) pat lord2 pord2 eord2 = Ok (None, rs2) ->
  exists ms1 ms2, Forall2 (reported (edge_from src) (edge_to src) pat) ms1 rs1 /\
    Forall2 (reported (edge_from g') (edge_to g') pat) ms2 rs2 /\ ms2 ≡ₚ map (move_match f h) ms1.
(** False: see C80_refuted; the copy lacks the index of the source. *)
Theorem C82_refuted : exists sops src m g' pat lord pord eord rs1 rs2 r,
  (valid_history sops /\ run sops = Ok src) /\
  label_orders (srun sops) (fun _ => []) /\ copy_graph src new_graph (fun _ v => v) (fun _ => []) = Ok (m, g') /\
  (well_formed pat /\ item_orders pat lord pord eord /\ names_ok (srun sops) ∅ pat) /\
  find_paths src ∅ pat lord pord eord = Ok (None, rs1) /\ find_paths g' ∅ pat lord pord eord = Ok (None, rs2) /\
  (length rs2 = 2 /\ r ∈ rs1) /\ forall ms, ~ reported (edge_from src) (edge_to src) pat ms r.
Proof.
  destruct ix_unsound as (r & Hr & Hno).
  set (x := match copy_graph (result (ix_ops true)) new_graph (fun _ v => v) (fun _ => []) with Ok x => x | _ => (∅, new_graph) end).
  set (rs2 := match find_paths x.2 ∅ ix_pat (lords ix_pat) (pords ix_pat) (fun _ => lords ix_pat) with Ok (None, rs) => rs | _ => [] end).
  exists (ix_ops true), (result (ix_ops true)), x.1, x.2, ix_pat, (lords ix_pat), (pords ix_pat), (fun _ => lords ix_pat), (found (ix_ops true) ∅ ix_pat), rs2, r.
  split; [split; [by_compute|apply run_result; vm_compute; reflexivity]|].
  split; [intros n y Hy; assert (map_Forall (fun _ y => order_of (sn_labels y) []) (s_nodes (srun (ix_ops true)))) as H by by_compute; exact (H n y Hy)|].
  split; [vm_compute; reflexivity|].
  split; [split; [by exists 1|]; split; [apply some_orders|apply no_symbols; intros i it Hi; edge_item Hi; reflexivity]|].
  split; [apply search_found; vm_compute; reflexivity|]. split; [vm_compute; reflexivity|].
  split; [split; [vm_compute; reflexivity|exact Hr]|exact Hno].
Qed.
Print Assumptions C82_refuted.
(** What holds (missing: other histories, other patterns, targets with indexes): *)
Theorem C82_partial sops src tops tgt ord m g' :
  valid_history sops -> run sops = Ok src -> valid_history tops -> run tops = Ok tgt ->
  node_list_safe sops -> edge_list_safe sops -> node_list_safe tops -> edge_list_safe tops -> s_nodes (srun tops) = ∅ ->
  (forall k, node_index tops k = None) -> (forall k, edge_index tops k = None) ->
  label_orders (srun sops) ord -> copy_graph src tgt (fun _ v => v) ord = Ok (m, g') ->
  let f n := default 0 (m !! n) in exists h, forall syms pat lord1 pord1 eord1 lord2 pord2 eord2,
  well_formed pat -> item_orders pat lord1 pord1 eord1 -> item_orders pat lord2 pord2 eord2 ->
  pattern_askable sops pat -> names_ok (srun sops) syms pat -> one_edge_right pat -> repeated_fixed syms pat ->
  exists rs1 rs2 ms1 ms2, find_paths src syms pat lord1 pord1 eord1 = Ok (None, rs1) /\
    find_paths g' (move_sym f h <$> syms) pat lord2 pord2 eord2 = Ok (None, rs2) /\
    Forall2 (reported (edge_from src) (edge_to src) pat) ms1 rs1 /\ Forall2 (reported (edge_from g') (edge_to g') pat) ms2 rs2 /\
    ms2 ≡ₚ map (move_match f h) ms1.
Proof.
  exact (fun Hv Hr Hvt Hrt Hns Hes Hnt Het He In Ie Ho Hc => match copy_graph_made sops src tops tgt Hv Hr Hvt Hrt Hns Hes Hnt Het He ord m g' Ho Hc with
    ex_intro _ h Hm => ex_intro _ h (fun syms pat lord1 pord1 eord1 lord2 pord2 eord2 =>
      made_search sops src tops Hv Hr Hns Hes g' _ h syms pat lord1 pord1 eord1 lord2 pord2 eord2 Hm In Ie) end).
Qed.
Print Assumptions C82_partial.
(** In what Decode makes of what Encode writes, for some correspondence of nodes and edges: *)
Theorem C82_json_partial sops src tops tgt pm pu sep ord lord lord' r ts g' b :
  valid_history sops -> run sops = Ok src -> valid_history tops -> run tops = Ok tgt ->
  node_list_safe sops -> edge_list_safe sops -> node_list_safe tops -> edge_list_safe tops -> s_nodes (srun tops) = ∅ ->
  (forall k, node_index tops k = None) -> (forall k, edge_index tops k = None) ->
  (sep = true -> s_nodes (srun sops) <> ∅) ->
  writable pm pu (srun sops) -> node_order src ord -> label_order (srun sops) lord -> (forall i X, order_of X (lord' i X)) ->
  encode src pm sep ord lord = Ok (Some ts) -> decode pu lord' tgt (ts ++ r) = Ok (g', b) ->
  b = true /\ exists f h, forall syms pat lord1 pord1 eord1 lord2 pord2 eord2,
  well_formed pat -> item_orders pat lord1 pord1 eord1 -> item_orders pat lord2 pord2 eord2 ->
  pattern_askable sops pat -> names_ok (srun sops) syms pat -> one_edge_right pat -> repeated_fixed syms pat ->
  exists rs1 rs2 ms1 ms2, find_paths src syms pat lord1 pord1 eord1 = Ok (None, rs1) /\
    find_paths g' (move_sym f h <$> syms) pat lord2 pord2 eord2 = Ok (None, rs2) /\
    Forall2 (reported (edge_from src) (edge_to src) pat) ms1 rs1 /\ Forall2 (reported (edge_from g') (edge_to g') pat) ms2 rs2 /\
    ms2 ≡ₚ map (move_match f h) ms1.
Proof.
  exact (fun Hv Hr Hvt Hrt Hns Hes Hnt Het He In Ie Hne Hw Ho Hl Hl' H1 H2 =>
    match json_made sops src tops tgt Hv Hr Hvt Hrt Hns Hes Hnt Het He pm pu sep ord lord lord' r ts g' b Hne Hw Ho Hl Hl' H1 H2 with
    conj Hb (ex_intro _ f (ex_intro _ h Hm)) => conj Hb (ex_intro _ f (ex_intro _ h (fun syms pat lord1 pord1 eord1 lord2 pord2 eord2 =>
      made_search sops src tops Hv Hr Hns Hes g' f h syms pat lord1 pord1 eord1 lord2 pord2 eord2 Hm In Ie))) end).
Qed.
Print Assumptions C82_json_partial.
(** (a)-[]->(b)-[r*0..1]->(c {k: 1}) in the graph of C80_ex that has an index, and in its copy, which has none *)
Definition C82_syms : symbols := {["b" := PSym (Some [1; 0]) None]}.
Definition C82_find (g : graph) (syms : symbols) : list (list (nat * bool)) :=
  match find_paths g syms two_pat (lords two_pat) (pords two_pat) (fun _ => lords two_pat) with Ok (None, rs) => map (fun r => (view r).1) rs | _ => [] end.
Example C82_ex : (valid_history other_ops /\ run other_ops = Ok (result other_ops) /\ node_list_safe other_ops /\ edge_list_safe other_ops) /\
  (valid_history C81_tops /\ run C81_tops = Ok (result C81_tops) /\ node_list_safe C81_tops /\ edge_list_safe C81_tops /\ s_nodes (srun C81_tops) = ∅) /\
  ((forall k, node_index C81_tops k = None) /\ (forall k, edge_index C81_tops k = None)) /\ label_orders (srun other_ops) (fun _ => []) /\
  item_orders two_pat (lords two_pat) (pords two_pat) (fun _ => lords two_pat) /\
  (well_formed two_pat /\ pattern_askable other_ops two_pat /\ names_ok (srun other_ops) C82_syms two_pat /\ one_edge_right two_pat /\ repeated_fixed C82_syms two_pat) /\
  match copy_graph (result other_ops) (result C81_tops) (fun _ v => v) (fun _ => []) with
  | Ok (m, g) => map (fun n => m !! n) [0; 1; 4] = [Some 1; Some 2; Some 3] /\
      C82_find (result other_ops) C82_syms = [[(5, false); (3, false)]] /\ C82_find g {["b" := PSym (Some [2; 1]) None]} = [[(5, false); (4, false)]]
  | _ => False end.
Proof.
  split; [split; [by_compute|]; split; [apply run_result; vm_compute; reflexivity|split; by_compute]|].
  split; [split; [by_compute|]; split; [apply run_result; vm_compute; reflexivity|]; split; [by_compute|]; split; [by_compute|]; by_compute|].
  split; [done|].
  split; [intros n y Hy; assert (map_Forall (fun _ y => order_of (sn_labels y) []) (s_nodes (srun other_ops))) as H by by_compute; exact (H n y Hy)|].
  split; [apply some_orders|]. split; [|vm_compute; split_and!; reflexivity].
  destruct two_hyps as (W & N & O & R). split; [exact W|]. split; [apply two_askable; by_compute|].
  assert (C82_syms = move_sym to_node to_edge <$> two_syms) as E by (symmetry; exact two_syms_moved).
  split; [rewrite E; exact (iso_names_ok to_node to_edge _ _ other_same two_syms two_pat N)|]. split; [exact O|]. rewrite E. exact (iso_repeated to_node to_edge two_syms two_pat R).
Qed.
