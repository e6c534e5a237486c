{
 "claims": [
  {
   "property": "C01",
   "status": "partial",
   "theorems": [
    "C01_refuted",
    "C01_removed_node_listed_refuted",
    "C01_partial",
    "C01_characterised"
   ],
   "note": "False as stated (C01_refuted: removing the newest node hides later nodes; C01_removed_node_listed_refuted). Proved for all histories accepted by node_list_safe, and that guard is exact (C01_characterised)."
  },
  {
   "property": "C02",
   "status": "proved",
   "theorems": [
    "C02_num_nodes_exact"
   ],
   "note": "All valid histories."
  },
  {
   "property": "C03",
   "status": "proved",
   "theorems": [
    "C03_outgoing_exact",
    "C03_incoming_exact"
   ],
   "note": "All valid histories, no guard."
  },
  {
   "property": "C04",
   "status": "proved",
   "theorems": [
    "C04_any_is_in_then_out"
   ],
   "note": "All valid histories, with multiplicities."
  },
  {
   "property": "C05",
   "status": "proved",
   "theorems": [
    "C05_label_exact",
    "C05_any_label_exact"
   ],
   "note": "All valid histories, directions, labels, label sets and iteration orders."
  },
  {
   "property": "C06",
   "status": "partial",
   "theorems": [
    "C06_refuted",
    "C06_count_refuted",
    "C06_partial"
   ],
   "note": "False as stated (C06_refuted, C06_count_refuted: SetLabel does not refile the edge in allEdges). Proved for all histories in which no edge is removed while filed under an old label (edge_list_safe)."
  },
  {
   "property": "C07",
   "status": "partial",
   "theorems": [
    "C07_refuted",
    "C07_characterised",
    "C07_partial"
   ],
   "note": "False as stated (C07_refuted). C07_characterised says what is enumerated; exact if all edges are filed under their current label."
  },
  {
   "property": "C08",
   "status": "proved",
   "theorems": [
    "C08_nodes_with_all_labels_exact",
    "C08_empty_set_panics_refuted"
   ],
   "note": "All valid histories, all non-empty label sets and iteration orders; MaxSize bound included. The empty set panics (C08_empty_set_panics_refuted)."
  },
  {
   "property": "C09",
   "status": "proved",
   "theorems": [
    "C09_node_reads",
    "C09_edge_reads",
    "C09_set_labels",
    "C09_set_node_property",
    "C09_remove_node_property",
    "C09_edge_writes",
    "C09_other_nodes_unchanged",
    "C09_other_edges_unchanged"
   ],
   "note": "Refinement to the abstract graph, plus per-call write and frame theorems."
  },
  {
   "property": "C10",
   "status": "proved",
   "theorems": [
    "C10_ids_increase"
   ],
   "note": "All histories, valid or not, that do not panic."
  },
  {
   "property": "C11",
   "status": "proved",
   "theorems": [
    "C11_detach",
    "C11_detach_and_remove"
   ],
   "note": "All valid histories. That GetNodes also loses exactly the node is C01."
  },
  {
   "property": "C12",
   "status": "proved",
   "theorems": [
    "C12_no_dangling_edges"
   ],
   "note": "All valid histories."
  },
  {
   "property": "C13",
   "status": "partial",
   "theorems": [
    "C13_refuted",
    "C13_partial",
    "C13_index_irrelevant_partial"
   ],
   "note": "False as stated (C13_refuted: index creation reads the wrong node list of C01). Proved for storable values whenever the node list is right at the points where it is read; index type and creation time are irrelevant (C13_index_irrelevant_partial)."
  },
  {
   "property": "C14",
   "status": "partial",
   "theorems": [
    "C14_refuted",
    "C14_hash_refuted",
    "C14_partial",
    "C14_no_criteria_partial",
    "C14_refused_value"
   ],
   "note": "False as stated: properties without labels panic (C14_refuted), nested native values are missed by hash indexes (C14_hash_refuted). Proved for all non-empty label sets, all indexes over values they can be asked for, all iteration orders, with the MaxSize bound; without criteria under the guard of C01."
  },
  {
   "property": "C15",
   "status": "partial",
   "theorems": [
    "C15_refuted",
    "C15_labels_refuted",
    "C15_removed_refuted",
    "C15_characterised",
    "C15_no_criteria_partial",
    "C15_refused_value"
   ],
   "note": "False as stated (C15_refuted, C15_labels_refuted, C15_removed_refuted). C15_characterised: exact if a requested property is indexed or there is at most one edge, otherwise all edges are returned unfiltered."
  },
  {
   "property": "C16",
   "status": "partial",
   "theorems": [
    "C16_refuted",
    "C16_characterised",
    "C16_partial"
   ],
   "note": "False as stated (C16_refuted: Edge.Remove leaves the edge in the index). C16_characterised gives the exact contents; exact when no indexed edge was removed by Edge.Remove."
  },
  {
   "property": "C17",
   "status": "proved",
   "theorems": [
    "C17_antisymmetric",
    "C17_reflexive",
    "C17_transitive",
    "C17_equal_means_equal",
    "C17_equal_congruent",
    "C17_native",
    "C17_ints",
    "C17_strings",
    "C17_int_slices",
    "C17_string_slices",
    "C17_comparability_transitive_refuted"
   ],
   "note": "For all values of any nesting. Transitivity is stated for triples whose three comparisons are defined; comparability itself is not transitive (C17_comparability_transitive_refuted)."
  },
  {
   "property": "C18",
   "status": "proved",
   "theorems": [
    "C18_node_filter_exact",
    "C18_edge_filter_exact"
   ],
   "note": "All nodes/edges, label sets, property maps and iteration orders. 'Comparing equal' is ComparePropertyValue = 0 without panic, so values it does not support never match."
  },
  {
   "property": "C19",
   "status": "proved",
   "theorems": [
    "C19_new",
    "C19_add",
    "C19_add_set",
    "C19_remove",
    "C19_has",
    "C19_has_any",
    "C19_has_all",
    "C19_has_any_set",
    "C19_has_all_set",
    "C19_is_equal",
    "C19_slice",
    "C19_sorted_slice"
   ],
   "note": "All heaps, sets, arguments and iteration orders; SortedSlice included. Direct writes to the exported field M and the JSON methods are not part of the model."
  },
  {
   "property": "C20",
   "status": "proved",
   "theorems": [
    "C20_independent",
    "C20_frame"
   ],
   "note": "Every program over any number of StringSet variables, heap of shared maps explicit."
  },
  {
   "property": "C21",
   "status": "partial",
   "theorems": [
    "C21_partial",
    "C21_refuted"
   ],
   "note": "Proved for elements with distinct ids, i.e. of one graph. For nodes of several graphs it is false (C21_refuted): elements are identified by id."
  },
  {
   "property": "C22",
   "status": "partial",
   "theorems": [
    "C22_partial",
    "C22_refuted",
    "C22_every",
    "C22_sets"
   ],
   "note": "False as stated (C22_refuted: Replace with an empty set). Proved for all histories without such a Replace, all iteration orders. C22_every says how often each node is yielded in every history (for a node with labels, bounds)."
  },
  {
   "property": "C23",
   "status": "partial",
   "theorems": [
    "C23_foreign_node_panics",
    "C23_creates_the_edge",
    "C23_refuted",
    "C23_partial"
   ],
   "note": "Foreign nodes panic; a returning call creates exactly the edge. That it always returns on live nodes is false (C23_refuted) and proved under edge_list_safe for properties without index."
  },
  {
   "property": "C24",
   "status": "proved",
   "theorems": [
    "C24_C25_C26_collect_all_paths",
    "C24_only_trails",
    "C24_trails_connected"
   ],
   "note": "All valid histories, all filters, directions, bounds, first legs made of edges at the node, and all accumulators (stateful, stopping at any time)."
  },
  {
   "property": "C25",
   "status": "proved",
   "theorems": [
    "C25_all_trails_once"
   ],
   "note": "All valid histories, filters, directions, bounds and first legs made of edges at the node."
  },
  {
   "property": "C26",
   "status": "proved",
   "theorems": [
    "C26_terminates_prefix"
   ],
   "note": "All of C24; recursion depth is bounded by the number of edges. Accumulators do not modify the graph. See also C24_C25_C26_collect_all_paths for arbitrary stateful accumulators."
  },
  {
   "property": "C27",
   "status": "proved",
   "theorems": [
    "C27_append",
    "C27_append_panics"
   ],
   "note": "All connected non-empty paths and element lists."
  },
  {
   "property": "C28",
   "status": "partial",
   "theorems": [
    "C28_accessors",
    "C28_get_node",
    "C28_get_edge",
    "C28_edges_join",
    "C28_made_paths",
    "C28_from_edges",
    "C28_refuted"
   ],
   "note": "Proved for all connected paths, and every path made with the checking operations is connected. False for NewPathFromElements and Append on an empty path, which do not check (C28_refuted)."
  },
  {
   "property": "C29",
   "status": "partial",
   "theorems": [
    "C29_refuted",
    "C29_single_edge_refuted",
    "C29_last_partial",
    "C29_first_partial",
    "C29_node_partial"
   ],
   "note": "False as stated (C29_refuted: the edge is deleted from the graph; C29_single_edge_refuted). Proved: effect on paths of two or more edges, and the exact change of the graph."
  },
  {
   "property": "C30",
   "status": "partial",
   "theorems": [
    "C30_refuted",
    "C30_nodes_refuted",
    "C30_argument_refuted",
    "C30_partial",
    "C30_short_argument",
    "C30_short_receiver"
   ],
   "note": "False as stated when one path has no edges (C30_refuted, C30_nodes_refuted, C30_argument_refuted). Proved when both have edges; C30_short_* say what happens otherwise."
  },
  {
   "property": "C31",
   "status": "partial",
   "theorems": [
    "C31_refuted",
    "C31_partial",
    "C31_elements"
   ],
   "note": "False for loops traversed backwards (C31_refuted); proved for all other paths."
  },
  {
   "property": "C32",
   "status": "partial",
   "theorems": [
    "C32_refuted",
    "C32_empty_refuted",
    "C32_partial"
   ],
   "note": "False for single nodes before the last (C32_refuted) and empty ranges (C32_empty_refuted); proved for all other ranges."
  },
  {
   "property": "C33",
   "status": "partial",
   "theorems": [
    "C33_refuted",
    "C33_partial",
    "C33_returns_partial",
    "C33_index_refuted",
    "C33_isomorphic",
    "C33_graphf_partial"
   ],
   "note": "False for sources of C01 (C33_refuted), and the call panics if an index of the target cannot hold a copied value (C33_index_refuted). Proved for all sources whose lists of nodes and edges are right, all targets, maps of values and orders. Source and target are distinct graphs."
  },
  {
   "property": "C34",
   "status": "proved",
   "theorems": [
    "C34_copy_subgraph",
    "C34_returns",
    "C34_copy_edge",
    "C34_copy_edge_returns",
    "C34_copy_edge_unmapped"
   ],
   "note": "All sources, start nodes, targets and initial maps to live nodes of the target, whenever the call returns; it returns if adding to the target does not panic (C34_returns). Source and target are distinct graphs."
  },
  {
   "property": "C35",
   "status": "partial",
   "theorems": [
    "C35_refuted",
    "C35_partial",
    "C35_C36_characterised"
   ],
   "note": "False after the histories of C01 (C35_refuted). Proved, with termination, for all graphs whose node and edge lists are right, all equivalence functions and all map orders. The context is never cancelled; the equivalence functions are pure."
  },
  {
   "property": "C36",
   "status": "partial",
   "theorems": [
    "C36_refuted",
    "C36_parallel_refuted",
    "C36_partial"
   ],
   "note": "False: nodes (C36_refuted) and parallel edges (C36_parallel_refuted) are not matched one to one. Proved when no two nodes, and no two parallel edges, are equivalent to the same one; C35_C36_characterised says exactly what is decided."
  },
  {
   "property": "C37",
   "status": "partial",
   "theorems": [
    "C37_refuted",
    "C37_sources_partial",
    "C37_sinks_partial",
    "C37_for_each_partial",
    "C37_edges_between"
   ],
   "note": "EdgesBetweenNodes proved in full; the others are false after the histories of C01 (C37_refuted) and proved for all others."
  },
  {
   "property": "C38",
   "status": "partial",
   "theorems": [
    "C38_refuted",
    "C38_any_characterised",
    "C38_nodes_partial",
    "C38_nodes_with_partial",
    "C38_no_node",
    "C38_named"
   ],
   "note": "False for AnyEdge (C38_refuted, exact behaviour in C38_any_characterised); proved for incoming and outgoing, with and without label."
  },
  {
   "property": "C39",
   "status": "partial",
   "theorems": [
    "C39_refuted",
    "C39_labels_refuted",
    "C39_properties_refuted",
    "C39_partial",
    "C39_utf8",
    "C39_kept",
    "C39_replaced",
    "C39_valid",
    "C39_plain"
   ],
   "note": "False for graphs of C01 (C39_refuted) and labels that are not UTF-8 (C39_labels_refuted). Proved for all graphs whose node list is right and whose labels and properties survive the marshalers, all map orders, any target graph. encoding/json is modelled at the level of tokens and trusted (JsonText.v)."
  },
  {
   "property": "C40",
   "status": "partial",
   "theorems": [
    "C40_refuted",
    "C40_partial"
   ],
   "note": "As C39, also needs the edge list to be right; false for the empty graph (C40_refuted)."
  },
  {
   "property": "C41",
   "status": "partial",
   "theorems": [
    "C41_refuted",
    "C41_partial",
    "C41_no_nodes",
    "C41_keys"
   ],
   "note": "False for graphs without nodes if edges are written separately (C41_refuted, always: C41_no_nodes); proved in all other cases."
  },
  {
   "property": "C42",
   "status": "partial",
   "theorems": [
    "C42_refuted",
    "C42_empty_refuted",
    "C42_nested_refuted",
    "C42_partial"
   ],
   "note": "False for objects and most arrays as values (C42_refuted, C42_empty_refuted, C42_nested_refuted). Proved for the values passing the explicit test skip, among them all scalars."
  },
  {
   "property": "C43",
   "status": "partial",
   "theorems": [
    "C43_refuted",
    "C43_partial",
    "C43_returns_partial",
    "C43_any_input",
    "C43_any_input_returns_partial"
   ],
   "note": "False only because of C42 (C43_refuted). Proved, as equivalence and with the exact result, for all documents whose unknown keys pass skip; C43_any_input holds for every input."
  },
  {
   "property": "C44",
   "status": "partial",
   "theorems": [
    "C44_refuted",
    "C44_partial",
    "C44_render_partial",
    "C44_default_partial"
   ],
   "note": "False for graphs of C01 (C44_refuted). Proved for all graphs whose node and edge lists are right and all renderers, stateful, refusing or failing ones included (they do not change the graph), and for Render all writers (C44_render_partial); C44_default_partial gives the exact text of Render with the default renderers, whose labels are not escaped (C44_label_ex)."
  },
  {
   "property": "C45",
   "status": "partial",
   "theorems": [
    "C45_refuted",
    "C45_partial",
    "C45_run_partial",
    "C45_symbol_refuted"
   ],
   "note": "False when matching starts after a relationship of variable length (C45_refuted) or from a relationship not pointing to the right (C45_left_ex). Proved for all patterns and graphs, indexes and symbols for nodes, when the start chosen by the planner satisfies starts_well; for other starts C67 says exactly what is reported; also for arbitrary accumulators (C45_run_partial). Symbols for relationships are ignored unless matching starts there (C45_symbol_refuted). Results may violate repeated names: C47."
  },
  {
   "property": "C46",
   "status": "partial",
   "theorems": [
    "C46_refuted",
    "C46_undirected_refuted",
    "C46_twice_refuted",
    "C46_partial"
   ],
   "note": "False: panics for relationships to the left or undirected ones as start (C46_refuted, C46_undirected_refuted), undirected loops twice (C46_twice_refuted). Proved for patterns of single edges to the right whichever item is the start (C46_partial), and for other patterns depending on the start (C45_partial)."
  },
  {
   "property": "C47",
   "status": "partial",
   "theorems": [
    "C47_refuted",
    "C47_partial"
   ],
   "note": "False: leaving the inner use of a name unbinds the outer one (C47_refuted). Proved if repeated names are symbols with one node, in particular if no name is repeated."
  },
  {
   "property": "C48",
   "status": "partial",
   "theorems": [
    "C48_node_edges",
    "C48_node_edges_label",
    "C48_refuted",
    "C48_minus_two_refuted",
    "C48_nodes_refuted",
    "C48_partial",
    "C48_nodes_partial",
    "C48_edges_partial",
    "C48_edges_any_label",
    "C48_nodes_with_property_partial",
    "C48_edges_with_property_partial"
   ],
   "note": "False for node.GetEdgesWithAnyLabel(AnyEdge) (C48_refuted, C48_minus_two_refuted) and for GetNodes in the histories of C01 (C48_nodes_refuted). Proved, mostly as equality, for all other edge iterators of a node, and for the graph's iterators under the guards of C01/C06; label and Find iterators are in C08, C14, C15."
  },
  {
   "property": "C49",
   "status": "proved",
   "theorems": [
    "C49_string_table",
    "C49_reuse",
    "C49_double_free"
   ],
   "note": "Every sequence of calls that frees only references that are held; freeing one twice makes strings share a slot (C49_double_free). The table is not used by the rest of the package."
  },
  {
   "property": "C50",
   "status": "proved",
   "theorems": [
    "C50_filter",
    "C50_unique",
    "C50_proc",
    "C50_multi",
    "C50_list",
    "C50_nodes_from_edges",
    "C50_slice",
    "C50_deterministic",
    "C50_node_and_edge_lists",
    "C50_edge_map",
    "C50_edge_map_label",
    "C50_edge_map_any_label"
   ],
   "note": "Iterators as step machines; every underlying machine and function. Also shows that the lists used by the graph model are what the list and edgeMap iterators yield."
  },
  {
   "property": "C51",
   "status": "partial",
   "theorems": [
    "C51_refuted",
    "C51_nodes_refuted",
    "C51_partial"
   ],
   "note": "False as stated (C51_refuted: removing an edge twice empties the list of its label; C51_nodes_refuted). Proved harmless when no live edge has the label."
  },
  {
   "property": "C52",
   "status": "proved",
   "theorems": [
    "C52_next_nodes_with",
    "C52_prev_nodes_with",
    "C52_target_and_source_nodes"
   ],
   "note": "All valid histories, nodes and labels; TargetNodes/SourceNodes over any iterator. Results are sets: the order of the slice is Go's map order."
  },
  {
   "property": "C53",
   "status": "partial",
   "theorems": [
    "C53_refuted",
    "C53_index_refuted",
    "C53_partial"
   ],
   "note": "False as stated (C53_refuted: damaged edge list; C53_index_refuted: incomparable values in a B-tree index). Proved for all histories with intact edge lists and indexable values (calls_safe)."
  },
  {
   "property": "C54",
   "status": "partial",
   "theorems": [
    "C54_characterised",
    "C54_every",
    "C54_refuted"
   ],
   "note": "False as stated (C54_refuted: nodes without labels are ignored); C54_characterised says what IsEmpty means without such a Replace as in C22, C54_every in every history."
  },
  {
   "property": "C55",
   "status": "partial",
   "theorems": [
    "C55_start_path",
    "C55_push",
    "C55_push_exact",
    "C55_not_started",
    "C55_refuted"
   ],
   "note": "Proved for StartPath and PushToPath; false for PopFromPath (C55_refuted)."
  },
  {
   "property": "C56",
   "status": "partial",
   "theorems": [
    "C56_refuted",
    "C56_partial"
   ],
   "note": "False because matching may panic (C56_refuted). Proved under the conditions of C47_partial."
  },
  {
   "property": "C57",
   "status": "partial",
   "theorems": [
    "C57_refuted",
    "C57_caller_refuted",
    "C57_partial",
    "C57_no_sharing"
   ],
   "note": "False because NewPathFromElements keeps the slice of the caller (C57_refuted, C57_caller_refuted). Proved for all programs that hand over only slices whose array nothing else uses, in particular for all that list the elements (C57_no_sharing); whatever capacities append chooses."
  },
  {
   "property": "C58",
   "status": "partial",
   "theorems": [
    "C58_refuted",
    "C58_partial",
    "C58_node_partial",
    "C58_graph_partial",
    "C58_pointers",
    "C58_quiet_node",
    "C58_quiet_graph_partial"
   ],
   "note": "False in direction AnyEdge if the node has a loop (C58_refuted). Proved for all loops that yield no edge twice; C58_node_partial and C58_graph_partial hold for all bodies none of whose calls removes or relabels an edge still to be visited or adds one to the lists concerned; a loop at a node that selects labels may also create edges with other labels, and give them to the edges visited (C58_label_ex). C58_quiet_node: without calls, the iterators yield the lists of the other theorems."
  },
  {
   "property": "C59",
   "status": "partial",
   "theorems": [
    "C59_refuted",
    "C59_partial",
    "C59_label_partial",
    "C59_label_refuted"
   ],
   "note": "False for the edges of a node (C59_refuted). Proved for Graph.GetEdges on graphs whose edge list is right, and at a node for loops that select labels among which the new one is not (C59_label_partial; C59_label_refuted if it is)."
  },
  {
   "property": "C60",
   "status": "partial",
   "theorems": [
    "C60_refuted",
    "C60_partial"
   ],
   "note": "False with parallel edges (C60_refuted). Proved if all targets differ and none is the node itself."
  },
  {
   "property": "C61",
   "status": "partial",
   "theorems": [
    "C61_refuted",
    "C61_partial",
    "C61_removing_partial",
    "C61_quiet_partial"
   ],
   "note": "False: creating a node in each round never ends (C61_refuted, for all graphs with two nodes or more). Proved for bodies that create no nodes and remove only nodes visited already, as long as the node list stays right. (The documentation of GetNodes calls this undefined.)"
  },
  {
   "property": "C62",
   "status": "partial",
   "theorems": [
    "C62_refuted",
    "C62_gone",
    "C62_partial",
    "C62_labelling_partial",
    "C62_removing_partial",
    "C62_quiet_partial"
   ],
   "note": "False: if the body takes the label from the node that comes next, the loop ends early (C62_refuted). Proved if no call completes the labels of a node and none takes one of them from a node not yet visited, in particular for setting labels of, or removing, the node visited."
  },
  {
   "property": "C63",
   "status": "partial",
   "theorems": [
    "C63_refuted",
    "C63_setting_partial",
    "C63_unsetting_partial",
    "C63_partial",
    "C63_edges_partial",
    "C63_scan_partial",
    "C63_edges_refuted",
    "C63_edge_setting_partial",
    "C63_edge_scan_partial"
   ],
   "note": "False: setting the property of each node or edge never ends with a hash index (C63_refuted, C63_edges_refuted, for all graphs with two of them or more). Proved without index; with a hash index for removing the property, and for all bodies that do not touch the property of nodes (edges) still to be visited. Not covered: B-tree indexes; new edges during a loop over edges without index."
  },
  {
   "property": "C64",
   "status": "proved",
   "theorems": [
    "C64_sound",
    "C64_not_cancelled",
    "C64_stops",
    "C64_ends"
   ],
   "note": "ctx.Err() is a function of the number of the call, with any values."
  },
  {
   "property": "C65",
   "status": "partial",
   "theorems": [
    "C65_refuted",
    "C65_same_calls",
    "C65_start",
    "C65_effect",
    "C65_queries",
    "C65_comes_back",
    "C65_no_index",
    "C65_stuck_node",
    "C65_stuck_edge",
    "C65_listed_node",
    "C65_listed_edge",
    "C65_listed_new_node",
    "C65_listed_new_edge"
   ],
   "note": "False: a NewNode that panics leaves the node in the graph (C65_refuted); a property whose value was refused cannot be changed any more (C65_stuck); a hash index lists the object for ever (C65_listed). Proved: apart from the indexes, the graph is always that after some history of calls that return (C65_effect), and no call panics outside indexes (C65_comes_back). Not proved: what indexes still answer after a panic."
  },
  {
   "property": "C66",
   "status": "partial",
   "theorems": [
    "C66_refuted",
    "C66_refutes",
    "C66_partial",
    "C66_rest"
   ],
   "note": "False: the text may end early if the value of an unknown key is an object (C66_refuted). Proved for all texts that do not have an unknown key with an object or array as value; they are all rejected unless they begin with a JSON object. What follows the text is never looked at (C66_rest)."
  },
  {
   "property": "C67",
   "status": "proved",
   "theorems": [
    "C67_from",
    "C67_symbols"
   ],
   "note": "Exact outcome for every start, panics included. Assumes that listings are safe (C01/C15 conditions), askable properties, and that symbols hold live nodes or edges; C67_symbols covers symbols for relationships."
  },
  {
   "property": "C68",
   "status": "partial",
   "theorems": [
    "C68_refuted",
    "C68_removed_refuted",
    "C68_props_refuted",
    "C68_nil_refuted",
    "C68_partial",
    "C68_history",
    "C68_methods",
    "C68_shared_sets",
    "C68_shared_maps",
    "C68_shared_objects",
    "C68_copies",
    "C68_copied_props"
   ],
   "note": "False: GetLabels shares its map with the node, FastNewNode and SetLabels keep the caller's map (C68_refuted, C68_removed_refuted, C68_props_refuted). Proved for programs whose writes go to maps with one holder (C68_partial), and so for all programs that use methods only (C68_methods). A copy made by CopyNode has the label set of the node itself, properties of its own (C68_copies, C68_copied_props). Sets shared between nodes of two graphs are not modelled."
  },
  {
   "property": "C69",
   "status": "partial",
   "theorems": [
    "C69_refuted",
    "C69_partial",
    "C69_returns_partial"
   ],
   "note": "False for CopyGraph, which never returns if the graph has two nodes or more (C69_refuted, for every such graph). Proved for CopySubgraph with iterators that read the graph as it grows (C69_partial, C69_returns_partial). CopyGraph with one node: only an example."
  },
  {
   "property": "C70",
   "status": "partial",
   "theorems": [
    "C70_refuted",
    "C70_partial",
    "C70_image",
    "C70_reads",
    "C70_fails"
   ],
   "note": "False for strings that are not UTF-8 (C70_refuted); C70_partial gives the exact sets that survive, C70_image what becomes of the others, C70_reads and C70_fails the exact texts accepted."
  },
  {
   "property": "C71",
   "status": "partial",
   "theorems": [
    "C71_refuted",
    "C71_partial",
    "C71_nodes",
    "C71_edges",
    "C71_results",
    "C71_names"
   ],
   "note": "EdgeSlice does not return the path added (C71_refuted); C71_partial gives exactly the paths that come back. C71_nodes, C71_edges, C71_names are the rest of the claim, for elements of one graph (ids are unique per graph only)."
  },
  {
   "property": "C72",
   "status": "partial",
   "theorems": [
    "C72_refuted",
    "C72_partial",
    "C72_edges_partial",
    "C72_order_refuted",
    "C72_order_partial",
    "C72_json",
    "C72_edge_json"
   ],
   "note": "False since nothing is quoted (C72_refuted) and since map orders vary (C72_order_refuted). C72_partial and C72_edges_partial: without the punctuation the text determines the content, whatever fmt prints for values."
  },
  {
   "property": "C73",
   "status": "partial",
   "theorems": [
    "C73_refuted",
    "C73_partial",
    "C73_nodes"
   ],
   "note": "The text of a path of one node is empty (C73_refuted); C73_partial is the exact text. TrimSpace is modelled for ASCII white space, which is all that can be at the ends."
  },
  {
   "property": "C74",
   "status": "partial",
   "theorems": [
    "C74_refuted",
    "C74_partial",
    "C74_empty",
    "C74_given"
   ],
   "note": "False for maps that callers fill (C74_refuted); C74_partial and C74_empty for maps that Intern fills, C74_given for any map."
  },
  {
   "property": "C75",
   "status": "proved",
   "theorems": [
    "C75_recorded",
    "C75_history"
   ],
   "note": "A call of Write takes its text as a whole or not at all, as far as the writer says. Encode has to return with a writer that does not fail; it does for all graphs whose lists are right (C75_history)."
  },
  {
   "property": "C76",
   "status": "partial",
   "theorems": [
    "C76_refuted",
    "C76_adds_partial",
    "C76_edges_partial",
    "C76_partial"
   ],
   "note": "The full statement is refuted: Decode adds nodes and edges while it reads. Proved for all inputs: it only adds, edges only between new nodes, the edges of old nodes stay; and for documents whose unknown keys have values that Decode skips correctly, that what is added is a part of the document: a prefix of the nodes and some of the edges between them."
  },
  {
   "property": "C77",
   "status": "partial",
   "theorems": [
    "C77_refuted",
    "C77_partial",
    "C77_nothing_partial",
    "C77_error_partial",
    "C77_start_partial"
   ],
   "note": "The full statement is refuted: whether there is an error depends on where matching starts. Proved for all inputs: an error names such a variable, with its edges given or matched before the node (C77_partial); for such a variable nothing is reported, whether or not there is an error (C77_nothing_partial, C77_error_partial). Missing: when exactly the error comes; not if the items before the node match nothing."
  },
  {
   "property": "C78",
   "status": "partial",
   "theorems": [
    "C78_refuted",
    "C78_partial",
    "C78_labels"
   ],
   "note": "The full statement is refuted: an index for edges is not used unless the size for the labels is known (pattern.go:195 compares with -1). Proved for all inputs: the choice is one of the ways to enumerate candidates, its MaxSize is smallest among all others than indexes for edges, and it belongs to the first such item; the MaxSize for a set of labels is that of the rarest."
  },
  {
   "property": "C79",
   "status": "partial",
   "theorems": [
    "C79_refuted",
    "C79_partial",
    "C79_unique",
    "C79_error_partial"
   ],
   "note": "The full statement is refuted for the graphs of C01 whose last node GetNodes does not list (C79_refuted). Proved for all graphs whose node list (and edge list, if edges are written separately) is right: what is read is a copy of the graph with exactly the properties that come back, and Encode fails exactly if the marshaler fails for some property."
  },
  {
   "property": "C80",
   "status": "partial",
   "theorems": [
    "C80_refuted",
    "C80_partial",
    "C80_right_partial"
   ],
   "note": "The full statement is refuted: adding an index makes FindPaths start at an item after a relationship of variable length and report a result of no match (C80_refuted). Proved for the histories and patterns for which C45 to C47 hold, and without a condition on the starts if all relationships are single edges to the right."
  },
  {
   "property": "C81",
   "status": "partial",
   "theorems": [
    "C81_refuted",
    "C81_partial",
    "C81_json_partial"
   ],
   "note": "The full statement is refuted for the graphs of C01, whose unlisted node and its edges are not copied (C81_refuted). Proved if the lists of nodes and edges of source and target are right, for CopyGraph and for Encode followed by Decode."
  },
  {
   "property": "C82",
   "status": "partial",
   "theorems": [
    "C82_refuted",
    "C82_partial",
    "C82_json_partial"
   ],
   "note": "The full statement is refuted: an index of the source that the copy lacks makes FindPaths start at an item from which it reports results of no match (C82_refuted). Proved for sources and targets with right lists, targets without indexes, and patterns of single edges to the right."
  },
  {
   "property": "C83",
   "status": "proved",
   "theorems": [
    "C83_order",
    "C83_label_order",
    "C83_any_order",
    "C83_by_label",
    "C83_new_edge_last",
    "C83_set_label_last"
   ],
   "note": "For all histories: the order of GetEdges, GetEdgesWithLabel and GetEdgesWithAnyLabel of a node in every direction."
  },
  {
   "property": "C84",
   "status": "partial",
   "theorems": [
    "C84_refuted",
    "C84_partial",
    "C84_any_partial"
   ],
   "note": "The full statement is refuted for the histories of C06: after an edge is removed that was given another label, GetEdges lists a wrong edge (C84_refuted). Proved for all histories in which no edge is removed while the list has it under an old label: the order of GetEdges, and of GetEdgesWithAnyLabel, which goes by the label under which the list has the edge."
  },
  {
   "property": "C85",
   "status": "proved",
   "theorems": [
    "C85_order"
   ],
   "note": "For all histories and non-empty sets of labels: what GetNodesWithAllLabels gives, in order, and its MaxSize. For the empty set it panics (C08)."
  },
  {
   "property": "C86",
   "status": "partial",
   "theorems": [
    "C86_refuted",
    "C86_partial",
    "C86_edges_partial",
    "C86_ascending_partial",
    "C86_edges_ascending_partial",
    "C86_set_last_partial"
   ],
   "note": "The full statement is refuted for the histories of C16: a removed edge stays in the index (C86_refuted). Proved for all histories in which the lists of nodes and edges are right when read and the values written can be held by the index: the exact order for nodes and for edges, with the removed edges that stay in the index at their places; a B-tree gives ascending values; in a hash index a node comes last when the property is set."
  },
  {
   "property": "C87",
   "status": "partial",
   "theorems": [
    "C87_partial",
    "C87_edges_partial",
    "C87_all_edges_partial"
   ],
   "note": "The exact result, order and MaxSize of FindNodes and FindEdges for all histories, label sets and orders, over values that the indexes can be asked for (others panic, C14_refused_value), and for edges as long as no edge is removed while filed under an old label (otherwise the edge list itself is wrong, C84_refuted). Values wrapped twice and removed edges that are still in an index are covered."
  },
  {
   "property": "C88",
   "status": "partial",
   "theorems": [
    "C88_refuted",
    "C88_missed_refuted",
    "C88_partial",
    "C88_histories_partial",
    "C88_storable_partial",
    "C88_storable_edges_partial",
    "C88_find_partial",
    "C88_find_edges_partial",
    "C88_unused_partial",
    "C88_unused_edges_partial"
   ],
   "note": "The full statement is refuted for the histories of C01, in which AddNodeIndex goes through a wrong list of nodes (C88_refuted, C88_missed_refuted). Proved, in both directions and with no assumption about the values, for all histories in which the lists are right when read; the condition on values of C13-C16, C86 and C87 follows for hash indexes from the calls having returned (C88_storable_partial)."
  },
  {
   "property": "C89",
   "status": "partial",
   "theorems": [
    "C89_nodes",
    "C89_node_any",
    "C89_wrong",
    "C89_refuted",
    "C89_partial",
    "C89_edges_partial",
    "C89_edges_any_partial"
   ],
   "note": "For GetNodes and Node.GetEdgesWithAnyLabel proved for all histories, with the exact condition under which MaxSize is wrong (C89_nodes, C89_node_any, C89_wrong). For nodes and edges with a property the full statement is refuted for the histories of C01 (C89_refuted); proved, with no assumption about the values, where the lists from which the index was built are right, and for all edges where the list of edges is right."
  },
  {
   "property": "C90",
   "status": "partial",
   "theorems": [
    "C90_refuted",
    "C90_partial",
    "C90_histories_partial",
    "C90_find_partial",
    "C90_find_edges_partial"
   ],
   "note": "The full statement is refuted for the histories of C01, in which AddNodeIndex goes through a wrong list of nodes (C90_refuted). Proved, in both directions, for calls, whole histories and queries, where the lists are right when read and B-trees are given no []interface{} (whether two of those compare depends on their elements)."
  },
  {
   "property": "C91",
   "status": "proved",
   "theorems": [
    "C91_get_nodes",
    "C91_parts",
    "C91_num",
    "C91_exact",
    "C91_forever"
   ],
   "note": "For all histories, including those for which C01 is refuted: the exact list, when it is right, and that a wrong list stays wrong."
  },
  {
   "property": "C92",
   "status": "proved",
   "theorems": [
    "C92_scan",
    "C92_index",
    "C92_right"
   ],
   "note": "For all histories, including those for which C01 is refuted; with an index for values it can hold (storable), see C65 and C90 for others."
  },
  {
   "property": "C93",
   "status": "proved",
   "theorems": [
    "C93_read",
    "C93_edges",
    "C93_stale",
    "C93_sources",
    "C93_sinks",
    "C93_for_each"
   ],
   "note": "For all histories, including those for which C01 is refuted."
  },
  {
   "property": "C94",
   "status": "proved",
   "theorems": [
    "C94_copy",
    "C94_returns",
    "C94_right"
   ],
   "note": "For all histories with a right edge list (edge_list_safe; C06 shows that others exist), including those for which C01 is refuted."
  },
  {
   "property": "C95",
   "status": "proved",
   "theorems": [
    "C95_text"
   ],
   "note": "For all histories with a right edge list (edge_list_safe; C06 shows that others exist), including those for which C01 is refuted."
  },
  {
   "property": "C96",
   "status": "proved",
   "theorems": [
    "C96_trip"
   ],
   "note": "For all histories, including those for which C01 is refuted; with separate edges for those with a right edge list and at least one listed node (otherwise C40 and C41 are refuted)."
  },
  {
   "property": "C97",
   "status": "proved",
   "theorems": [
    "C97_decode",
    "C97_unique",
    "C97_properties",
    "C97_declares"
   ],
   "note": "For all documents whose unknown keys have values that Decode skips (C42 is refuted for others). As in Json.v, field names are matched exactly, of repeated members the last counts, and numbers are unbounded."
  }
 ]
}