NOTES = {
 "C17": ("proved", "For all values of any nesting. Transitivity is stated for triples whose three comparisons are defined; comparability itself is not transitive (C17_comparability_transitive_refuted)."),
 "C01": ("partial", "False as stated (C01_refuted: removing the newest node hides later nodes; C01_removed_node_listed_refuted). Proved for all histories accepted by node_list_safe, and that guard is exact (C01_characterised)."),
 "C02": ("proved", "All valid histories."),
 "C03": ("proved", "All valid histories, no guard."),
 "C04": ("proved", "All valid histories, with multiplicities."),
 "C05": ("proved", "All valid histories, directions, labels, label sets and iteration orders."),
 "C06": ("partial", "False as stated (C06_refuted, C06_count_refuted: SetLabel does not refile the edge in allEdges). Proved for all histories in which no edge is removed while filed under an old label (edge_list_safe)."),
 "C07": ("partial", "False as stated (C07_refuted). C07_characterised says what is enumerated; exact if all edges are filed under their current label."),
 "C08": ("proved", "All valid histories, all non-empty label sets and iteration orders; MaxSize bound included. The empty set panics (C08_empty_set_panics_refuted)."),
 "C09": ("proved", "Refinement to the abstract graph, plus per-call write and frame theorems."),
 "C10": ("proved", "All histories, valid or not, that do not panic."),
 "C11": ("proved", "All valid histories. That GetNodes also loses exactly the node is C01."),
 "C12": ("proved", "All valid histories."),
 "C23": ("partial", "Foreign nodes panic; a returning call creates exactly the edge. That it always returns on live nodes is false (C23_refuted) and proved under edge_list_safe for properties without index."),
 "C13": ("partial", "False as stated (C13_refuted: index creation reads the wrong node list of C01). Proved for storable values whenever the node list is right at the points where it is read; index type and creation time are irrelevant (C13_index_irrelevant_partial)."),
 "C16": ("partial", "False as stated (C16_refuted: Edge.Remove leaves the edge in the index). C16_characterised gives the exact contents; exact when no indexed edge was removed by Edge.Remove."),
 "C14": ("partial", "False as stated: properties without labels panic (C14_refuted), nested native values are missed by hash indexes (C14_hash_refuted). Proved for all non-empty label sets, all indexes over values they can be asked for, all iteration orders, with the MaxSize bound; without criteria under the guard of C01."),
 "C15": ("partial", "False as stated (C15_refuted, C15_labels_refuted, C15_removed_refuted). C15_characterised: exact if a requested property is indexed or there is at most one edge, otherwise all edges are returned unfiltered."),
 "C18": ("proved", "All nodes/edges, label sets, property maps and iteration orders. 'Comparing equal' is ComparePropertyValue = 0 without panic, so values it does not support never match."),
 "C19": ("proved", "All heaps, sets, arguments and iteration orders; SortedSlice included. Direct writes to the exported field M and the JSON methods are not part of the model."),
 "C20": ("proved", "Every program over any number of StringSet variables, heap of shared maps explicit."),
 "C21": ("partial", "Proved for elements with distinct ids, i.e. of one graph. For nodes of several graphs it is false (C21_refuted): elements are identified by id."),
 "C22": ("partial", "False as stated (C22_refuted: Replace with an empty set). Proved for all histories without such a Replace, all iteration orders. C22_every says how often each node is yielded in every history (for a node with labels, bounds)."),
 "C54": ("partial", "False as stated (C54_refuted: nodes without labels are ignored); C54_characterised says what IsEmpty means without such a Replace as in C22, C54_every in every history."),
 "C53": ("partial", "False as stated (C53_refuted: damaged edge list; C53_index_refuted: incomparable values in a B-tree index). Proved for all histories with intact edge lists and indexable values (calls_safe)."),
 "C48": ("partial", "False for node.GetEdgesWithAnyLabel(AnyEdge) (C48_refuted, C48_minus_two_refuted) and for GetNodes in the histories of C01 (C48_nodes_refuted). Proved, mostly as equality, for all other edge iterators of a node, and for the graph's iterators under the guards of C01/C06; label and Find iterators are in C08, C14, C15."),
 "C50": ("proved", "Iterators as step machines; every underlying machine and function. Also shows that the lists used by the graph model are what the list and edgeMap iterators yield."),
 "C51": ("partial", "False as stated (C51_refuted: removing an edge twice empties the list of its label; C51_nodes_refuted). Proved harmless when no live edge has the label."),
 "C52": ("proved", "All valid histories, nodes and labels; TargetNodes/SourceNodes over any iterator. Results are sets: the order of the slice is Go's map order."),
 "C24": ("proved", "All valid histories, all filters, directions, bounds, first legs made of edges at the node, and all accumulators (stateful, stopping at any time)."),
 "C25": ("proved", "All valid histories, filters, directions, bounds and first legs made of edges at the node."),
 "C26": ("proved", "All of C24; recursion depth is bounded by the number of edges. Accumulators do not modify the graph. See also C24_C25_C26_collect_all_paths for arbitrary stateful accumulators."),
 "C27": ("proved", "All connected non-empty paths and element lists."),
 "C28": ("partial", "Proved for all connected paths, and every path made with the checking operations is connected. False for NewPathFromElements and Append on an empty path, which do not check (C28_refuted)."),
 "C29": ("partial", "False as stated (C29_refuted: the edge is deleted from the graph; C29_single_edge_refuted). Proved: effect on paths of two or more edges, and the exact change of the graph."),
 "C30": ("partial", "False as stated when one path has no edges (C30_refuted, C30_nodes_refuted, C30_argument_refuted). Proved when both have edges; C30_short_* say what happens otherwise."),
 "C31": ("partial", "False for loops traversed backwards (C31_refuted); proved for all other paths."),
 "C32": ("partial", "False for single nodes before the last (C32_refuted) and empty ranges (C32_empty_refuted); proved for all other ranges."),
 "C38": ("partial", "False for AnyEdge (C38_refuted, exact behaviour in C38_any_characterised); proved for incoming and outgoing, with and without label."),
 "C55": ("partial", "Proved for StartPath and PushToPath; false for PopFromPath (C55_refuted)."),
 "C35": ("partial", "False after the histories of C01 (C35_refuted). Proved, with termination, for all graphs whose node and edge lists are right, all equivalence functions and all map orders. The context is never cancelled; the equivalence functions are pure."),
 "C36": ("partial", "False: nodes (C36_refuted) and parallel edges (C36_parallel_refuted) are not matched one to one. Proved when no two nodes, and no two parallel edges, are equivalent to the same one; C35_C36_characterised says exactly what is decided."),
 "C37": ("partial", "EdgesBetweenNodes proved in full; the others are false after the histories of C01 (C37_refuted) and proved for all others."),
 "C33": ("partial", "False for sources of C01 (C33_refuted), and the call panics if an index of the target cannot hold a copied value (C33_index_refuted). Proved for all sources whose lists of nodes and edges are right, all targets, maps of values and orders. Source and target are distinct graphs."),
 "C34": ("proved", "All sources, start nodes, targets and initial maps to live nodes of the target, whenever the call returns; it returns if adding to the target does not panic (C34_returns). Source and target are distinct graphs."),
 "C49": ("proved", "Every sequence of calls that frees only references that are held; freeing one twice makes strings share a slot (C49_double_free). The table is not used by the rest of the package."),
 "C39": ("partial", "False for graphs of C01 (C39_refuted) and labels that are not UTF-8 (C39_labels_refuted). Proved for all graphs whose node list is right and whose labels and properties survive the marshalers, all map orders, any target graph. encoding/json is modelled at the level of tokens and trusted (JsonText.v)."),
 "C40": ("partial", "As C39, also needs the edge list to be right; false for the empty graph (C40_refuted)."),
 "C41": ("partial", "False for graphs without nodes if edges are written separately (C41_refuted, always: C41_no_nodes); proved in all other cases."),
 "C42": ("partial", "False for objects and most arrays as values (C42_refuted, C42_empty_refuted, C42_nested_refuted). Proved for the values passing the explicit test skip, among them all scalars."),
 "C43": ("partial", "False only because of C42 (C43_refuted). Proved, as equivalence and with the exact result, for all documents whose unknown keys pass skip; C43_any_input holds for every input."),
 "C44": ("partial", "False for graphs of C01 (C44_refuted). Proved for all graphs whose node and edge lists are right and all renderers, stateful, refusing or failing ones included (they do not change the graph), and for Render all writers (C44_render_partial); C44_default_partial gives the exact text of Render with the default renderers, whose labels are not escaped (C44_label_ex)."),
 "C45": ("partial", "False when matching starts after a relationship of variable length (C45_refuted) or from a relationship not pointing to the right (C45_left_ex). Proved for all patterns and graphs, indexes and symbols for nodes, when the start chosen by the planner satisfies starts_well; for other starts C67 says exactly what is reported; also for arbitrary accumulators (C45_run_partial). Symbols for relationships are ignored unless matching starts there (C45_symbol_refuted). Results may violate repeated names: C47."),
 "C46": ("partial", "False: panics for relationships to the left or undirected ones as start (C46_refuted, C46_undirected_refuted), undirected loops twice (C46_twice_refuted). Proved for patterns of single edges to the right whichever item is the start (C46_partial), and for other patterns depending on the start (C45_partial)."),
 "C47": ("partial", "False: leaving the inner use of a name unbinds the outer one (C47_refuted). Proved if repeated names are symbols with one node, in particular if no name is repeated."),
 "C56": ("partial", "False because matching may panic (C56_refuted). Proved under the conditions of C47_partial."),
 "C57": ("partial", "False because NewPathFromElements keeps the slice of the caller (C57_refuted, C57_caller_refuted). Proved for all programs that hand over only slices whose array nothing else uses, in particular for all that list the elements (C57_no_sharing); whatever capacities append chooses."),
 "C58": ("partial", "False in direction AnyEdge if the node has a loop (C58_refuted). Proved for all loops that yield no edge twice; C58_node_partial and C58_graph_partial hold for all bodies none of whose calls removes or relabels an edge still to be visited or adds one to the lists concerned; a loop at a node that selects labels may also create edges with other labels, and give them to the edges visited (C58_label_ex). C58_quiet_node: without calls, the iterators yield the lists of the other theorems."),
 "C59": ("partial", "False for the edges of a node (C59_refuted). Proved for Graph.GetEdges on graphs whose edge list is right, and at a node for loops that select labels among which the new one is not (C59_label_partial; C59_label_refuted if it is)."),
 "C60": ("partial", "False with parallel edges (C60_refuted). Proved if all targets differ and none is the node itself."),
 "C61": ("partial", "False: creating a node in each round never ends (C61_refuted, for all graphs with two nodes or more). Proved for bodies that create no nodes and remove only nodes visited already, as long as the node list stays right. (The documentation of GetNodes calls this undefined.)"),
 "C62": ("partial", "False: if the body takes the label from the node that comes next, the loop ends early (C62_refuted). Proved if no call completes the labels of a node and none takes one of them from a node not yet visited, in particular for setting labels of, or removing, the node visited."),
 "C63": ("partial", "False: setting the property of each node or edge never ends with a hash index (C63_refuted, C63_edges_refuted, for all graphs with two of them or more). Proved without index; with a hash index for removing the property, and for all bodies that do not touch the property of nodes (edges) still to be visited. Not covered: B-tree indexes; new edges during a loop over edges without index."),
 "C64": ("proved", "ctx.Err() is a function of the number of the call, with any values."),
 "C65": ("partial", "False: a NewNode that panics leaves the node in the graph (C65_refuted); a property whose value was refused cannot be changed any more (C65_stuck); a hash index lists the object for ever (C65_listed). Proved: apart from the indexes, the graph is always that after some history of calls that return (C65_effect), and no call panics outside indexes (C65_comes_back). Not proved: what indexes still answer after a panic."),
 "C66": ("partial", "False: the text may end early if the value of an unknown key is an object (C66_refuted). Proved for all texts that do not have an unknown key with an object or array as value; they are all rejected unless they begin with a JSON object. What follows the text is never looked at (C66_rest)."),
 "C67": ("proved", "Exact outcome for every start, panics included. Assumes that listings are safe (C01/C15 conditions), askable properties, and that symbols hold live nodes or edges; C67_symbols covers symbols for relationships."),
 "C68": ("partial", "False: GetLabels shares its map with the node, FastNewNode and SetLabels keep the caller's map (C68_refuted, C68_removed_refuted, C68_props_refuted). Proved for programs whose writes go to maps with one holder (C68_partial), and so for all programs that use methods only (C68_methods). A copy made by CopyNode has the label set of the node itself, properties of its own (C68_copies, C68_copied_props). Sets shared between nodes of two graphs are not modelled."),
 "C69": ("partial", "False for CopyGraph, which never returns if the graph has two nodes or more (C69_refuted, for every such graph). Proved for CopySubgraph with iterators that read the graph as it grows (C69_partial, C69_returns_partial). CopyGraph with one node: only an example."),
 "C70": ("partial", "False for strings that are not UTF-8 (C70_refuted); C70_partial gives the exact sets that survive, C70_image what becomes of the others, C70_reads and C70_fails the exact texts accepted."),
 "C71": ("partial", "EdgeSlice does not return the path added (C71_refuted); C71_partial gives exactly the paths that come back. C71_nodes, C71_edges, C71_names are the rest of the claim, for elements of one graph (ids are unique per graph only)."),
 "C72": ("partial", "False since nothing is quoted (C72_refuted) and since map orders vary (C72_order_refuted). C72_partial and C72_edges_partial: without the punctuation the text determines the content, whatever fmt prints for values."),
 "C73": ("partial", "The text of a path of one node is empty (C73_refuted); C73_partial is the exact text. TrimSpace is modelled for ASCII white space, which is all that can be at the ends."),
 "C74": ("partial", "False for maps that callers fill (C74_refuted); C74_partial and C74_empty for maps that Intern fills, C74_given for any map."),
 "C75": ("proved", "A call of Write takes its text as a whole or not at all, as far as the writer says. Encode has to return with a writer that does not fail; it does for all graphs whose lists are right (C75_history)."),
 "C76": ("partial", "The full statement is refuted: Decode adds nodes and edges while it reads. Proved for all inputs: it only adds, edges only between new nodes, the edges of old nodes stay; and for documents whose unknown keys have values that Decode skips correctly, that what is added is a part of the document: a prefix of the nodes and some of the edges between them."),
 "C77": ("partial", "The full statement is refuted: whether there is an error depends on where matching starts. Proved for all inputs: an error names such a variable, with its edges given or matched before the node (C77_partial); for such a variable nothing is reported, whether or not there is an error (C77_nothing_partial, C77_error_partial). Missing: when exactly the error comes; not if the items before the node match nothing."),
 "C78": ("partial", "The full statement is refuted: an index for edges is not used unless the size for the labels is known (pattern.go:195 compares with -1). Proved for all inputs: the choice is one of the ways to enumerate candidates, its MaxSize is smallest among all others than indexes for edges, and it belongs to the first such item; the MaxSize for a set of labels is that of the rarest."),
 "C79": ("partial", "The full statement is refuted for the graphs of C01 whose last node GetNodes does not list (C79_refuted). Proved for all graphs whose node list (and edge list, if edges are written separately) is right: what is read is a copy of the graph with exactly the properties that come back, and Encode fails exactly if the marshaler fails for some property."),
 "C80": ("partial", "The full statement is refuted: adding an index makes FindPaths start at an item after a relationship of variable length and report a result of no match (C80_refuted). Proved for the histories and patterns for which C45 to C47 hold, and without a condition on the starts if all relationships are single edges to the right."),
 "C81": ("partial", "The full statement is refuted for the graphs of C01, whose unlisted node and its edges are not copied (C81_refuted). Proved if the lists of nodes and edges of source and target are right, for CopyGraph and for Encode followed by Decode."),
 "C82": ("partial", "The full statement is refuted: an index of the source that the copy lacks makes FindPaths start at an item from which it reports results of no match (C82_refuted). Proved for sources and targets with right lists, targets without indexes, and patterns of single edges to the right."),
 "C83": ("proved", "For all histories: the order of GetEdges, GetEdgesWithLabel and GetEdgesWithAnyLabel of a node in every direction."),
 "C84": ("partial", "The full statement is refuted for the histories of C06: after an edge is removed that was given another label, GetEdges lists a wrong edge (C84_refuted). Proved for all histories in which no edge is removed while the list has it under an old label: the order of GetEdges, and of GetEdgesWithAnyLabel, which goes by the label under which the list has the edge."),
 "C85": ("proved", "For all histories and non-empty sets of labels: what GetNodesWithAllLabels gives, in order, and its MaxSize. For the empty set it panics (C08)."),
 "C86": ("partial", "The full statement is refuted for the histories of C16: a removed edge stays in the index (C86_refuted). Proved for all histories in which the lists of nodes and edges are right when read and the values written can be held by the index: the exact order for nodes and for edges, with the removed edges that stay in the index at their places; a B-tree gives ascending values; in a hash index a node comes last when the property is set."),
 "C87": ("partial", "The exact result, order and MaxSize of FindNodes and FindEdges for all histories, label sets and orders, over values that the indexes can be asked for (others panic, C14_refused_value), and for edges as long as no edge is removed while filed under an old label (otherwise the edge list itself is wrong, C84_refuted). Values wrapped twice and removed edges that are still in an index are covered."),
 "C88": ("partial", "The full statement is refuted for the histories of C01, in which AddNodeIndex goes through a wrong list of nodes (C88_refuted, C88_missed_refuted). Proved, in both directions and with no assumption about the values, for all histories in which the lists are right when read; the condition on values of C13-C16, C86 and C87 follows for hash indexes from the calls having returned (C88_storable_partial)."),
 "C89": ("partial", "For GetNodes and Node.GetEdgesWithAnyLabel proved for all histories, with the exact condition under which MaxSize is wrong (C89_nodes, C89_node_any, C89_wrong). For nodes and edges with a property the full statement is refuted for the histories of C01 (C89_refuted); proved, with no assumption about the values, where the lists from which the index was built are right, and for all edges where the list of edges is right."),
 "C90": ("partial", "The full statement is refuted for the histories of C01, in which AddNodeIndex goes through a wrong list of nodes (C90_refuted). Proved, in both directions, for calls, whole histories and queries, where the lists are right when read and B-trees are given no []interface{} (whether two of those compare depends on their elements)."),
 "C91": ("proved", "For all histories, including those for which C01 is refuted: the exact list, when it is right, and that a wrong list stays wrong."),
 "C92": ("proved", "For all histories, including those for which C01 is refuted; with an index for values it can hold (storable), see C65 and C90 for others."),
 "C93": ("proved", "For all histories, including those for which C01 is refuted."),
 "C94": ("proved", "For all histories with a right edge list (edge_list_safe; C06 shows that others exist), including those for which C01 is refuted."),
 "C95": ("proved", "For all histories with a right edge list (edge_list_safe; C06 shows that others exist), including those for which C01 is refuted."),
 "C96": ("proved", "For all histories, including those for which C01 is refuted; with separate edges for those with a right edge list and at least one listed node (otherwise C40 and C41 are refuted)."),
 "C97": ("proved", "For all documents whose unknown keys have values that Decode skips (C42 is refuted for others). As in Json.v, field names are matched exactly, of repeated members the last counts, and numbers are unbounded."),
}
