{"id": "C01", "title": "GetNodes enumerates exactly the live nodes", "statement": "After any history of API calls, iterating Graph.GetNodes yields every node that was created and not removed, exactly once, in creation order, and nothing else.", "quantifier": "every finite history of node/edge creation, update and removal calls on live objects", "why_tests_cant": "The node list is an intrusive doubly linked list; whether it stays correct depends on which element each removal hits and what is added afterwards, so only an invariant over all histories settles it.", "anchors": ["list.go: nodeList.add, nodeList.remove, nodeListIterator", "graph.go: GetNodes, detachRemoveNode, addNode"]}
{"id": "C02", "title": "NumNodes counts the live nodes", "statement": "After any history, NumNodes equals the number of nodes created and not removed.", "quantifier": "every finite history of calls on live objects", "why_tests_cant": "needs to hold after unboundedly many interleaved additions and removals", "anchors": ["graph.go: NumNodes", "list.go: nodeList"]}
{"id": "C03", "title": "Adjacency is exact", "statement": "After any history, node.GetEdges(OutgoingEdge) (IncomingEdge) yields every live edge whose source (target) is that node, exactly once, and nothing else.", "quantifier": "every finite history of calls on live objects (including SetLabel, Detach, self loops) and every live node", "why_tests_cant": "the per-node edge map switches representation at sizes 0/1/2+, keeps one linked list per label and shares link fields between lists; correctness is an invariant over histories", "anchors": ["edgemap.go: edgeMap.add, edgeMap.remove, edgeMap.iterator", "graph.go: connect, disconnect, setEdgeLabel, removeEdge, detachNode", "node.go: GetEdges"]}
{"id": "C04", "title": "AnyEdge is incoming followed by outgoing", "statement": "node.GetEdges(AnyEdge) yields exactly the incoming edges followed by the outgoing edges; a self loop therefore appears exactly twice.", "quantifier": "every history and every live node", "why_tests_cant": "as C03", "anchors": ["node.go: GetEdges", "itr.go: MultiIterator, funcIterator"]}
{"id": "C05", "title": "Label-restricted adjacency is exact", "statement": "node.GetEdgesWithLabel(dir,l) yields exactly the edges of node.GetEdges(dir) whose current label is l, each as often; node.GetEdgesWithAnyLabel(dir,S) yields those whose current label is in S, and all of them when S is empty.", "quantifier": "every history, live node, direction, label and label set", "why_tests_cant": "label buckets are created and dropped dynamically and SetLabel moves edges between them", "anchors": ["edgemap.go: iteratorLabel, iteratorAnyLabel", "node.go: GetEdgesWithLabel, GetEdgesWithAnyLabel"]}
{"id": "C06", "title": "Graph.GetEdges and NumEdges are exact", "statement": "After any history Graph.GetEdges yields every live edge exactly once and nothing else, and NumEdges equals their number.", "quantifier": "every finite history of calls on live objects", "why_tests_cant": "invariant over histories; depends on relabelling followed by removal", "anchors": ["graph.go: GetEdges, NumEdges, setEdgeLabel, removeEdge", "edgemap.go"]}
{"id": "C07", "title": "Graph.GetEdgesWithAnyLabel is exact", "statement": "Graph.GetEdgesWithAnyLabel(S) yields exactly the live edges whose current label is in S, each once.", "quantifier": "every history and label set", "why_tests_cant": "the bucket an edge sits in must track its label through every SetLabel", "anchors": ["graph.go: GetEdgesWithAnyLabel, setEdgeLabel", "edgemap.go: iteratorAnyLabel"]}
{"id": "C08", "title": "GetNodesWithAllLabels is exact", "statement": "For every non-empty label set L, GetNodesWithAllLabels(L) yields exactly the live nodes carrying every label of L, each once, whatever order Go iterates its maps in.", "quantifier": "every history (including SetLabels to and from the empty set), every non-empty label set, every map iteration order", "why_tests_cant": "the label index is maintained incrementally; Go map iteration order is random", "anchors": ["maps.go: NodeMap.Add, Remove, Replace, IteratorAllLabels", "graph.go: setNodeLabels"]}
{"id": "C09", "title": "Read your writes, and nothing else changes", "statement": "GetLabels/HasLabel/GetProperty/GetLabel/GetFrom/GetTo of a node or edge return the values of the last write to it; a write to one object or key leaves every other object and key unchanged.", "quantifier": "every history and every live object and key", "why_tests_cant": "frame conditions quantify over all other objects and all histories", "anchors": ["graph.go: setNodeLabels, setNodeProperty, removeNodeProperty, setEdgeLabel, setEdgeProperty, removeEdgeProperty"]}
{"id": "C10", "title": "IDs are unique and never reused", "statement": "No two nodes/edges ever created in a graph get the same ID, an ID never changes, and IDs increase in creation order.", "quantifier": "every history", "why_tests_cant": "over all histories including removals", "anchors": ["graph.go: FastNewNode, FastNewEdge, cloneNode, cloneEdge (idBase)"]}
{"id": "C11", "title": "Detach removes exactly the incident edges", "statement": "After node.Detach() no edge is incident to node, every edge not incident to node is still present and unchanged with the same adjacency at every other node, and DetachAndRemove additionally removes exactly that node.", "quantifier": "every history, every live node, any number of parallel edges and self loops", "why_tests_cant": "iterates a snapshot of a list being modified", "anchors": ["graph.go: detachNode, detachRemoveNode"]}
{"id": "C12", "title": "No dangling edges", "statement": "Every edge found in the adjacency of a live node has both endpoints live.", "quantifier": "every history", "why_tests_cant": "invariant over histories", "anchors": ["graph.go: detachNode, FastNewEdge"]}
{"id": "C13", "title": "Node property index agrees with a scan", "statement": "If a property is indexed (B-tree or hash), GetNodesWithProperty(k) yields exactly the live nodes having property k, each once - the same set as without the index; adding the index before or after the data makes no difference.", "quantifier": "every history, property key, index type, with values that are mutually comparable (B-tree) or hashable (hash)", "why_tests_cant": "incremental maintenance across SetProperty/RemoveProperty/remove", "anchors": ["indexes.go", "btreeindex.go", "hashindex.go", "graph.go: setNodeProperty, removeNodeProperty"]}
{"id": "C14", "title": "FindNodes returns exactly the matching nodes", "statement": "FindNodes(L,props) yields exactly the live nodes which have all labels of L and whose properties match props, each once, whatever indexes exist.", "quantifier": "every history, label set, property map, set of indexes, map iteration order", "why_tests_cant": "the plan choice depends on sizes of internal structures", "anchors": ["graph.go: FindNodes, GetNodeFilterFunc"]}
{"id": "C15", "title": "FindEdges returns exactly the matching edges", "statement": "FindEdges(L,props) yields exactly the live edges whose label is in L (any if L empty) and whose properties match props, each once, whatever indexes exist.", "quantifier": "every history, label set, property map, set of indexes", "why_tests_cant": "as C14", "anchors": ["graph.go: FindEdges, GetEdgeFilterFunc"]}
{"id": "C16", "title": "Edge property index agrees with a scan", "statement": "If an edge property is indexed, GetEdgesWithProperty(k) yields exactly the live edges having k, each once.", "quantifier": "every history, key, index type", "why_tests_cant": "incremental maintenance over histories including Edge.Remove", "anchors": ["graph.go: removeEdge, setEdgeProperty, removeEdgeProperty, detachNode", "indexes.go"]}
{"id": "C17", "title": "ComparePropertyValue is a consistent order", "statement": "Wherever ComparePropertyValue does not panic it is antisymmetric (cmp(b,a) = -cmp(a,b), panicking symmetrically), reflexive on supported values, transitive, and respects native values.", "quantifier": "all pairs/triples of property values of any nesting depth", "why_tests_cant": "infinitely many nested values", "anchors": ["properties.go: ComparePropertyValue"]}
{"id": "C18", "title": "Property filters decide exactly", "statement": "The function returned by GetNodeFilterFunc/GetEdgeFilterFunc never panics and returns true iff the labels match and every requested property exists with a value comparing equal; iteration order is irrelevant.", "quantifier": "all nodes, label sets, property maps, orders", "why_tests_cant": "order independence in the presence of recovered panics", "anchors": ["graph.go: GetNodeFilterFunc, GetEdgeFilterFunc"]}
{"id": "C19", "title": "StringSet is a finite set", "statement": "Has/HasAny/HasAll/HasAnySet/HasAllSet/IsEqual/Add/AddSet/Remove/Len/Slice behave as mathematical finite set operations.", "quantifier": "all sets and argument lists", "why_tests_cant": "all inputs", "anchors": ["stringset.go"]}
{"id": "C20", "title": "StringSet copies are independent", "statement": "Although Clone shares storage, Add/AddSet/Remove through one StringSet handle never changes the contents seen through any other handle, so GetLabels can be modified freely without touching the node.", "quantifier": "every sequence of operations over any number of handles", "why_tests_cant": "aliasing over arbitrary histories", "anchors": ["stringset.go: Clone, Add, AddSet, Remove", "node.go: GetLabels"]}
{"id": "C21", "title": "NodeSet/EdgeSet are insertion-ordered sets", "statement": "Add ignores duplicates, Remove removes, Has and Len agree with the iteration, which yields the elements in the order of first insertion.", "quantifier": "every sequence of Add/Remove", "why_tests_cant": "history invariant between a map and a linked list", "anchors": ["sets.go"]}
{"id": "C22", "title": "NodeMap.Iterator yields each node once", "statement": "NodeMap.Iterator yields every node in the map exactly once, whatever the number of labels of each node.", "quantifier": "every sequence of Add/Replace/Remove, every map order", "why_tests_cant": "duplicates are suppressed by a stateful filter over seen labels", "anchors": ["maps.go: NodeMap.Iterator, nodeMapIterator"]}
{"id": "C23", "title": "NewEdge rejects foreign nodes and changes nothing", "statement": "NewEdge panics iff one of the nodes does not belong to the graph; otherwise it creates exactly one edge with the given ends, label and properties.", "quantifier": "every history and pair of nodes", "why_tests_cant": "over all states", "anchors": ["graph.go: FastNewEdge"]}
{"id": "C24", "title": "CollectAllPaths only reports valid trails", "statement": "Each path passed to the accumulator starts at fromNode with an edge of firstLeg, is connected edge by edge respecting the direction, satisfies the edge filter after the first leg, never repeats an edge and has length within [min,max].", "quantifier": "all graphs, filters, directions, bounds", "why_tests_cant": "all graphs incl. cycles, self loops and parallel edges", "anchors": ["vpathitr.go: CollectAllPaths"]}
{"id": "C25", "title": "CollectAllPaths reports every valid trail exactly once", "statement": "Every such trail is reported, exactly once, if the accumulator always returns true.", "quantifier": "all graphs, filters, directions, bounds", "why_tests_cant": "completeness over all graphs", "anchors": ["vpathitr.go: CollectAllPaths"]}
{"id": "C26", "title": "CollectAllPaths terminates and stops on demand", "statement": "It terminates on every finite graph, even with max=-1 and cycles; when the accumulator returns false nothing more is reported, and what was reported before is a prefix of the full enumeration.", "quantifier": "all graphs, bounds and accumulators", "why_tests_cant": "termination on all graphs", "anchors": ["vpathitr.go: CollectAllPaths"]}
{"id": "C27", "title": "Path.Append keeps paths connected", "statement": "Appending elements to a connected non-empty path panics iff the elements do not connect, and otherwise yields the connected concatenation.", "quantifier": "all paths and element lists", "why_tests_cant": "all inputs", "anchors": ["path.go: Append"]}
{"id": "C28", "title": "Path accessors are coherent", "statement": "NumNodes is NumEdges+1 for a non-empty path; GetNode(0)=First, GetNode(NumNodes-1)=Last, and GetEdge(i) joins GetNode(i) and GetNode(i+1).", "quantifier": "all paths built by the API", "why_tests_cant": "all lengths", "anchors": ["path.go: GetNode, GetEdge, First, Last, NumNodes, NumEdges"]}
{"id": "C29", "title": "RemoveLast/RemoveFirst edit the path only", "statement": "RemoveLast (RemoveFirst) removes the last (first) edge from the path, leaving a single node if the path had one edge, and does not modify the graph.", "quantifier": "all paths", "why_tests_cant": "all paths and graphs", "anchors": ["path.go: RemoveLast, RemoveFirst", "cursor.go: PopFromPath"]}
{"id": "C30", "title": "AppendPath concatenates connected paths", "statement": "p.AppendPath(q) yields the concatenation of p and q when p ends where q starts and panics otherwise; q is not modified; appending a single node path only checks it.", "quantifier": "all pairs of paths", "why_tests_cant": "all inputs", "anchors": ["path.go: AppendPath"]}
{"id": "C31", "title": "HasPrefixPath decides prefixes", "statement": "p.HasPrefixPath(q) is true iff q is a prefix of p as node-edge sequence.", "quantifier": "all pairs of paths", "why_tests_cant": "all inputs", "anchors": ["path.go: HasPrefix, HasPrefixPath"]}
{"id": "C32", "title": "Slice extracts sub-paths", "statement": "p.Slice(i,j) returns the sub-path made of nodes i..j-1 of p (j=-1 meaning the end).", "quantifier": "all paths and indexes", "why_tests_cant": "boundary indexes", "anchors": ["path.go: Slice"]}
{"id": "C33", "title": "CopyGraph produces an isomorphic copy", "statement": "CopyGraph(source,target) adds to target one new node per source node and one new edge per source edge with same labels, mapped properties and corresponding ends, returns the node correspondence, and leaves source and the previous content of target unchanged.", "quantifier": "all source and target graphs and property functions", "why_tests_cant": "all graphs", "anchors": ["clone.go: CopyGraph, CopyGraphf", "graph.go: cloneNode, cloneEdge"]}
{"id": "C34", "title": "CopySubgraph copies exactly the reachable part", "statement": "CopySubgraph(n,target,f,m) copies exactly the nodes reachable from n through nodes not already in m, and each outgoing edge of each copied node exactly once; it terminates on cyclic graphs.", "quantifier": "all graphs, start nodes, initial maps", "why_tests_cant": "all graphs incl. cycles", "anchors": ["clone.go: CopySubgraph, CopyNode, CopyEdge"]}
{"id": "C35", "title": "CheckIsomorphism accepts isomorphic graphs", "statement": "If there is an isomorphism compatible with the equivalence functions, CheckIsomorphism returns true (context not cancelled); it always terminates.", "quantifier": "all pairs of graphs and equivalence functions", "why_tests_cant": "search space enumeration must be complete", "anchors": ["alg.go: CheckIsomorphism"]}
{"id": "C36", "title": "CheckIsomorphism rejects non-isomorphic graphs", "statement": "If CheckIsomorphism returns true there is an isomorphism compatible with the equivalence functions.", "quantifier": "all pairs of graphs and equivalence functions", "why_tests_cant": "soundness over all inputs", "anchors": ["alg.go: CheckIsomorphism"]}
{"id": "C37", "title": "Sources, Sinks, EdgesBetweenNodes, ForEachNode are exact", "statement": "Sources/Sinks return exactly the nodes without incoming/outgoing edges; EdgesBetweenNodes exactly the edges from one node to the other; ForEachNode visits every node once until the predicate fails.", "quantifier": "all graphs", "why_tests_cant": "all graphs", "anchors": ["alg.go"]}
{"id": "C38", "title": "Cursor neighbourhoods are exact", "statement": "Cursor.Nodes(dir)/NodesWith(dir,l) yield exactly the distinct nodes at the other end of the edges of the current node in that direction.", "quantifier": "all graphs, nodes and directions", "why_tests_cant": "all graphs incl. self loops", "anchors": ["cursor.go", "itr.go: nodesFromEdgesIterator"]}
{"id": "C39", "title": "JSON round trip with embedded edges", "statement": "Decoding into an empty graph what Encode wrote (MarshalEdgesSeparately=false) gives a graph isomorphic to the original, with equal labels, edge labels and property values, whatever order Go's map iteration writes the nodes in.", "quantifier": "all graphs whose properties survive the property marshaler, every node order", "why_tests_cant": "all graphs; random order", "anchors": ["json.go: Encode, Decode, addNode, addEdge"]}
{"id": "C40", "title": "JSON round trip with separate edges", "statement": "Same as C39 with MarshalEdgesSeparately=true.", "quantifier": "all graphs, every node order", "why_tests_cant": "all graphs", "anchors": ["json.go: Encode, Decode"]}
{"id": "C41", "title": "Encode writes a syntactically valid document", "statement": "The text written by Encode is a JSON object, for every graph and both settings.", "quantifier": "all graphs and settings", "why_tests_cant": "includes the empty graph", "anchors": ["json.go: Encode"]}
{"id": "C42", "title": "Decode ignores unknown keys", "statement": "Top level keys other than nodes and edges do not influence the decoded graph.", "quantifier": "all documents", "why_tests_cant": "all nestings of the ignored value", "anchors": ["json.go: Decode"]}
{"id": "C43", "title": "Decode rejects references to missing nodes", "statement": "Decode returns an error if an edge refers to a node index that no node declares, and otherwise creates every edge exactly once between the declared nodes, including forward references.", "quantifier": "all documents", "why_tests_cant": "all orders of nodes and edges", "anchors": ["json.go: Decode, addNode"]}
{"id": "C44", "title": "DOT output is faithful", "statement": "RenderNodesEdges renders each accepted node once under a distinct identifier and each edge between accepted nodes exactly once with the identifiers of its ends.", "quantifier": "all graphs and renderers", "why_tests_cant": "all graphs", "anchors": ["dotrenderer.go: RenderNodesEdges"]}
{"id": "C45", "title": "Pattern matches are sound", "statement": "Every result of Pattern.Run satisfies the labels, properties, directions and length bounds of all pattern items and is a connected path of the graph.", "quantifier": "all graphs, patterns and symbol tables", "why_tests_cant": "all graphs and patterns", "anchors": ["pattern.go", "planprocessors.go"]}
{"id": "C46", "title": "Pattern matches are complete", "statement": "Every match of the pattern in the graph is reported exactly once, whichever element the planner starts from.", "quantifier": "all graphs, patterns, indexes", "why_tests_cant": "the plan depends on index sizes", "anchors": ["pattern.go: GetPlan, getFastestElement", "planprocessors.go"]}
{"id": "C47", "title": "Reused pattern variables denote the same node", "statement": "If a name occurs at several node positions of a pattern, each reported match binds the same node to all of them.", "quantifier": "all graphs and patterns", "why_tests_cant": "binding scope over backtracking", "anchors": ["pattern.go: recordStepResult, resetStepResult, isConstrainedNodes"]}
{"id": "C48", "title": "MaxSize is an upper bound", "statement": "MaxSize() of every iterator is -1 or at least the number of elements it will yield.", "quantifier": "all iterators of the API in all states", "why_tests_cant": "all states", "anchors": ["itr.go", "edgemap.go", "node.go"]}
{"id": "C49", "title": "String table interning", "statement": "While a string has outstanding references, str(allocate(s)) = s, equal strings share an index, different live strings have different indexes; freed slots are reused without affecting live strings.", "quantifier": "every sequence of allocate/free", "why_tests_cant": "history invariant with an embedded free list", "anchors": ["stringtable.go"]}
{"id": "C50", "title": "Iterator combinators denote list operations", "statement": "Draining filterIterator, makeUniqueIterator, funcIterator/MultiIterator, procIterator, listIterator step by step with Next/Value yields filter, dedup (first occurrences), concatenation, map and the list itself.", "quantifier": "all underlying iterators and functions", "why_tests_cant": "all sequences", "anchors": ["itr.go"]}
{"id": "C51", "title": "Operations on removed objects are harmless", "statement": "Calling Remove twice on an edge, or DetachAndRemove twice on a node, leaves the rest of the graph intact.", "quantifier": "every history", "why_tests_cant": "needs every history", "anchors": ["edgemap.go: remove", "list.go: remove"]}
{"id": "C52", "title": "NextNodesWith/PrevNodesWith/TargetNodes/SourceNodes", "statement": "They return exactly the distinct targets (sources) of the edges concerned.", "quantifier": "all graphs, nodes, labels", "why_tests_cant": "all graphs", "anchors": ["itr.go: TargetNodes, SourceNodes", "node.go: NextNodesWith, PrevNodesWith"]}
{"id": "C53", "title": "Valid calls do not panic and terminate", "statement": "NewNode, NewEdge, SetLabels, SetProperty, RemoveProperty, SetLabel, Remove, Detach, DetachAndRemove and AddNodeIndex/AddEdgeIndex on live objects of the graph return normally.", "quantifier": "every history of calls on live objects", "why_tests_cant": "a corrupted list shows only after particular histories", "anchors": ["graph.go", "node.go", "edge.go", "edgemap.go", "list.go", "indexes.go"]}
{"id": "C54", "title": "NodeMap.IsEmpty is true iff the map holds no node", "statement": "IsEmpty returns true exactly when no node is in the map.", "quantifier": "every sequence of Add/Replace/Remove", "why_tests_cant": "every history", "anchors": ["maps.go: IsEmpty"]}
{"id": "C55", "title": "A cursor stays at the end of its path", "statement": "After StartPath, PushToPath and PopFromPath the cursor is at the last node of its recorded path.", "quantifier": "all graphs, cursors and sequences of these calls", "why_tests_cant": "needs a pop in the middle of a walk", "anchors": ["cursor.go: StartPath, PushToPath, PopFromPath"]}
{"id": "C56", "title": "Head and tail nodes of matches", "statement": "FindMatchNodes and GetHeadNodes return exactly the first nodes of the matches of a pattern, GetTailNodes the last ones.", "quantifier": "all graphs, patterns and symbol tables", "why_tests_cant": "depends on the direction in which the planner matches each item", "anchors": ["pattern.go: FindMatchNodes, GetHeadNodes, GetTailNodes"]}
{"id": "C57", "title": "Paths behave as values", "statement": "A call on a path has the effect on it that it has on a list of path elements; it changes no other path and no slice of the caller, and what the caller does with its slices changes no path.", "quantifier": "all graphs, all programs of path calls and slice operations", "why_tests_cant": "depends on the capacity append chooses and on which slices share an array", "anchors": ["path.go:33-35", "path.go:116-167", "path.go:259-319"]}
{"id": "C58", "title": "A loop over edges may remove the edges it visits", "statement": "A loop over the edges of a node (GetEdges, GetEdgesWithLabel, GetEdgesWithAnyLabel) whose body removes each edge visits exactly the edges that were there at the start, and leaves the graph without them.", "quantifier": "all graphs, nodes, directions, labels; all loop bodies that do not touch what is still to be visited", "why_tests_cant": "depends on where the iterator points when the lists change", "anchors": ["edgemap.go:105-211", "list.go:42-73", "itr.go:157-193", "node.go:56-99"]}
{"id": "C59", "title": "A loop over edges may relabel the edges it visits", "statement": "A loop over edges whose body sets the label of each edge visits each edge once.", "quantifier": "all graphs, nodes, labels", "why_tests_cant": "the edge moves to a list that the loop may or may not have passed", "anchors": ["edge.go: SetLabel", "graph.go: setEdgeLabel", "edgemap.go:188-211"]}
{"id": "C60", "title": "A loop over edges may remove the nodes they lead to", "statement": "A loop over the outgoing edges of a node that calls DetachAndRemove on each target leaves no outgoing edge.", "quantifier": "all graphs and nodes", "why_tests_cant": "needs parallel edges in a particular order", "anchors": ["node.go: DetachAndRemove", "list.go:42-73"]}
{"id": "C61", "title": "A loop over all nodes may change the graph", "statement": "A loop over GetNodes whose body creates or removes nodes ends, and visits all nodes that were there before and are not removed.", "quantifier": "all graphs and loop bodies", "why_tests_cant": "non-termination is not observable by a test", "anchors": ["graph.go:123-129", "list.go:75-138"]}
{"id": "C62", "title": "A loop over the nodes with given labels may change labels and remove nodes", "statement": "A loop over GetNodesWithAllLabels whose body changes labels or removes nodes ends, and visits all nodes that have the labels at the start and at the end.", "quantifier": "all graphs, label sets, iteration orders and loop bodies", "why_tests_cant": "the iterator holds a pointer into a list that the body changes, and that is dropped when it becomes empty", "anchors": ["maps.go:184-206", "sets.go", "itr.go:229-246", "graph.go:136-138"]}
{"id": "C63", "title": "A loop over the nodes or edges with a property may set and remove properties", "statement": "A loop over GetNodesWithProperty or GetEdgesWithProperty whose body sets or removes that property of the elements visited ends, and visits each of them once.", "quantifier": "all graphs, properties and loop bodies", "why_tests_cant": "non-termination is not observable by a test; depends on whether there is an index", "anchors": ["graph.go:173-214", "hashindex.go:28-85", "indexes.go:89-107"]}
{"id": "C64", "title": "A cancelled CheckIsomorphism does not answer wrongly", "statement": "If the context given to CheckIsomorphism is cancelled at any moment, the call either returns the answer it returns without cancellation, or false and the error of the context; it tries no further mapping after the context reports an error.", "quantifier": "all graphs, equivalence functions and moments of cancellation", "why_tests_cant": "the moment of cancellation cannot be controlled by a test", "anchors": ["alg.go:84-177"]}
{"id": "C65", "title": "A call that panics leaves the graph as it was", "statement": "If a call panics because a property index refuses a value, and the caller recovers, the graph is as it was before the call.", "quantifier": "all programs of calls, recovered panics included, and all iteration orders", "why_tests_cant": "needs the state after a panic, which depends on the order in which Go iterates over a map", "anchors": ["graph.go:49-111", "graph.go:418-566", "indexes.go:47-67", "indexes.go:109-173", "hashindex.go:27-43", "btreeindex.go:26-37"]}
{"id": "C66", "title": "Decode accepts only JSON objects", "statement": "If JSON.Decode returns no error, its input begins with the text of a JSON object; every input that ends early, or is malformed, gives an error, and what follows the object is not looked at.", "quantifier": "all inputs, as sequences of lexical tokens", "why_tests_cant": "there is no end of malformed inputs", "anchors": ["json.go:455-532"]}
{"id": "C67", "title": "What FindPaths gives whatever item the matching starts from", "statement": "Let start be the pattern item chosen by the planner. If it is an undirected relationship, FindPaths panics when an edge has its labels and properties and finds nothing otherwise. In all other cases it finds all matches of the pattern (a start relationship taken as exactly one edge), with the right values for all names; the reported path consists of the last step of each relationship before the start and of the walks of the others (the start backwards if it points to the left). FindPaths panics exactly when these steps do not join for one of the matches found. Symbols for relationships do not restrict the matches, except that a start relationship may be tried with the edges of its symbol only.", "quantifier": "all histories of graph operations, indexes, patterns, symbols for nodes and relationships, map orders", "why_tests_cant": "the start depends on sizes of the graph, so the cases that panic or lose steps move around with the data", "anchors": ["pattern.go:324-348", "pattern.go:350-532", "pattern.go:574-637", "planprocessors.go:28-274"]}
{"id": "C68", "title": "Label sets and property maps exchanged with the graph are copies", "statement": "A program that creates label sets and property maps, changes them by the methods of StringSet or by writing to their maps, gives them to NewNode, FastNewNode, FastNewEdge, SetLabels, gets them from GetLabels and copies nodes within the graph behaves as if every one of these were a value of its own: writing to one of them changes no other variable, node or edge. (False: GetLabels and StringSet.Clone share the map, SetLabels, FastNewNode and FastNewEdge keep the map of the caller, CopyNode gives the copy the label set of the node. True if the program uses methods only, and in general if each map that is written has one holder at that moment.)", "quantifier": "all programs, graphs, histories", "why_tests_cant": "needs all ways in which two holders may get the same map, and the indexes go wrong only later", "anchors": ["stringset.go:27-37", "stringset.go:82-123", "node.go:46-47", "graph.go:48-111", "graph.go:413-467", "graph.go:535-565", "clone.go:68-71"]}
{"id": "C69", "title": "A graph, or the part reachable from a node, can be copied into itself", "statement": "CopyGraph(g, g) and CopySubgraph(n, n.GetGraph()) return, and add one copy of each node and edge (reachable) that was there at the start. (False for CopyGraph: with two or more nodes it never returns. True for CopySubgraph.)", "quantifier": "all histories of graph operations, start nodes, initial maps, functions that clone property values", "why_tests_cant": "the loops read what they extend; non-termination is not observable by a test", "anchors": ["clone.go:22-66", "graph.go:436-448", "graph.go:491-512", "list.go:125-138", "edgemap.go:126-211"]}
{"id": "C70", "title": "A StringSet written as JSON is read back", "statement": "UnmarshalJSON reads from the text that MarshalJSON writes, in any order, a set with the same elements. (False: strings that are not UTF-8 are replaced and may become equal. True exactly for sets of UTF-8 strings.) It accepts exactly null and arrays of strings and nulls; on any other text it returns an error and leaves the set as it was.", "quantifier": "all sets, iteration orders and texts", "why_tests_cant": "there is no end of texts, and the order of a Go map cannot be chosen by a test", "anchors": ["stringset.go:126-132", "stringset.go:144-155"]}
{"id": "C71", "title": "A pattern symbol lists what was added to it", "statement": "After any calls of Add, AddNode and AddPath, NodeSlice lists the nodes added and EdgeSlice the edges added, once each in order of first addition, and nil if nothing of that kind was added; a path added to an empty symbol is what EdgeSlice returns. (The last part is false: directions and repetitions are lost. True exactly for paths without them.) GetSymbolNames gives the nonempty names of the items of a pattern.", "quantifier": "all sequences of items, all patterns", "why_tests_cant": "needs all orders of additions and all repetitions", "anchors": ["pattern.go:35-38", "pattern.go:218-268", "pattern.go:373-381", "sets.go:43-51"]}
{"id": "C72", "title": "The text of a node or an edge determines labels and printed properties", "statement": "Two nodes (edges) for which String gives the same text have the same labels and the same printed properties, and String gives the same text at every call. (False: nothing is quoted, and maps are written in any order. True if labels and keys have no space and no colon and printed values no space; stable for at most one label and one property.) As JSON, nodes and edges are their text.", "quantifier": "all label sets, property maps, ways to print a value, iteration orders", "why_tests_cant": "needs pairs of nodes and all iteration orders", "anchors": ["node.go:127-137", "edge.go:93-99", "properties.go:211-223"]}
{"id": "C73", "title": "The text of a path lists its elements", "statement": "Path.String gives the texts of the elements of the path, separated by single spaces and nothing around them, each written from the source to the target of its edge and marked if reversed; paths with the same text have the same number of nodes. (The last part is false: a path of one node has the empty text.)", "quantifier": "all paths, texts of nodes", "why_tests_cant": "needs all paths and all texts of nodes, which can differ from call to call", "anchors": ["path.go:196-211"]}
{"id": "C74", "title": "Interning does not change strings", "statement": "MapInterner.Intern returns a string equal to its argument, however often it is called. (False for a map that the caller fills. True if the map was filled by Intern, as in a Decode without Interner.)", "quantifier": "all maps and sequences of calls", "why_tests_cant": "needs all histories of the map", "anchors": ["json.go:38-47", "json.go:409-425", "json.go:455-458"]}
{"id": "C75", "title": "A failed Encode returns the error and leaves no complete text", "statement": "Encode gives the writer the same texts in the same order whatever the writer does, until the writer fails; it returns an error if and only if the writer or a marshaler returned one; it writes nothing after an error; and what was written before the error is not a JSON text.", "quantifier": "all graphs, marshalers, iteration orders and writers, which may fail at any call", "why_tests_cant": "every single call of Write has to fail once, for each graph", "anchors": ["json.go:176-386"]}
{"id": "C76", "title": "A failed Decode leaves the graph as it was", "statement": "If Decode returns an error the graph has the nodes and edges it had before. (It has not; what holds is that Decode only adds to the graph, that new edges are between new nodes, so that the edges of old nodes stay, and that what is added is a prefix of the document's nodes and some of the edges between them.)", "quantifier": "for all graphs, all inputs (token sequences, JSON or not), all property unmarshalers, all map orders", "why_tests_cant": "Tests decode into empty graphs and look at the error, not at the graph after it.", "anchors": ["json.go:417-443", "json.go:445-452", "json.go:455-532"]}
{"id": "C77", "title": "A variable for both nodes and relationships is an error", "statement": "FindPaths (Pattern.Run) returns ErrNodeVariableExpected if and only if some variable names a node item of the pattern and is given as a set of edges, or names a relationship of the pattern as well; then nothing is reported to the accumulator.", "quantifier": "all graphs, all symbols, all patterns, all accumulators, all orders of maps", "why_tests_cant": "Whether the error comes depends on the item the plan starts from, so on the sizes of indexes, and on what matches before the node; tests see some of these orders only.", "anchors": ["pattern.go:65-87", "pattern.go:324-331", "planprocessors.go:28-72", "planprocessors.go:225-274"]}
{"id": "C78", "title": "Matching starts from the fewest candidates", "statement": "Of all ways to enumerate candidates for an item of a pattern (labels, indexed properties, symbols, all nodes or edges), getFastestElement chooses one whose MaxSize is smallest, of the first item that has it.", "quantifier": "all graphs, symbols, patterns, all orders of maps", "why_tests_cant": "A worse choice gives the same results, only slower; the comparison with -1 for unknown sizes goes wrong for one of the two kinds of items only.", "anchors": ["pattern.go:113-158", "pattern.go:160-216", "pattern.go:350-371", "maps.go:184-206"]}
{"id": "C79", "title": "Property marshalers may leave properties out or rename them", "statement": "With a PropertyMarshaler and a PropertyUnmarshaler that do not fail and give no name twice, Encode succeeds and decoding its output adds a copy of the graph that has exactly the properties that come back: those for which neither gives the empty key, under the key and with the value the unmarshaler gives. Encode fails exactly if the marshaler fails for a property of some node or edge.", "quantifier": "all graphs, marshalers, unmarshalers, target graphs, map orders, with embedded and separate edges", "why_tests_cant": "all graphs and all functions as marshalers", "anchors": ["json.go: JSON.PropertyMarshaler, JSON.PropertyUnmarshaler, Encode, Decode"]}
{"id": "C80", "title": "What FindPaths finds depends on the graph only up to isomorphism", "statement": "If two graphs are the same but for the ids of nodes and edges (bijections that keep labels, properties and ends), then FindPaths with the same pattern and corresponding symbols reports corresponding matches in both, each equally often, whatever calls built the graphs, whatever indexes they have, whatever the orders of maps, and whichever items the two searches start from.", "quantifier": "all pairs of isomorphic graphs, all histories, patterns, symbols, indexes, map orders", "why_tests_cant": "quantifies over pairs of histories that lead to the same graph", "anchors": ["pattern.go: Pattern.FindPaths, getFastestElement, Run"]}
{"id": "C81", "title": "CheckIsomorphism accepts copies", "statement": "CheckIsomorphism with equivalences that compare labels and properties returns true, in both directions, for a graph and what CopyGraph makes of it in a graph without nodes; also for a graph and what Decode makes of the text Encode writes for it, if labels and properties survive the marshalers.", "quantifier": "all graphs, all targets without nodes, all orders of maps, embedded and separate edges", "why_tests_cant": "quantifies over all graphs and all orders in which maps are ranged over", "anchors": ["alg.go: CheckIsomorphism", "clone.go: CopyGraph", "json.go: Encode, Decode"]}
{"id": "C82", "title": "FindPaths finds the same in a copy", "statement": "FindPaths reports, in a copy of a graph made by CopyGraph or by Encode and Decode, the copies of the matches it reports in the graph, each as often.", "quantifier": "all graphs, all patterns, symbols, orders of maps", "why_tests_cant": "quantifies over all graphs and patterns; the copy has other ids and other indexes", "anchors": ["pattern.go: FindPaths", "clone.go: CopyGraph", "json.go: Encode, Decode"]}
{"id": "C83", "title": "The order of the edges of a node", "statement": "The edges of a node are enumerated in an order that the calls determine: a new edge comes behind the last edge on that side of the node that has its label, or last of all if it is the first with the label; an edge given another label is taken out and comes behind the last one with the new label; nothing else moves. Incoming edges come before outgoing ones. Selecting by one label keeps that order, a set of labels selects label after label.", "quantifier": "all histories of calls, nodes, directions, labels, all orders of maps", "why_tests_cant": "Tests compare sets or counts; an order that is right for the few edges of a test can differ once labels change or edges go.", "anchors": ["edgemap.go: edgeMap.add, remove, iterator", "node.go:57-99", "graph.go: SetEdgeLabel, connect, disconnect"]}
{"id": "C84", "title": "The order of all edges", "statement": "GetEdges enumerates the edges of the graph label after label, in the order in which they were made; GetEdgesWithAnyLabel keeps it and goes label after label.", "quantifier": "all histories of calls, all sets of labels, all orders of maps", "why_tests_cant": "The order holds only as long as edges are filed under the label they were made with, which no small test distinguishes.", "anchors": ["edgemap.go: edgeMap.add, remove, iterator", "graph.go:144-155"]}
{"id": "C85", "title": "The order of nodes with labels", "statement": "GetNodesWithAllLabels of a non-empty set of labels enumerates the nodes in the order in which they got the rarest of the labels (the first of the rarest in the order of Go's map), and MaxSize is the number of nodes filed under it. A node that loses the label while it keeps or gets others comes last when it gets it again; one that loses all its labels at once keeps its place.", "quantifier": "all histories of calls, all non-empty sets of labels, all orders of maps", "why_tests_cant": "Tests compare sets or counts of nodes; which label is scanned and in which order depends on the whole history of the labels.", "anchors": ["maps.go: NodeMap.Replace, Add, Remove, IteratorAllLabels", "graph.go:131-138", "sets.go"]}
{"id": "C86", "title": "The order of nodes and edges with a property", "statement": "GetNodesWithProperty and GetEdgesWithProperty enumerate in an order that the calls determine: without an index in the order of GetNodes and GetEdges; with a hash index in the order in which the property was last set, behind those that had it when the index was added; with a B-tree index by ascending value, and in that order those with the same value.", "quantifier": "all histories of calls, all property names and values, both types of index", "why_tests_cant": "Tests query an index after a few insertions; the place of a node whose property is set again, removed or indexed later depends on the history.", "anchors": ["indexes.go", "btreeindex.go", "hashindex.go", "graph.go:168-213", "graph.go: setNodeProperty, setEdgeProperty, removeEdge"]}
{"id": "C87", "title": "What FindNodes and FindEdges go through", "statement": "FindNodes goes through what the index that gives the fewest nodes gives, or through the nodes filed under the rarest label if they are fewer; it returns the matching ones in that order, with the number of those gone through as MaxSize. FindEdges does the same with the indexes alone once there are two edges, and returns all edges, in order and unfiltered, if no requested property is indexed; a removed edge that an index still has is judged by the label and properties it had when removed.", "quantifier": "all histories of calls, all non-empty sets of labels, all requested properties the indexes can be asked for, all orders of Go's map iteration", "why_tests_cant": "Tests compare small result sets; which of several indexes and labels is used, and so the order and MaxSize, depends on the whole history.", "anchors": ["graph.go:216-351 FindNodes, FindEdges", "graph.go:356-411", "btreeindex.go: find", "hashindex.go: find", "edgemap.go:160-186"]}
{"id": "C88", "title": "Which calls panic in a graph with hash indexes", "statement": "In a graph whose indexes are all hash indexes, a call panics if and only if it gives an index a value that cannot be a key of a Go map: one written to an indexed property, or one present when the index is created; all other calls return. FindNodes and FindEdges panic when asked for such a value of a property whose index was ever given a value, and find nothing if it never was. (False for the histories of C01 and C06, in which an index is built from a wrong list.)", "quantifier": "all histories of calls, all values including wrapped ones and lists, all orders of Go's map iteration", "why_tests_cant": "Tests index ints and strings; the panic depends on what was present when the index was created and on whether the index was ever used.", "anchors": ["hashindex.go", "indexes.go", "graph.go:216-351", "graph.go:418-468"]}
{"id": "C89", "title": "What MaxSize is, exactly", "statement": "MaxSize of GetNodes is the number of nodes in every graph. For the edges with one of some labels it is exact if there is at most one edge and -1 otherwise; for both directions of a node the two are added, so it is neither -1 nor a bound exactly if both sides have two edges, or one has two and the other has one with such a label. For nodes and edges with a property it is the number of all of them without an index, the number of those the index has with a hash index, and with a B-tree -1, or 0 if the index was never given a value. (False for the histories of C01, in which an index is built from a wrong list.)", "quantifier": "all histories of calls, all nodes, directions, sets of labels, properties and index types", "why_tests_cant": "Tests do not look at MaxSize; that a sum of unknown sizes looks like a size needs the right number of edges on both sides.", "anchors": ["node.go:83-99 GetEdgesWithAnyLabel", "graph.go:127-214", "edgemap.go:160-186", "btreeindex.go:68-83", "hashindex.go:80-85"]}
{"id": "C90", "title": "Which calls and queries panic with B-tree indexes", "statement": "With any mixture of hash and B-tree indexes a call panics if and only if it gives a hash index an unhashable value, gives a B-tree that holds something a value that does not compare with it, or takes a value out of a B-tree that does not compare with itself (such a value goes in silently when the tree is empty; its node can then neither be removed nor lose the property); a removed edge stays in the index (C15) and so still counts. A history returns if and only if none of its calls does this. FindNodes and FindEdges panic if and only if a value asked for does not compare with what the B-tree holds, or is unhashable and the hash index was ever given a value. (False for the histories of C01.)", "quantifier": "all histories of calls with any indexes on nodes and edges and any values except []interface{} in B-trees", "why_tests_cant": "A test sees one order of values; that an emptied tree accepts another type, and that a lone odd value locks its node in, needs the whole history.", "anchors": ["btreeindex.go:27-66", "hashindex.go:31-78", "indexes.go", "graph.go:216-351", "graph.go:418-468", "properties.go ComparePropertyValue"]}
{"id": "C91", "title": "What GetNodes lists in every graph", "statement": "After any history whatsoever GetNodes ends and lists each node at most once in the order of creation: first the removed nodes that stayed in the list, then live ones; a small automaton with four kinds of nodes says which. It is right if and only if no removed node stayed and no live node is missing. A removed node that is listed is listed for ever, a live node that is missing never comes back, and a listed node stays listed as long as it lives. NumNodes counts listed and missing live nodes.", "quantifier": "all histories of calls, without the restriction of C01", "why_tests_cant": "Removed nodes keep their links and the tail of the list can be a removed node; what later calls do to such a list needs an invariant over all histories.", "anchors": ["list.go:87-123 nodeList.add, nodeList.remove", "list.go:125-150 nodeListIterator", "graph.go:114-128 NumNodes, GetNodes"]}
{"id": "C92", "title": "What GetNodesWithProperty lists in every graph", "statement": "After any history whatsoever: without an index GetNodesWithProperty lists the nodes of GetNodes (C91) that have the property or, being removed, had it last. With an index it lists the live nodes with the property, except those that GetNodes did not list when the index was made and that have not been given the property since, and in addition the removed nodes that GetNodes listed when the index was made and that had the property, for ever. So the answer is right if and only if the list was right, as far as this property goes, when the index was made.", "quantifier": "all histories of calls, without the restriction of C01, with values the index can hold", "why_tests_cant": "The index is filled from a list that may be wrong and is kept apart from it afterwards; which errors stay and which are repaired needs the whole history.", "anchors": ["graph.go:173-189 GetNodesWithProperty", "graph.go:413-474", "indexes.go:47-67 NodePropertyIndex", "indexes.go:91-132", "hashindex.go", "btreeindex.go"]}
{"id": "C93", "title": "Removed nodes, and Sources, Sinks and ForEachNode in every graph", "statement": "A node that was removed still answers with the labels and properties it had last, and has no edges. So after any history whatsoever Sources and Sinks give exactly the nodes of GetNodes (C91) without incoming, or outgoing, edges; every removed node that is listed is among both; ForEachNode visits the nodes of GetNodes in order until its function says stop.", "quantifier": "all histories of calls, without the restriction of C01, and all functions given to ForEachNode", "why_tests_cant": "Removed nodes are reached through a list that should not have them any more; tests look at nodes in the graph.", "anchors": ["alg.go:22-61 Sources, Sinks", "alg.go:181-188 ForEachNode", "graph.go:114-128", "node.go"]}
{"id": "C94", "title": "What CopyGraph copies in every graph", "statement": "After any history whatsoever in which the edge list is right: CopyGraph makes, in any target graph, a copy of each node that GetNodes lists in the source (C91), removed ones too, with the labels and properties it has or had last, and a copy of each edge both of whose ends are listed, and nothing else; if the target can take the properties, it returns. The result is a copy of the source if and only if GetNodes is right in the source.", "quantifier": "all histories of the source and the target, all cloning functions and label orders", "why_tests_cant": "It needs graphs whose node list is wrong, and an account of everything that the copy has.", "anchors": ["clone.go:22-53 CopyGraph, CopyGraphf", "graph.go:114-128", "node.go"]}
{"id": "C95", "title": "The dot text for every graph and every writer", "statement": "After any history whatsoever in which the edge list is right: Render with the default renderers writes the head, a line for each node that GetNodes lists, numbered from 0, a line for each edge between listed nodes, and the last line, one after the other, and stops at the first text that the writer fails to write, with an error.", "quantifier": "all histories and all writers, whatever they do and whenever they fail", "why_tests_cant": "Writers can fail at every call and in every way; tests write to a buffer.", "anchors": ["dotrenderer.go:50-118"]}
{"id": "C96", "title": "What Encode writes in every graph, read back", "statement": "After any history whatsoever (with separate edges, if the edge list is right and GetNodes lists a node): Encode succeeds, and Decode of what it wrote adds to any graph a copy of each node that GetNodes lists, removed ones too, and an edge for each edge of the source that leaves a listed node, or with separate edges for each edge; where an end of the edge is not listed, the first listed node takes its place.", "quantifier": "all histories of the source and the target, all properties that survive the marshaler, all orders", "why_tests_cant": "It needs graphs whose node list is wrong; the edges that come back are between other nodes, and no error is reported.", "anchors": ["json.go:176-386 Encode", "json.go:417-453 addNode, addEdge", "json.go:455-532 Decode"]}
{"id": "C97", "title": "What Decode takes the values of a document for", "statement": "A node is an object (null counts as an empty one) with a number n, a list of labels, an object of properties and a list of edges; each of these may be missing or null and then is 0 or empty, and of a member that occurs twice the last one counts. All lists under the keys nodes and edges count. Decode succeeds if and only if the document has this form, the unmarshaler reads all properties, and each edge has declared ends; then it adds exactly these nodes and edges, with the properties that the unmarshaler reads, under the names it gives, without those with the empty name.", "quantifier": "all documents whose unknown keys have values that are skipped (C42), all unmarshalers, all graphs", "why_tests_cant": "The documents that one can write down with missing, null and repeated members are without end; the relation is stated without the code that reads them.", "anchors": ["json.go:138-160", "json.go:388-415 unmarshalProperty, unmarshalProperties", "json.go:417-453 addNode, addEdge", "json.go:455-532 Decode"]}
