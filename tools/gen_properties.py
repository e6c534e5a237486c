#!/usr/bin/env python3
"""Generates /verif/properties.jsonl (kept as a script so that the list stays valid JSON)."""
import json
P=[]
def p(id,title,statement,quantifier,why,anchors):
    P.append(dict(id=id,title=title,statement=statement,quantifier=quantifier,why_tests_cant=why,anchors=anchors))

p("C01","GetNodes enumerates exactly the live nodes",
  "After any history of API calls, iterating Graph.GetNodes yields every node that was created and not removed, exactly once, in creation order, and nothing else.",
  "every finite history of node/edge creation, update and removal calls on live objects",
  "The node list is an intrusive doubly linked list; whether it stays correct depends on which element each removal hits and what is added afterwards, so only an invariant over all histories settles it.",
  ["list.go: nodeList.add, nodeList.remove, nodeListIterator","graph.go: GetNodes, detachRemoveNode, addNode"])
p("C02","NumNodes counts the live nodes",
  "After any history, NumNodes equals the number of nodes created and not removed.",
  "every finite history of calls on live objects","needs to hold after unboundedly many interleaved additions and removals",
  ["graph.go: NumNodes","list.go: nodeList"])
p("C03","Adjacency is exact",
  "After any history, node.GetEdges(OutgoingEdge) (IncomingEdge) yields every live edge whose source (target) is that node, exactly once, and nothing else.",
  "every finite history of calls on live objects (including SetLabel, Detach, self loops) and every live node",
  "the per-node edge map switches representation at sizes 0/1/2+, keeps one linked list per label and shares link fields between lists; correctness is an invariant over histories",
  ["edgemap.go: edgeMap.add, edgeMap.remove, edgeMap.iterator","graph.go: connect, disconnect, setEdgeLabel, removeEdge, detachNode","node.go: GetEdges"])
p("C04","AnyEdge is incoming followed by outgoing",
  "node.GetEdges(AnyEdge) yields exactly the incoming edges followed by the outgoing edges; a self loop therefore appears exactly twice.",
  "every history and every live node","as C03",
  ["node.go: GetEdges","itr.go: MultiIterator, funcIterator"])
p("C05","Label-restricted adjacency is exact",
  "node.GetEdgesWithLabel(dir,l) yields exactly the edges of node.GetEdges(dir) whose current label is l, each as often; node.GetEdgesWithAnyLabel(dir,S) yields those whose current label is in S, and all of them when S is empty.",
  "every history, live node, direction, label and label set","label buckets are created and dropped dynamically and SetLabel moves edges between them",
  ["edgemap.go: iteratorLabel, iteratorAnyLabel","node.go: GetEdgesWithLabel, GetEdgesWithAnyLabel"])
p("C06","Graph.GetEdges and NumEdges are exact",
  "After any history Graph.GetEdges yields every live edge exactly once and nothing else, and NumEdges equals their number.",
  "every finite history of calls on live objects","invariant over histories; depends on relabelling followed by removal",
  ["graph.go: GetEdges, NumEdges, setEdgeLabel, removeEdge","edgemap.go"])
p("C07","Graph.GetEdgesWithAnyLabel is exact",
  "Graph.GetEdgesWithAnyLabel(S) yields exactly the live edges whose current label is in S, each once.",
  "every history and label set","the bucket an edge sits in must track its label through every SetLabel",
  ["graph.go: GetEdgesWithAnyLabel, setEdgeLabel","edgemap.go: iteratorAnyLabel"])
p("C08","GetNodesWithAllLabels is exact",
  "For every non-empty label set L, GetNodesWithAllLabels(L) yields exactly the live nodes carrying every label of L, each once, whatever order Go iterates its maps in.",
  "every history (including SetLabels to and from the empty set), every non-empty label set, every map iteration order",
  "the label index is maintained incrementally; Go map iteration order is random",
  ["maps.go: NodeMap.Add, Remove, Replace, IteratorAllLabels","graph.go: setNodeLabels"])
p("C09","Read your writes, and nothing else changes",
  "GetLabels/HasLabel/GetProperty/GetLabel/GetFrom/GetTo of a node or edge return the values of the last write to it; a write to one object or key leaves every other object and key unchanged.",
  "every history and every live object and key","frame conditions quantify over all other objects and all histories",
  ["graph.go: setNodeLabels, setNodeProperty, removeNodeProperty, setEdgeLabel, setEdgeProperty, removeEdgeProperty"])
p("C10","IDs are unique and never reused",
  "No two nodes/edges ever created in a graph get the same ID, an ID never changes, and IDs increase in creation order.",
  "every history","over all histories including removals",
  ["graph.go: FastNewNode, FastNewEdge, cloneNode, cloneEdge (idBase)"])
p("C11","Detach removes exactly the incident edges",
  "After node.Detach() no edge is incident to node, every edge not incident to node is still present and unchanged with the same adjacency at every other node, and DetachAndRemove additionally removes exactly that node.",
  "every history, every live node, any number of parallel edges and self loops","iterates a snapshot of a list being modified",
  ["graph.go: detachNode, detachRemoveNode"])
p("C12","No dangling edges",
  "Every edge found in the adjacency of a live node has both endpoints live.",
  "every history","invariant over histories",
  ["graph.go: detachNode, FastNewEdge"])
p("C13","Node property index agrees with a scan",
  "If a property is indexed (B-tree or hash), GetNodesWithProperty(k) yields exactly the live nodes having property k, each once - the same set as without the index; adding the index before or after the data makes no difference.",
  "every history, property key, index type, with values that are mutually comparable (B-tree) or hashable (hash)","incremental maintenance across SetProperty/RemoveProperty/remove",
  ["indexes.go","btreeindex.go","hashindex.go","graph.go: setNodeProperty, removeNodeProperty"])
p("C14","FindNodes returns exactly the matching nodes",
  "FindNodes(L,props) yields exactly the live nodes which have all labels of L and whose properties match props, each once, whatever indexes exist.",
  "every history, label set, property map, set of indexes, map iteration order","the plan choice depends on sizes of internal structures",
  ["graph.go: FindNodes, GetNodeFilterFunc"])
p("C15","FindEdges returns exactly the matching edges",
  "FindEdges(L,props) yields exactly the live edges whose label is in L (any if L empty) and whose properties match props, each once, whatever indexes exist.",
  "every history, label set, property map, set of indexes","as C14",
  ["graph.go: FindEdges, GetEdgeFilterFunc"])
p("C16","Edge property index agrees with a scan",
  "If an edge property is indexed, GetEdgesWithProperty(k) yields exactly the live edges having k, each once.",
  "every history, key, index type","incremental maintenance over histories including Edge.Remove",
  ["graph.go: removeEdge, setEdgeProperty, removeEdgeProperty, detachNode","indexes.go"])
p("C17","ComparePropertyValue is a consistent order",
  "Wherever ComparePropertyValue does not panic it is antisymmetric (cmp(b,a) = -cmp(a,b), panicking symmetrically), reflexive on supported values, transitive, and respects native values.",
  "all pairs/triples of property values of any nesting depth","infinitely many nested values",
  ["properties.go: ComparePropertyValue"])
p("C18","Property filters decide exactly",
  "The function returned by GetNodeFilterFunc/GetEdgeFilterFunc never panics and returns true iff the labels match and every requested property exists with a value comparing equal; iteration order is irrelevant.",
  "all nodes, label sets, property maps, orders","order independence in the presence of recovered panics",
  ["graph.go: GetNodeFilterFunc, GetEdgeFilterFunc"])
p("C19","StringSet is a finite set",
  "Has/HasAny/HasAll/HasAnySet/HasAllSet/IsEqual/Add/AddSet/Remove/Len/Slice behave as mathematical finite set operations.",
  "all sets and argument lists","all inputs",
  ["stringset.go"])
p("C20","StringSet copies are independent",
  "Although Clone shares storage, Add/AddSet/Remove through one StringSet handle never changes the contents seen through any other handle, so GetLabels can be modified freely without touching the node.",
  "every sequence of operations over any number of handles","aliasing over arbitrary histories",
  ["stringset.go: Clone, Add, AddSet, Remove","node.go: GetLabels"])
p("C21","NodeSet/EdgeSet are insertion-ordered sets",
  "Add ignores duplicates, Remove removes, Has and Len agree with the iteration, which yields the elements in the order of first insertion.",
  "every sequence of Add/Remove","history invariant between a map and a linked list",
  ["sets.go"])
p("C22","NodeMap.Iterator yields each node once",
  "NodeMap.Iterator yields every node in the map exactly once, whatever the number of labels of each node.",
  "every sequence of Add/Replace/Remove, every map order","duplicates are suppressed by a stateful filter over seen labels",
  ["maps.go: NodeMap.Iterator, nodeMapIterator"])
p("C23","NewEdge rejects foreign nodes and changes nothing",
  "NewEdge panics iff one of the nodes does not belong to the graph; otherwise it creates exactly one edge with the given ends, label and properties.",
  "every history and pair of nodes","over all states",
  ["graph.go: FastNewEdge"])
p("C24","CollectAllPaths only reports valid trails",
  "Each path passed to the accumulator starts at fromNode with an edge of firstLeg, is connected edge by edge respecting the direction, satisfies the edge filter after the first leg, never repeats an edge and has length within [min,max].",
  "all graphs, filters, directions, bounds","all graphs incl. cycles, self loops and parallel edges",
  ["vpathitr.go: CollectAllPaths"])
p("C25","CollectAllPaths reports every valid trail exactly once",
  "Every such trail is reported, exactly once, if the accumulator always returns true.",
  "all graphs, filters, directions, bounds","completeness over all graphs",
  ["vpathitr.go: CollectAllPaths"])
p("C26","CollectAllPaths terminates and stops on demand",
  "It terminates on every finite graph, even with max=-1 and cycles; when the accumulator returns false nothing more is reported, and what was reported before is a prefix of the full enumeration.",
  "all graphs, bounds and accumulators","termination on all graphs",
  ["vpathitr.go: CollectAllPaths"])
p("C27","Path.Append keeps paths connected",
  "Appending elements to a connected non-empty path panics iff the elements do not connect, and otherwise yields the connected concatenation.",
  "all paths and element lists","all inputs",
  ["path.go: Append"])
p("C28","Path accessors are coherent",
  "NumNodes is NumEdges+1 for a non-empty path; GetNode(0)=First, GetNode(NumNodes-1)=Last, and GetEdge(i) joins GetNode(i) and GetNode(i+1).",
  "all paths built by the API","all lengths",
  ["path.go: GetNode, GetEdge, First, Last, NumNodes, NumEdges"])
p("C29","RemoveLast/RemoveFirst edit the path only",
  "RemoveLast (RemoveFirst) removes the last (first) edge from the path, leaving a single node if the path had one edge, and does not modify the graph.",
  "all paths","all paths and graphs",
  ["path.go: RemoveLast, RemoveFirst","cursor.go: PopFromPath"])
p("C30","AppendPath concatenates connected paths",
  "p.AppendPath(q) yields the concatenation of p and q when p ends where q starts and panics otherwise; q is not modified; appending a single node path only checks it.",
  "all pairs of paths","all inputs",
  ["path.go: AppendPath"])
p("C31","HasPrefixPath decides prefixes",
  "p.HasPrefixPath(q) is true iff q is a prefix of p as node-edge sequence.",
  "all pairs of paths","all inputs",
  ["path.go: HasPrefix, HasPrefixPath"])
p("C32","Slice extracts sub-paths",
  "p.Slice(i,j) returns the sub-path made of nodes i..j-1 of p (j=-1 meaning the end).",
  "all paths and indexes","boundary indexes",
  ["path.go: Slice"])
p("C33","CopyGraph produces an isomorphic copy",
  "CopyGraph(source,target) adds to target one new node per source node and one new edge per source edge with same labels, mapped properties and corresponding ends, returns the node correspondence, and leaves source and the previous content of target unchanged.",
  "all source and target graphs and property functions","all graphs",
  ["clone.go: CopyGraph, CopyGraphf","graph.go: cloneNode, cloneEdge"])
p("C34","CopySubgraph copies exactly the reachable part",
  "CopySubgraph(n,target,f,m) copies exactly the nodes reachable from n through nodes not already in m, and each outgoing edge of each copied node exactly once; it terminates on cyclic graphs.",
  "all graphs, start nodes, initial maps","all graphs incl. cycles",
  ["clone.go: CopySubgraph, CopyNode, CopyEdge"])
p("C35","CheckIsomorphism accepts isomorphic graphs",
  "If there is an isomorphism compatible with the equivalence functions, CheckIsomorphism returns true (context not cancelled); it always terminates.",
  "all pairs of graphs and equivalence functions","search space enumeration must be complete",
  ["alg.go: CheckIsomorphism"])
p("C36","CheckIsomorphism rejects non-isomorphic graphs",
  "If CheckIsomorphism returns true there is an isomorphism compatible with the equivalence functions.",
  "all pairs of graphs and equivalence functions","soundness over all inputs",
  ["alg.go: CheckIsomorphism"])
p("C37","Sources, Sinks, EdgesBetweenNodes, ForEachNode are exact",
  "Sources/Sinks return exactly the nodes without incoming/outgoing edges; EdgesBetweenNodes exactly the edges from one node to the other; ForEachNode visits every node once until the predicate fails.",
  "all graphs","all graphs",
  ["alg.go"])
p("C38","Cursor neighbourhoods are exact",
  "Cursor.Nodes(dir)/NodesWith(dir,l) yield exactly the distinct nodes at the other end of the edges of the current node in that direction.",
  "all graphs, nodes and directions","all graphs incl. self loops",
  ["cursor.go","itr.go: nodesFromEdgesIterator"])
p("C39","JSON round trip with embedded edges",
  "Decoding into an empty graph what Encode wrote (MarshalEdgesSeparately=false) gives a graph isomorphic to the original, with equal labels, edge labels and property values, whatever order Go's map iteration writes the nodes in.",
  "all graphs whose properties survive the property marshaler, every node order","all graphs; random order",
  ["json.go: Encode, Decode, addNode, addEdge"])
p("C40","JSON round trip with separate edges",
  "Same as C39 with MarshalEdgesSeparately=true.",
  "all graphs, every node order","all graphs",
  ["json.go: Encode, Decode"])
p("C41","Encode writes a syntactically valid document",
  "The text written by Encode is a JSON object, for every graph and both settings.",
  "all graphs and settings","includes the empty graph",
  ["json.go: Encode"])
p("C42","Decode ignores unknown keys",
  "Top level keys other than nodes and edges do not influence the decoded graph.",
  "all documents","all nestings of the ignored value",
  ["json.go: Decode"])
p("C43","Decode rejects references to missing nodes",
  "Decode returns an error if an edge refers to a node index that no node declares, and otherwise creates every edge exactly once between the declared nodes, including forward references.",
  "all documents","all orders of nodes and edges",
  ["json.go: Decode, addNode"])
p("C44","DOT output is faithful",
  "RenderNodesEdges renders each accepted node once under a distinct identifier and each edge between accepted nodes exactly once with the identifiers of its ends.",
  "all graphs and renderers","all graphs",
  ["dotrenderer.go: RenderNodesEdges"])
p("C45","Pattern matches are sound",
  "Every result of Pattern.Run satisfies the labels, properties, directions and length bounds of all pattern items and is a connected path of the graph.",
  "all graphs, patterns and symbol tables","all graphs and patterns",
  ["pattern.go","planprocessors.go"])
p("C46","Pattern matches are complete",
  "Every match of the pattern in the graph is reported exactly once, whichever element the planner starts from.",
  "all graphs, patterns, indexes","the plan depends on index sizes",
  ["pattern.go: GetPlan, getFastestElement","planprocessors.go"])
p("C47","Reused pattern variables denote the same node",
  "If a name occurs at several node positions of a pattern, each reported match binds the same node to all of them.",
  "all graphs and patterns","binding scope over backtracking",
  ["pattern.go: recordStepResult, resetStepResult, isConstrainedNodes"])
p("C48","MaxSize is an upper bound",
  "MaxSize() of every iterator is -1 or at least the number of elements it will yield.",
  "all iterators of the API in all states","all states",
  ["itr.go","edgemap.go","node.go"])
p("C49","String table interning",
  "While a string has outstanding references, str(allocate(s)) = s, equal strings share an index, different live strings have different indexes; freed slots are reused without affecting live strings.",
  "every sequence of allocate/free","history invariant with an embedded free list",
  ["stringtable.go"])
p("C50","Iterator combinators denote list operations",
  "Draining filterIterator, makeUniqueIterator, funcIterator/MultiIterator, procIterator, listIterator step by step with Next/Value yields filter, dedup (first occurrences), concatenation, map and the list itself.",
  "all underlying iterators and functions","all sequences",
  ["itr.go"])
p("C51","Operations on removed objects are harmless",
  "Calling Remove twice on an edge, or DetachAndRemove twice on a node, leaves the rest of the graph intact.",
  "every history","needs every history",
  ["edgemap.go: remove","list.go: remove"])
p("C52","NextNodesWith/PrevNodesWith/TargetNodes/SourceNodes",
  "They return exactly the distinct targets (sources) of the edges concerned.",
  "all graphs, nodes, labels","all graphs",
  ["itr.go: TargetNodes, SourceNodes","node.go: NextNodesWith, PrevNodesWith"])
p("C53","Valid calls do not panic and terminate",
  "NewNode, NewEdge, SetLabels, SetProperty, RemoveProperty, SetLabel, Remove, Detach, DetachAndRemove and AddNodeIndex/AddEdgeIndex on live objects of the graph return normally.",
  "every history of calls on live objects","a corrupted list shows only after particular histories",
  ["graph.go","node.go","edge.go","edgemap.go","list.go","indexes.go"])
p("C54","NodeMap.IsEmpty is true iff the map holds no node",
  "IsEmpty returns true exactly when no node is in the map.",
  "every sequence of Add/Replace/Remove","every history",
  ["maps.go: IsEmpty"])
p("C55","A cursor stays at the end of its path",
  "After StartPath, PushToPath and PopFromPath the cursor is at the last node of its recorded path.",
  "all graphs, cursors and sequences of these calls","needs a pop in the middle of a walk",
  ["cursor.go: StartPath, PushToPath, PopFromPath"])
p("C56","Head and tail nodes of matches",
  "FindMatchNodes and GetHeadNodes return exactly the first nodes of the matches of a pattern, GetTailNodes the last ones.",
  "all graphs, patterns and symbol tables","depends on the direction in which the planner matches each item",
  ["pattern.go: FindMatchNodes, GetHeadNodes, GetTailNodes"])
p("C57","Paths behave as values",
  "A call on a path has the effect on it that it has on a list of path elements; it changes no other path and no slice of the caller, and what the caller does with its slices changes no path.",
  "all graphs, all programs of path calls and slice operations","depends on the capacity append chooses and on which slices share an array",
  ["path.go:33-35","path.go:116-167","path.go:259-319"])
p("C58","A loop over edges may remove the edges it visits",
  "A loop over the edges of a node (GetEdges, GetEdgesWithLabel, GetEdgesWithAnyLabel) whose body removes each edge visits exactly the edges that were there at the start, and leaves the graph without them.",
  "all graphs, nodes, directions, labels; all loop bodies that do not touch what is still to be visited","depends on where the iterator points when the lists change",
  ["edgemap.go:105-211","list.go:42-73","itr.go:157-193","node.go:56-99"])
p("C59","A loop over edges may relabel the edges it visits",
  "A loop over edges whose body sets the label of each edge visits each edge once.",
  "all graphs, nodes, labels","the edge moves to a list that the loop may or may not have passed",
  ["edge.go: SetLabel","graph.go: setEdgeLabel","edgemap.go:188-211"])
p("C60","A loop over edges may remove the nodes they lead to",
  "A loop over the outgoing edges of a node that calls DetachAndRemove on each target leaves no outgoing edge.",
  "all graphs and nodes","needs parallel edges in a particular order",
  ["node.go: DetachAndRemove","list.go:42-73"])
p("C61","A loop over all nodes may change the graph",
  "A loop over GetNodes whose body creates or removes nodes ends, and visits all nodes that were there before and are not removed.",
  "all graphs and loop bodies","non-termination is not observable by a test",
  ["graph.go:123-129","list.go:75-138"])
p("C62","A loop over the nodes with given labels may change labels and remove nodes",
  "A loop over GetNodesWithAllLabels whose body changes labels or removes nodes ends, and visits all nodes that have the labels at the start and at the end.",
  "all graphs, label sets, iteration orders and loop bodies","the iterator holds a pointer into a list that the body changes, and that is dropped when it becomes empty",
  ["maps.go:184-206","sets.go","itr.go:229-246","graph.go:136-138"])
p("C63","A loop over the nodes or edges with a property may set and remove properties",
  "A loop over GetNodesWithProperty or GetEdgesWithProperty whose body sets or removes that property of the elements visited ends, and visits each of them once.",
  "all graphs, properties and loop bodies","non-termination is not observable by a test; depends on whether there is an index",
  ["graph.go:173-214","hashindex.go:28-85","indexes.go:89-107"])
p("C64","A cancelled CheckIsomorphism does not answer wrongly",
  "If the context given to CheckIsomorphism is cancelled at any moment, the call either returns the answer it returns without cancellation, or false and the error of the context; it tries no further mapping after the context reports an error.",
  "all graphs, equivalence functions and moments of cancellation","the moment of cancellation cannot be controlled by a test",
  ["alg.go:84-177"])
p("C65","A call that panics leaves the graph as it was",
  "If a call panics because a property index refuses a value, and the caller recovers, the graph is as it was before the call.",
  "all programs of calls, recovered panics included, and all iteration orders","needs the state after a panic, which depends on the order in which Go iterates over a map",
  ["graph.go:49-111","graph.go:418-566","indexes.go:47-67","indexes.go:109-173","hashindex.go:27-43","btreeindex.go:26-37"])
p("C66","Decode accepts only JSON objects",
  "If JSON.Decode returns no error, its input begins with the text of a JSON object; every input that ends early, or is malformed, gives an error, and what follows the object is not looked at.",
  "all inputs, as sequences of lexical tokens","there is no end of malformed inputs",
  ["json.go:455-532"])
p("C67","What FindPaths gives whatever item the matching starts from",
  "Let start be the pattern item chosen by the planner. If it is an undirected relationship, FindPaths panics when an edge has its labels and properties and finds nothing otherwise. In all other cases it finds all matches of the pattern (a start relationship taken as exactly one edge), with the right values for all names; the reported path consists of the last step of each relationship before the start and of the walks of the others (the start backwards if it points to the left). FindPaths panics exactly when these steps do not join for one of the matches found. Symbols for relationships do not restrict the matches, except that a start relationship may be tried with the edges of its symbol only.",
  "all histories of graph operations, indexes, patterns, symbols for nodes and relationships, map orders","the start depends on sizes of the graph, so the cases that panic or lose steps move around with the data",
  ["pattern.go:324-348","pattern.go:350-532","pattern.go:574-637","planprocessors.go:28-274"])
p("C68","Label sets and property maps exchanged with the graph are copies",
  "A program that creates label sets and property maps, changes them by the methods of StringSet or by writing to their maps, gives them to NewNode, FastNewNode, FastNewEdge, SetLabels, gets them from GetLabels and copies nodes within the graph behaves as if every one of these were a value of its own: writing to one of them changes no other variable, node or edge. (False: GetLabels and StringSet.Clone share the map, SetLabels, FastNewNode and FastNewEdge keep the map of the caller, CopyNode gives the copy the label set of the node. True if the program uses methods only, and in general if each map that is written has one holder at that moment.)",
  "all programs, graphs, histories","needs all ways in which two holders may get the same map, and the indexes go wrong only later",
  ["stringset.go:27-37","stringset.go:82-123","node.go:46-47","graph.go:48-111","graph.go:413-467","graph.go:535-565","clone.go:68-71"])
p("C69","A graph, or the part reachable from a node, can be copied into itself",
  "CopyGraph(g, g) and CopySubgraph(n, n.GetGraph()) return, and add one copy of each node and edge (reachable) that was there at the start. (False for CopyGraph: with two or more nodes it never returns. True for CopySubgraph.)",
  "all histories of graph operations, start nodes, initial maps, functions that clone property values","the loops read what they extend; non-termination is not observable by a test",
  ["clone.go:22-66","graph.go:436-448","graph.go:491-512","list.go:125-138","edgemap.go:126-211"])
p("C70","A StringSet written as JSON is read back",
  "UnmarshalJSON reads from the text that MarshalJSON writes, in any order, a set with the same elements. (False: strings that are not UTF-8 are replaced and may become equal. True exactly for sets of UTF-8 strings.) It accepts exactly null and arrays of strings and nulls; on any other text it returns an error and leaves the set as it was.",
  "all sets, iteration orders and texts","there is no end of texts, and the order of a Go map cannot be chosen by a test",
  ["stringset.go:126-132","stringset.go:144-155"])
p("C71","A pattern symbol lists what was added to it",
  "After any calls of Add, AddNode and AddPath, NodeSlice lists the nodes added and EdgeSlice the edges added, once each in order of first addition, and nil if nothing of that kind was added; a path added to an empty symbol is what EdgeSlice returns. (The last part is false: directions and repetitions are lost. True exactly for paths without them.) GetSymbolNames gives the nonempty names of the items of a pattern.",
  "all sequences of items, all patterns","needs all orders of additions and all repetitions",
  ["pattern.go:35-38","pattern.go:218-268","pattern.go:373-381","sets.go:43-51"])
p("C72","The text of a node or an edge determines labels and printed properties",
  "Two nodes (edges) for which String gives the same text have the same labels and the same printed properties, and String gives the same text at every call. (False: nothing is quoted, and maps are written in any order. True if labels and keys have no space and no colon and printed values no space; stable for at most one label and one property.) As JSON, nodes and edges are their text.",
  "all label sets, property maps, ways to print a value, iteration orders","needs pairs of nodes and all iteration orders",
  ["node.go:127-137","edge.go:93-99","properties.go:211-223"])
p("C73","The text of a path lists its elements",
  "Path.String gives the texts of the elements of the path, separated by single spaces and nothing around them, each written from the source to the target of its edge and marked if reversed; paths with the same text have the same number of nodes. (The last part is false: a path of one node has the empty text.)",
  "all paths, texts of nodes","needs all paths and all texts of nodes, which can differ from call to call",
  ["path.go:196-211"])
p("C74","Interning does not change strings",
  "MapInterner.Intern returns a string equal to its argument, however often it is called. (False for a map that the caller fills. True if the map was filled by Intern, as in a Decode without Interner.)",
  "all maps and sequences of calls","needs all histories of the map",
  ["json.go:38-47","json.go:409-425","json.go:455-458"])
p("C75","A failed Encode returns the error and leaves no complete text",
  "Encode gives the writer the same texts in the same order whatever the writer does, until the writer fails; it returns an error if and only if the writer or a marshaler returned one; it writes nothing after an error; and what was written before the error is not a JSON text.",
  "all graphs, marshalers, iteration orders and writers, which may fail at any call","every single call of Write has to fail once, for each graph",
  ["json.go:176-386"])
p("C76","A failed Decode leaves the graph as it was",
  "If Decode returns an error the graph has the nodes and edges it had before. (It has not; what holds is that Decode only adds to the graph, that new edges are between new nodes, so that the edges of old nodes stay, and that what is added is a prefix of the document's nodes and some of the edges between them.)",
  "for all graphs, all inputs (token sequences, JSON or not), all property unmarshalers, all map orders",
  "Tests decode into empty graphs and look at the error, not at the graph after it.",
  ["json.go:417-443","json.go:445-452","json.go:455-532"])
p("C77","A variable for both nodes and relationships is an error",
  "FindPaths (Pattern.Run) returns ErrNodeVariableExpected if and only if some variable names a node item of the pattern and is given as a set of edges, or names a relationship of the pattern as well; then nothing is reported to the accumulator.",
  "all graphs, all symbols, all patterns, all accumulators, all orders of maps",
  "Whether the error comes depends on the item the plan starts from, so on the sizes of indexes, and on what matches before the node; tests see some of these orders only.",
  ["pattern.go:65-87","pattern.go:324-331","planprocessors.go:28-72","planprocessors.go:225-274"])
p("C78","Matching starts from the fewest candidates",
  "Of all ways to enumerate candidates for an item of a pattern (labels, indexed properties, symbols, all nodes or edges), getFastestElement chooses one whose MaxSize is smallest, of the first item that has it.",
  "all graphs, symbols, patterns, all orders of maps",
  "A worse choice gives the same results, only slower; the comparison with -1 for unknown sizes goes wrong for one of the two kinds of items only.",
  ["pattern.go:113-158","pattern.go:160-216","pattern.go:350-371","maps.go:184-206"])
p("C79","Property marshalers may leave properties out or rename them",
  "With a PropertyMarshaler and a PropertyUnmarshaler that do not fail and give no name twice, Encode succeeds and decoding its output adds a copy of the graph that has exactly the properties that come back: those for which neither gives the empty key, under the key and with the value the unmarshaler gives. Encode fails exactly if the marshaler fails for a property of some node or edge.",
  "all graphs, marshalers, unmarshalers, target graphs, map orders, with embedded and separate edges",
  "all graphs and all functions as marshalers",
  ["json.go: JSON.PropertyMarshaler, JSON.PropertyUnmarshaler, Encode, Decode"])
p("C80","What FindPaths finds depends on the graph only up to isomorphism",
  "If two graphs are the same but for the ids of nodes and edges (bijections that keep labels, properties and ends), then FindPaths with the same pattern and corresponding symbols reports corresponding matches in both, each equally often, whatever calls built the graphs, whatever indexes they have, whatever the orders of maps, and whichever items the two searches start from.",
  "all pairs of isomorphic graphs, all histories, patterns, symbols, indexes, map orders",
  "quantifies over pairs of histories that lead to the same graph",
  ["pattern.go: Pattern.FindPaths, getFastestElement, Run"])
p("C81","CheckIsomorphism accepts copies",
  "CheckIsomorphism with equivalences that compare labels and properties returns true, in both directions, for a graph and what CopyGraph makes of it in a graph without nodes; also for a graph and what Decode makes of the text Encode writes for it, if labels and properties survive the marshalers.",
  "all graphs, all targets without nodes, all orders of maps, embedded and separate edges",
  "quantifies over all graphs and all orders in which maps are ranged over",
  ["alg.go: CheckIsomorphism","clone.go: CopyGraph","json.go: Encode, Decode"])
p("C82","FindPaths finds the same in a copy",
  "FindPaths reports, in a copy of a graph made by CopyGraph or by Encode and Decode, the copies of the matches it reports in the graph, each as often.",
  "all graphs, all patterns, symbols, orders of maps",
  "quantifies over all graphs and patterns; the copy has other ids and other indexes",
  ["pattern.go: FindPaths","clone.go: CopyGraph","json.go: Encode, Decode"])
p("C83","The order of the edges of a node",
  "The edges of a node are enumerated in an order that the calls determine: a new edge comes behind the last edge on that side of the node that has its label, or last of all if it is the first with the label; an edge given another label is taken out and comes behind the last one with the new label; nothing else moves. Incoming edges come before outgoing ones. Selecting by one label keeps that order, a set of labels selects label after label.",
  "all histories of calls, nodes, directions, labels, all orders of maps",
  "Tests compare sets or counts; an order that is right for the few edges of a test can differ once labels change or edges go.",
  ["edgemap.go: edgeMap.add, remove, iterator","node.go:57-99","graph.go: SetEdgeLabel, connect, disconnect"])
p("C84","The order of all edges",
  "GetEdges enumerates the edges of the graph label after label, in the order in which they were made; GetEdgesWithAnyLabel keeps it and goes label after label.",
  "all histories of calls, all sets of labels, all orders of maps",
  "The order holds only as long as edges are filed under the label they were made with, which no small test distinguishes.",
  ["edgemap.go: edgeMap.add, remove, iterator","graph.go:144-155"])
p("C85","The order of nodes with labels",
  "GetNodesWithAllLabels of a non-empty set of labels enumerates the nodes in the order in which they got the rarest of the labels (the first of the rarest in the order of Go's map), and MaxSize is the number of nodes filed under it. A node that loses the label while it keeps or gets others comes last when it gets it again; one that loses all its labels at once keeps its place.",
  "all histories of calls, all non-empty sets of labels, all orders of maps",
  "Tests compare sets or counts of nodes; which label is scanned and in which order depends on the whole history of the labels.",
  ["maps.go: NodeMap.Replace, Add, Remove, IteratorAllLabels","graph.go:131-138","sets.go"])
p("C86","The order of nodes and edges with a property",
  "GetNodesWithProperty and GetEdgesWithProperty enumerate in an order that the calls determine: without an index in the order of GetNodes and GetEdges; with a hash index in the order in which the property was last set, behind those that had it when the index was added; with a B-tree index by ascending value, and in that order those with the same value.",
  "all histories of calls, all property names and values, both types of index",
  "Tests query an index after a few insertions; the place of a node whose property is set again, removed or indexed later depends on the history.",
  ["indexes.go","btreeindex.go","hashindex.go","graph.go:168-213","graph.go: setNodeProperty, setEdgeProperty, removeEdge"])
p("C87","What FindNodes and FindEdges go through",
  "FindNodes goes through what the index that gives the fewest nodes gives, or through the nodes filed under the rarest label if they are fewer; it returns the matching ones in that order, with the number of those gone through as MaxSize. FindEdges does the same with the indexes alone once there are two edges, and returns all edges, in order and unfiltered, if no requested property is indexed; a removed edge that an index still has is judged by the label and properties it had when removed.",
  "all histories of calls, all non-empty sets of labels, all requested properties the indexes can be asked for, all orders of Go's map iteration",
  "Tests compare small result sets; which of several indexes and labels is used, and so the order and MaxSize, depends on the whole history.",
  ["graph.go:216-351 FindNodes, FindEdges","graph.go:356-411","btreeindex.go: find","hashindex.go: find","edgemap.go:160-186"])
p("C88","Which calls panic in a graph with hash indexes",
  "In a graph whose indexes are all hash indexes, a call panics if and only if it gives an index a value that cannot be a key of a Go map: one written to an indexed property, or one present when the index is created; all other calls return. FindNodes and FindEdges panic when asked for such a value of a property whose index was ever given a value, and find nothing if it never was. (False for the histories of C01 and C06, in which an index is built from a wrong list.)",
  "all histories of calls, all values including wrapped ones and lists, all orders of Go's map iteration",
  "Tests index ints and strings; the panic depends on what was present when the index was created and on whether the index was ever used.",
  ["hashindex.go","indexes.go","graph.go:216-351","graph.go:418-468"])
p("C89","What MaxSize is, exactly",
  "MaxSize of GetNodes is the number of nodes in every graph. For the edges with one of some labels it is exact if there is at most one edge and -1 otherwise; for both directions of a node the two are added, so it is neither -1 nor a bound exactly if both sides have two edges, or one has two and the other has one with such a label. For nodes and edges with a property it is the number of all of them without an index, the number of those the index has with a hash index, and with a B-tree -1, or 0 if the index was never given a value. (False for the histories of C01, in which an index is built from a wrong list.)",
  "all histories of calls, all nodes, directions, sets of labels, properties and index types",
  "Tests do not look at MaxSize; that a sum of unknown sizes looks like a size needs the right number of edges on both sides.",
  ["node.go:83-99 GetEdgesWithAnyLabel","graph.go:127-214","edgemap.go:160-186","btreeindex.go:68-83","hashindex.go:80-85"])
p("C90","Which calls and queries panic with B-tree indexes",
  "With any mixture of hash and B-tree indexes a call panics if and only if it gives a hash index an unhashable value, gives a B-tree that holds something a value that does not compare with it, or takes a value out of a B-tree that does not compare with itself (such a value goes in silently when the tree is empty; its node can then neither be removed nor lose the property); a removed edge stays in the index (C15) and so still counts. A history returns if and only if none of its calls does this. FindNodes and FindEdges panic if and only if a value asked for does not compare with what the B-tree holds, or is unhashable and the hash index was ever given a value. (False for the histories of C01.)",
  "all histories of calls with any indexes on nodes and edges and any values except []interface{} in B-trees",
  "A test sees one order of values; that an emptied tree accepts another type, and that a lone odd value locks its node in, needs the whole history.",
  ["btreeindex.go:27-66","hashindex.go:31-78","indexes.go","graph.go:216-351","graph.go:418-468","properties.go ComparePropertyValue"])
p("C91","What GetNodes lists in every graph",
  "After any history whatsoever GetNodes ends and lists each node at most once in the order of creation: first the removed nodes that stayed in the list, then live ones; a small automaton with four kinds of nodes says which. It is right if and only if no removed node stayed and no live node is missing. A removed node that is listed is listed for ever, a live node that is missing never comes back, and a listed node stays listed as long as it lives. NumNodes counts listed and missing live nodes.",
  "all histories of calls, without the restriction of C01",
  "Removed nodes keep their links and the tail of the list can be a removed node; what later calls do to such a list needs an invariant over all histories.",
  ["list.go:87-123 nodeList.add, nodeList.remove","list.go:125-150 nodeListIterator","graph.go:114-128 NumNodes, GetNodes"])
p("C92","What GetNodesWithProperty lists in every graph",
  "After any history whatsoever: without an index GetNodesWithProperty lists the nodes of GetNodes (C91) that have the property or, being removed, had it last. With an index it lists the live nodes with the property, except those that GetNodes did not list when the index was made and that have not been given the property since, and in addition the removed nodes that GetNodes listed when the index was made and that had the property, for ever. So the answer is right if and only if the list was right, as far as this property goes, when the index was made.",
  "all histories of calls, without the restriction of C01, with values the index can hold",
  "The index is filled from a list that may be wrong and is kept apart from it afterwards; which errors stay and which are repaired needs the whole history.",
  ["graph.go:173-189 GetNodesWithProperty","graph.go:413-474","indexes.go:47-67 NodePropertyIndex","indexes.go:91-132","hashindex.go","btreeindex.go"])
p("C93","Removed nodes, and Sources, Sinks and ForEachNode in every graph",
  "A node that was removed still answers with the labels and properties it had last, and has no edges. So after any history whatsoever Sources and Sinks give exactly the nodes of GetNodes (C91) without incoming, or outgoing, edges; every removed node that is listed is among both; ForEachNode visits the nodes of GetNodes in order until its function says stop.",
  "all histories of calls, without the restriction of C01, and all functions given to ForEachNode",
  "Removed nodes are reached through a list that should not have them any more; tests look at nodes in the graph.",
  ["alg.go:22-61 Sources, Sinks","alg.go:181-188 ForEachNode","graph.go:114-128","node.go"])
p("C94","What CopyGraph copies in every graph",
  "After any history whatsoever in which the edge list is right: CopyGraph makes, in any target graph, a copy of each node that GetNodes lists in the source (C91), removed ones too, with the labels and properties it has or had last, and a copy of each edge both of whose ends are listed, and nothing else; if the target can take the properties, it returns. The result is a copy of the source if and only if GetNodes is right in the source.",
  "all histories of the source and the target, all cloning functions and label orders",
  "It needs graphs whose node list is wrong, and an account of everything that the copy has.",
  ["clone.go:22-53 CopyGraph, CopyGraphf","graph.go:114-128","node.go"])
p("C95","The dot text for every graph and every writer",
  "After any history whatsoever in which the edge list is right: Render with the default renderers writes the head, a line for each node that GetNodes lists, numbered from 0, a line for each edge between listed nodes, and the last line, one after the other, and stops at the first text that the writer fails to write, with an error.",
  "all histories and all writers, whatever they do and whenever they fail",
  "Writers can fail at every call and in every way; tests write to a buffer.",
  ["dotrenderer.go:50-118"])
p("C96","What Encode writes in every graph, read back",
  "After any history whatsoever (with separate edges, if the edge list is right and GetNodes lists a node): Encode succeeds, and Decode of what it wrote adds to any graph a copy of each node that GetNodes lists, removed ones too, and an edge for each edge of the source that leaves a listed node, or with separate edges for each edge; where an end of the edge is not listed, the first listed node takes its place.",
  "all histories of the source and the target, all properties that survive the marshaler, all orders",
  "It needs graphs whose node list is wrong; the edges that come back are between other nodes, and no error is reported.",
  ["json.go:176-386 Encode","json.go:417-453 addNode, addEdge","json.go:455-532 Decode"])
p("C97","What Decode takes the values of a document for",
  "A node is an object (null counts as an empty one) with a number n, a list of labels, an object of properties and a list of edges; each of these may be missing or null and then is 0 or empty, and of a member that occurs twice the last one counts. All lists under the keys nodes and edges count. Decode succeeds if and only if the document has this form, the unmarshaler reads all properties, and each edge has declared ends; then it adds exactly these nodes and edges, with the properties that the unmarshaler reads, under the names it gives, without those with the empty name.",
  "all documents whose unknown keys have values that are skipped (C42), all unmarshalers, all graphs",
  "The documents that one can write down with missing, null and repeated members are without end; the relation is stated without the code that reads them.",
  ["json.go:138-160","json.go:388-415 unmarshalProperty, unmarshalProperties","json.go:417-453 addNode, addEdge","json.go:455-532 Decode"])
with open('/verif/properties.jsonl','w') as f:
    for x in P: f.write(json.dumps(x)+"\n")
print(len(P))
