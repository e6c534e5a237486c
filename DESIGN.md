# Formal model of cloudprivacylabs/lpg in Rocq (Coq 8.16.1)

## Method

The Go code in /repo is read as text and transcribed, function by function, into
small total Gallina functions (std++ `gmap`, lists, `Z`, `nat`, `string`).
Every definition cites the Go file and lines.  Specifications (abstract graphs,
"valid trail", "match", ...) live in separate `*Spec.v` files that do not mention
the model's helpers.  Property theorems live in `Properties*.v`, each closed by
`exact lemma` with `Print Assumptions` below.

### Modelling conventions

* **Panics / divergence** are values: `res A := Ok a | Panic | Diverge`.
* **Pointers.** `*Node` and `*Edge` inside one graph are modelled by their `id`.
  Nodes and edges are only created by `FastNewNode/FastNewEdge/cloneNode/cloneEdge`,
  all of which take the id from `idBase` and increment it, so inside one graph
  pointer identity and id coincide (this is also theorem C10).  Removed objects stay
  in the model heap, as Go pointers stay valid.  A node pointer of another graph is
  an id that is not in this graph's heap; `from.graph != g` becomes that test.
* **Intrusive linked lists** (`list.go`) are modelled at pointer level (next/prev maps),
  traversals by fuel that returns `Diverge` when exhausted.
* **Go maps** have random iteration order.  Where the order can influence anything, the
  order is an explicit argument `ord`, and theorems quantify over all permutations.
* **container/list** and gods **linkedhashmap/btree** are external code; they are
  modelled by lists with unique handles, insertion ordered association lists and
  sorted association lists (see "Trusted base").
* **Iterators** are modelled by the list of elements they yield plus `MaxSize`
  that the step by step `Next/Value` protocol of the combinators yields these lists is theorem C50.
  Loops that change the graph between two calls of Next are modelled with the pointers that the
  Go iterators hold (EdgeMapPtr.v, ItrLive.v; C58-C61, SetLive.v; C62-C63).

### Layers

Per Go file: the model (transcription), the specification it is measured against, the file with
the theorems.  Proofs are in the `*Proofs.v` files, concrete histories for the examples in
`*Examples.v`.

| Go | model | specification | theorems |
|---|---|---|---|
| (outcomes of calls) | Base.v | | |
| properties.go | Value.v | ValueSpec.v | PropertiesValue.v (C17) |
| stringset.go | StringSet.v (heap of shared Go maps) | ContainerSpec.v | PropertiesContainers.v (C19, C20) |
| sets.go | FastSet.v | ContainerSpec.v | PropertiesContainers.v (C21) |
| maps.go | NodeMap.v, Assoc.v | ContainerSpec.v, NmapEverySpec.v | PropertiesContainers.v (C22, C54), PropertiesNodes.v (C08) |
| list.go | Links.v | | through Graph.v |
| edgemap.go | EdgeMap.v, Assoc.v | | through Graph.v |
| hashindex.go, btreeindex.go | Index.v | | through Graph.v |
| graph.go, node.go, edge.go, indexes.go | Graph.v, Find.v, Sizes.v | GraphSpec.v (abstract graph `sgraph`) | PropertiesNodes/Edges/Adjacency/Reads/Index/Progress/Find/Removed.v (C01-C16, C18, C23, C51, C53) |
| itr.go | Itr.v (Next/Value machines) | ItrSpec.v | PropertiesItr.v (C48, C50, C52) |
| edgemap.go, list.go, itr.go: pointers, live iterators | EdgeMapPtr.v, ItrLive.v | ItrLiveSpec.v | PropertiesLive.v (C58-C61) |
| maps.go, sets.go, hashindex.go: live iterators | SetLive.v | SetLiveSpec.v | PropertiesSetLive.v (C62-C63) |
| graph.go, indexes.go, hashindex.go: state after a panic | Recover.v | RecoverSpec.v | PropertiesRecover.v (C65) |
| path.go | Path.v | PathSpec.v (walks) | PropertiesPath.v (C27-C32) |
| path.go, slices and arrays | PathMem.v | PathMemSpec.v | PropertiesPathMem.v (C57) |
| vpathitr.go | VPath.v | VPathSpec.v (trails) | PropertiesCollect.v (C24-C26) |
| cursor.go | Cursor.v | CursorSpec.v | PropertiesCollect.v (C38, C55) |
| alg.go | Alg.v | AlgSpec.v | PropertiesAlg.v (C35-C37, C64) |
| clone.go | Clone.v | CloneSpec.v | PropertiesClone.v (C33, C34) |
| clone.go, target = source | CloneLive.v | CloneSpec.v | PropertiesCloneLive.v (C69) |
| String and MarshalJSON methods, stringset.go:144-155, MapInterner | Text.v | TextSpec.v | PropertiesText.v (C70, C72-C74) |
| PatternSymbol, GetSymbolNames | PatternSym.v | TextSpec.v | PropertiesText.v (C71) |
| stringtable.go | StringTable.v | in the theorem | PropertiesStringTable.v (C49) |
| json.go | JsonText.v (encoding/json), Json.v | JsonSpec.v, JsonReadSpec.v | PropertiesJson.v (C39-C43), PropertiesJsonText.v (C66) |
| json.go: Encode with writers that fail | JsonWrite.v | JsonWriteSpec.v | PropertiesJsonWrite.v (C75) |
| json.go: Decode that fails, what it leaves | Json.v | JsonFailSpec.v | PropertiesJsonFail.v (C76) |
| pattern.go: errors for variables of both kinds | Pattern.v | PatternErrSpec.v | PropertiesPatternErr.v (C77) |
| pattern.go: choice of the first item | Pattern.v | PlanSpec.v | PropertiesPlan.v (C78) |
| json.go: property marshalers | Json.v | JsonKeepSpec.v | PropertiesJsonKeep.v (C79) |
| pattern.go: FindPaths in graphs that are the same but for ids, history, indexes | Pattern.v | IsoSpec.v | PropertiesIso.v (C80) |
| alg.go, clone.go, json.go, pattern.go together: CheckIsomorphism and FindPaths on copies | Alg.v, Clone.v, Json.v, Pattern.v | IsoSpec.v | PropertiesIsoCopy.v (C81, C82) |
| edgemap.go, node.go:57-99, graph.go:144-155: the order in which edges are enumerated | EdgeMap.v, Graph.v | OrderSpec.v | PropertiesOrder.v (C83, C84) |
| maps.go, indexes.go, graph.go:131-138, 168-213: the order in which queries by label and by property enumerate | NodeMap.v, Index.v, Graph.v | QueryOrderSpec.v | PropertiesQueryOrder.v (C85, C86) |
| graph.go:216-351: what FindNodes and FindEdges go through, order and MaxSize | Find.v | FindOrderSpec.v | PropertiesFindOrder.v (C87) |
| hashindex.go, indexes.go, graph.go:216-351, 418-468: which calls panic in a graph with hash indexes | Index.v, Graph.v, Find.v | HashOnlySpec.v | PropertiesHashOnly.v (C88) |
| node.go:83-99, graph.go:127-214, edgemap.go:160-186, btreeindex.go:68-83, hashindex.go:80-85: MaxSize exactly | Sizes.v, EdgeMap.v, Index.v | MaxSizeSpec.v | PropertiesMaxSize.v (C89) |
| btreeindex.go, hashindex.go, indexes.go, graph.go:216-351, 418-468: which calls and queries panic with any mixture of indexes. For values without []interface{} a tree of gods holds keys that all compare with each other, or one that compares with nothing, so the first comparison decides and the sorted list of Index.v panics exactly when the tree does | Index.v, Graph.v, Find.v | JamSpec.v | PropertiesJam.v (C90) |
| list.go:87-150, graph.go:114-128: what GetNodes lists after every history, also those of C01: the listing is a row of removed nodes followed by live ones, the live nodes not listed are in rows of their own | Graph.v, Links.v | ListedSpec.v | PropertiesListed.v (C91) |
| graph.go:173-189, 413-474, indexes.go:47-132, alg.go:22-61, 181-188: what GetNodesWithProperty (with and without an index), Sources, Sinks and ForEachNode go through after every history, also those of C01, and what a removed node still answers | Graph.v, Index.v, Alg.v | HeldSpec.v | PropertiesHeld.v (C92, C93) |
| clone.go:22-53, dotrenderer.go:50-118, json.go:176-532: what CopyGraph copies, what the dot renderer writes with the default renderers and any writer, and what Encode writes and Decode makes of it, after every history, also those of C01 | Clone.v, Dot.v, Json.v | EverySpec.v | PropertiesEvery.v (C94, C95), PropertiesEveryJson.v (C96) |
| json.go:138-160, 388-415: what Decode takes the values of a document for, as relations that do not use the reading functions of the model | Json.v | JsonValSpec.v | PropertiesJsonVal.v (C97) |
| dotrenderer.go | Dot.v | DotSpec.v | PropertiesDot.v (C44) |
| maps shared by caller and graph | Sharing.v | SharingSpec.v | PropertiesSharing.v (C68) |
| pattern.go, planprocessors.go | Pattern.v | PatternSpec.v | PropertiesPattern.v (C45-C47, C56, C67) |

The layers are stacked: a theorem about, say, pattern matching is about the pointer level graph
reached by an arbitrary history of API calls (`run ops = Ok g`), and its right hand side about the
abstract graph of the same history (`srun ops`).

### Guards

Theorems about histories assume `valid_history ops`: calls are made on live objects of the graph,
and each iteration order handed to a call is an order of the Go map ranged over there.
C51 drops the first.  Where the code is wrong for some histories, the theorem is about the others,
and they are singled out by a computable predicate on the history:

* `node_list_safe` - no node is created after the newest node of the list was removed (C01;
  proved to be exact there);
* `edge_list_safe` - no edge is removed while it is filed in allEdges under a label it no
  longer has (C06);
* `calls_safe` - C53; `right_lists` and similar: GetNodes/GetEdges give what they should.

## Plan per property

* C01, C02, C06, C07: refinement of the concrete graph state to an abstract graph
  (finite maps of nodes and edges), by induction over operation histories.  Reading the
  code shows C01, C06, C07 are false in general (`nodeList.remove` leaves `tail` at the
  removed node; `setEdgeLabel` does not move the edge inside `allEdges`): `_refuted`
  theorems with concrete histories, and `_partial` theorems for the exact class of histories
  in which they hold.
* C03, C04, C05, C09, C10, C11, C12, C23: same refinement, no extra guard.
* C08: label index component of the refinement.
* C13, C16: index components of the refinement; C16 refuted for `Edge.Remove`.
* C14, C15: on top of C08/C13/C16; refuted parts: `FindNodes(empty,props)` panics,
  `FindEdges` returns unfiltered edges.
* C17: structural induction over values.  C18: induction over the property list.
* C19, C20, C21, C22, C49, C50: local models and invariants.
* C24-C26: recursion of CollectAllPaths on explicit fuel, proved never exhausted (number of
  unused edges decreases); soundness/completeness/NoDup against an independent trail predicate.
* C27-C32: path model; several are refuted (RemoveLast deletes the edge from the graph, ...).
* C33, C34: copy functions as folds over the source view producing target graph operations.
* C35, C36: enumeration of mappings; C36 refuted (mapping not checked to be injective).
* C37, C38, C52: list computations over the adjacency views.
* C39-C43: JSON at the level of the token stream/AST (encoding/json's byte level codec is trusted).
* C44: output as list of rendering calls.
* C45-C47: state-threading model of the plan; C47 refuted.
* C67: the run is analysed with a last step that records a panic instead of stopping (PatternSimProofs.v), so
  that the matches found can be described also where the assembled path panics.
  Symbols for relationships: `fastest` may start from the symbol's edges, nothing else reads them, so the matches
  are those for the other symbols (`node_symbols`) that begin in the list tried first.
* C48: per iterator constructor; refuted for GetEdgesWithAnyLabel(AnyEdge).
* C51: refuted by witness.
* C57: slices as (array, offset, length, capacity) over a heap of arrays; simulation by Path.v as long as
  no array is shared.
* C58-C61: a second model of edge maps with the heap objects the iterators point to (label lists, list elements,
  label maps), proved to follow the first one; a loop alternates Next on this heap with the calls of its body.
  An iterator is related to the list it has still to yield; this relation survives all calls that do not
  touch that rest.
* C62-C63: the same for label sets and hash indexes, whose list elements have handles in FastSet.v and Index.v already;
  an element that has been removed keeps its value and has no successor.  A filtered loop over all edges is followed by an
  unfiltered one that makes the same calls at the same edges (EdgeScanProofs).
* C65: the calls of Graph.v with the state in which a panic of an index leaves the graph, and the orders of the loops
  over properties; related to Graph.v without indexes.
* C69: the live loop over the edges of a node is that over a list (LiveLoopProofs), as all edges created start at copies;
  then the proof of C34, with the source read from the growing graph.
* C75: each part of Encode is a list of texts and an outcome; between the first and the last text the nesting is positive.
* C76: the invariant of the loops of Decode (JsonAddProofs.v) also says, when a call fails, which nodes and edges were added.
* C77: an invariant per position in the plan (PatternErrProofs.v): which names are bound to edges while a suffix of the plan runs; the names bound by a step are removed when it is left.
* C68: programs over variables holding Go maps, with Graph.v for the calls on the graph; simulation by the same program
  over values as long as writes go to maps with one holder.
* C66: the parser of JsonText.v is sound for the texts json.Marshal writes; induction over Decode's loop.

## Simplifications

What the model leaves out or fixes, and why it is believed not to matter:

* Values of type interface{} (Value.v): nil, int, string, []string, []int, []interface{}, a type
  implementing WithNativeValue, and "any other type", hashable or not.  Ints are unbounded.  An infinite
  chain of native values is not modelled.  Map keys of type interface{} are compared structurally.
* gods btree: an association list sorted by ComparePropertyValue, searched from the front; the
  real tree compares a key with fewer others, so a panic of the comparison can be missed or
  added only for keys of incomparable types in one tree.  The theorems exclude these
  (`storable`/`indexable`).
* gods linkedhashmap: insertion ordered association list.  container/list: list with handles.
* The edgeMap's labelMap and edgeLabelLists always have the same keys (both are updated together),
  so they are one list in EdgeMap.v.  In EdgeMapPtr.v they are separate objects, and C58_pointers says that
  it makes no difference.
* A loop over the properties of a node (index maintenance) follows the order of `map_to_list`;
  each iteration touches a different index, so the order has no influence unless one of them panics (C65_same_calls; Recover.v has the orders).
* In Graph.v label sets and property maps are values.  The maps behind them, which the caller and the graph may share,
  are in Sharing.v (C68): values are right as long as no map that is shared is written directly.  CopyNode is
  modelled there for a copy in the same graph; label sets shared between nodes of two graphs are not modelled.
* Iterators are lists, as long as the graph does not change while they run (C50 for the machines, C58_quiet_node for
  the pointers in edge iterators, C62_quiet for labels).  Iterators over B-tree indexes (btreeindex.go, the gods library)
  are not modelled for graphs that change.
* Paths are lists of elements in Path.v; that the slices behind them are not shared is C57 (PathMem.v), with
  its exception.  Path elements have non-nil edges.
* Accumulators, filters, equivalence functions, clone functions, renderers and marshalers given
  by the caller may have a state, as far as said in the model file, but do not change the graph.
  The context of CheckIsomorphism: without cancellation in C35-C37, with ctx.Err() an arbitrary function of the number of
  the call in C64.
* CopyGraph and CopySubgraph: source and target are different graphs in Clone.v, and the same graph in CloneLive.v.
* encoding/json (JsonText.v): texts are sequences of lexical tokens; Marshal, Decoder.Token and
  Decoder.Decode follow their documentation.  Field names are matched exactly, the last of duplicate
  fields counts, ints are unbounded.  In Json.v writing never fails; a writer that fails, and the output before an error, are in JsonWrite.v (C75), in whole
  texts given to Write.
  Strings are byte strings; invalid UTF-8 is replaced as Marshal does.
* Integers (ids, counters, sizes) are unbounded.

* fmt (Text.v): what %v prints for a property value is an argument.  TrimSpace is modelled for ASCII white space.

Not modelled: logging, `buildPropertyFilterFunc`
(graph.go:572-586) and `isConstrainedEdges` (pattern.go:91-111), which are not called;
concurrent use of a graph.

## Trusted base

* The Coq 8.16.1 kernel, including its virtual machine (`vm_compute` for witnesses and examples).
* No axioms: `Print Assumptions` beneath each theorem of a Properties file answers "Closed under the
  global context".  std++ and the Coq standard library are used as libraries; loading them brings the parameters
  of the module type Coq.ssr.ssrunder.Under_rel into the environment, on which no theorem depends.
* That the model files transcribe the Go code: checked by reading only.  Each definition names the lines it
  transcribes.  /verif/seeded/LOG.jsonl lists deliberate errors put into the model files and the
  theorems that no longer went through.
* The specification files: short, and independent of the model files except for the types of identifiers,
  values, paths and patterns.
* Behaviour of Go itself (maps, slices, closures, defer, panics) and of the libraries above, as described
  under "Simplifications".
