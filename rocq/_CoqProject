-Q theories Verif
theories/Base.v
theories/Assoc.v
theories/AssocProofs.v
theories/Value.v
theories/ValueSpec.v
theories/ValueProofs.v
theories/FastSet.v
theories/Links.v
theories/LinksProofs.v
theories/EdgeMap.v
theories/EdgeMapProofs.v
theories/Itr.v
theories/ItrSpec.v
theories/ItrProofs.v
theories/StringSet.v
theories/FastSetProofs.v
theories/NodeMap.v
theories/Index.v
theories/PropertiesValue.v
theories/Graph.v
theories/GraphSpec.v
theories/CoreProofs.v
theories/CoreStep.v
theories/AdjProofs.v
theories/ReadProofs.v
theories/NodeListProofs.v
theories/NodeMapProofs.v
theories/LabelProofs.v
theories/EdgeListProofs.v
theories/GraphExamples.v
theories/PropertiesAdjacency.v
theories/PropertiesReads.v
theories/PropertiesNodes.v
theories/PropertiesEdges.v
theories/IndexProofs.v
theories/IndexGraphProofs.v
theories/PropertiesIndex.v
theories/ProgressProofs.v
theories/PropertiesProgress.v
theories/Find.v
theories/FindProofs.v
theories/PropertiesFind.v
theories/Sizes.v
theories/SizeProofs.v
theories/PropertiesItr.v
theories/PropertiesRemoved.v
theories/ContainerSpec.v
theories/ContainerProofs.v
theories/ContainerExamples.v
theories/PropertiesContainers.v
theories/Path.v
theories/PathSpec.v
theories/PathProofs.v
theories/Cursor.v
theories/CursorSpec.v
theories/VPath.v
theories/VPathSpec.v
theories/VPathProofs.v
theories/CursorProofs.v
theories/PropertiesPath.v
theories/PropertiesCollect.v
theories/Alg.v
theories/AlgSpec.v
theories/AlgProofs.v
theories/PropertiesAlg.v
theories/Clone.v
theories/CloneSpec.v
theories/CloneProofs.v
theories/PropertiesClone.v
theories/StringTable.v
theories/StringTableProofs.v
theories/PropertiesStringTable.v
theories/JsonText.v
theories/JsonTextProofs.v
theories/Json.v
theories/JsonSpec.v
theories/JsonEncProofs.v
theories/JsonDecProofs.v
theories/JsonAddProofs.v
theories/JsonUtf8Proofs.v
theories/JsonTripProofs.v
theories/JsonExamples.v
theories/PropertiesJson.v
theories/JsonReadSpec.v
theories/JsonReadProofs.v
theories/PropertiesJsonText.v
theories/Dot.v
theories/DotSpec.v
theories/DotProofs.v
theories/PropertiesDot.v
theories/Pattern.v
theories/PatternSpec.v
theories/PatternStartProofs.v
theories/PatternRunProofs.v
theories/PatternSimProofs.v
theories/PatternPlanProofs.v
theories/PatternMatchProofs.v
theories/PatternProofs.v
theories/PatternExamples.v
theories/PropertiesPattern.v
theories/PathMem.v
theories/PathMemSpec.v
theories/PathMemProofs.v
theories/PropertiesPathMem.v
theories/EdgeMapPtr.v
theories/EdgeMapPtrProofs.v
theories/ItrLive.v
theories/ItrLiveSpec.v
theories/ItrLiveProofs.v
theories/StoreProofs.v
theories/LiveLoopProofs.v
theories/LiveUseProofs.v
theories/PropertiesLive.v
theories/SetLive.v
theories/SetLiveSpec.v
theories/SetLiveProofs.v
theories/HashLiveProofs.v
theories/EdgeScanProofs.v
theories/PropertiesSetLive.v
theories/Recover.v
theories/RecoverSpec.v
theories/RecoverProofs.v
theories/PropertiesRecover.v
theories/Sharing.v
theories/SharingSpec.v
theories/SharingProofs.v
theories/SharedProofs.v
theories/SharingExamples.v
theories/PropertiesSharing.v
theories/CloneLive.v
theories/CloneLiveProofs.v
theories/PropertiesCloneLive.v
theories/PatternSym.v
theories/Text.v
theories/TextSpec.v
theories/TextProofs.v
theories/PropertiesText.v
theories/JsonWrite.v
theories/JsonWriteSpec.v
theories/JsonWriteProofs.v
theories/PropertiesJsonWrite.v
theories/JsonFailSpec.v
theories/JsonFailProofs.v
theories/PropertiesJsonFail.v
theories/PatternErrSpec.v
theories/PatternErrProofs.v
theories/PatternErrExamples.v
theories/PropertiesPatternErr.v
theories/PlanSpec.v
theories/PlanProofs.v
theories/PlanExamples.v
theories/PropertiesPlan.v
theories/JsonKeepSpec.v
theories/JsonKeepProofs.v
theories/JsonKeepExamples.v
theories/PropertiesJsonKeep.v
theories/IsoSpec.v
theories/IsoProofs.v
theories/IsoExamples.v
theories/PropertiesIso.v
theories/IsoCopyProofs.v
theories/PropertiesIsoCopy.v
theories/OrderSpec.v
theories/OrderProofs.v
theories/OrderGraphProofs.v
theories/OrderRunProofs.v
theories/PropertiesOrder.v
theories/QueryOrderSpec.v
theories/LabelOrderProofs.v
theories/IndexOrderProofs.v
theories/QueryOrderProofs.v
theories/QueryEdgeOrderProofs.v
theories/PropertiesQueryOrder.v
theories/FindOrderSpec.v
theories/FindOrderProofs.v
theories/FindEdgeOrderProofs.v
theories/PropertiesFindOrder.v
theories/HashOnlySpec.v
theories/HashOnlyProofs.v
theories/PropertiesHashOnly.v
theories/MaxSizeSpec.v
theories/MaxSizeProofs.v
theories/PropertiesMaxSize.v
theories/JamSpec.v
theories/JamProofs.v
theories/JamStepProofs.v
theories/JamFindProofs.v
theories/PropertiesJam.v
theories/ListedSpec.v
theories/ListedProofs.v
theories/PropertiesListed.v
theories/HeldSpec.v
theories/GhostProofs.v
theories/HeldProofs.v
theories/WalkProofs.v
theories/PropertiesHeld.v
theories/EverySpec.v
theories/EveryProofs.v
theories/EveryJsonProofs.v
theories/PropertiesEvery.v
theories/PropertiesEveryJson.v
theories/JsonValSpec.v
theories/JsonValProofs.v
theories/JsonValDecProofs.v
theories/PropertiesJsonVal.v
theories/RecoverNewProofs.v
theories/SetGoneProofs.v
theories/NmapEverySpec.v
theories/NmapEveryProofs.v
