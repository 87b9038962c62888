-Q theories Verif

theories/Base.v
theories/Heap.v
theories/Alloc.v
theories/HeapLemmas.v
theories/Vector.v
theories/VectorSpec.v
theories/AllocContract.v
theories/VectorProofs.v
theories/IterSpec.v
theories/VectorMore.v
theories/VectorIter.v
theories/VectorFindings.v
theories/VectorDerived.v
theories/VectorProps.v
theories/Hash.v
theories/HashDerived.v
theories/HashProps.v
theories/String.v
theories/StringSpec.v
theories/StringProofs.v
theories/StringDerived.v
theories/StringProps.v
theories/VectorMap.v
theories/VectorMapSpec.v
theories/VectorMapProofs.v
theories/VectorMapDerived.v
theories/VectorMapProps.v
theories/FixedVector.v
theories/FixedVectorSpec.v
theories/FixedVectorProofs.v
theories/FixedVectorDerived.v
theories/FixedVectorProps.v
theories/FixedReuse.v
theories/FixedReuseDerived.v
theories/FixedReuseProps.v
theories/FixedSwap.v
theories/FixedSwapDerived.v
theories/FixedSwapProps.v
theories/RehashPolicy.v
theories/RehashPolicyProofs.v
theories/HashTable.v
theories/HashTableSpec.v
theories/HashTableProofs.v
theories/HashTableMore.v
theories/HashTableDerived.v
theories/HashTableProps.v
theories/Deque.v
theories/DequeSpec.v
theories/DequeProofs.v
theories/DequeDerived.v
theories/DequeProps.v
theories/AddrMem.v
theories/FixedPool.v
theories/FixedPoolSpec.v
theories/FixedPoolProofs.v
theories/FixedPoolDerived.v
theories/FixedPoolProps.v
theories/LinkedList.v
theories/LinkedListSpec.v
theories/LinkedListProofs.v
theories/LinkedListCalls.v
theories/LinkedListRuns.v
theories/LinkedListFixed.v
theories/LinkedListDerived.v
theories/LinkedListProps.v
theories/RBTree.v
theories/RBTreeSpec.v
theories/RBTreeProofs.v
theories/RBTreeCalls.v
theories/RBTreeFree.v
theories/RBTreeDerived.v
theories/RBTreeProps.v
theories/Layout.v
theories/LayoutSpec.v
theories/LayoutDerived.v
theories/LayoutProps.v
theories/LayoutNames.v
theories/LayoutNamesDerived.v
theories/LayoutNamesProps.v
theories/Compare.v
theories/CompareSpec.v
theories/TraitsDerived.v
theories/TraitsProps.v
theories/FixedMap.v
theories/FixedMapSpec.v
theories/FixedMapDerived.v
theories/FixedMapProps.v
theories/HashCpp.v
theories/HashCppDerived.v
theories/HashCppProps.v
theories/PanicDrop.v
theories/PanicDropDerived.v
theories/PanicDropProps.v
theories/OutOfMemory.v
theories/OutOfMemorySpec.v
theories/OutOfMemoryDerived.v
theories/OutOfMemoryProps.v
theories/HashAny.v
theories/HashAnySpec.v
theories/HashAnyProofs.v
theories/HashAnyCalls.v
theories/HashAnyAgree.v
theories/HashAnyDerived.v
theories/HashAnyProps.v
theories/DequeCpp.v
theories/DequeCppDerived.v
theories/DequeCppProps.v
theories/VectorMapAny.v
theories/VectorMapAnySpec.v
theories/VectorMapAnyProofs.v
theories/VectorMapAnyDerived.v
theories/VectorMapAnyProps.v
theories/TreeAny.v
theories/TreeAnySpec.v
theories/TreeAnyDerived.v
theories/TreeAnyProps.v
theories/ListCpp.v
theories/ListCppSpec.v
theories/ListCppProofs.v
theories/ListCppDerived.v
theories/ListCppProps.v
theories/ReadersSpec.v
theories/ReadersProofs.v
theories/ReadersDerived.v
theories/ReadersProps.v
theories/FloatPolicy.v
theories/FloatPolicySpec.v
theories/FloatPolicyProofs.v
theories/FloatPolicyDerived.v
theories/FloatPolicyProps.v
theories/HandoverSpec.v
theories/HandoverDerived.v
theories/HandoverProps.v
theories/VectorStill.v
theories/StayDerived.v
theories/StayProps.v
theories/HashDepth.v
theories/TreeDepth.v
theories/HashDepthDerived.v
theories/HashDepthProps.v
theories/TreeDepthDerived.v
theories/TreeDepthProps.v
theories/EqualDerived.v
theories/EqualProps.v
theories/Source.v
theories/SourceProofs.v
theories/SourceVecDerived.v
theories/SourceVecProps.v
theories/SourceMapDerived.v
theories/SourceMapProps.v
theories/SourceDequeDerived.v
theories/SourceDequeProps.v
theories/SourceHashDerived.v
theories/SourceHashProps.v
theories/SourceListDerived.v
theories/SourceListProps.v
theories/GrowthSpec.v
theories/GrowthProofs.v
theories/GrowthVecDerived.v
theories/GrowthVecProps.v
theories/GrowthHashDerived.v
theories/GrowthHashProps.v
theories/GrowthDeque.v
theories/GrowthDeqDerived.v
theories/GrowthDeqProps.v
theories/Print.v
theories/PrintSpec.v
theories/PrintProofs.v
theories/PrintSeqDerived.v
theories/PrintSeqProps.v
theories/PrintMapDerived.v
theories/PrintMapProps.v
theories/PrintStrDerived.v
theories/PrintStrProps.v
theories/Refusal.v
theories/RefusalNewDerived.v
theories/RefusalNewProps.v
theories/RefusalSpec.v
theories/RefusalDequeDerived.v
theories/RefusalDequeProps.v
theories/HashLooseProofs.v
theories/RefusalHashDerived.v
theories/RefusalHashProps.v
theories/RefusalLaterDerived.v
theories/RefusalLaterProps.v
theories/RefusalVecDerived.v
theories/RefusalVecProps.v
theories/PanicRest.v
theories/PanicRestSpec.v
theories/PanicRestDerived.v
theories/PanicRestProps.v
theories/RefusalList.v
theories/RefusalListDerived.v
theories/RefusalListProps.v
theories/ListWorld.v
theories/ListWorldSpec.v
theories/ListWorldDerived.v
theories/ListWorldProps.v
theories/Threads.v
theories/ThreadsSpec.v
theories/ThreadsDerived.v
theories/ThreadsProps.v
theories/Owned.v
theories/OwnedSpec.v
theories/OwnedDerived.v
theories/OwnedProps.v
theories/FixedOwned.v
theories/FixedOwnedDerived.v
theories/FixedOwnedProps.v
theories/MapMove.v
theories/MapMoveSpec.v
theories/MapMoveDerived.v
theories/MapMoveProps.v
theories/LookupMapSpec.v
theories/LookupMapDerived.v
theories/LookupMapProps.v
theories/LookupHashSpec.v
theories/LookupHashProofs.v
theories/LookupHashDerived.v
theories/LookupHashProps.v
theories/HashWorld.v
theories/HashWorldSpec.v
theories/HashWorldDerived.v
theories/HashWorldProps.v
theories/DequeWorld.v
theories/DequeWorldSpec.v
theories/DequeWorldDerived.v
theories/DequeWorldProps.v
theories/References.v
theories/ReferencesDerived.v
theories/ReferencesProps.v
theories/SharedRefs.v
theories/SharedRefsSpec.v
theories/SharedRefsProofs.v
theories/SharedDequeDerived.v
theories/SharedDequeProps.v
theories/SharedHashDerived.v
theories/SharedHashProps.v
theories/HashRefs.v
theories/HashRefsSpec.v
theories/HashRefsDerived.v
theories/HashRefsProps.v
theories/TreeRefs.v
theories/TreeRefsSpec.v
theories/TreeRefsDerived.v
theories/TreeRefsProps.v
theories/ListRefs.v
theories/ListRefsSpec.v
theories/ListRefsDerived.v
theories/ListRefsProps.v
theories/ListFresh.v
theories/ListFreshSpec.v
theories/ListFreshDerived.v
theories/ListFreshProps.v
theories/FixedMapRefsDerived.v
theories/FixedMapRefsProps.v
theories/DequeFresh.v
theories/DequeFreshDerived.v
theories/DequeFreshProps.v
theories/HashFresh.v
theories/HashFreshDerived.v
theories/HashFreshProps.v
