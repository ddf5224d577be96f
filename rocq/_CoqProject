-Q theories Verif
theories/AmCountProofs.v
theories/AqProofs.v
theories/AqProps.v
theories/AqSpec.v
theories/ArraysModel.v
theories/ArraysProofs.v
theories/Base.v
theories/BfsParModel.v
theories/BfsParProofs.v
theories/BfsParProps.v
theories/BinomialModel.v
theories/BinomialProofs.v
theories/BinomialProps.v
theories/BinomialSpec.v
theories/BrickProofs.v
theories/BridgeProofs.v
theories/BridgeProofs2.v
theories/CostProps.v
theories/CppArrayModel.v
theories/CppArrayProofs.v
theories/CppArrayProps.v
theories/CppArraySpec.v
theories/CppBfsProofs.v
theories/CppBitModel.v
theories/CppBitProofs.v
theories/CppBitProps.v
theories/CppDijProofs.v
theories/CppDijProofs2.v
theories/CppGraphModel.v
theories/CppGraphProofs.v
theories/CppGraphProps.v
theories/CppGraphSpec.v
theories/CppMatrixModel.v
theories/CppMatrixProofs.v
theories/CppMatrixProps.v
theories/CppMixSpec.v
theories/CppModel.v
theories/CppPrimProofs.v
theories/CppPrimProps.v
theories/CppPrintModel.v
theories/CppPrintModel2.v
theories/CppPrintProofs.v
theories/CppPrintProofs2.v
theories/CppPrintProps.v
theories/CppPrintProps2.v
theories/CppPrintSpec.v
theories/CppProofs.v
theories/CppProps.v
theories/CppQuick.v
theories/CppSearch.v
theories/CppSpec.v
theories/CppTreeCompact.v
theories/CppTreeCompact2.v
theories/CppTreeCompact3.v
theories/CppTreeHist.v
theories/CppTreeHist2.v
theories/CppTreeJoin.v
theories/CppTreeJoin2.v
theories/CppTreeMix.v
theories/CppTreeModel.v
theories/CppTreeModel2.v
theories/CppTreeModel3.v
theories/CppTreeProofs.v
theories/CppTreeProps.v
theories/CppTreeProps2.v
theories/CppTreeProps3.v
theories/CppTreeProps4.v
theories/CppTreeProps5.v
theories/CppTreeProps6.v
theories/CppTreeQuery.v
theories/CppTreeShapeSpec.v
theories/CppTreeSim.v
theories/CppTreeSim2.v
theories/CppTreeSpec.v
theories/CppTreeSpec2.v
theories/CppTreeSpec3.v
theories/DijkstraModel.v
theories/DijkstraProofs.v
theories/DijkstraProps.v
theories/DijkstraSpec.v
theories/DispatchModel.v
theories/DispatchProofs.v
theories/DispatchProps.v
theories/DispatchSpec.v
theories/DistProofs.v
theories/DistProofs2.v
theories/DistProofs3.v
theories/DodaPacked.v
theories/DsfModel.v
theories/DsfProofs.v
theories/DsfProofs2.v
theories/DsfProps.v
theories/DsfSpec.v
theories/ExactProofs.v
theories/ExactProps.v
theories/ExactProps2.v
theories/ExactProps3.v
theories/ExactProps4.v
theories/ExactSpec.v
theories/FenwickProofs.v
theories/FloatModel.v
theories/FloatModel2.v
theories/FloatProofs.v
theories/FloatProofs2.v
theories/FloatProofs3.v
theories/FloatProofs4.v
theories/FloatProofs5.v
theories/FloatProofs6.v
theories/FloatProps.v
theories/FloatProps2.v
theories/FloatSingle.v
theories/FloatSingle2.v
theories/FlowModel.v
theories/FlowProofs.v
theories/FlowProofs2.v
theories/FlowProofs3.v
theories/FlowProps.v
theories/FlowSpec.v
theories/FloydProofs.v
theories/FloydProps.v
theories/GraphDict.v
theories/GraphModel.v
theories/GraphProofs.v
theories/GraphProps.v
theories/GraphSpec.v
theories/HeapModel.v
theories/HeapProofs.v
theories/HeapProps.v
theories/IntervalModel.v
theories/IntervalProofs.v
theories/IntervalSpec.v
theories/JohnsonModel.v
theories/JohnsonProofs.v
theories/JohnsonProps.v
theories/JohnsonSpec.v
theories/JumpProofs.v
theories/KahnParModel.v
theories/KahnParProofs.v
theories/KahnParProps.v
theories/KahnParSpec.v
theories/KahnProofs.v
theories/KosarajuProofs.v
theories/KosarajuProofs2.v
theories/KruskalProofs.v
theories/LinearProps.v
theories/LinkedCircular.v
theories/LinkedDouble.v
theories/LinkedDouble2.v
theories/LinkedModel.v
theories/LinkedProofs.v
theories/LinkedProps2.v
theories/LisProofs.v
theories/LlvmModel.v
theories/LlvmProofs.v
theories/LlvmProps.v
theories/LlvmSpec.v
theories/LlvmWrap.v
theories/MatProofs.v
theories/MatSpec.v
theories/MdaProofs.v
theories/MdaSpec.v
theories/MstModel.v
theories/MstProofs.v
theories/MstProps.v
theories/MstSpec.v
theories/MultisetMix.v
theories/MultisetMixSpec.v
theories/MultisetProofs.v
theories/MultisetProps.v
theories/MultisetSpec.v
theories/NameProofs.v
theories/NameProps.v
theories/NameSpec.v
theories/NodeModel.v
theories/NodeProofs.v
theories/NodeProps.v
theories/NodeProps2.v
theories/NodeSpec.v
theories/PQModel.v
theories/PQProofs.v
theories/PathModel.v
theories/PathProofs.v
theories/PermProofs.v
theories/PrimModel.v
theories/PrimProofs.v
theories/PrimProofs2.v
theories/PrimProofs3.v
theories/PrimProps.v
theories/PrimSpec.v
theories/PrintModel.v
theories/PrintModel2.v
theories/PrintModel3.v
theories/PrintModel4.v
theories/PrintProofs.v
theories/PrintProofs10.v
theories/PrintProofs11.v
theories/PrintProofs2.v
theories/PrintProofs3.v
theories/PrintProofs4.v
theories/PrintProofs5.v
theories/PrintProofs6.v
theories/PrintProofs7.v
theories/PrintProofs8.v
theories/PrintProofs9.v
theories/PrintProps.v
theories/PrintProps2.v
theories/PrintProps3.v
theories/PrintProps4.v
theories/PrintSpec.v
theories/PrintSpec2.v
theories/PrintSpec3.v
theories/QuickPick.v
theories/RangeModel.v
theories/RangeProps.v
theories/RangeProps2.v
theories/RangeSpec.v
theories/SccModel.v
theories/SccProps.v
theories/SccSpec.v
theories/SearchGraphModel.v
theories/SearchGraphProofs.v
theories/SearchModel.v
theories/SearchProofs.v
theories/SearchProps.v
theories/SearchSpec.v
theories/SegTreeProofs.v
theories/SkipModel.v
theories/SkipProofs.v
theories/SkipProofs2.v
theories/SkipProofs3.v
theories/SkipProofs4.v
theories/SkipProofs5.v
theories/SkipProps.v
theories/SkipSpec.v
theories/SortModel.v
theories/SortModel2.v
theories/SortProofs.v
theories/SortProofs2.v
theories/SortProofs3.v
theories/SortProofs4.v
theories/SortProps.v
theories/SortSpec.v
theories/SparseProofs.v
theories/StackQueueModel.v
theories/StackQueueProofs.v
theories/StackQueueSpec.v
theories/StringModel.v
theories/StringProofs.v
theories/StringProofs2.v
theories/StringProofs3.v
theories/StringProps.v
theories/StringSpec.v
theories/SubseqProofs.v
theories/TarjanProofs.v
theories/TreeAvl.v
theories/TreeAvl2.v
theories/TreeBalSpec.v
theories/TreeBst.v
theories/TreeCompact.v
theories/TreeDel.v
theories/TreeDel2.v
theories/TreeDel3.v
theories/TreeDel4.v
theories/TreeDel5.v
theories/TreeDelSpec.v
theories/TreeGap.v
theories/TreeHist.v
theories/TreeHist2.v
theories/TreeHist2Spec.v
theories/TreeHist3.v
theories/TreeJoin.v
theories/TreeLca.v
theories/TreeMix.v
theories/TreeMix2.v
theories/TreeMix3.v
theories/TreeMix4.v
theories/TreeMix5.v
theories/TreeMix6.v
theories/TreeMix7.v
theories/TreeMix8.v
theories/TreeMixSpec.v
theories/TreeModel.v
theories/TreeModel2.v
theories/TreeModel3.v
theories/TreeMulti.v
theories/TreeProofs.v
theories/TreeProps.v
theories/TreeProps2.v
theories/TreeProps3.v
theories/TreeProps4.v
theories/TreeProps5.v
theories/TreeProps6.v
theories/TreeProps7.v
theories/TreeProps8.v
theories/TreeQuery.v
theories/TreeRb.v
theories/TreeRbDel.v
theories/TreeRbDel2.v
theories/TreeReins.v
theories/TreeRotate.v
theories/TreeShape.v
theories/TreeShape2.v
theories/TreeShape3.v
theories/TreeShapeSpec.v
theories/TreeSim.v
theories/TreeSpec.v
theories/TreeSplay.v
theories/TreeSplayDel.v
theories/TreeSplaySpec.v
theories/TreeSplit.v
theories/TreeSplit2.v
theories/TreeTrav.v
theories/TreeTreap.v
theories/TrieModel.v
theories/TrieProofs.v
theories/TrieSpec.v
