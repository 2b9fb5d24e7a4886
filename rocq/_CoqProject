-Q theories Verif
theories/Base.v
theories/World.v
theories/VecModel.v
theories/VecSpec.v
theories/VecFacts.v
theories/VecProofs.v
theories/VecProofs2.v
theories/VecRefine.v
theories/VecMore.v
theories/VecProps.v
theories/VecCost.v
theories/IterSpec.v
theories/VecIterModel.v
theories/VecIterProps.v
theories/RangeModel.v
theories/RangeProps.v
theories/Machine.v
theories/OptModel.v
theories/OptProps.v
theories/ResModel.v
theories/ResProps.v
theories/ResExact.v
theories/Utf8Model.v
theories/Utf8Spec.v
theories/Utf8Props.v
theories/CharModel.v
theories/CharProps.v
theories/LayoutModel.v
theories/LayoutProps.v
theories/Placement.v
theories/MatchModel.v
theories/MatchProps.v
theories/TupleModel.v
theories/TupleProps.v
theories/TypeListModel.v
theories/TypeListProps.v
theories/IterModel.v
theories/IterProps.v
theories/StringModel.v
theories/StringProofs.v
theories/StringProps.v
theories/StringExact.v
theories/StringCost.v
theories/StringIter.v
theories/StringAlloc.v
theories/AllocatorLife.v
theories/ListModel.v
theories/ListSeg.v
theories/ListOps.v
theories/ListOps2.v
theories/ListOps3.v
theories/ListOps4.v
theories/ListOps5.v
theories/SortSpec.v
theories/ListSort.v
theories/ListStep.v
theories/ListSpec.v
theories/ListRefine.v
theories/ListNodes.v
theories/ListBugs.v
theories/ListAlias.v
theories/ListProps.v
theories/ListDebug.v
theories/ListIterModel.v
theories/ListIterRel.v
theories/ListIterStep.v
theories/ListIterProps.v
theories/ListCount.v
theories/Tri.v
theories/PipeModel.v
theories/PipeProofs.v
theories/ListPipe.v
theories/ListPipeProofs.v
theories/ListPipeProps.v
theories/MixPipe.v
theories/MixProofs.v
theories/MixProps.v
theories/VecRefs.v
theories/VecKeep.v
theories/VecRefProps.v
theories/VecAlias.v
theories/VecBreaks.v
theories/VecThrow.v
theories/ListLeak.v
theories/ListThrow.v
theories/ListCmpThrow.v
theories/OptThrow.v
theories/ArrThrow.v
theories/ResThrow.v
theories/Oom.v
theories/ListOom.v
theories/ListOomProps.v
theories/StringOom.v
theories/VecOom.v
theories/PipeThrow.v
theories/MixThrow.v
theories/ArrExact.v
theories/RangeCmp.v
theories/RepoTests.v
theories/VecDebug.v
theories/SliceViews.v
theories/AllPipe.v
theories/AllProps.v
theories/RefViews.v
theories/RefExact.v
theories/VecMoves.v
theories/FloatRange.v
theories/Weigh.v
theories/ListMem.v
theories/VecMem.v
theories/StrMem.v
theories/StrRoom.v
theories/StrHist.v
theories/Printed.v
theories/Interchange.v
theories/ListExact.v
theories/Contig.v
theories/VecExact.v
theories/HistExact.v
theories/InterExact.v
