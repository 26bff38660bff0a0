-Q theories Verif
theories/AtomicModel.v
theories/AtomicProofs.v
theories/AtomicProps.v
theories/AttachModel.v
theories/AttachProofs.v
theories/AttachProps.v
theories/Base.v
theories/BuildProofs.v
theories/CalendarModel.v
theories/CalendarProofs.v
theories/CalendarProps.v
theories/CalendarSpec.v
theories/CompFunModel.v
theories/CompFunProps.v
theories/CompareModel.v
theories/CompareProofs.v
theories/CompareProps.v
theories/ConcLib.v
theories/CrcModel.v
theories/CrcProofs.v
theories/CsvModel.v
theories/CsvProofs.v
theories/CsvProps.v
theories/DhashModel.v
theories/DhashProofs.v
theories/DhashProps.v
theories/DserveConfModel.v
theories/DserveConfProofs.v
theories/DserveConfProps.v
theories/DserveDispModel.v
theories/DserveDispProps.v
theories/DserveIoModel.v
theories/DserveIoProps.v
theories/DserveModel.v
theories/DserveNetModel.v
theories/DserveNetProofs.v
theories/DserveNetProps.v
theories/DserveOpsModel.v
theories/DserveOpsProofs.v
theories/DserveOpsProps.v
theories/DservePrintModel.v
theories/DservePrintProofs.v
theories/DservePrintProps.v
theories/DserveProofs.v
theories/DserveProps.v
theories/DumpModel.v
theories/DumpProofs.v
theories/DumpProps.v
theories/EncodingModel.v
theories/EncodingProofs.v
theories/EncodingProps.v
theories/FindModel.v
theories/FindProps.v
theories/FixAllocModel.v
theories/FixAllocProofs.v
theories/FixAllocProps.v
theories/FixAllocSpec.v
theories/FixpModel.v
theories/FixpProofs.v
theories/FixpProps.v
theories/GinthashModel.v
theories/GinthashProofs.v
theories/GinthashProps.v
theories/HashIdxKeys.v
theories/HashIdxModel.v
theories/HashIdxProofs.v
theories/HashIdxProps.v
theories/HashIdxRows.v
theories/IndexCtlModel.v
theories/IndexCtlProofs.v
theories/IndexCtlProps.v
theories/IndexMaintModel.v
theories/IndexMaintProofs.v
theories/IndexMaintProps.v
theories/IntModel.v
theories/JfileModel.v
theories/JfileProofs.v
theories/JfileProps.v
theories/JournalInst.v
theories/JournalModel.v
theories/JournalProofs.v
theories/JournalProofs2.v
theories/JournalProofs3.v
theories/JournalProps.v
theories/JsonModel.v
theories/JsonProofs.v
theories/JsonProps.v
theories/JsonQueryModel.v
theories/JsonQueryProofs.v
theories/JsonQueryProps.v
theories/JsonRead.v
theories/MatchProofs.v
theories/MpoolModel.v
theories/MpoolProofs.v
theories/MpoolProps.v
theories/PermsModel.v
theories/PermsProps.v
theories/QLockInv.v
theories/QLockModel.v
theories/QLockProofs.v
theories/QLockProps.v
theories/QueryModel.v
theories/QueryProofs.v
theories/QueryProps.v
theories/RangeModel.v
theories/RangeProofs.v
theories/RangeProps.v
theories/RecordModel.v
theories/RecordProofs.v
theories/RecordProps.v
theories/ResolveModel.v
theories/ResolveProofs.v
theories/ResolveProps.v
theories/ResolveSpec.v
theories/ResultModel.v
theories/ResultProofs.v
theories/ResultProps.v
theories/RhashModel.v
theories/RhashProps.v
theories/RpLockModel.v
theories/RpLockProofs.v
theories/RpLockProps.v
theories/RvecModel.v
theories/RvecProps.v
theories/SchemaModel.v
theories/SchemaProofs.v
theories/SchemaTree.v
theories/SegmentFrame.v
theories/SegmentModel.v
theories/SegmentProofs.v
theories/SegmentProps.v
theories/SegmentSpec.v
theories/SpinLockModel.v
theories/StringHist.v
theories/StringModel.v
theories/StringProofs.v
theories/StringProps.v
theories/SubsumeProofs.v
theories/SubsumeProps.v
theories/TtreeAdd.v
theories/TtreeArr.v
theories/TtreeDel.v
theories/TtreeFix.v
theories/TtreeModel.v
theories/TtreeOrd.v
theories/TtreePos.v
theories/TtreeProps.v
theories/TtreeReach.v
theories/TtreeRotate.v
theories/TtreeShape.v
theories/UnifyModel.v
theories/UnifyProofs.v
theories/UnifyProps.v
theories/UnifySpec.v
theories/UnifyTotal.v
theories/UnistrBytes.v
theories/UnistrModel.v
theories/UnistrProofs.v
theories/UnistrProps.v
theories/VarAllocCore.v
theories/VarAllocFree.v
theories/VarAllocGrow.v
theories/VarAllocModel.v
theories/VarAllocProofs.v
theories/VarAllocProps.v
theories/VarAllocReach.v
theories/VarAllocScan.v
theories/VarAllocSpec.v
theories/VarAllocStep.v
theories/VarintModel.v
theories/VarintProofs.v
theories/VarintProps.v
theories/WgdbArgModel.v
theories/WgdbArgProps.v
theories/WpLockModel.v
theories/WpLockProofs.v
theories/WpLockProps.v
theories/YajlAccept.v
theories/YajlGrammar.v
theories/YajlGrammarProps.v
theories/YajlModel.v
theories/YajlParse.v
theories/YajlPrint.v
theories/YajlProofs.v
theories/YajlProps.v
theories/YajlSafe.v
theories/YajlText.v
theories/YajlValue.v
