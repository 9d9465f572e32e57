-Q theories Verif
theories/ArrayModel.v
theories/ArrayProofs.v
theories/AsmDnowModel.v
theories/AsmMatModel.v
theories/AsmMatProofs.v
theories/AsmMatSpec.v
theories/AsmModel.v
theories/AsmProofs.v
theories/AsmSpec.v
theories/AssocFacts.v
theories/AssocFamModel.v
theories/AssocFamProofs.v
theories/AssocFamSpec.v
theories/AssocModel.v
theories/AssocProofs.v
theories/AssocSpec.v
theories/AssocVecModel.v
theories/AssocVecProofs.v
theories/AssocVecSpec.v
theories/AtomicLockProofs.v
theories/AtomicModel.v
theories/AtomicProofs.v
theories/AtomicSpec.v
theories/Base.v
theories/BitsetModel.v
theories/BitsetProofs.v
theories/BitsetSpec.v
theories/BoundProofs.v
theories/ByteFacts.v
theories/ByteModel.v
theories/ByteProofs.v
theories/ByteSpec.v
theories/ChronoModel.v
theories/ChronoOpsModel.v
theories/ChronoOpsProofs.v
theories/ChronoOpsSpec.v
theories/ChronoProofs.v
theories/ChronoSpec.v
theories/CtrModel.v
theories/CtrProofs.v
theories/CtrSpec.v
theories/CtxtModel.v
theories/CtxtProofs.v
theories/CtxtSpec.v
theories/DefCmpModel.v
theories/DiskModel.v
theories/DiskProofs.v
theories/DiskSpec.v
theories/ErrModel.v
theories/ErrSpec.v
theories/ExampleOrders.v
theories/ExcModel.v
theories/ExcProofs.v
theories/ExcSpec.v
theories/ExcSymProofs.v
theories/FCopyModel.v
theories/FdModel.v
theories/FdProofs.v
theories/FdSpec.v
theories/FileModel.v
theories/FileProofs.v
theories/FileSpec.v
theories/FillModel.v
theories/FillProofs.v
theories/FillSpec.v
theories/FmtModel.v
theories/FmtProofs.v
theories/FmtSpec.v
theories/FunObjModel.v
theories/FunObjProofs.v
theories/FunObjSpec.v
theories/FuncModel.v
theories/FuncProofs.v
theories/FuncSpec.v
theories/GrowModel.v
theories/GrowProofs.v
theories/GrowSpec.v
theories/HeapModel.v
theories/HeapProofs.v
theories/HeapSpec.v
theories/IHistModel.v
theories/IHistSpec.v
theories/IsIterModel.v
theories/IsIterNum.v
theories/IsIterProofs.v
theories/IsIterSpec.v
theories/IstrModel.v
theories/IstrNum.v
theories/IstrProg.v
theories/IstrProofs.v
theories/IstrRun.v
theories/IstrSpec.v
theories/IterModel.v
theories/IterProofs.v
theories/LifeInEnd.v
theories/LifeInModel.v
theories/LifeInProofs.v
theories/LifeInSpec.v
theories/LifeKeep.v
theories/LifeModel.v
theories/LifeProofs.v
theories/LifeSpec.v
theories/ListModel.v
theories/ListOwnModel.v
theories/ListOwnProofs.v
theories/ListProofs.v
theories/ListSpec.v
theories/LookModel.v
theories/MVecModel.v
theories/MVecProofs.v
theories/MVecSpec.v
theories/ManipModel.v
theories/ManipSpec.v
theories/MapProofs.v
theories/MatrixModel.v
theories/MatrixProofs.v
theories/MatrixSpec.v
theories/MemExcModel.v
theories/MemExcProofs.v
theories/MemExcSpec.v
theories/MemExcStr.v
theories/MemFacts.v
theories/MemModel.v
theories/MemProofs.v
theories/MemRun.v
theories/MemSpec.v
theories/MinMaxModel.v
theories/MinMaxSpec.v
theories/NumericFacts.v
theories/NumericModel.v
theories/NumericProofs.v
theories/OCopyModel.v
theories/OIterProofs.v
theories/OSeekModel.v
theories/OSeekSpec.v
theories/OStrExt.v
theories/OStrFile.v
theories/OStrModel.v
theories/OStrProofs.v
theories/OStrRun.v
theories/OStrSpec.v
theories/Order.v
theories/OwnModel.v
theories/OwnProofs.v
theories/OwnSpec.v
theories/P_Asm.v
theories/P_AsmDnow.v
theories/P_AsmMat.v
theories/P_Assoc.v
theories/P_AssocFam.v
theories/P_AssocVec.v
theories/P_Atomic.v
theories/P_Bitset.v
theories/P_Bytes.v
theories/P_Chrono.v
theories/P_ChronoOps.v
theories/P_Ctr.v
theories/P_Ctxt.v
theories/P_DefCmp.v
theories/P_Disk.v
theories/P_Err.v
theories/P_Exc.v
theories/P_FCopy.v
theories/P_Fd.v
theories/P_File.v
theories/P_Fill.v
theories/P_Fmt.v
theories/P_FunObj.v
theories/P_Func.v
theories/P_Grow.v
theories/P_IHist.v
theories/P_IsIter.v
theories/P_Istr.v
theories/P_Iter.v
theories/P_Life.v
theories/P_LifeIn.v
theories/P_List.v
theories/P_ListOwn.v
theories/P_Look.v
theories/P_MVec.v
theories/P_Manip.v
theories/P_Matrix.v
theories/P_Mem.v
theories/P_MemExc.v
theories/P_Meta.v
theories/P_MinMax.v
theories/P_Num.v
theories/P_OCopy.v
theories/P_OSeek.v
theories/P_Own.v
theories/P_PackTuple.v
theories/P_Pos.v
theories/P_PosIn.v
theories/P_Ptr.v
theories/P_PtrAlgo.v
theories/P_PtrOom.v
theories/P_Queue.v
theories/P_Raw.v
theories/P_RefArg.v
theories/P_Round.v
theories/P_Scope.v
theories/P_Search.v
theories/P_SetOps.v
theories/P_Sort.v
theories/P_StrAlias.v
theories/P_StrConv.v
theories/P_StrFmt.v
theories/P_StrOps.v
theories/P_Stream.v
theories/P_String.v
theories/P_Sys.v
theories/P_Tas.v
theories/P_Text.v
theories/P_Tuple.v
theories/P_Utf8.v
theories/P_Utf8Iter.v
theories/P_VecEq.v
theories/P_VecExc.v
theories/P_VecLink.v
theories/P_Vector.v
theories/P_WText.v
theories/P_Wide.v
theories/P_XText.v
theories/P_Xfer.v
theories/PackTupleModel.v
theories/PackTupleProofs.v
theories/PackTupleSpec.v
theories/PartialSortProofs.v
theories/PermProofs.v
theories/PermSpec.v
theories/PosIn.v
theories/PosInSpec.v
theories/PosModel.v
theories/PosOut.v
theories/PosProg.v
theories/PosProofs.v
theories/PosSpec.v
theories/PqProofs.v
theories/PqSpec.v
theories/PtrAlgoModel.v
theories/PtrAlgoProofs.v
theories/PtrAlgoSpec.v
theories/PtrModel.v
theories/PtrOomModel.v
theories/PtrOomSpec.v
theories/PtrProofs.v
theories/PtrSpec.v
theories/PtrUniqProofs.v
theories/QsortModel.v
theories/QsortProofs.v
theories/QsortSpec.v
theories/QueueModel.v
theories/QueueProofs.v
theories/QueueSpec.v
theories/RangeModel.v
theories/RangeProofs.v
theories/RangeSpec.v
theories/RawModel.v
theories/RawProofs.v
theories/RawSpec.v
theories/RefArgModel.v
theories/RefArgProofs.v
theories/RoundModel.v
theories/RoundProofs.v
theories/RoundSpec.v
theories/ScopeModel.v
theories/ScopeProofs.v
theories/ScopeSpec.v
theories/SearchFacts.v
theories/SerialFacts.v
theories/SerialHeapProofs.v
theories/SerialModel.v
theories/SerialProofs.v
theories/SerialRun.v
theories/SerialSpec.v
theories/SerialTypes.v
theories/SerialTypesProofs.v
theories/SetAlgoProofs.v
theories/SortFacts.v
theories/SortProofs.v
theories/StoreModel.v
theories/StoreProofs.v
theories/StrAliasProofs.v
theories/StrConvModel.v
theories/StrFmtModel.v
theories/StrFmtProofs.v
theories/StrFmtSpec.v
theories/StrNumBase.v
theories/StrNumProofs.v
theories/StrOpsModel.v
theories/StrOpsProofs.v
theories/StrOpsSpec.v
theories/StrPlus.v
theories/StreamFacts.v
theories/StreamModel.v
theories/StreamProofs.v
theories/StreamSpec.v
theories/StringFacts.v
theories/StringFindModel.v
theories/StringFindProofs.v
theories/StringFindSpec.v
theories/StringModel.v
theories/StringProofs.v
theories/StringRun.v
theories/StringSpec.v
theories/SysModel.v
theories/SysProofs.v
theories/SysSpec.v
theories/TasModel.v
theories/TraitModel.v
theories/TraitSpec.v
theories/TupleModel.v
theories/TupleProofs.v
theories/TupleSpec.v
theories/TypelistModel.v
theories/TypelistProofs.v
theories/TypelistSpec.v
theories/Utf8BadProofs.v
theories/Utf8IterModel.v
theories/Utf8IterProofs.v
theories/Utf8IterSpec.v
theories/Utf8Model.v
theories/Utf8Proofs.v
theories/Utf8Spec.v
theories/UtilModel.v
theories/UtilProofs.v
theories/UtilSpec.v
theories/VecEqModel.v
theories/VecExcModel.v
theories/VecExcProofs.v
theories/VecExcSpec.v
theories/VecLinkModel.v
theories/VecLinkProofs.v
theories/VecLinkSpec.v
theories/VectorFacts.v
theories/VectorModel.v
theories/VectorProofs.v
theories/VectorSpec.v
theories/WTextModel.v
theories/WTextProofs.v
theories/WTextSpec.v
theories/WideModel.v
theories/WideProofs.v
theories/WideSpec.v
theories/XTextModel.v
theories/XTextProofs.v
theories/XTextSpec.v
theories/XferModel.v
theories/XferProofs.v
theories/XferSpec.v
