-Q theories Verif

theories/CInt.v
theories/Symbols.v
theories/Heap.v
theories/HeapLemmas.v
theories/GcModel.v
theories/GcSpec.v
theories/GcCopy.v
theories/GcScan.v
theories/GcFlip.v
theories/GcRoots.v
theories/GcProofs.v
theories/GcMain.v
theories/GcWhole.v
theories/DataModel.v
theories/GcCheck.v
theories/BootModel.v
theories/GcObserve.v
theories/GcObserveProofs.v
theories/Builtins.v
theories/PropsGc.v
theories/DataSpec.v
theories/MathModel.v
theories/DataLemmas.v
theories/MathProofs.v
theories/Samples.v
theories/PropsMath.v
theories/CoreProofs.v
theories/ListProofs.v
theories/StackModel.v
theories/PropsCore.v
theories/ArrayProofs.v
theories/PropsArray.v
theories/StringProofs.v
theories/PropsString.v
theories/HashProofs.v
theories/SamplesHash.v
theories/PropsHash.v
theories/PropsErrors.v
theories/ModuleProofs.v
theories/PropsModule.v
theories/LibDivModel.v
theories/PropsDiv.v
theories/LibModel.v
theories/LibSpec.v
theories/LibProofs.v
theories/PropsLib.v
theories/LibNumModel.v
theories/PropsNum.v
theories/LibSortModel.v
theories/PropsSort.v
theories/EvalModel.v
theories/Rep.v
theories/RepProofs.v
theories/RepArrays.v
theories/EvalSpec.v
theories/EvalRep.v
theories/EvalLemmas.v
theories/EvalRun.v
theories/EvalBind.v
theories/EvalSplice.v
theories/EvalSteps.v
theories/EvalSteps2.v
theories/EvalSteps3.v
theories/EvalDefine.v
theories/EvalErrSpec.v
theories/EvalRaise.v
theories/EvalSteps4.v
theories/EvalRaiseSteps.v
theories/EvalMain.v
theories/EvalErrMain.v
theories/PrimModel.v
theories/EvalPrimSpec.v
theories/EvalPrimLemmas.v
theories/EvalPrims.v
theories/EvalTop.v
theories/EvalErrTop.v
theories/EvalCheck.v
theories/PropsEval.v
theories/PropsErr.v
theories/ContProofs.v
theories/PropsCont.v
theories/PropsCall.v
theories/ReadModel.v
theories/DisplayModel.v
theories/ReadSpec.v
theories/ReadProofs.v
theories/ReadTotal.v
theories/WriteProofs.v
theories/PropsRead.v
theories/PropsReadAny.v
theories/IOModel.v
theories/IOSpec.v
theories/IOProofs.v
theories/PropsIO.v
theories/AllocModel.v
theories/AllocSpec.v
theories/AllocProofs.v
theories/PropsAlloc.v
theories/EnvSpec.v
theories/EnvProofs.v
theories/PropsEnv.v
theories/FmtModel.v
theories/FmtSpec.v
theories/FmtProofs.v
theories/PropsFmt.v
theories/FprintfModel.v
theories/FprintfSpec.v
theories/PropsFprintf.v
theories/MesccModel.v
theories/MesccProofs.v
theories/PropsMescc.v
theories/ClientModel.v
theories/ClientProofs.v
theories/PropsClient.v
theories/GetoptModel.v
theories/GetoptSpec.v
theories/GetoptProofs.v
theories/PropsGetopt.v
theories/DirModel.v
theories/DirSpec.v
theories/DirProofs.v
theories/PropsDir.v
theories/ExecModel.v
theories/PropsExec.v
theories/TopSpec.v
theories/TopRep.v
theories/TopRename.v
theories/TopExpand.v
theories/TopResolve.v
theories/TopForm.v
theories/TopMacro.v
theories/TopRun.v
theories/TopDefine.v
theories/TopEval.v
theories/TopMain.v
theories/TopCheck.v
theories/PropsTop.v
theories/ScanSpec.v
theories/ScanModel.v
theories/PropsScan.v
theories/TopErrSpec.v
theories/TopErr.v
theories/PropsTopErr.v
theories/SchemeSpec.v
theories/SchemeLib.v
theories/PropsScheme.v
