-Q theories Verif
theories/Base.v
theories/Utf8Model.v
theories/Utf8Spec.v
theories/Utf8Proofs.v
theories/HashModel.v
theories/FloatModel.v
theories/StringModel.v
theories/ValueModel.v
theories/TextProofs.v
theories/PropsText.v
theories/MapModel.v
theories/MapSpec.v
theories/ProbeProofs.v
theories/MapProofs.v
theories/MapProofs2.v
theories/PropsMap.v
theories/ListModel.v
theories/SeqSpec.v
theories/ListProofs.v
theories/BufferModel.v
theories/BufferProofs.v
theories/PropsData.v
theories/UtilModel.v
theories/UtilProofs.v
theories/PropsUtil.v
theories/FrameModel.v
theories/FrameProofs.v
theories/PropsFrame.v
theories/GcModel.v
theories/GcSpec.v
theories/GcProofs.v
theories/GcProofs2.v
theories/GcProofs3.v
theories/GcProofs4.v
theories/ExtModel.v
theories/ExtProofs.v
theories/PropsGc.v
theories/ExeModel.v
theories/ExeSpec.v
theories/ExeProofs.v
theories/AsmModel.v
theories/AsmProofs.v
theories/PropsExe.v
theories/AsmSpec.v
theories/AsmRound.v
theories/AsmLabels.v
theories/PropsAsm.v
theories/ArithModel.v
theories/ArithProofs.v
theories/ObjModel.v
theories/ObjSpec.v
theories/ObjProofs.v
theories/CopyProofs.v
theories/PropsObj.v
theories/PropsCopy.v
theories/AstModel.v
theories/CodegenModel.v
theories/VmModel.v
theories/SrcModel.v
theories/CompSpec.v
theories/CodegenProofs.v
theories/CodegenProofs2.v
theories/CodegenProofs3.v
theories/FuelProofs.v
theories/SimProofs.v
theories/RunProofs.v
theories/BalanceSpec.v
theories/BalanceProofs.v
theories/ScopeSpec.v
theories/ScopeProofs.v
theories/LogicProofs.v
theories/CallProofs.v
theories/VmExamples.v
theories/PropsVm.v
theories/FloatProofs.v
theories/LexModel.v
theories/ParseModel.v
theories/LexSpec.v
theories/LexProofs.v
theories/ParseMono.v
theories/ParseSafe.v
theories/ParseSpec.v
theories/LayoutProofs.v
theories/PrintProofs.v
theories/WriteProofs.v
theories/GrammarProofs.v
theories/ParseExamples.v
theories/PropsParse.v
theories/SysModel.v
theories/SysProofs.v
theories/BuiltinModel.v
theories/BuiltinProofs.v
theories/PropsBuiltin.v
theories/PreludeModel.v
theories/PreludeRun.v
theories/PreludeProofs.v
theories/PreludeText.v
theories/PreludeSpec.v
theories/PreludeToString.v
theories/PreludeUser.v
theories/PropsPrelude.v
theories/PreludeIter.v
theories/PreludeNext.v
theories/PreludeVisit.v
theories/PropsIter.v
theories/FloatRound.v
theories/IoModel.v
theories/IoProofs.v
theories/PropsIo.v
theories/CompileModel.v
theories/CompileProofs.v
theories/PropsCompile.v
theories/SourceModel.v
theories/SourceProofs.v
theories/PropsSource.v
theories/ShowModel.v
theories/ShowSpec.v
theories/ShowProofs.v
theories/PropsShow.v
theories/CalcSpec.v
theories/LimitSpec.v
theories/LimitProofs.v
theories/DepthSpec.v
theories/DepthProofs.v
theories/CalcProofs.v
theories/PropsCalc.v
theories/PropsLimit.v
theories/HashSpec.v
theories/HashProofs.v
theories/PropsHash.v
theories/LookSpec.v
theories/LookProofs.v
theories/PropsLook.v
theories/WhileSpec.v
theories/WhileProofs.v
theories/WhileExamples.v
theories/PropsWhile.v
theories/StartSpec.v
theories/StartProofs.v
theories/StartProofs2.v
theories/StartUnknown.v
theories/PropsStart.v
theories/MoveSpec.v
theories/MoveProofs.v
theories/MoveObj.v
theories/MoveVm.v
theories/MoveRun.v
theories/MoveExamples.v
theories/MoveHeap.v
theories/PropsMove.v
theories/GraphModel.v
theories/GraphSpec.v
theories/GraphProofs.v
theories/GraphRead.v
theories/GraphNames.v
theories/GraphFinal.v
theories/PropsGraph.v
theories/TestModel.v
theories/TestSpec.v
theories/TestProofs.v
theories/TestDir.v
theories/PropsTest.v
theories/RepoTests.v
theories/TextSpec.v
theories/ValueText.v
theories/ValueTextLoop.v
theories/PropsValueText.v
theories/TraceModel.v
theories/TraceSpec.v
theories/TracePos.v
theories/TraceProofs.v
theories/PropsTrace.v
theories/CliModel.v
theories/CliSpec.v
theories/CliProofs.v
theories/PropsCli.v
theories/ProfModel.v
theories/ProfSpec.v
theories/ProfProofs.v
theories/PropsProf.v
theories/FunSpec.v
theories/FunProofs.v
theories/FunRun.v
theories/FunExamples.v
theories/PropsFun.v
theories/NetModel.v
theories/NetSpec.v
theories/NetProofs.v
theories/NetExamples.v
theories/PropsNet.v
theories/CalcExamples.v
theories/FunTypes.v
theories/ParamSpec.v
theories/ParamProofs.v
theories/PropsParam.v
theories/ListsSpec.v
theories/ListsProofs.v
theories/ListsSort.v
theories/ListsExamples.v
theories/PropsLists.v
theories/ImportModel.v
theories/ImportProofs.v
theories/ImportMore.v
theories/ImportTold.v
theories/ImportMain.v
theories/ImportExamples.v
theories/PropsImport.v
theories/CollSpec.v
theories/CollHeap.v
theories/CollProofs.v
theories/CollRun.v
theories/CollExamples.v
theories/PropsColl.v
theories/DumpModel.v
theories/DumpSpec.v
theories/DumpProofs.v
theories/DumpBuilt.v
theories/DumpExamples.v
theories/PropsDump.v
theories/PosModel.v
theories/PosSpec.v
theories/PosProofs.v
theories/PosProofs2.v
theories/PosProofs3.v
theories/PropsPos.v
theories/TalkModel.v
theories/TalkSpec.v
theories/TalkProofs.v
theories/TalkRun.v
theories/TalkSteps.v
theories/TalkEnd.v
theories/TalkExamples.v
theories/PropsTalk.v
theories/StopModel.v
theories/StopSpec.v
theories/StopProofs.v
theories/StopExamples.v
theories/PropsStop.v
theories/TrailModel.v
theories/TrailSpec.v
theories/TrailProofs.v
theories/TrailExamples.v
theories/PropsTrail.v
theories/HaltModel.v
theories/HaltProofs.v
theories/PropsHalt.v
