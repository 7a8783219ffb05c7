-Q theories Verif
theories/Word.v
theories/SyTree.v
theories/ExprSem.v
theories/StmtSem.v
theories/OpTree.v
theories/WordProofs.v
theories/OptSpec.v
theories/OptProofs.v
theories/OptProofs2.v
theories/OptProofs3.v
theories/OptStmt.v
theories/OptStruct.v
theories/OptFold.v
theories/Properties_Opt.v
theories/VM.v
theories/VmCode.v
theories/VmBase.v
theories/GenLabels.v
theories/GenLabels2.v
theories/GenExpr.v
theories/GenSim.v
theories/GenStmt.v
theories/OrderSpec.v
theories/OrderProofs.v
theories/GenFunc.v
theories/StackSpec.v
theories/GenStack.v
theories/GenStack2.v
theories/Properties_Gen.v
theories/LibMem.v
theories/LibString.v
theories/LibSpec.v
theories/LibStrProofs.v
theories/LibStrProofs2.v
theories/Properties_Str.v
theories/LibStd.v
theories/LibStdProofs.v
theories/Properties_Std.v
theories/LibPrintf.v
theories/LibPrintfSpec.v
theories/LibPrintfProofs.v
theories/Properties_Printf.v
theories/Lexer.v
theories/LexSpec.v
theories/LexProofs.v
theories/LexGap.v
theories/LexTok.v
theories/LexTotal.v
theories/LexLocal.v
theories/LexLayout.v
theories/Properties_Lex.v
theories/NameTable.v
theories/NameSpec.v
theories/NameProofs.v
theories/Properties_Name.v
theories/Parser.v
theories/ParserStmt.v
theories/ParseSpec.v
theories/ParseSound.v
theories/ParseComplete.v
theories/ParseShow.v
theories/Properties_Parse.v
theories/ParseTotal.v
theories/ParseLabs.v
theories/OptLabs.v
theories/ProgInv.v
theories/ProgSpec.v
theories/ProgData.v
theories/ProgTop.v
theories/ProgRun.v
theories/Properties_Prog.v
theories/LibHeap.v
theories/HeapSpec.v
theories/HeapProofs.v
theories/HeapHist.v
theories/Properties_Heap.v
theories/TacSpec.v
theories/Tac.v
theories/TacSafe.v
theories/TacInv.v
theories/TacInv2.v
theories/TacSim.v
theories/TacRun.v
theories/TacFrame.v
theories/TacFunc.v
theories/TacFrom.v
theories/TacPend.v
theories/TacToy.v
theories/Properties_Tac.v
theories/LibStdio.v
theories/StdioSpec.v
theories/StdioProofs.v
theories/StdioTable.v
theories/StdioHist.v
theories/StdioTop.v
theories/Properties_Stdio.v
theories/LibEnviron.v
theories/EnvironSpec.v
theories/EnvironProofs.v
theories/PathProofs.v
theories/Properties_Environ.v
theories/DataSpec.v
theories/DataProofs.v
theories/DataParse.v
theories/Properties_Data.v
theories/CCode.v
theories/CSpec.v
theories/CTree.v
theories/CLexProofs.v
theories/CReadProofs.v
theories/CExpProofs.v
theories/CStmProofs.v
theories/CFuel.v
theories/Properties_CCode.v
theories/SyTable.v
theories/SyTableRep.v
theories/SyTableExp.v
theories/SyTableMove.v
theories/SyTableStm.v
theories/SyTableBuild.v
theories/SyTableParse.v
theories/SyTableUniq.v
theories/Properties_SyTable.v
theories/StmtSpec.v
theories/StmtSound.v
theories/StmtComplete.v
theories/ProgGram.v
theories/ProgSound.v
theories/ProgComplete.v
theories/ParseUniq.v
theories/ProgUniq.v
theories/StmtFuel.v
theories/Properties_Source.v
theories/SourceRun.v
theories/RuleDet.v
theories/RuleDet2.v
theories/SourceSlots.v
theories/Properties_Run.v
theories/Properties_Chain.v
theories/AsmText.v
theories/AsmSpec.v
theories/AsmRead.v
theories/AsmLines.v
theories/AsmTextProofs.v
theories/TextGrow.v
theories/Properties_Text.v
theories/Validation1.v
theories/Validation2.v
theories/TextNames.v
theories/CFile.v
theories/CDataSpec.v
theories/CDataProofs.v
theories/CDeclSpec.v
theories/CDeclProofs.v
theories/CFileSpec.v
theories/CFileProofs.v
theories/CFileTop.v
theories/Properties_CFile.v
theories/Validation3.v
theories/CSourceSpec.v
theories/CSourceRefs.v
theories/CSourceText.v
theories/CSourceSound.v
theories/CSourceFile.v
theories/Properties_CSource.v
theories/COpTree.v
theories/COptLabs.v
theories/CWord.v
theories/CWordProofs.v
theories/CExprSem.v
theories/CStmtSem.v
theories/CIntSpec.v
theories/COptProofs.v
theories/COptProofs2.v
theories/COptProofs3.v
theories/COptStmt.v
theories/COptStruct.v
theories/Properties_COpt.v
theories/LinkSpec.v
theories/LinkProofs.v
theories/LinkNames.v
theories/Properties_Link.v
theories/CPrintf.v
theories/CPrintfSpec.v
theories/CPrintfProofs.v
theories/Properties_CPrintf.v
theories/RtcHeap.v
theories/RtcSpec.v
theories/RtcProofs.v
theories/RtcStart.v
theories/Properties_Rtc.v
theories/CWrapper.v
theories/CWrapperSpec.v
theories/CWrapperProofs.v
theories/Properties_CWrapper.v
theories/RtcCode.v
theories/RtcTree.v
theories/RtcText.v
theories/RtcStm.v
theories/RtcStrip.v
theories/Properties_RtcText.v
theories/RtcDataSpec.v
theories/RtcData.v
theories/RtcDataProofs.v
theories/RtcDataParse.v
theories/RtcDecl.v
theories/Properties_RtcData.v
theories/CommandSpec.v
theories/Command.v
theories/Properties_Command.v
theories/DriverSpec.v
theories/Driver.v
theories/DriverProofs.v
theories/Properties_Driver.v
theories/LexerCmm.v
theories/LexerCmmProofs.v
theories/Properties_LexCmm.v
theories/DriverVm.v
theories/Properties_DriverVm.v
theories/DriverTacSpec.v
theories/DriverTac.v
theories/DriverTacProofs.v
theories/Properties_DriverTac.v
theories/LibDirSpec.v
theories/LibDir.v
theories/Properties_Dir.v
theories/LibWrap.v
theories/Properties_Wrap.v
