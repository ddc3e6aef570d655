-Q theories Verif

theories/Base.v
theories/FileLine.v
theories/Base_lemmas.v
theories/FileLine_spec.v
theories/FileLine_proofs.v
theories/Props_FileLine.v
theories/FixedLine_spec.v
theories/FixedLine_proofs.v
theories/Props_FixedLine.v
theories/FileEdit_spec.v
theories/FileEdit_proofs.v
theories/FileEdit2_proofs.v
theories/Props_FileEdit.v
theories/LogicalFile.v
theories/LogicalFile_spec.v
theories/LogicalFile_proofs.v
theories/Props_LogicalFile.v
theories/LineAccum.v
theories/LineAccum_spec.v
theories/LineAccum_proofs.v
theories/Props_LineAccum.v
theories/Tags.v
theories/SyntaxTags.v
theories/SyntaxTags_proofs.v
theories/Props_SyntaxTags.v
theories/Token.v
theories/Stmts.v
theories/Stmts_spec.v
theories/Stmts_proofs.v
theories/LabelStack.v
theories/LabelStack_spec.v
theories/LabelStack_proofs.v
theories/Props_Stmts.v
theories/Props_LabelStack.v
theories/LogicalLine.v
theories/StmtSrc.v
theories/StmtSrc_spec.v
theories/StmtSrc_proofs.v
theories/Props_StmtSrc.v
theories/SafeList.v
theories/SafeList_spec.v
theories/SafeList_proofs.v
theories/Props_SafeList.v
theories/Tree.v
theories/Tree_spec.v
theories/Tree_proofs.v
theories/TreeCursor_proofs.v
theories/Props_Tree.v
theories/TTStream.v
theories/TTStream_spec.v
theories/TTStream_proofs.v
theories/Props_TTStream.v
theories/SmashTab.v
theories/Smash.v
theories/Smash_spec.v
theories/Smash_proofs.v
theories/Utils.v
theories/Utils_spec.v
theories/Utils_proofs.v
theories/Props_Utils.v
theories/StmtRules.v
theories/Peg.v
theories/Peg_spec.v
theories/Peg_proofs.v
theories/PegCover_proofs.v
theories/PegTerm_proofs.v
theories/PegSafe_proofs.v
theories/PegOk_proofs.v
theories/Nest_proofs.v
theories/PegEnd_proofs.v
theories/StmtGrammar.v
theories/StmtParser.v
theories/Stmt_spec.v
theories/StmtTables_proofs.v
theories/StmtSafe_proofs.v
theories/StmtDispatch_proofs.v
theories/Props_Peg.v
theories/Props_Stmt.v
theories/RangePartition.v
theories/RangePartition_spec.v
theories/RangePartition_proofs.v
theories/Props_RangePartition.v
theories/Prgm.v
theories/Prgm_spec.v
theories/Prgm_proofs.v
theories/PrgmExact_proofs.v
theories/PrgmTop_proofs.v
theories/PrgmTerm_proofs.v
theories/PrgmLoops_spec.v
theories/PrgmLoops_proofs.v
theories/PrgmSource.v
theories/PrgmSource_proofs.v
theories/Props_Prgm.v
theories/Regex.v
theories/LexTab.v
theories/Lexer.v
theories/Lexer_spec.v
theories/Regex_proofs.v
theories/Lexer_proofs.v
theories/LexForm_proofs.v
theories/LexLongest_proofs.v
theories/LexWord_proofs.v
theories/LexPos_spec.v
theories/LexPos_proofs.v
theories/Props_Lexer.v
theories/LineEdit.v
theories/LineEdit_spec.v
theories/LineEdit_proofs.v
theories/Props_LineEdit.v
theories/LineRange_proofs.v
theories/Props_LineRange.v
theories/LineSplit_spec.v
theories/LineSplit_proofs.v
theories/Props_LineSplit.v
theories/LineFlow_spec.v
theories/LineFlow_proofs.v
theories/Props_LineFlow.v
theories/Convert.v
theories/Convert_spec.v
theories/Convert_proofs.v
theories/ConvertRead_proofs.v
theories/ConvertFile_proofs.v
theories/Props_Convert.v
theories/Indent.v
theories/Indent_spec.v
theories/Indent_proofs.v
theories/IndentTree_proofs.v
theories/IndentFile_proofs.v
theories/ReadFile.v
theories/ReadFile_proofs.v
theories/Props_Indent.v
theories/PrgmTree_spec.v
theories/PrgmTree_proofs.v
theories/Props_PrgmTree.v
theories/Visitor.v
theories/Visitor_spec.v
theories/Visitor_proofs.v
theories/Props_Visitor.v
theories/StmtPrefix.v
theories/StmtPrefix_proofs.v
theories/StmtApart_spec.v
theories/StmtApart_proofs.v
theories/Props_StmtApart.v
theories/StmtRoots_proofs.v
theories/Procedure.v
theories/Procedure_spec.v
theories/Procedure_proofs.v
theories/Props_Procedure.v
theories/ProcRegions.v
theories/ProcRegions_spec.v
theories/ProcRegions_proofs.v
theories/Props_ProcRegions.v
theories/StmtEdit.v
theories/StmtEdit_spec.v
theories/StmtEdit_proofs.v
theories/Props_StmtEdit.v
theories/StmtTree_spec.v
theories/StmtTree_proofs.v
theories/Props_StmtTree.v
theories/StmtWalk.v
theories/StmtWalk_spec.v
theories/StmtWalk_proofs.v
theories/StmtRun_proofs.v
theories/Props_StmtWalk.v
theories/StmtName_proofs.v
theories/Props_StmtName.v
theories/StmtFind_proofs.v
theories/Props_StmtFind.v
theories/Hooks.v
theories/Hooks_spec.v
theories/Hooks_proofs.v
theories/Props_Hooks.v
theories/FormatApp.v
theories/FormatApp_spec.v
theories/FormatApp_proofs.v
theories/Props_FormatApp.v
theories/Caliper.v
theories/Caliper_spec.v
theories/Caliper_proofs.v
theories/Props_Caliper.v
theories/FormatMain.v
theories/FormatMain_spec.v
theories/FormatMain_proofs.v
theories/Props_FormatMain.v
theories/IndentRead_spec.v
theories/IndentRead_proofs.v
theories/IndentReadFile_proofs.v
theories/Props_IndentRead.v
theories/ParseSame_spec.v
theories/ParseSame_proofs.v
theories/ParseSameFile_proofs.v
theories/Props_ParseSame.v
theories/IndentTwice_spec.v
theories/IndentTwice_proofs.v
theories/Props_IndentTwice.v
theories/ReadFixed.v
theories/CaseText_spec.v
theories/CaseText_proofs.v
theories/CaseFormat_proofs.v
theories/Props_CaseText.v
theories/ShowCst.v
theories/ShowCst_spec.v
theories/ShowCst_proofs.v
theories/Props_ShowCst.v
theories/LexBlank_proofs.v
theories/LexJoin_proofs.v
theories/ConvertSame_spec.v
theories/ConvertSame_proofs.v
theories/Props_ConvertSame.v
theories/FormatFiles.v
theories/FormatFiles_spec.v
theories/EndStmt_proofs.v
theories/EndFile_proofs.v
theories/FormatFiles_proofs.v
theories/Props_FormatFiles.v
theories/ExtDemo.v
theories/ExtDemo_spec.v
theories/ExtDemo_proofs.v
theories/Props_ExtDemo.v
theories/Drivers.v
theories/Drivers_spec.v
theories/Drivers_proofs.v
theories/Props_Drivers.v
theories/CaliperMain.v
theories/CaliperMain_spec.v
theories/CaliperMain_proofs.v
theories/Props_CaliperMain.v
theories/LineCopy.v
theories/LineCopy_spec.v
theories/LineCopy_proofs.v
theories/Props_LineCopy.v
theories/DoLabel_spec.v
theories/DoLabel_proofs.v
theories/Props_DoLabel.v
theories/LineSpace_spec.v
theories/LineSpace_proofs.v
theories/Props_LineSpace.v
theories/AppendComment_proofs.v
theories/Props_AppendComment.v
theories/Props_CommentColumn.v
