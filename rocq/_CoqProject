-Q theories Verif
theories/Base.v
theories/BaseFacts.v
theories/Field.v
theories/Sign.v
theories/Decimal.v
theories/SpecNum.v
theories/Numeric.v
theories/SpecStore.v
theories/NumFacts.v
theories/DispProofs.v
theories/DecProofs.v
theories/BinProofs.v
theories/PackedProofs.v
theories/StoreProofs.v
theories/P_Num.v
theories/PackedInt.v
theories/PackedIntProofs.v
theories/DispInt.v
theories/DispIntProofs.v
theories/P_Int.v
theories/Move.v
theories/Edited.v
theories/MoveAll.v
theories/SpecMove.v
theories/MoveProofs.v
theories/MovePacked.v
theories/MoveBin.v
theories/MoveNum.v
theories/MoveText.v
theories/IntAccess.v
theories/MoveMore.v
theories/P_Move.v
theories/Compare.v
theories/SpecCmp.v
theories/SpecSort.v
theories/CmpProofs.v
theories/CmpMore.v
theories/P_Cmp.v
theories/Inspect.v
theories/SpecInspect.v
theories/InspectProofs.v
theories/InspectStmt.v
theories/InspectStmt2.v
theories/InspectMore.v
theories/P_Inspect.v
theories/StringStmt.v
theories/SpecString.v
theories/StringProofs.v
theories/P_String.v
theories/Routines.v
theories/P_Routines.v
theories/Storage.v
theories/P_Storage.v
theories/Layout.v
theories/SpecLayout.v
theories/LayoutProofs.v
theories/P_Layout.v
theories/Dates.v
theories/SpecDate.v
theories/DatesProofs.v
theories/P_Date.v
theories/SpecIntr.v
theories/Intr.v
theories/IntrProofs.v
theories/IntrProofs2.v
theories/P_Intr.v
theories/FuncRing.v
theories/P_FuncRing.v
theories/TextFunc.v
theories/SpecText.v
theories/P_Text.v
theories/Stdio.v
theories/FileIO.v
theories/StdioProofs.v
theories/SpecFile.v
theories/RelProofs.v
theories/RelHist.v
theories/RelNext.v
theories/RelScan.v
theories/RelStart.v
theories/RelDyn.v
theories/P_Rel.v
theories/SpecSeq.v
theories/SeqHist.v
theories/SeqInst.v
theories/LineInst.v
theories/P_Seq.v
theories/SpecStatus.v
theories/StatusProofs.v
theories/P_Status.v
theories/FileSort.v
theories/SpecFileSort.v
theories/SortProofs.v
theories/SortFiles.v
theories/SortHist.v
theories/P_FileSort.v
theories/BinOps.v
theories/P_BinOps.v
theories/Linage.v
theories/SpecLinage.v
theories/LinageProofs.v
theories/P_Linage.v
theories/SpecEdit.v
theories/EditProofs.v
theories/EditFinish.v
theories/EditMove.v
theories/EditBack.v
theories/EditRead.v
theories/P_Edit.v
theories/Picture.v
theories/SpecPic.v
theories/PicProofs.v
theories/PicAttr.v
theories/PicStep.v
theories/PicEnd.v
theories/PicOk.v
theories/PicMain.v
theories/PicAccept.v
theories/PicFinal.v
theories/PicEdit.v
theories/P_Pic.v
theories/EditStore.v
theories/EditStoreProofs.v
theories/P_EditStore.v
theories/Compute.v
theories/SpecCompute.v
theories/ComputeProofs.v
theories/ComputeStore.v
theories/ComputeMain.v
theories/P_Compute.v
theories/ExprParse.v
theories/SpecExpr.v
theories/ExprProofs.v
theories/ExprCond.v
theories/P_Expr.v
theories/Cond.v
theories/SpecCond.v
theories/CondProofs.v
theories/P_Cond.v
theories/Search.v
theories/SpecSearch.v
theories/SearchProofs.v
theories/P_Search.v
theories/Perform.v
theories/SpecPerform.v
theories/PerformProofs.v
theories/P_Perform.v
theories/Evaluate.v
theories/SpecEvaluate.v
theories/EvaluateProofs.v
theories/P_Evaluate.v
theories/Initialize.v
theories/SpecInitialize.v
theories/InitializeProofs.v
theories/P_Initialize.v
theories/Display.v
theories/SpecDisplay.v
theories/DisplayProofs.v
theories/P_Display.v
theories/Indexed.v
theories/SpecIndexed.v
theories/IndexedDb.v
theories/IndexedInv.v
theories/IndexedOps.v
theories/IndexedPos.v
theories/IndexedState.v
theories/IndexedRead.v
theories/IndexedStmt.v
theories/IndexedStmt2.v
theories/IndexedStmt3.v
theories/IndexedStmt4.v
theories/IndexedThm.v
theories/P_Indexed.v
theories/PpText.v
theories/SpecPpText.v
theories/PpTextThm.v
theories/PpTextThm2.v
theories/PpTextThm3.v
theories/P_PpText.v
theories/Call.v
theories/SpecCall.v
theories/CallThm.v
theories/CallThm2.v
theories/CallThm3.v
theories/CallThm4.v
theories/P_Call.v
theories/FixedSrc.v
theories/SpecFixedSrc.v
theories/FixedSrcThm.v
theories/FixedSrcThm2.v
theories/P_FixedSrc.v
theories/CondComp.v
theories/SpecCondComp.v
theories/CondCompThm.v
theories/CondCompThm2.v
theories/P_CondComp.v
theories/Names.v
theories/SpecNames.v
theories/NamesThm.v
theories/NamesThm2.v
theories/NamesThm3.v
theories/NamesThm4.v
theories/NamesThm5.v
theories/NamesThm6.v
theories/P_Names.v
theories/Corr.v
theories/SpecCorr.v
theories/CorrThm.v
theories/P_Corr.v
theories/National.v
theories/SpecNational.v
theories/NationalThm.v
theories/P_National.v
theories/SortUG.v
theories/SpecSortUG.v
theories/SortUGThm.v
theories/P_SortUG.v
theories/Stats.v
theories/SpecStat.v
theories/StatsProofs.v
theories/P_Stats.v
theories/Present.v
theories/SpecPresent.v
theories/P_Present.v
