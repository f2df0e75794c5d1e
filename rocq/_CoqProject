-Q theories Verif
theories/GoStr.v
theories/Value.v
theories/Names.v
theories/Cond.v
theories/Build.v
theories/Conformance.v
theories/SqlSpec.v
theories/Spec.v
theories/StrFacts.v
theories/SqlFacts.v
theories/CondFacts.v
theories/CondText.v
theories/CondSem.v
theories/TreeFacts.v
theories/CondLogic.v
theories/CondMeaning.v
theories/Built.v
theories/CondThms.v
theories/PropsCond.v
theories/NameFacts.v
theories/PropsNames.v
theories/StmtFacts.v
theories/Calls.v
theories/BuildFacts.v
theories/BuildThms.v
theories/StmtText.v
theories/PropsSelect.v
theories/PropsWrite.v
theories/AtomFacts.v
theories/PropsAtoms.v
theories/Heap.v
theories/HeapFacts.v
theories/HeapOps.v
theories/HeapBuild.v
theories/HeapRun.v
theories/HeapLinear.v
theories/HeapWf.v
theories/HeapFrame.v
theories/HeapApply.v
theories/HeapShare.v
theories/PropsHeap.v
theories/Surface.v
theories/ConformanceAll.v
theories/PropsSurface.v
theories/PropsMore.v
theories/PropsEntry.v
theories/PropsExact.v
theories/PropsOrder.v
theories/LikeSpec.v
theories/PropsLike.v
theories/Asked.v
theories/PropsAsked.v
theories/PropsChain.v
theories/DbSpec.v
theories/PropsDb.v
theories/PropsRows.v
theories/Lib.v
theories/PropsLib.v
theories/Ptr.v
theories/PropsPtr.v
theories/PropsString.v
theories/PropsSorted.v
theories/CondExact.v
theories/CondIff.v
theories/CondRight.v
theories/PropsIff.v
theories/HeapCaller.v
theories/PropsCaller.v
theories/PropsJoin.v
theories/PropsValid.v
theories/PropsExactly.v
theories/Errors.v
theories/PropsErrors.v
theories/PropsNil.v
theories/PropsExactly2.v
theories/PropsPaged.v
theories/PropsSorted2.v
theories/PropsAfter.v
theories/PropsAsked2.v
theories/PropsShort.v
theories/PropsClause.v
theories/Open.v
theories/PropsOpen.v
theories/SrcAst.v
theories/SrcParse.v
theories/SrcText.v
theories/SrcProg.v
theories/SrcSem.v
theories/SrcFacts.v
theories/SrcNames.v
theories/SrcNamesB.v
theories/SrcNamesC.v
theories/SrcLoops.v
theories/SrcValues.v
theories/SrcConds.v
theories/SrcLeafRender.v
theories/SrcLeafSQL.v
theories/SrcGroups.v
theories/SrcAddGroup.v
theories/SrcAdding.v
theories/SrcAddingB.v
theories/SrcAddingC.v
theories/SrcTree.v
theories/SrcTreeRender.v
theories/SrcTreeSQL.v
theories/SrcMake.v
theories/SrcMethods.v
theories/SrcWhere.v
theories/SrcCalls.v
theories/PropsSrc.v
theories/PropsSrcCond.v
theories/SrcBuilders.v
theories/SrcBuild.v
theories/SrcWrite.v
theories/SrcSelect.v
theories/SrcSelectB.v
theories/SrcMany.v
theories/SrcManyB.v
theories/SrcManyC.v
theories/SrcSingle.v
theories/SrcTables.v
theories/SrcPromoted.v
theories/PropsSrcBuild.v
theories/PropsSrcLib.v
theories/PropsSrcExpr.v
theories/PropsSrcSurface.v
theories/PropsSrcEnd.v
theories/PropsSrcRows.v
theories/PropsSrcBugs.v
theories/PropsSrcResults.v
theories/SrcMem.v
theories/PropsSrcMem.v
theories/PropsSrcKnot.v
