-Q theories Verif
theories/Qcx.v
theories/LinAlg.v
theories/Base.v
theories/Sparse.v
theories/SparseP.v
theories/Provider.v
theories/Carry.v
theories/Tableau.v
theories/PivotRule.v
theories/Solve.v
theories/CarryP.v
theories/TableauP.v
theories/RuleP.v
theories/Spec.v
theories/PhaseP.v
theories/KindP.v
theories/InitP.v
theories/KeptP.v
theories/ArtP.v
theories/FinishP.v
theories/SolveP.v
theories/Perm.v
theories/Lu.v
theories/InvRows.v
theories/PermP.v
theories/TriP.v
theories/LuP.v
theories/LuC.v
theories/LuF.v
theories/LuG.v
theories/LuL.v
theories/InvRowsP.v
theories/Bland.v
theories/Agree.v
theories/Runs.v
theories/Reach.v
theories/Cycle.v
theories/Examples.v
theories/SolverP.v
theories/SolverQ.v
theories/PropSolver.v
theories/GeneralForm.v
theories/MatrixData.v
theories/SpecGeneral.v
theories/StandardP.v
theories/StandardQ.v
theories/StandardR.v
theories/MatrixDataP.v
theories/Pipeline.v
theories/PipelineP.v
theories/ExGeneral.v
theories/GeneralQ.v
theories/PropGeneral.v
theories/Filter.v
theories/FilterP.v
theories/Network.v
theories/NetworkP.v
theories/Matrix.v
theories/MatrixP.v
theories/DataP.v
theories/PropData.v
theories/Presolve.v
theories/PreCount.v
theories/ExPresolve.v
theories/PropPresolve.v
theories/PreRules.v
theories/PreTerm.v
theories/Mps.v
theories/SpecMps.v
theories/NumberP.v
theories/BoundsP.v
theories/RangesP.v
theories/MpsP.v
theories/ConvertP.v
theories/ExMps.v
theories/MpsQ.v
theories/PropMps.v
theories/MpsParse.v
theories/SpecParse.v
theories/TextP.v
theories/ParseP.v
theories/GroupP.v
theories/FileP.v
theories/ExParse.v
theories/AcceptP.v
theories/AcceptFileP.v
theories/AcceptFreeP.v
theories/ParseQ.v
theories/PropParse.v
theories/Scale.v
theories/SpecScale.v
theories/ScaleP.v
theories/SearchP.v
theories/PowerP.v
theories/FactorP.v
theories/ScaleRunP.v
theories/ExponentP.v
theories/ScaleQ.v
theories/ExScale.v
theories/ScaleR.v
theories/PropScale.v
theories/SpecFile.v
theories/TextPipeline.v
theories/TextSolveP.v
theories/ExFile.v
theories/PropText.v
theories/PreView.v
theories/PreActs.v
theories/PreTidy.v
theories/PreDrop.v
theories/PreBound.v
theories/PreBoundRule.v
theories/PreSlack.v
theories/PreProp.v
theories/PreSet.v
theories/PreRow.v
theories/SafeRun.v
theories/PreLoop.v
theories/PreStart.v
theories/PreOrder.v
theories/PreKept.v
theories/PreResolve.v
theories/PreFinal.v
theories/PreSafe.v
theories/ExSafe.v
theories/PropSafe.v
theories/NetModel.v
theories/SpecPath.v
theories/PathP.v
theories/ExPath.v
theories/PropPath.v
theories/SpecFlow.v
theories/FlowP.v
theories/ExFlow.v
theories/PropFlow.v
theories/SpecFixed.v
theories/FixedP.v
theories/AcceptFixedP.v
theories/ExFixed.v
theories/PropFixed.v
theories/LuConv.v
theories/Warm.v
theories/SpecWarm.v
theories/WarmP.v
theories/ExWarm.v
theories/PropWarm.v
theories/ColumnRange.v
theories/SpecRange.v
theories/RangeP.v
theories/RangeQ.v
theories/RangeR.v
theories/ExRange.v
theories/PropRange.v
theories/VertexP.v
theories/Whole.v
theories/RangeI.v
theories/ExVertex.v
theories/PropVertex.v
theories/FlowI.v
theories/TextPresolve.v
theories/TextPresolveP.v
theories/ExTextPresolve.v
theories/PropTextPre.v
theories/SpecCompare.v
theories/Compare.v
theories/CompareP.v
theories/ExCompare.v
theories/PropCompare.v
theories/SpecImport.v
theories/Import.v
theories/ImportP.v
theories/ExImport.v
theories/PropImport.v
theories/TestFiles.v
theories/TestPresolve.v
theories/TestLu.v
theories/TestSolve.v
theories/StallP.v
theories/DebugLu.v
theories/DebugLuP.v
theories/DebugLuC.v
theories/DebugLuF.v
theories/DebugSolve.v
theories/DebugTab.v
theories/DebugRule.v
theories/DebugPhase.v
theories/DebugWhole.v
theories/DebugInst.v
theories/DebugRun.v
theories/DebugP.v
theories/PropDebug.v
theories/PresolveD.v
theories/PresolveDP.v
theories/PreBooks.v
theories/PreAgree.v
theories/PreAgreeRules.v
theories/PreAgreeProp.v
theories/PreAgreeRow.v
theories/PreAgreeLoop.v
theories/PreAgreeEnd.v
theories/PreAgreeWhole.v
theories/PreAgreeTypes.v
theories/PreAny.v
theories/ExPreDebug.v
theories/PropPreDebug.v
theories/SpecSizes.v
theories/SizesP.v
theories/PipelineD.v
theories/PipelineDP.v
theories/PipelineDQ.v
theories/ExPipeDebug.v
theories/PropPipeDebug.v
theories/SpecTextDebug.v
theories/TextD.v
theories/TextDP.v
theories/TextDQ.v
theories/TextDR.v
theories/DebugSub.v
theories/DebugSubS.v
theories/DebugSubG.v
theories/ExTextDebug.v
theories/PropTextDebug.v
theories/MpsErr.v
theories/MpsErrP.v
theories/MpsErrQ.v
theories/ExErr.v
theories/PropErrors.v
theories/SpecOrder.v
theories/OrderP.v
theories/ExOrder.v
theories/PropOrder.v
theories/FuelP.v
theories/PropFuel.v
theories/SpecVertex.v
theories/VertexG.v
theories/ExVertexG.v
theories/SpecErr.v
theories/MpsErrR.v
theories/ExMistake.v
theories/SpecDual.v
theories/DualP.v
theories/FarkasP.v
theories/SpecGDual.v
theories/GDualP.v
theories/ExDual.v
theories/PropDual.v
theories/SpecFDual.v
theories/FDualP.v
theories/ExAnswers.v
theories/ExFDual.v
theories/PropFDual.v
theories/ExEndless.v
theories/StandardT.v
theories/ExCalls.v
theories/PropCalls.v
theories/SpecSize.v
theories/DetQ.v
theories/SizeP.v
theories/ExSize.v
theories/PropSize.v
theories/SpecGSize.v
theories/GSizeP.v
theories/SpecFSize.v
theories/FSizeP.v
theories/ExGSize.v
theories/SpecSides.v
theories/SidesP.v
theories/PackP.v
theories/ExSides.v
theories/SpecFSides.v
theories/FSidesP.v
theories/ExFSides.v
theories/PropSides.v
theories/SpecSteps.v
theories/PreSteps.v
theories/StepsP.v
theories/PropSteps.v
theories/SpecPair.v
theories/PairP.v
theories/ExPair.v
theories/SpecMix.v
theories/MixP.v
theories/ExMix.v
theories/PropPair.v
theories/SpecWhole.v
theories/WholeP.v
theories/WholeG.v
theories/WholeS.v
theories/WholeF.v
theories/ExWhole.v
theories/PropWhole.v
theories/WholePre.v
theories/WholePreG.v
theories/WholePreF.v
theories/ExWholePre.v
theories/SpecUnits.v
theories/UnitsP.v
theories/ExUnits.v
theories/PropUnits.v
theories/ExMet.v
theories/WarmSizeP.v
theories/PreSizeP.v
theories/ExPreSize.v
theories/PropPreSize.v
theories/SpecBeside.v
theories/BesideP.v
theories/ExBeside.v
theories/PropBeside.v
theories/SpecPrice.v
theories/PriceP.v
theories/ExPrice.v
theories/PropPrice.v
theories/SpecRotate.v
theories/RotateP.v
theories/PropRotate.v
theories/SpecCases.v
theories/CasesP.v
theories/ExCases.v
theories/PropCases.v
theories/SpecReform.v
theories/ReformP.v
theories/ExReform.v
theories/PropReform.v
theories/SpecNetSteps.v
theories/NetStepsP.v
theories/PropNetSteps.v
theories/SpecInteger.v
theories/IntegerP.v
theories/ExInteger.v
theories/PropInteger.v
theories/CutP.v
