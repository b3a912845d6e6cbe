-Q theories Verif
theories/Base.v
theories/Spec.v
theories/PolyFacts.v
theories/Gf2xModel.v
theories/Gf2xProofs.v
theories/Gf2eModel.v
theories/Gf2eProofs.v
theories/IrrTable.v
theories/IrrProofs.v
theories/PropField.v
theories/MzdModel.v
theories/MzedModel.v
theories/MzedSpec.v
theories/LaneFacts.v
theories/MzedProofs.v
theories/MzedOps.v
theories/MzedOps2.v
theories/ScalarProofs.v
theories/LinSpec.v
theories/MatFacts.v
theories/Demo.v
theories/PropMzed.v
theories/EchFacts.v
theories/EchNaive.v
theories/NjModel.v
theories/NjTable.v
theories/NjMul.v
theories/NjEch.v
theories/NjEch2.v
theories/NjInv.v
theories/PropNj.v
theories/StrassenModel.v
theories/StrassenProofs.v
theories/StrassenMain.v
theories/PropStrassen.v
theories/SliceModel.v
theories/SliceSpec.v
theories/MzdFacts.v
theories/SliceProofs.v
theories/SliceOps.v
theories/SliceMul.v
theories/KaratsubaTable.v
theories/KaraModel.v
theories/KaraProofs.v
theories/ConvTable.v
theories/ConvModel.v
theories/ConvBits.v
theories/ConvSlice.v
theories/ConvCling.v
theories/PropSlice.v
theories/MulModel.v
theories/MulProofs.v
theories/PropMul.v
theories/TrsmModel.v
theories/TrsmSpec.v
theories/TrsmProofs.v
theories/TrsmRec.v
theories/PropTrsm.v
theories/PermModel.v
theories/PleModel.v
theories/PleSpec.v
theories/PleFacts.v
theories/PleRank.v
theories/PleProofs.v
theories/PermProofs.v
theories/PleComb.v
theories/PropPle.v
theories/PropPleSame.v
theories/PleSlice.v
theories/PleSame.v
theories/PleRec.v
theories/PluqFacts.v
theories/PleEch.v
theories/PleTop.v
theories/PropEch.v
theories/PolyMatModel.v
theories/PolyMatSpec.v
theories/PolyMatProofs.v
theories/PropPoly.v
theories/DjbModel.v
theories/DjbSpec.v
theories/DjbProofs.v
theories/PropDjb.v
theories/BlmTable.v
theories/BlmModel.v
theories/BlmSpec.v
theories/BlmFacts.v
theories/BlmCrt.v
theories/BlmFG.v
theories/BlmFin.v
theories/BlmMult.v
theories/BlmApply.v
theories/BlmInit.v
theories/BlmSpan.v
theories/BlmSched.v
theories/BlmOps.v
theories/BlmOpsProofs.v
theories/BlmOracle.v
theories/PropBlm.v
theories/PropBlm2.v
theories/Ext1Facts.v
theories/Ext1Model.v
theories/Ext1Proofs.v
theories/PropExt1.v
theories/PropGuard.v
theories/MemLang.v
theories/MemCheck.v
theories/MemSound.v
theories/MemSteps.v
theories/MemCalls.v
theories/MemFor.v
theories/MemChecked.v
theories/MemLib.v
theories/MemSpec.v
theories/MemCert.v
theories/MemRun.v
theories/PropMem.v
theories/HistSpec.v
theories/HistModel.v
theories/FrameProofs.v
theories/HistProofs.v
theories/PropHist.v
theories/PropClient.v
theories/PrintSpec.v
theories/PrintModel.v
theories/PrintProofs.v
theories/PropPrint.v
theories/WinSpec.v
theories/WinModel.v
theories/WinProofs.v
theories/PropWin.v
theories/SolveModel.v
theories/SolveMath.v
theories/PropSolve.v
theories/PropSlice2.v
theories/AliasModel.v
theories/AliasRows.v
theories/AliasProofs.v
theories/AliasSlice.v
theories/PropAlias.v
theories/ThreadModel.v
theories/ThreadProofs.v
theories/PropThread.v
theories/IntModel.v
theories/PropInt.v
theories/CostModel.v
theories/CostProofs.v
theories/PropCost.v
theories/CostNjModel.v
theories/CostNjProofs.v
theories/CostNjWorst.v
theories/CostNjGeneric.v
theories/PropNjCost.v
theories/CostStrassen.v
theories/PropVolume.v
theories/CostTrsm.v
theories/PropTrsmCost.v
theories/CostPle.v
theories/PropPleCost.v
theories/PropLaws.v
theories/TestModel.v
theories/TestCanary.v
theories/TestProofs.v
theories/TestTrsm.v
theories/PropTest.v
theories/TestPleModel.v
theories/TestPle.v
theories/PropTest2.v
theories/TestSliceModel.v
theories/TestSlice.v
theories/TestSmall.v
theories/TestSTrsm.v
theories/TestSPle.v
theories/PropTest3.v
theories/AliasStrassenModel.v
theories/AliasStrassen.v
theories/PropAlias2.v
theories/AliasStrassen2.v
theories/AliasStrassen3.v
theories/PropAlias3.v
theories/AliasAddmulModel.v
theories/AliasAddmul.v
theories/PropAlias4.v
