-Q theories Verif
theories/Base.v
theories/F64.v
theories/F64Facts.v
theories/ListFacts.v
theories/ModelArrayList.v
theories/SpecSeq.v
theories/ProofArrayList.v
theories/PropCollections.v
theories/ModelCells.v
theories/CellFacts.v
theories/ModelLinked.v
theories/SpecLinked.v
theories/ProofLinked.v
theories/PropLinked.v
theories/ModelHash.v
theories/SpecMap.v
theories/ProofHash.v
theories/PropMap.v
theories/ModelPrimes.v
theories/PropPrimes.v
theories/ModelUtils.v
theories/PropUtils.v
theories/ModelTable.v
theories/PropTable.v
theories/ProofKeys.v
theories/ModelKeys.v
theories/PropKeys.v
theories/ModelDistance.v
theories/ProofDistance.v
theories/ProofCore.v
theories/PropDistance.v
theories/ModelDistObj.v
theories/PropDistObj.v
theories/ModelMst.v
theories/ProofMst.v
theories/SpecGraph.v
theories/PropMst.v
theories/ModelGraph.v
theories/ProofSort.v
theories/ProofGraph.v
theories/PropGraph.v
theories/ModelCluster.v
theories/ModelHier.v
theories/ProofSets.v
theories/ProofExplore.v
theories/ProofTree.v
theories/ProofLabel.v
theories/ProofTies.v
theories/SpecHier.v
theories/ProofHier.v
theories/ProofHierEnd.v
theories/PropHier.v
theories/F64Arith.v
theories/ModelSelect.v
theories/SpecTree.v
theories/ProofSelect.v
theories/ProofTreeSel.v
theories/PropSelect.v
theories/ProofProminent.v
theories/PropProminent.v
theories/PropOutlier.v
theories/ModelRun.v
theories/ProofRun.v
theories/PropRun.v
theories/PropSize.v
theories/ModelJava.v
theories/PropJava.v
theories/ModelPython.v
theories/PropPython.v
theories/PropEnd.v
theories/ProofStab.v
theories/PropStab.v
theories/PropCondensed.v
theories/SpecMain.v
theories/PropMain.v
theories/ProofSym.v
theories/PropSame.v
theories/PropOrder.v
theories/ProofSim.v
theories/ProofPair.v
theories/PropInvariance.v
theories/F64Scale.v
theories/ProofScale.v
theories/PropScale.v
theories/PropIso.v
theories/ModelText.v
theories/ProofText.v
theories/ModelPrint.v
theories/PropPrint.v
theories/PropPrintMore.v
theories/PropPrintMaps.v
theories/ModelCuda.v
theories/PropCuda.v
theories/ModelMap.v
theories/ProofMap.v
theories/PropClusterMap.v
theories/PropTandem.v
theories/SpecStats.v
theories/PropMinMax.v
theories/ProofStats.v
theories/PropStats.v
theories/ModelLife.v
theories/SpecLife.v
theories/PropLife.v
theories/PropPointers.v
theories/ModelRace.v
theories/PropRace.v
theories/ModelCpp.v
theories/ProofCpp.v
theories/PropCpp.v
theories/RepoTests.v
theories/ModelPyDict.v
theories/PropPyDict.v
theories/ModelConcrete.v
theories/ProofConcrete.v
theories/ProofConcreteTable.v
theories/ProofConcreteHier.v
theories/ModelConcreteRun.v
theories/ProofConcreteRun.v
theories/SpecConcrete.v
theories/PropConcrete.v
theories/PropConcreteRun.v
theories/ModelGraphLife.v
theories/SpecGraphLife.v
theories/PropGraphLife.v
theories/ModelConstraint.v
theories/SpecConstraint.v
theories/PropConstraint.v
theories/ModelAbi.v
theories/SpecAbi.v
theories/PropAbi.v
theories/ModelClusterLife.v
theories/SpecClusterLife.v
theories/PropClusterLife.v
theories/SpecRuns.v
theories/ProofRuns.v
theories/PropRuns.v
theories/SpecAccuracy.v
theories/ProofAccuracy.v
theories/ProofAccuracyRun.v
theories/PropAccuracy.v
theories/PropMinPoints.v
theories/SpecChain.v
theories/ProofChain.v
theories/PropChain.v
theories/ModelLedger.v
theories/SpecLedger.v
theories/ProofLedger.v
theories/PropLedger.v
theories/ModelSortList.v
theories/SpecSortList.v
theories/PropSortList.v
theories/PropKeysMore.v
theories/ModelParStats.v
theories/PropParStats.v
theories/ModelLoops.v
theories/SpecLoops.v
theories/PropLoops.v
theories/ModelCppPrint.v
theories/PropReadBack.v
theories/PropReadMore.v
theories/ModelOom.v
theories/SpecOom.v
theories/ProofOom.v
theories/PropOom.v
theories/ModelRefused.v
theories/PropRefused.v
theories/ModelSample.v
theories/SpecSample.v
theories/ProofSample.v
theories/PropSample.v
theories/ModelSession.v
theories/PropSession.v
theories/ModelCppSession.v
theories/PropCppSession.v
theories/PropSampleAll.v
