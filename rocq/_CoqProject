-Q theories Verif

theories/Advice/Model.v
theories/Advice/Proofs.v
theories/Advice/Properties.v
theories/Advice/Spec.v
theories/Algo/Model.v
theories/Algo/Proofs.v
theories/Algo/ProofsCluster.v
theories/Algo/ProofsStable.v
theories/Algo/Properties.v
theories/Algo/Spec.v
theories/Allocation/Model.v
theories/Allocation/Proofs.v
theories/Allocation/ProofsComparisons.v
theories/Allocation/ProofsMoveOnly.v
theories/Allocation/ProofsPlain.v
theories/Allocation/ProofsRegular.v
theories/Allocation/ProofsShifts.v
theories/Allocation/Properties.v
theories/Allocation/Spec.v
theories/Base/Compare.v
theories/Base/ListLemmas.v
theories/Base/Order.v
theories/Base/Outcome.v
theories/Bitmask/Model.v
theories/Bitmask/Proofs.v
theories/Bitmask/Properties.v
theories/Bitmask/Spec.v
theories/Checks/Instances.v
theories/Checks/Model.v
theories/Checks/Proofs.v
theories/Checks/ProofsBest.v
theories/Checks/ProofsEquality.v
theories/Checks/Properties.v
theories/Checks/Spec.v
theories/CommandLine/Model.v
theories/CommandLine/ProofsHelp.v
theories/CommandLine/ProofsInvoke.v
theories/CommandLine/ProofsLine.v
theories/CommandLine/ProofsMain.v
theories/CommandLine/ProofsParse.v
theories/CommandLine/ProofsTree.v
theories/CommandLine/ProofsWritten.v
theories/CommandLine/Properties.v
theories/CommandLine/PropertiesWritten.v
theories/CommandLine/Spec.v
theories/CommandLine/SpecWritten.v
theories/Commands/Model.v
theories/Commands/ProofsLines.v
theories/Commands/ProofsNumbers.v
theories/Commands/ProofsRun.v
theories/Commands/ProofsSandbox.v
theories/Commands/Properties.v
theories/Commands/Spec.v
theories/Coordinates/Instances.v
theories/Coordinates/Model.v
theories/Coordinates/Proofs.v
theories/Coordinates/ProofsLaws.v
theories/Coordinates/Properties.v
theories/Coordinates/Spec.v
theories/Creator/Model.v
theories/Creator/ModelCreate.v
theories/Creator/ModelHeader.v
theories/Creator/ProofsClass.v
theories/Creator/ProofsCreate.v
theories/Creator/ProofsCreateStop.v
theories/Creator/ProofsFiles.v
theories/Creator/ProofsHeader.v
theories/Creator/ProofsMore.v
theories/Creator/ProofsNames.v
theories/Creator/ProofsProject.v
theories/Creator/ProofsTexts.v
theories/Creator/Properties.v
theories/Creator/PropertiesCreate.v
theories/Creator/PropertiesCreateStop.v
theories/Creator/PropertiesHeader.v
theories/Creator/Spec.v
theories/Creator/SpecCreate.v
theories/Creator/SpecHeader.v
theories/Creator/Symbolic.v
theories/Creator/Templates.v
theories/Depend/Model.v
theories/Depend/Proofs.v
theories/Depend/ProofsLayout.v
theories/Depend/ProofsTop.v
theories/Depend/ProofsWitness.v
theories/Depend/Properties.v
theories/Depend/Spec.v
theories/Edit/Model.v
theories/Edit/ModelSuite.v
theories/Edit/Proofs.v
theories/Edit/ProofsCmake.v
theories/Edit/ProofsSuite.v
theories/Edit/ProofsSuiteNew.v
theories/Edit/Properties.v
theories/Edit/PropertiesSuite.v
theories/Edit/Spec.v
theories/Edit/SpecSuite.v
theories/Factory/Model.v
theories/Factory/Proofs.v
theories/Factory/Properties.v
theories/Factory/Spec.v
theories/Failure/Model.v
theories/Failure/Proofs.v
theories/Failure/ProofsReport.v
theories/Failure/Properties.v
theories/Failure/PropertiesReport.v
theories/Failure/Spec.v
theories/Floats/Model.v
theories/Floats/ModelStats.v
theories/Floats/ModelUnits.v
theories/Floats/Proofs.v
theories/Floats/ProofsReal.v
theories/Floats/ProofsStats.v
theories/Floats/ProofsStatsError.v
theories/Floats/ProofsStatsSign.v
theories/Floats/ProofsSum.v
theories/Floats/ProofsUnits.v
theories/Floats/Properties.v
theories/Floats/PropertiesStats.v
theories/Floats/PropertiesUnits.v
theories/Floats/Spec.v
theories/Floats/SpecStats.v
theories/Graph/Model.v
theories/Graph/ModelCopy.v
theories/Graph/ModelFaults.v
theories/Graph/ModelInit.v
theories/Graph/ModelMeta.v
theories/Graph/ModelShared.v
theories/Graph/ModelSort.v
theories/Graph/ModelStatic.v
theories/Graph/ModelTraverse.v
theories/Graph/ModelTree.v
theories/Graph/ModelWeighted.v
theories/Graph/ProofsBase.v
theories/Graph/ProofsComp.v
theories/Graph/ProofsCopy.v
theories/Graph/ProofsCount.v
theories/Graph/ProofsEmb.v
theories/Graph/ProofsFaults.v
theories/Graph/ProofsForest.v
theories/Graph/ProofsGrow.v
theories/Graph/ProofsInduced.v
theories/Graph/ProofsInit.v
theories/Graph/ProofsInitShared.v
theories/Graph/ProofsMeta.v
theories/Graph/ProofsMetaNode.v
theories/Graph/ProofsMutate.v
theories/Graph/ProofsPartial.v
theories/Graph/ProofsPrune.v
theories/Graph/ProofsPruneBack.v
theories/Graph/ProofsShared.v
theories/Graph/ProofsSort.v
theories/Graph/ProofsSpan.v
theories/Graph/ProofsStatic.v
theories/Graph/ProofsTop.v
theories/Graph/ProofsTraverse.v
theories/Graph/ProofsTraverseBfs.v
theories/Graph/ProofsTraverseDfs.v
theories/Graph/ProofsTraverseEdges.v
theories/Graph/ProofsTraverseOrder.v
theories/Graph/ProofsTraversePost.v
theories/Graph/ProofsTraverseTop.v
theories/Graph/ProofsTree.v
theories/Graph/ProofsTreeFaults.v
theories/Graph/ProofsWeighted.v
theories/Graph/Properties.v
theories/Graph/PropertiesCopy.v
theories/Graph/PropertiesMeta.v
theories/Graph/PropertiesMetaNode.v
theories/Graph/PropertiesMutate.v
theories/Graph/PropertiesOrder.v
theories/Graph/PropertiesSort.v
theories/Graph/PropertiesSpan.v
theories/Graph/PropertiesStatic.v
theories/Graph/PropertiesTraverse.v
theories/Graph/PropertiesTree.v
theories/Graph/Spec.v
theories/Graph/SpecCopy.v
theories/Graph/SpecInit.v
theories/Graph/SpecMeta.v
theories/Graph/SpecOrder.v
theories/Graph/SpecShared.v
theories/Graph/SpecSort.v
theories/Graph/SpecSpan.v
theories/Graph/SpecTraverse.v
theories/Graph/SpecTree.v
theories/Graph/SpecWeighted.v
theories/History/Model.v
theories/History/ProofsFiles.v
theories/History/ProofsHistory.v
theories/History/ProofsRun.v
theories/History/ProofsWitness.v
theories/History/Properties.v
theories/History/Spec.v
theories/Includes/Model.v
theories/Includes/Proofs.v
theories/Includes/Properties.v
theories/Includes/Spec.v
theories/Init/Model.v
theories/Init/ModelTemplate.v
theories/Init/ProofsAll.v
theories/Init/ProofsCheck.v
theories/Init/ProofsCopy.v
theories/Init/ProofsCreate.v
theories/Init/ProofsMain.v
theories/Init/ProofsWitness.v
theories/Init/Properties.v
theories/Init/PropertiesMain.v
theories/Init/Spec.v
theories/Init/SpecMain.v
theories/Linear/Model.v
theories/Linear/Proofs.v
theories/Linear/Properties.v
theories/Log/Model.v
theories/Log/Proofs.v
theories/Log/ProofsText.v
theories/Log/Properties.v
theories/Log/PropertiesText.v
theories/Log/Spec.v
theories/Log/SpecText.v
theories/Materials/Model.v
theories/Materials/Proofs.v
theories/Materials/ProofsSuites.v
theories/Materials/Properties.v
theories/Materials/Spec.v
theories/Meta/Model.v
theories/Meta/Proofs.v
theories/Meta/Properties.v
theories/Meta/Spec.v
theories/Mono/Model.v
theories/Mono/Proofs.v
theories/Mono/Properties.v
theories/Mono/Spec.v
theories/Names/Model.v
theories/Names/Proofs.v
theories/Names/ProofsAgree.v
theories/Names/ProofsCasts.v
theories/Names/ProofsCompilers.v
theories/Names/ProofsGaps.v
theories/Names/ProofsLiterals.v
theories/Names/ProofsPasses.v
theories/Names/Properties.v
theories/Names/PropertiesAgree.v
theories/Names/Spec.v
theories/Names/SpecAgree.v
theories/Outputs/Model.v
theories/Outputs/Proofs.v
theories/Outputs/ProofsLocations.v
theories/Outputs/Properties.v
theories/Outputs/Spec.v
theories/PartSeq/Model.v
theories/PartSeq/ProofsBucket.v
theories/PartSeq/ProofsFlat.v
theories/PartSeq/ProofsPart.v
theories/PartSeq/ProofsStatic.v
theories/PartSeq/Properties.v
theories/PartSeq/Spec.v
theories/PartSeq/StaticModel.v
theories/PathCheck/Model.v
theories/PathCheck/Proofs.v
theories/PathCheck/ProofsCheck.v
theories/PathCheck/Properties.v
theories/PathCheck/Spec.v
theories/Performance/Model.v
theories/Performance/ProofsClaims.v
theories/Performance/ProofsCourse.v
theories/Performance/ProofsNumbers.v
theories/Performance/ProofsText.v
theories/Performance/Properties.v
theories/Performance/Spec.v
theories/Pool/Model.v
theories/Pool/Proofs.v
theories/Pool/ProofsAlive.v
theories/Pool/ProofsLogs.v
theories/Pool/ProofsOrder.v
theories/Pool/ProofsResults.v
theories/Pool/ProofsTime.v
theories/Pool/Properties.v
theories/Pool/Spec.v
theories/Products/Model.v
theories/Products/Proofs.v
theories/Products/ProofsSpaces.v
theories/Products/ProofsUnits.v
theories/Products/Properties.v
theories/Products/Spec.v
theories/Propagation/Model.v
theories/Propagation/Proofs.v
theories/Propagation/Properties.v
theories/Propagation/Spec.v
theories/Prune/Model.v
theories/Prune/ModelRepeat.v
theories/Prune/Proofs.v
theories/Prune/ProofsRepeat.v
theories/Prune/Properties.v
theories/Prune/PropertiesRepeat.v
theories/Prune/Spec.v
theories/Prune/SpecRepeat.v
theories/Quantities/Model.v
theories/Quantities/ModelDifference.v
theories/Quantities/ModelNegate.v
theories/Quantities/ModelSum.v
theories/Quantities/Proofs.v
theories/Quantities/ProofsDifference.v
theories/Quantities/ProofsExpr.v
theories/Quantities/ProofsNegate.v
theories/Quantities/ProofsNumbers.v
theories/Quantities/ProofsSum.v
theories/Quantities/ProofsSumWitness.v
theories/Quantities/ProofsUnit.v
theories/Quantities/ProofsWitness.v
theories/Quantities/Properties.v
theories/Quantities/PropertiesDifference.v
theories/Quantities/PropertiesNegate.v
theories/Quantities/PropertiesSum.v
theories/Quantities/Spec.v
theories/Quantities/SpecDifference.v
theories/Quantities/SpecSum.v
theories/Ratio/Model.v
theories/Ratio/Proofs.v
theories/Ratio/Properties.v
theories/Ratio/Spec.v
theories/Recovery/Model.v
theories/Recovery/Proofs.v
theories/Recovery/Properties.v
theories/Recovery/Spec.v
theories/Runner/Model.v
theories/Runner/ModelAdd.v
theories/Runner/ModelSuites.v
theories/Runner/Proofs.v
theories/Runner/ProofsAdd.v
theories/Runner/ProofsAll.v
theories/Runner/ProofsRun.v
theories/Runner/ProofsSuites.v
theories/Runner/Properties.v
theories/Runner/PropertiesAdd.v
theories/Runner/Spec.v
theories/Runner/SpecAdd.v
theories/Select/Model.v
theories/Select/Proofs.v
theories/Select/Properties.v
theories/Select/Spec.v
theories/Semantics/Model.v
theories/Semantics/Proofs.v
theories/Semantics/ProofsBlame.v
theories/Semantics/ProofsExact.v
theories/Semantics/ProofsOperators.v
theories/Semantics/ProofsRegular.v
theories/Semantics/Properties.v
theories/Semantics/Spec.v
theories/Shell/Model.v
theories/Shell/Proofs.v
theories/Shell/Properties.v
theories/Shell/Spec.v
theories/SoftUpdate/Model.v
theories/SoftUpdate/Proofs.v
theories/SoftUpdate/ProofsFormed.v
theories/SoftUpdate/Properties.v
theories/SoftUpdate/Spec.v
theories/StaticDS/Model.v
theories/StaticDS/Proofs.v
theories/StaticDS/ProofsTop.v
theories/StaticDS/Properties.v
theories/StaticDS/Spec.v
theories/Stats/Model.v
theories/Stats/Proofs.v
theories/Stats/Properties.v
theories/Stats/Spec.v
theories/Suite/Model.v
theories/Suite/Proofs.v
theories/Suite/ProofsFaults.v
theories/Suite/ProofsFilter.v
theories/Suite/Properties.v
theories/Suite/Spec.v
theories/Summary/Model.v
theories/Summary/Proofs.v
theories/Summary/ProofsFailures.v
theories/Summary/ProofsTime.v
theories/Summary/Properties.v
theories/Summary/Spec.v
theories/Text/Model.v
theories/Text/Proofs.v
theories/Text/ProofsCase.v
theories/Text/ProofsIndent.v
theories/Text/Properties.v
theories/Text/Spec.v
theories/TextCheck/Model.v
theories/TextCheck/Proofs.v
theories/TextCheck/Properties.v
theories/TextCheck/Spec.v
theories/Throws/Model.v
theories/Throws/Proofs.v
theories/Throws/Properties.v
theories/Throws/Spec.v
theories/Transition/Model.v
theories/Transition/Proofs.v
theories/Transition/Properties.v
theories/Transition/Spec.v
theories/Uncaught/Model.v
theories/Uncaught/Proofs.v
theories/Uncaught/Properties.v
theories/Uncaught/Spec.v
theories/Units/Model.v
theories/Units/Proofs.v
theories/Units/ProofsTop.v
theories/Units/Properties.v
theories/Units/Spec.v
