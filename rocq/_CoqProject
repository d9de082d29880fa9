-Q theories Verif

theories/Base.v
theories/Num.v
theories/Spec.v
theories/DistModel.v
theories/ClustersModel.v
theories/ClustersView.v
theories/MatLemmas.v
theories/VecLemmas.v
theories/ClustersProofs.v
theories/PropertiesClusters.v
theories/PartitionModel.v
theories/PartitionProofs.v
theories/PropertiesPartition.v
theories/DistProofs.v
theories/PropertiesDist.v
theories/ParModel.v
theories/KmeansModel.v
theories/ParProofs.v
theories/NearProofs.v
theories/KmeansProofs.v
theories/UpdateProofs.v
theories/RunProofs.v
theories/PropertiesKmeans.v
theories/InitProofs.v
theories/KmeansR.v
theories/SseProofs.v
theories/SimProofs.v
theories/PropertiesKmeansR.v
theories/PropertiesRun.v
theories/ExamplesKmeans.v
theories/KmsppR.v
theories/PropertiesKmspp.v
theories/PruneModel.v
theories/ParRule.v
theories/DistMatProofs.v
theories/PruneProofs.v
theories/ClusterSums.v
theories/PruneRound.v
theories/PruneUpdate.v
theories/PruneRun.v
theories/PruneRun2.v
theories/PropertiesPrune.v
theories/ExamplesPrune.v
theories/DistRunModel.v
theories/ProcRows.v
theories/DistRunProofs.v
theories/DistRunProofs2.v
theories/DistRunProofs3.v
theories/DistInitProofs.v
theories/DistRunProofs4.v
theories/DistRunProofs5.v
theories/SpecKmspp.v
theories/DistKmspp.v
theories/DistInitAll.v
theories/PropertiesDistRun.v
theories/PropertiesDistKmspp.v
theories/ExamplesDistRun.v
theories/SyncModel.v
theories/SyncProofs.v
theories/SyncLive.v
theories/PropertiesSync.v
theories/ContainersModel.v
theories/PropertiesBoolVec.v
theories/PropertiesVmap.v
theories/PropertiesIds.v
theories/PropertiesStats.v
theories/PropertiesCompact.v
theories/MatrixModel.v
theories/PropertiesMatrix.v
theories/PropertiesArgmax.v
theories/PropertiesInverse.v
theories/PropertiesProjection.v
theories/IoModel.v
theories/PropertiesStreams.v
theories/PropertiesIo.v
theories/HclustModel.v
theories/HclustProofs.v
theories/HclustUpdate.v
theories/HclustIter.v
theories/HclustSplit.v
theories/Okab.v
theories/ParDet.v
theories/HclustRun.v
theories/HclustDone.v
theories/HclustVerify.v
theories/PropertiesHclust.v
theories/ExamplesHclust.v
theories/MedoidModel.v
theories/MedoidProofs.v
theories/MedoidStep.v
theories/MedoidRun.v
theories/PropertiesMedoid.v
theories/PropertiesMedoidR.v
theories/ExamplesMedoid.v
theories/FcmModel.v
theories/FcmProofs.v
theories/FcmRun.v
theories/PropertiesFcm.v
theories/PropertiesFcmR.v
theories/ExamplesFcm.v
theories/XmeansModel.v
theories/ParSim.v
theories/XmeansProofs.v
theories/XmeansDecide.v
theories/XmeansRound.v
theories/XmeansRun.v
theories/PropertiesXmeans.v
theories/PropertiesXmeansR.v
theories/ExamplesXmeans.v
theories/SkmeansModel.v
theories/SkmeansProofs.v
theories/PropertiesSkmeans.v
theories/ExamplesSkmeans.v
theories/OmpModel.v
theories/OmpProofs.v
theories/PropertiesOmp.v
theories/ExamplesOmp.v
theories/MbModel.v
theories/MbProofs.v
theories/MbRun.v
theories/PropertiesMb.v
theories/ExamplesMb.v
theories/BestOfModel.v
theories/PropertiesBestOf.v
theories/ExamplesBestOf.v
theories/GmmModel.v
theories/PropertiesGmm.v
theories/ExamplesGmm.v
theories/GmeansModel.v
theories/GmeansSplit.v
theories/GmeansSteps.v
theories/GmeansDecide.v
theories/GmeansRun.v
theories/PropertiesGmeans.v
theories/PropertiesGmeansR.v
theories/GmeansFirst.v
theories/ExamplesGmeans.v
theories/DistLloydModel.v
theories/DistLloyd.v
theories/DistLloydInit.v
theories/PropertiesDistLloyd.v
theories/PropertiesDistSame.v
theories/ExamplesDistLloyd.v
theories/SpecLloyd.v
theories/PropertiesPruneStop.v
theories/PropertiesPruneSame.v
theories/ExamplesPruneSame.v
theories/PrunePasses.v
theories/OmpPrune.v
theories/PropertiesOmpPrune.v
theories/ExamplesOmpPrune.v
theories/ParFree.v
theories/FreeRuns.v
theories/PropertiesFree.v
theories/ExamplesFree.v
theories/WriteModel.v
theories/SpecYaml.v
theories/WriteProofs.v
theories/PropertiesWrite.v
theories/CliModel.v
theories/CliProofs.v
theories/PropertiesCli.v
theories/PropertiesHresult.v
theories/PropertiesCliDist.v
theories/ExecModel.v
theories/PropertiesExec.v
theories/ExamplesExec.v
theories/HclustThreads.v
theories/XmeansThreads.v
theories/PropertiesThreads.v
theories/PropertiesGmmInit.v
theories/PropertiesAD.v
theories/GmeansCount.v
theories/PropertiesDistMat.v
theories/PropertiesNoIter.v
theories/FcmThreads.v
theories/MedoidThreads.v
theories/MbThreads.v
theories/PruneThreads.v
theories/ExamplesPruneThreads.v
theories/GmeansThreads.v
theories/GmeansThreadsEx.v
theories/GmeansOne.v
theories/PropertiesClusterOps.v
theories/ExamplesGmeansOne.v
theories/PropertiesForgySelect.v
theories/GmeansAbort.v
theories/PropertiesGmeansThreads.v
theories/ExamplesGmeansThreads.v
theories/SkmeansThreads.v
theories/BestOfThreads.v
theories/PropertiesBic.v
