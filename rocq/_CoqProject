-Q theories Verif

theories/Base.v
theories/Sha256.v
theories/Storage.v
theories/ModelText.v
theories/ModelCommon.v
theories/ModelBinary.v
theories/ModelSparse.v
theories/ModelSum.v
theories/ModelVerify.v
theories/Conformance.v
theories/SpecBinary.v
theories/SpecBinaryFacts.v
theories/PositionProofs.v
theories/SpecBits.v
theories/BitsProofs.v
theories/SpecPosition.v
theories/PathProofs.v
theories/HeadsProofs.v
theories/StorageProofs.v
theories/Runs.v
theories/BinaryProofs.v
theories/BinaryReadProofs.v
theories/BinaryMain.v
theories/BinaryLimits.v
theories/SpecVerify.v
theories/BindingProofs.v
theories/VerifyProofs.v
theories/BinaryExtra.v
theories/RefTree.v
theories/WitnessBinary.v
theories/PropertiesBinary.v
theories/SpecCommon.v
theories/RunsCommon.v
theories/CommonProofs.v
theories/CommonWitness.v
theories/PropertiesCommon.v
theories/SpecSum.v
theories/RunsSum.v
theories/SumProofs.v
theories/SumMain.v
theories/WitnessSum.v
theories/PropertiesSum.v
theories/SpecSparse.v
theories/SparseSpecFacts.v
theories/SparseNodes.v
theories/SparseProofs.v
theories/SparseOps.v
theories/RunsSparse.v
theories/SparseSteps.v
theories/SparseMain.v
theories/SparseAny.v
theories/SparseEntries.v
theories/SparseTheorems.v
theories/SpecAlike.v
theories/Sim.v
theories/SparseSim.v
theories/WitnessSparse.v
theories/PropertiesSparse.v
theories/SpecCount.v
theories/CountProofs.v
theories/WitnessCount.v
theories/PropertiesCount.v
theories/VerifyMore.v
theories/PropertiesVerify.v
theories/RunsRecover.v
theories/RecoverProofs.v
theories/WitnessRecover.v
theories/PropertiesRecover.v
theories/SpecStore.v
theories/RunsSparseRecover.v
theories/SparseStore.v
theories/SparseRecover.v
theories/WitnessStore.v
theories/PropertiesStore.v
theories/SpecAnyRun.v
theories/SparseAnyRun.v
theories/SpecDisk.v
theories/SparseDisk.v
theories/SpecLost.v
theories/RunsLost.v
theories/SparseLost.v
theories/WitnessAny.v
theories/WitnessLost.v
theories/PropertiesAny.v
theories/PropertiesLost.v
theories/WitnessDisk.v
theories/PropertiesDisk.v
theories/SpecProfile.v
theories/ProfileProofs.v
theories/WidthProofs.v
theories/WitnessProfile.v
theories/PropertiesProfile.v
theories/RunsCalls.v
theories/TreeSim.v
theories/WitnessAlike.v
theories/PropertiesAlike.v
theories/EndProofs.v
theories/WitnessEnd.v
theories/PropertiesEnd.v
theories/SpecSumAny.v
theories/SumAny.v
theories/WitnessSumAny.v
theories/PropertiesSumAny.v
theories/ModelData.v
theories/SpecText.v
theories/SpecData.v
theories/ModelDebug.v
theories/TextProofs.v
theories/DataProofs.v
theories/DebugProofs.v
theories/DebugText.v
theories/WitnessData.v
theories/PropertiesData.v
theories/SpecBinaryAny.v
theories/BinaryAny.v
theories/WitnessBinaryAny.v
theories/PropertiesBinaryAny.v
theories/RunsRef.v
theories/SpecRef.v
theories/RefCalls.v
theories/WitnessRef.v
theories/PropertiesRef.v
theories/ModelTests.v
theories/TestsProofs.v
theories/WitnessTests.v
theories/PropertiesTests.v
theories/RunsForks.v
theories/SpecForks.v
theories/ForkProofs.v
theories/WitnessForks.v
theories/PropertiesForks.v
theories/SpecUntrusted.v
theories/UntrustedProofs.v
theories/WitnessUntrusted.v
theories/PropertiesUntrusted.v
theories/SpecSumDisk.v
theories/SumDisk.v
theories/WitnessSumDisk.v
theories/PropertiesSumDisk.v
theories/SpecCalls.v
theories/SparseCalls.v
theories/BinaryCalls.v
theories/WitnessCalls.v
theories/PropertiesCalls.v
theories/SpecSync.v
theories/RunsSync.v
theories/SyncProofs.v
theories/WitnessSync.v
theories/PropertiesSync.v
theories/SpecSumCalls.v
theories/SumCalls.v
theories/WitnessSumCalls.v
theories/PropertiesSumCalls.v
theories/SpecMemory.v
theories/MemoryProofs.v
theories/WitnessMemory.v
theories/PropertiesMemory.v
theories/ModelDisplay.v
theories/SpecMessage.v
theories/MessageProofs.v
theories/WitnessMessage.v
theories/PropertiesMessage.v
theories/SpecShared.v
theories/SharedProofs.v
theories/WitnessShared.v
theories/PropertiesShared.v
theories/SpecRead.v
theories/ReadProofs.v
theories/WitnessRead.v
theories/PropertiesRead.v
theories/HistoryProofs.v
theories/WitnessHistory.v
theories/PropertiesHistory.v
theories/SpecOpen.v
theories/RunsOpen.v
theories/OpenProofs.v
theories/WitnessOpen.v
theories/PropertiesOpen.v
theories/RunsShare.v
theories/ShareProofs.v
theories/WitnessShare.v
theories/PropertiesShare.v
theories/RunsCrowd.v
theories/CrowdProofs.v
theories/WitnessCrowd.v
theories/PropertiesCrowd.v
theories/SpecSumShare.v
theories/RunsSumShare.v
theories/SumShare.v
theories/WitnessSumShare.v
theories/PropertiesSumShare.v
theories/PartsProofs.v
theories/WitnessParts.v
theories/PropertiesParts.v
theories/SpecKinds.v
theories/KindsProofs.v
theories/KindsMain.v
theories/WitnessKinds.v
theories/PropertiesKinds.v
theories/SpecGrowth.v
theories/GrowthProofs.v
theories/WitnessGrowth.v
theories/PropertiesGrowth.v
theories/RunsStart.v
theories/StartProofs.v
theories/StartSparse.v
theories/WitnessStart.v
theories/PropertiesStart.v
theories/SpecErrors.v
theories/ErrorsProofs.v
theories/WitnessErrors.v
theories/PropertiesErrors.v
theories/CountAny.v
theories/WitnessCountAny.v
theories/PropertiesCountAny.v
theories/SpecShort.v
theories/ShortProofs.v
theories/WitnessShort.v
theories/PropertiesShort.v
theories/NeedProofs.v
theories/WitnessNeed.v
theories/PropertiesNeed.v
theories/SpecPart.v
theories/PartProofs.v
theories/WitnessPart.v
theories/PropertiesPart.v
