-Q theories Verif
theories/Base.v
theories/Spec.v
theories/Lib.v
theories/NtlMiss.v
theories/NtlMissProofs.v
theories/StrIntSpec.v
theories/StrIntModel.v
theories/StrIntProofs.v
theories/HashBucketsModel.v
theories/HashBucketsSpec.v
theories/HashBucketsProofs.v
theories/PropUtil.v
theories/PropStrInt.v
theories/PropHash.v
theories/MurmurModel.v
theories/MurmurSpec.v
theories/MurmurProofs.v
theories/MurmurTrunc.v
theories/PropMurmur.v
theories/PRFModel.v
theories/PRFSpec.v
theories/PRFProofs.v
theories/PRFNext.v
theories/PropPRF.v
theories/BenchModel.v
theories/BenchSpec.v
theories/BenchProofs.v
theories/PropBench.v
theories/PolyModel.v
theories/PolySpec.v
theories/PolyProofs.v
theories/InterpProofs.v
theories/FactorExists.v
theories/PolyObjProofs.v
theories/PropPoly.v
theories/EopsiModel.v
theories/EopsiSpec.v
theories/EopsiProofs.v
theories/EopsiBlind.v
theories/EopsiRun.v
theories/EopsiFacts.v
theories/EopsiExtra.v
theories/EopsiHist.v
theories/PropEopsi.v
theories/WorldModel.v
theories/WorldSpec.v
theories/WorldProofs.v
theories/WorldFrame.v
theories/WorldRun.v
theories/WorldMore.v
theories/WorldSim.v
theories/WorldLaws.v
theories/PropWorld.v
theories/PropRun.v
theories/SimulModel.v
theories/SimulSpec.v
theories/SimulProofs.v
theories/PropSimul.v
theories/ShaModel.v
theories/ShaSpec.v
theories/ShaProofs.v
theories/ShaLife.v
theories/ShaFlavour.v
theories/PropSha.v
theories/CherparsModel.v
theories/CherparsSpec.v
theories/CherparsProofs.v
theories/PropCherpars.v
theories/GroupSpec.v
theories/GroupProofs.v
theories/PropGroup.v
theories/WorldDir.v
theories/PropMore.v
theories/FilesModel.v
theories/FilesSpec.v
theories/FilesStats.v
theories/FilesProofs.v
theories/PropFiles.v
theories/ToolsModel.v
theories/ToolsSpec.v
theories/ToolsProofs.v
theories/ToolsBp.v
theories/PropTools.v
theories/TimingModel.v
theories/TimingSpec.v
theories/TimingProofs.v
theories/PropTiming.v
theories/LifeModel.v
theories/LifeProofs.v
theories/PropLife.v
theories/PropTrust.v
theories/PropThreads.v
theories/PrivacySpec.v
theories/PrivacyAlg.v
theories/PrivacyProofs.v
theories/PrivacyRun.v
theories/PropPrivacy.v
theories/DoubleModel.v
theories/DoubleSpec.v
theories/DoubleProofs.v
theories/DoubleSizes.v
theories/PropDouble.v
theories/StorageModel.v
theories/StorageSpec.v
theories/StorageProofs.v
theories/PropStorage.v
theories/CollusionProofs.v
theories/PropCollude.v
theories/PropHelper.v
theories/ExcModel.v
theories/ExcSpec.v
theories/ExcProofs.v
theories/PropExc.v
theories/RandzzModel.v
theories/RandzzSpec.v
theories/RandzzProofs.v
theories/PropRandzz.v
theories/CountSpec.v
theories/CountProofs.v
theories/PropCount.v
theories/DummySpec.v
theories/DummyProofs.v
theories/PropDummy.v
theories/AllocModel.v
theories/AllocSpec.v
theories/AllocProofs.v
theories/PropAlloc.v
theories/PrfAllocModel.v
theories/PrfAllocSpec.v
theories/PrfAllocProofs.v
theories/PropPrfAlloc.v
theories/CmdModel.v
theories/CmdSpec.v
theories/CmdProofs.v
theories/PropCmd.v
theories/PoolModel.v
theories/PoolSpec.v
theories/PoolProofs.v
theories/PropPool.v
theories/FewSpec.v
theories/FewProofs.v
theories/PropFew.v
theories/ConsoleModel.v
theories/ConsoleSpec.v
theories/ConsoleProofs.v
theories/ConsoleRun.v
theories/PropConsole.v
theories/TotalSpec.v
theories/TotalProofs.v
theories/TotalCount.v
theories/PropTotal.v
theories/BlindAllocModel.v
theories/BlindAllocSpec.v
theories/BlindAllocProofs.v
theories/PropBlindAlloc.v
theories/PropDims.v
theories/AskAllocModel.v
theories/AskAllocSpec.v
theories/AskAllocProofs.v
theories/PropAskAlloc.v
theories/PropNames.v
theories/RunAllocModel.v
theories/RunAllocSpec.v
theories/PropRunAlloc.v
