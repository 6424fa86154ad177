-Q theories Verif
theories/PyBase.v
theories/PyMore.v
theories/BaseLemmas.v
theories/Payload.v
theories/StorageModel.v
theories/StorageSpec.v
theories/StorageRun.v
theories/StorageProofs.v
theories/StorageThms.v
theories/Demo.v
theories/PropsStorage.v
theories/Num.v
theories/StorageOk.v
theories/ClientModel.v
theories/DbSpec.v
theories/ClientRun.v
theories/ClientProofs.v
theories/FlatModel.v
theories/FlatProofs.v
theories/DemoIndex.v
theories/PropsFlat.v
theories/PropsClient.v
theories/IvfModel.v
theories/IvfProofs.v
theories/PropsIvf.v
theories/HnswModel.v
theories/HnswProofs.v
theories/PropsHnsw.v
theories/SimilarityModel.v
theories/RealNum.v
theories/PropsSimilarity.v
theories/LshModel.v
theories/LshSpec.v
theories/LshProofs.v
theories/PropsLsh.v
theories/PropsLshReal.v
theories/AnnoyModel.v
theories/Keeps.v
theories/PropsAnnoy.v
theories/PropsServe.v
theories/XReal.v
theories/ScalarModel.v
theories/PropsScalar.v
theories/ProductModel.v
theories/PropsProduct.v
theories/SaqModel.v
theories/PropsSaq.v
theories/PropsSaqCodes.v
theories/PropsSaqSearch.v
theories/FsModel.v
theories/PersistModel.v
theories/FsProofs.v
theories/PropsTensor.v
theories/PropsIncr.v
theories/PyValue.v
theories/ValidateModel.v
theories/PropsValidate.v
theories/ConfigModel.v
theories/PropsConfig.v
theories/PropsIncrData.v
theories/ChunkModel.v
theories/ChunkProofs.v
theories/PropsChunk.v
theories/PropsParse.v
theories/CleanModel.v
theories/PropsClean.v
theories/BatchModel.v
theories/PropsBatch.v
theories/HelpersModel.v
theories/PropsDup.v
theories/PropsHelpers.v
theories/EmbedModel.v
theories/PropsEmbed.v
theories/PipelineModel.v
theories/PropsRegistry.v
theories/PropsPipeline.v
theories/StepModel.v
theories/StepProofs.v
theories/PropsCrash.v
theories/PropsRace.v
theories/ConcModel.v
theories/PropsConc.v
theories/PropsConcClose.v
theories/LshSteps.v
theories/PropsLshRace.v
theories/AliasModel.v
theories/PropsAlias.v
theories/FlatSteps.v
theories/FlatRaceProofs.v
theories/PropsFlatRace.v
theories/OwnProofs.v
theories/PropsFlatOwn.v
theories/DiskThreads.v
theories/PropsDiskThreads.v
theories/BenchModel.v
theories/PropsBench.v
theories/PropsSemantic.v
theories/LockModel.v
theories/HybridSteps.v
theories/LockProofs.v
theories/PropsHybridConc.v
theories/PropsHybridCrash.v
theories/FlatDiskSteps.v
theories/FlatCrashProofs.v
theories/PropsFlatCrash.v
theories/ClientExtra.v
theories/HnswSmallProofs.v
theories/PropsHnswSmall.v
theories/IvfCloseProofs.v
theories/PropsIvfClose.v
theories/PropsLshExact.v
theories/PropsAnnoyReal.v
theories/ParserChoiceModel.v
theories/PropsParserChoice.v
theories/FullClientModel.v
theories/PropsFullClient.v
theories/VecFileModel.v
theories/PropsVecFile.v
theories/SharedModel.v
theories/PropsShared.v
theories/PropsCollide.v
theories/PropsHybridInit.v
theories/AnalyzeModel.v
theories/PropsAnalyze.v
theories/InspectModel.v
theories/PropsInspect.v
theories/ProfileModel.v
theories/PropsProfile.v
theories/MonitorModel.v
theories/PropsMonitor.v
theories/PropsProgress.v
theories/LoggingModel.v
theories/PropsLogging.v
theories/ExtractModel.v
theories/PropsExtract.v
theories/PropsOffice.v
theories/ReleaseModel.v
theories/PropsRelease.v
theories/InfoModel.v
theories/PropsInfo.v
theories/IvfSteps.v
theories/RelyProofs.v
theories/IvfRaceProofs.v
theories/PropsIvfRace.v
theories/HnswSteps.v
theories/HnswRaceProofs.v
theories/PropsHnswRace.v
theories/PropsIdle.v
theories/PropsErrors.v
theories/PropsJaccard.v
theories/FactoryModel.v
theories/PropsFactory.v
theories/DocSearchModel.v
theories/PropsDocSearch.v
theories/FilesModel.v
theories/PropsFiles.v
theories/PerfModel.v
theories/PropsPerf.v
theories/ProdModel.v
theories/PropsProd.v
theories/PropsAliasView.v
theories/DecorModel.v
theories/PropsDecor.v
theories/PropsLogNames.v
theories/ExampleModel.v
theories/PropsExample.v
theories/LshThreshModel.v
theories/PropsLshThresh.v
