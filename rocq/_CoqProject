-Q theories Verif
theories/Base.v
theories/F32.v
theories/CodecModel.v
theories/CodecSpec.v
theories/CodecProofs.v
theories/PropsCodec.v
theories/IndexModel.v
theories/IndexSpec.v
theories/IndexLemmas.v
theories/IndexDelete.v
theories/IndexCore.v
theories/IndexCreate.v
theories/IndexUpdate.v
theories/IndexDelCore.v
theories/IndexOps.v
theories/IndexAccess.v
theories/IndexExamples.v
theories/PropsIndex.v
theories/SearchModel.v
theories/SearchSpec.v
theories/SimdProofs.v
theories/ProbeProofs.v
theories/SearchProofs.v
theories/SearchOps.v
theories/SearchStages.v
theories/SearchExamples.v
theories/PropsSearch.v
theories/Text.v
theories/SqlModel.v
theories/SqlSpec.v
theories/SqlProofs.v
theories/SqlValid.v
theories/PropsSql.v
theories/Base64.v
theories/MetaModel.v
theories/MetaQuery.v
theories/MetaSpec.v
theories/MetaProofs.v
theories/MetaCreate.v
theories/MetaContent.v
theories/MetaAst.v
theories/MetaFilter.v
theories/MetaWhere.v
theories/MetaRead.v
theories/Base64Spec.v
theories/Base64Proofs.v
theories/SyncModel.v
theories/SyncSpec.v
theories/SyncProofs.v
theories/MetaExamples.v
theories/PropsMeta.v
theories/PropsMetaKeys.v
theories/FtsText.v
theories/FtsTextSpec.v
theories/FtsTextProofs.v
theories/FtsWords.v
theories/FtsMatch.v
theories/FtsRank.v
theories/FtsRankSpec.v
theories/FtsRankProofs.v
theories/FtsRankOps.v
theories/FtsRankPure.v
theories/FtsFiltered.v
theories/FtsExamples.v
theories/PropsFts.v
theories/FtsStore.v
theories/FtsStoreSpec.v
theories/FtsStoreProofs.v
theories/PropsFtsStore.v
theories/Calendar.v
theories/CalendarSpec.v
theories/CalendarProofs.v
theories/PropsApi.v
theories/Utils.v
theories/UtilsProofs.v
theories/PropsUtils.v
theories/Npy.v
theories/NpySpec.v
theories/NpyProofs.v
theories/NpyHeader.v
theories/PropsNpy.v
theories/Merge.v
theories/MergeSpec.v
theories/MergeProofs.v
theories/PropsMerge.v
theories/AtomicFile.v
theories/AtomicSpec.v
theories/AtomicProofs.v
theories/PropsAtomic.v
theories/IndexCrash.v
theories/CrashSpec.v
theories/CrashProofs.v
theories/PropsCrash.v
theories/ApiEmbed.v
theories/ApiEmbedSpec.v
theories/ApiEmbedProofs.v
theories/PropsEmbed.v
theories/ApiRead.v
theories/ApiReadSpec.v
theories/ApiReadProofs.v
theories/ApiIndex.v
theories/ApiIndexProofs.v
theories/PropsRead.v
theories/ApiUpdate.v
theories/ApiUpdateSpec.v
theories/ApiUpdateProofs.v
theories/PropsUpdate.v
theories/ApiEncode.v
theories/ApiEncodeSpec.v
theories/ApiEncodeProofs.v
theories/PropsEncode.v
theories/ApiProgress.v
theories/ApiProgressSpec.v
theories/ApiProgressProofs.v
theories/PropsProgress.v
theories/ApiPath.v
theories/ApiPathSpec.v
theories/ApiPathProofs.v
theories/PropsPath.v
theories/Colgrep.v
theories/ColgrepSpec.v
theories/ColgrepLists.v
theories/ColgrepSteps.v
theories/ColgrepIncr.v
theories/ColgrepBuild.v
theories/ColgrepHistory.v
theories/ColgrepFindings.v
theories/ColgrepTidy.v
theories/PropsColgrep.v
theories/Cluster.v
theories/ClusterSpec.v
theories/ClusterUF.v
theories/ClusterFlat.v
theories/ClusterWard.v
theories/ClusterIndex.v
theories/ClusterEnd.v
theories/ClusterGeneric.v
theories/ClusterMethods.v
theories/ClusterPool.v
theories/ClusterExact.v
theories/ClusterFloat.v
theories/ClusterExactSpec.v
theories/ClusterReciprocal.v
theories/ClusterLinkage.v
theories/PropsCluster.v
theories/Onnx.v
theories/OnnxSpec.v
theories/OnnxPrepare.v
theories/OnnxEncode.v
theories/OnnxPaths.v
theories/OnnxShapes.v
theories/OnnxBatches.v
theories/OnnxStream.v
theories/OnnxMore.v
theories/PropsOnnx.v
theories/Regex.v
theories/RegexProofs.v
theories/Glob.v
theories/GlobSpec.v
theories/GlobProofs.v
theories/GlobMore.v
theories/PropsGlob.v
theories/Pattern.v
theories/PatternSpec.v
theories/PatternProofs.v
theories/PatternMore.v
theories/PatternLines.v
theories/PatternOld.v
theories/PropsPattern.v
theories/Results.v
theories/ResultsSpec.v
theories/ResultsProofs.v
theories/ResultsBoost.v
theories/ResultsMore.v
theories/ResultsCmd.v
theories/ResultsTop.v
theories/ResultsExamples.v
theories/PropsResults.v
theories/Units.v
theories/UnitsSpec.v
theories/UnitsProofs.v
theories/UnitsStore.v
theories/PropsUnits.v
theories/Parse.v
theories/ParseSpec.v
theories/ParseProofs.v
theories/ParseGaps.v
theories/ParseUnits.v
theories/PropsParse.v
theories/Blocks.v
theories/BlocksSpec.v
theories/BlocksProofs.v
theories/BlocksPage.v
theories/BlocksUnits.v
theories/PropsBlocks.v
theories/CallGraph.v
theories/CallGraphSpec.v
theories/CallGraphProofs.v
theories/PropsCallGraph.v
theories/Walk.v
theories/WalkSpec.v
theories/WalkProofs.v
theories/WalkScan.v
theories/PropsWalk.v
theories/Display.v
theories/DisplaySpec.v
theories/DisplayProofs.v
theories/DisplayGroups.v
theories/PropsDisplay.v
theories/Staged.v
theories/StagedSpec.v
theories/StagedProofs.v
theories/StagedMain.v
theories/StagedIndex.v
theories/PropsStaged.v
theories/Threads.v
theories/ThreadsSpec.v
theories/ThreadsProofs.v
theories/ThreadsEnd.v
theories/Pipeline.v
theories/PipelineSpec.v
theories/PipelineProofs.v
theories/PipelineMain.v
theories/PipelineDone.v
theories/PropsPipeline.v
theories/ReadCache.v
theories/ReadCacheSpec.v
theories/ReadCacheProofs.v
theories/PropsReadCache.v
theories/Legacy.v
theories/LegacySpec.v
theories/LegacyProofs.v
theories/LegacyUpdate.v
theories/LegacyMain.v
theories/PropsLegacy.v
theories/Install.v
theories/InstallSpec.v
theories/InstallProofs.v
theories/InstallToml.v
theories/PropsInstall.v
theories/Procs.v
theories/ProcsSpec.v
theories/ProcsProofs.v
theories/PropsProcs.v
theories/Life.v
theories/LifeSpec.v
theories/LifeProofs.v
theories/LifeSeq.v
theories/LifeLive.v
theories/PropsLife.v
theories/Which.v
theories/WhichSpec.v
theories/WhichProofs.v
theories/PropsWhich.v
theories/Shared.v
theories/SharedSpec.v
theories/SharedProofs.v
theories/Torn.v
theories/TornProofs.v
theories/PropsShared.v
theories/Embed.v
theories/EmbedSpec.v
theories/EmbedProofs.v
theories/PropsUnitText.v
theories/Settings.v
theories/SettingsSpec.v
theories/SettingsProofs.v
theories/PropsSettings.v
theories/CmdLine.v
theories/CmdLineSpec.v
theories/PropsCmdLine.v
theories/Sdk.v
theories/SdkSpec.v
theories/SdkProofs.v
theories/PropsSdk.v
theories/Analysis.v
theories/AnalysisSpec.v
theories/AnalysisTree.v
theories/AnalysisProofs.v
theories/AnalysisText.v
theories/AnalysisMore.v
theories/PropsAnalysis.v
theories/PathRank.v
theories/PathRankSpec.v
theories/PathRankProofs.v
theories/PathRankMore.v
theories/PropsPathRank.v
theories/PropsSdkNames.v
theories/KMeans.v
theories/KMeansSpec.v
theories/KMeansProofs.v
theories/PropsKMeans.v
theories/PropsDecompress.v
theories/Client.v
theories/ClientSpec.v
theories/ClientProofs.v
theories/PropsClient.v
theories/PropsComments.v
theories/PropsImports.v
theories/PropsKMeansExact.v
theories/Qml.v
theories/QmlSpec.v
theories/QmlText.v
theories/QmlProofs.v
theories/PropsQml.v
theories/PropsStem.v
theories/PropsThreshold.v
theories/Decls.v
theories/DeclsSpec.v
theories/DeclsProofs.v
theories/DeclsTypes.v
theories/PropsDecls.v
theories/AstNames.v
theories/AstNamesSpec.v
theories/AstNamesProofs.v
theories/PropsAstNames.v
theories/EnvModes.v
theories/EnvModesSpec.v
theories/EnvModesProofs.v
theories/PropsEnvModes.v
theories/IndexList.v
theories/IndexListSpec.v
theories/PropsIndexList.v
theories/ServerArgs.v
theories/ServerArgsSpec.v
theories/ServerArgsProofs.v
theories/PropsServerArgs.v
theories/Sibling.v
theories/SiblingSpec.v
theories/SiblingProofs.v
theories/PropsSibling.v
theories/Signals.v
theories/SignalsSpec.v
theories/PropsSignals.v
theories/HookGate.v
theories/PropsHookGate.v
theories/InClause.v
theories/PropsInClause.v
