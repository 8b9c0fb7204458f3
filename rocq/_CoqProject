-Q theories Verif
theories/Base.v
theories/FloatOps.v
theories/ModelDict.v
theories/Spec.v
theories/SpecWeight.v
theories/FloatLaws.v
theories/OrderProofs.v
theories/DictProofs.v
theories/GreedyProofs.v
theories/DpProofs.v
theories/WeightedProofs.v
theories/FloatIEEE.v
theories/FloatExample.v
theories/FloatRebuild.v
theories/SpecHistory.v
theories/ReachProofs.v
theories/PropsDictLemmas.v
theories/PropsDict.v
theories/Maps.v
theories/ModelCoder.v
theories/SpecCoder.v
theories/CoderProofs.v
theories/PropsCoder.v
theories/ModelTok.v
theories/ModelStat.v
theories/ModelBuilder.v
theories/SpecTok.v
theories/TokProofs.v
theories/TokBatch.v
theories/PropsTok.v
theories/SpecStat.v
theories/StatProofs.v
theories/ExpandProofs.v
theories/ReduceProofs.v
theories/FloatScore.v
theories/RunProofs.v
theories/FloatIdeal.v
theories/SpecEntropy.v
theories/IdealProofs.v
theories/LearnProofs.v
theories/EnvExample.v
theories/ModelRandom.v
theories/RandomProofs.v
theories/PropsStatLemmas.v
theories/PropsStat.v
theories/SpecBuilder.v
theories/BuilderProofs.v
theories/BuilderSafe.v
theories/BuilderRuns.v
theories/PropsBuilderLemmas.v
theories/PropsBuilder.v
theories/ModelStream.v
theories/ModelVGram.v
theories/BuilderOwn.v
theories/SpecStream.v
theories/StreamProofs.v
theories/StreamRuns.v
theories/PropsStreamLemmas.v
theories/PropsStream.v
theories/SpecVGram.v
theories/VGramProofs.v
theories/VGramRuns.v
theories/PropsVGramLemmas.v
theories/PropsVGram.v
theories/ModelString.v
theories/SpecString.v
theories/StringProofs.v
theories/StringRuns.v
theories/PropsStringLemmas.v
theories/PropsString.v
theories/ModelMisc.v
theories/SpecMisc.v
theories/PropsMiscLemmas.v
theories/PropsMisc.v
theories/ModelJson.v
theories/SpecJson.v
theories/JsonProofs.v
theories/JsonRoundTrip.v
theories/ModelPersist.v
theories/SpecPersist.v
theories/PersistProofs.v
theories/PropsPersistLemmas.v
theories/TextPersist.v
theories/PersistRuns.v
theories/PropsPersist.v
theories/SpecExtra.v
theories/ExtraProofs.v
theories/ForgetProofs.v
theories/ExtraRuns.v
theories/TotalProofs.v
theories/RenameProofs.v
theories/SpecLoad.v
theories/LoadProofs.v
theories/PropsExtraLemmas.v
theories/PropsExtra.v
theories/LoadFlags.v
theories/PropsLoad.v
theories/SpecResave.v
theories/ResaveProofs.v
theories/ResaveRuns.v
theories/PropsResave.v
theories/ModelSave.v
theories/SpecSave.v
theories/Utf8Proofs.v
theories/EmitProofs.v
theories/SaveProofs.v
theories/SaveRuns.v
theories/PropsSave.v
theories/ModelShared.v
theories/SpecShared.v
theories/SharedProofs.v
theories/SharedRuns.v
theories/PropsShared.v
theories/SpecInterrupt.v
theories/InterruptProofs.v
theories/ModelPy.v
theories/SpecPy.v
theories/PyProofs.v
theories/InterruptRuns.v
theories/PropsInterrupt.v
theories/SpecRebuild.v
theories/RebuildProofs.v
theories/PropsRebuildLemmas.v
theories/RebuildRuns.v
theories/PropsRebuild.v
theories/SpecGrammar.v
theories/GrammarProofs.v
theories/PropsGrammarLemmas.v
theories/PropsGrammar.v
theories/SpecCounts.v
theories/CountsProofs.v
theories/PropsCounts.v
theories/SpecGain.v
theories/GainProofs.v
theories/GainExact.v
theories/PropsGainLemmas.v
theories/PropsGain.v
theories/SpecGrow.v
theories/GrowProofs.v
theories/PropsGrowLemmas.v
theories/PropsGrow.v
theories/SpecSchedule.v
theories/FloatSchedule.v
theories/ScheduleProofs.v
theories/ScheduleExact.v
theories/ScheduleRuns.v
theories/PropsScheduleLemmas.v
theories/PropsSchedule.v
theories/SpecMeasure.v
theories/MeasureProofs.v
theories/EntropyProofs.v
theories/PropsMeasureLemmas.v
theories/PropsMeasure.v
theories/SpecMixed.v
theories/MixedProofs.v
theories/PropsMixedLemmas.v
theories/PropsMixed.v
theories/SpecOwn.v
theories/OwnProofs.v
theories/PropsOwnLemmas.v
theories/PropsOwn.v
theories/CrossProofs.v
theories/CrossRuns.v
theories/PropsCrossLemmas.v
theories/PropsCross.v
theories/SpecBest.v
theories/BestProofs.v
theories/BestFloat.v
theories/FloatTrueLog.v
theories/BestRuns.v
theories/PropsBestLemmas.v
theories/PropsBest.v
theories/SpecFile.v
theories/FileProofs.v
theories/PropsFile.v
theories/SpecKeep.v
theories/KeepProofs.v
theories/PropsKeep.v
theories/CutProofs.v
theories/PropsCutLemmas.v
theories/PropsCut.v
theories/SpecTextBest.v
theories/PropsTextBestLemmas.v
theories/PropsTextBest.v
theories/ModelLog.v
theories/SpecLog.v
theories/LogProofs.v
theories/PropsLog.v
theories/ModelOwner.v
theories/SpecOwner.v
theories/OwnerProofs.v
theories/PropsOwnerLemmas.v
theories/PropsOwner.v
theories/SpecAlike.v
theories/AlikeProofs.v
theories/PropsAlike.v
theories/ModelCustom.v
theories/SpecCustom.v
theories/CustomProofs.v
theories/CustomRuns.v
theories/PropsCustom.v
theories/ModelDisk.v
theories/SpecDisk.v
theories/DiskProofs.v
theories/DiskRuns.v
theories/PropsDisk.v
theories/ModelCopy.v
theories/SpecCopy.v
theories/CopyProofs.v
theories/CopyRuns.v
theories/PropsCopy.v
theories/SpecLoadMixed.v
theories/LoadMixed.v
theories/LoadMixedLemmas.v
theories/PropsLoadMixed.v
