-Q theories Verif
theories/Base.v
theories/Lib.v
theories/LibQc.v
theories/ModelAlias.v
theories/ModelCache.v
theories/ModelCims.v
theories/ModelCtpc.v
theories/ModelData.v
theories/ModelDocument.v
theories/ModelEstimators.v
theories/ModelExport.v
theories/ModelFamScore.v
theories/ModelFiles.v
theories/ModelFloating.v
theories/ModelGenerator.v
theories/ModelGraph.v
theories/ModelIndep.v
theories/ModelLife.v
theories/ModelMulti.v
theories/ModelParams.v
theories/ModelSample.v
theories/ModelSearch.v
theories/ModelShared.v
theories/ModelStructure.v
theories/ProofAlgorithm.v
theories/ProofAlgorithm2.v
theories/ProofAlgorithm3.v
theories/ProofAlgorithm4.v
theories/ProofAlias.v
theories/ProofAlias2.v
theories/ProofAlias3.v
theories/ProofAlias4.v
theories/ProofAlias5.v
theories/ProofAnyData.v
theories/ProofAnyData2.v
theories/ProofAsymp.v
theories/ProofBias.v
theories/ProofBias2.v
theories/ProofBias3.v
theories/ProofCache.v
theories/ProofCbSim.v
theories/ProofCoding.v
theories/ProofCoding2.v
theories/ProofCoding3.v
theories/ProofCoding4.v
theories/ProofColumns.v
theories/ProofColumns2.v
theories/ProofColumns3.v
theories/ProofColumns4.v
theories/ProofColumns5.v
theories/ProofComb.v
theories/ProofConserve.v
theories/ProofConserve2.v
theories/ProofCost.v
theories/ProofCost2.v
theories/ProofCtpc.v
theories/ProofCtpc2.v
theories/ProofCtpc3.v
theories/ProofCtpc4.v
theories/ProofCtpc5.v
theories/ProofCtpc6.v
theories/ProofCtpc7.v
theories/ProofCtpc8.v
theories/ProofData.v
theories/ProofData2.v
theories/ProofData3.v
theories/ProofDocument.v
theories/ProofEnough.v
theories/ProofEnough2.v
theories/ProofEnough3.v
theories/ProofEnough4.v
theories/ProofEnough5.v
theories/ProofEnough6.v
theories/ProofEnoughCb.v
theories/ProofEnoughCb2.v
theories/ProofEnoughCb3.v
theories/ProofEnoughCb4.v
theories/ProofEstimators.v
theories/ProofEstimators2.v
theories/ProofEstimators3.v
theories/ProofExport.v
theories/ProofExport2.v
theories/ProofExport3.v
theories/ProofFamScore.v
theories/ProofFamScore2.v
theories/ProofFamScore3.v
theories/ProofFew.v
theories/ProofFew2.v
theories/ProofFew3.v
theories/ProofFew4.v
theories/ProofFiles.v
theories/ProofFiles2.v
theories/ProofFloating.v
theories/ProofFloating2.v
theories/ProofFloating3.v
theories/ProofFloating4.v
theories/ProofFloating5.v
theories/ProofFrames.v
theories/ProofFrames2.v
theories/ProofGenerator.v
theories/ProofGenerator2.v
theories/ProofGenerator3.v
theories/ProofGraph.v
theories/ProofGraph2.v
theories/ProofHistory.v
theories/ProofHistory2.v
theories/ProofHistory3.v
theories/ProofIndep.v
theories/ProofIndep2.v
theories/ProofIndex.v
theories/ProofInvariance.v
theories/ProofKnown.v
theories/ProofLabels.v
theories/ProofLabels2.v
theories/ProofLabels3.v
theories/ProofLevels.v
theories/ProofLevels2.v
theories/ProofLife.v
theories/ProofLocalOpt.v
theories/ProofLocalOpt2.v
theories/ProofMulti.v
theories/ProofNames.v
theories/ProofNames2.v
theories/ProofParams.v
theories/ProofParams2.v
theories/ProofParams3.v
theories/ProofRecover.v
theories/ProofRecover2.v
theories/ProofRedundant.v
theories/ProofRedundant2.v
theories/ProofRedundant3.v
theories/ProofRedundant4.v
theories/ProofRename.v
theories/ProofRename2.v
theories/ProofRename3.v
theories/ProofSample.v
theories/ProofSample2.v
theories/ProofSample3.v
theories/ProofSample4.v
theories/ProofSample5.v
theories/ProofSearch.v
theories/ProofSearch2.v
theories/ProofSearch3.v
theories/ProofShared.v
theories/ProofShared2.v
theories/ProofSim.v
theories/ProofSpare.v
theories/ProofSpare2.v
theories/ProofSpare3.v
theories/ProofStructure.v
theories/ProofSurplus.v
theories/ProofSurplus2.v
theories/ProofSurplus3.v
theories/ProofThumb.v
theories/ProofThumb2.v
theories/ProofTuning.v
theories/ProofUnit.v
theories/ProofUnit2.v
theories/ProofUnit3.v
theories/ProofVisible.v
theories/ProofVisible2.v
theories/ProofVisible3.v
theories/ProofVisible4.v
theories/PropsAlgorithm.v
theories/PropsAlias.v
theories/PropsAnyData.v
theories/PropsBias.v
theories/PropsCoding.v
theories/PropsColumns.v
theories/PropsCost.v
theories/PropsCtpc.v
theories/PropsCtpc2.v
theories/PropsData.v
theories/PropsDocument.v
theories/PropsEnough.v
theories/PropsEnoughCb.v
theories/PropsEstimators.v
theories/PropsExport.v
theories/PropsFamScore.v
theories/PropsFew.v
theories/PropsFiles.v
theories/PropsFloating.v
theories/PropsFrames.v
theories/PropsGenerator.v
theories/PropsGraph.v
theories/PropsGraph2.v
theories/PropsHistory.v
theories/PropsIndep.v
theories/PropsInvariance.v
theories/PropsKnown.v
theories/PropsLabels.v
theories/PropsLevels.v
theories/PropsLife.v
theories/PropsLocalOpt.v
theories/PropsMulti.v
theories/PropsNames.v
theories/PropsParams.v
theories/PropsPrior.v
theories/PropsRecover.v
theories/PropsRecover2.v
theories/PropsRedundant.v
theories/PropsRedundant2.v
theories/PropsRename.v
theories/PropsReturns.v
theories/PropsSample.v
theories/PropsSearch.v
theories/PropsShared.v
theories/PropsSpare.v
theories/PropsStructure.v
theories/PropsSurplus.v
theories/PropsThumb.v
theories/PropsTuning.v
theories/PropsUnit.v
theories/PropsVisible.v
theories/SpecAlgorithm.v
theories/SpecAlias.v
theories/SpecAnyData.v
theories/SpecBias.v
theories/SpecCoding.v
theories/SpecColumns.v
theories/SpecComb.v
theories/SpecConserve.v
theories/SpecCost.v
theories/SpecCtpc.v
theories/SpecCtpc2.v
theories/SpecData.v
theories/SpecDocument.v
theories/SpecEnough.v
theories/SpecEnoughCb.v
theories/SpecEstimators.v
theories/SpecExport.v
theories/SpecFamScore.v
theories/SpecFiles.v
theories/SpecFloating.v
theories/SpecFrames.v
theories/SpecGenerator.v
theories/SpecGraph.v
theories/SpecHistory.v
theories/SpecIndep.v
theories/SpecInvariance.v
theories/SpecLabels.v
theories/SpecLevels.v
theories/SpecLife.v
theories/SpecLocalOpt.v
theories/SpecMulti.v
theories/SpecNames.v
theories/SpecParams.v
theories/SpecRecover.v
theories/SpecRecover2.v
theories/SpecRedundant.v
theories/SpecRename.v
theories/SpecSample.v
theories/SpecSearch.v
theories/SpecShared.v
theories/SpecSpare.v
theories/SpecStructure.v
theories/SpecSurplus.v
theories/SpecTuning.v
theories/SpecUnit.v
theories/SpecVisible.v
