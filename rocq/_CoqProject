-Q theories Verif
theories/BasePy.v
theories/BaseFld.v
theories/BaseSum.v
theories/BaseMat.v
theories/BaseNumpy.v
theories/ModelMatrixOps.v
theories/BaseEx.v
theories/BaseReal.v
theories/BaseLin.v
theories/BaseOrd.v
theories/ModelErrorMetrics.v
theories/SpecMatrix.v
theories/ProofRagged.v
theories/ProofMatrixOps.v
theories/ProofStruct.v
theories/ProofElim.v
theories/ProofUndelete.v
theories/ProofMatrixProps.v
theories/PropMatrix.v
theories/ProofMetrics.v
theories/PropMetrics.v
theories/ModelLS.v
theories/SpecLS.v
theories/ProofLS.v
theories/ProofTLS.v
theories/PropLS.v
theories/ModelPrior.v
theories/SpecPrior.v
theories/ProofPrior.v
theories/PropPrior.v
theories/ModelFit.v
theories/ProofFitBase.v
theories/SpecFit.v
theories/SpecFitReal.v
theories/ProofFit.v
theories/ProofFitOpt.v
theories/ProofFitBR.v
theories/ProofFitEIV.v
theories/ProofFitFix.v
theories/ProofFitMM.v
theories/ProofFitRep.v
theories/PropFit.v
theories/ModelNoiseCov.v
theories/SpecNoise.v
theories/ProofNoiseCov.v
theories/ProofNoiseEx.v
theories/ProofNoiseFin.v
theories/PropNoiseCov.v
theories/ModelFisher.v
theories/SpecFisher.v
theories/ProofFisher.v
theories/PropFisher.v
theories/ModelNoise.v
theories/ModelResample.v
theories/SpecSim.v
theories/ProofNoise.v
theories/SpecResample.v
theories/ProofResample.v
theories/PropSim.v
theories/PropResample.v
theories/ModelLines.v
theories/SpecLines.v
theories/ProofLines.v
theories/PropLines.v
theories/ModelSet.v
theories/ProofSet.v
theories/ModelKron.v
theories/SpecKron.v
theories/ProofKron.v
theories/PropKron.v
theories/ModelNet.v
theories/SpecNet.v
theories/ProofNet.v
theories/ProofNetBuild.v
theories/ProofNet3.v
theories/ProofNetY.v
theories/PropNet.v
theories/ModelReduce.v
theories/SpecReduce.v
theories/ProofReduce.v
theories/PropReduce.v
theories/BaseFloat.v
theories/ModelLoads.v
theories/SpecLoads.v
theories/ProofLoadsFloat.v
theories/ProofLoads.v
theories/ProofLoadsMain.v
theories/ProofLoadsSmall.v
theories/ProofDraws.v
theories/BaseRound.v
theories/PropLoads.v
theories/ModelMeasure.v
theories/SpecMeasure.v
theories/ProofMeasure.v
theories/ProofMeasure3.v
theories/ProofMeasureMain.v
theories/ProofMeasureApi.v
theories/ProofMeasureRows.v
theories/PropMeasure.v
theories/ModelIdent.v
theories/SpecIdent.v
theories/ProofIdent.v
theories/ProofPenalty.v
theories/ProofIdentMain.v
theories/ProofIdentThm.v
theories/ProofKnown.v
theories/ProofIdentEnd.v
theories/PropIdent.v
theories/ModelRun.v
theories/SpecRun.v
theories/SpecIdentify.v
theories/ProofMask.v
theories/ProofRun.v
theories/ProofRunIO.v
theories/ProofRunPhase.v
theories/ProofRunThm.v
theories/ProofIdentify.v
theories/ProofIdentifyThm.v
theories/ProofRunBayes.v
theories/ProofIdentifyEnd.v
theories/ProofRerun.v
theories/PropRun.v
theories/ModelBatch.v
theories/SpecBatch.v
theories/ProofBatch.v
theories/ProofBatchRun.v
theories/ProofBatchThm.v
theories/PropBatch.v
theories/ModelReduce3.v
theories/SpecReduce3.v
theories/ProofKronDup.v
theories/ProofThree.v
theories/ProofThreeSeq.v
theories/ProofReduce3.v
theories/PropReduce3.v
theories/ModelScript.v
theories/SpecScript.v
theories/ProofScript.v
theories/ProofRerun2.v
theories/PropScript.v
theories/SpecScriptData.v
theories/ProofScriptData.v
theories/ProofIdentifyExact.v
theories/ProofScriptLap.v
theories/PropScriptData.v
theories/SpecBayes.v
theories/ProofFrozen.v
theories/ProofBayes.v
theories/ProofBayesRun.v
theories/ProofRatings.v
theories/PropBayes.v
theories/ModelPlot.v
theories/SpecPlot.v
theories/ProofPlotNum.v
theories/ProofPlot.v
theories/ProofPlotRun.v
theories/ProofPlotCase.v
theories/ProofPlotFig.v
theories/PropPlot.v
theories/SpecPassive.v
theories/ProofPassive.v
theories/ProofPassiveRun.v
theories/PropPassive.v
theories/ModelTemplates.v
theories/SpecTemplates.v
theories/ProofDec.v
theories/ProofTemplates.v
theories/ProofTemplatesRun.v
theories/ProofTemplates3.v
theories/ProofTemplatesSame.v
theories/PropTemplates.v
theories/SpecSucceed.v
theories/ProofSucceed.v
theories/PropSucceed.v
theories/SpecResults.v
theories/PropResults.v
theories/ModelFim.v
theories/SpecFim.v
theories/ProofFim.v
theories/ProofFimRun.v
theories/PropFim.v
theories/ModelSession.v
theories/SpecSession.v
theories/ProofSession.v
theories/PropSession.v
theories/SpecScriptLoads.v
theories/PropScriptLoads.v
theories/ProofRefit.v
theories/PropRefit.v
theories/SpecOrder.v
theories/ProofOrder.v
theories/ProofOrder2.v
theories/ProofOrder3.v
theories/ProofOrder4.v
theories/ProofOrder5.v
theories/PropOrder.v
theories/SpecTLS.v
theories/ProofTLSOpt.v
theories/ProofTLSOpt2.v
theories/PropTLSOpt.v
theories/SpecOffset.v
theories/ProofOffset.v
theories/ProofOrderRun.v
theories/ProofOrderCov.v
theories/PropOffset.v
theories/SpecConductor.v
theories/PropConductor.v
theories/SpecRenumber.v
theories/ProofRenumber.v
theories/ProofRenumber2.v
theories/PropRenumber.v
theories/SpecAngle.v
theories/ProofAngle.v
theories/ProofAngle2.v
theories/PropAngle.v
theories/ProofEquiv.v
theories/ProofEquiv2.v
theories/ProofEquiv3.v
theories/PropRenumberRun.v
theories/ProofEquiv4.v
theories/ProofEquiv5.v
theories/ProofEquiv6.v
theories/ProofRenumberCov.v
theories/PropRenumberEIV.v
theories/ProofRoutines.v
theories/PropRoutines.v
theories/SpecFactor.v
theories/ProofFactor.v
theories/PropFactor.v
theories/ModelSimRun.v
theories/SpecSimRun.v
theories/ProofSimRun.v
theories/PropSimRun.v
theories/SpecRepeat.v
theories/ProofRepeat.v
theories/PropRepeat.v
theories/ModelCsv.v
theories/SpecCsv.v
theories/ProofCsv.v
theories/PropCsv.v
theories/ModelTypes.v
theories/SpecTypes.v
theories/ProofTypes.v
theories/PropTypes.v
theories/ProofScale.v
theories/PropScale.v
