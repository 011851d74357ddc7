-Q theories Verif
theories/Num.v
theories/NumR.v
theories/NumX.v
theories/NumQ.v
theories/NumF.v
theories/PyBase.v
theories/Tensor.v
theories/State.v
theories/ModelGrid.v
theories/ModelConstit.v
theories/ModelParticle.v
theories/ModelMPList.v
theories/ModelIntegr.v
theories/ModelMain.v
theories/Spec.v
theories/SpecStep.v
theories/LibList.v
theories/LibR.v
theories/ProofsSlice.v
theories/ProofsGrid.v
theories/ProofsMap.v
theories/ProofsP2G.v
theories/ProofsWalls.v
theories/ProofsLaws.v
theories/SpecLaws.v
theories/ProofsSym.v
theories/ProofsInOut.v
theories/ProofsHist.v
theories/Concrete.v
theories/ThmMapping.v
theories/ThmWalls.v
theories/ThmLaws.v
theories/ThmInOut.v
theories/ThmLoop.v
theories/ThmHist.v
theories/ProofsStep.v
theories/ProofsPoints.v
theories/ThmStep.v
theories/ThmBalance.v
theories/ThmEdge.v
theories/ProofsX.v
theories/ThmLawsX.v
theories/ThmLawsD.v
theories/PropsMapping.v
theories/PropsWalls.v
theories/PropsLaws.v
theories/PropsInOut.v
theories/PropsLoop.v
theories/PropsHist.v
theories/PropsStep.v
theories/PropsBalance.v
theories/PropsEdge.v
theories/PropsLawsX.v
theories/PropsLawsD.v
theories/ThmSeg.v
theories/ThmGrad.v
theories/ThmSegQ.v
theories/ThmFrac.v
theories/PropsSeg.v
theories/PropsGrad.v
theories/PropsSegQ.v
theories/PropsFrac.v
theories/ModelPlot.v
theories/ModelInit.v
theories/ThmPlot.v
theories/ThmInit.v
theories/PropsPlot.v
theories/PropsInit.v
theories/ModelNewInt.v
theories/ThmNewInt.v
theories/ThmNewIntQ.v
theories/PropsNewInt.v
theories/PropsNewIntQ.v
theories/SpecOrder.v
theories/ProofsOrder.v
theories/ProofsOrder2.v
theories/ProofsOrder3.v
theories/ThmOrder.v
theories/PropsOrder.v
theories/ThmRun.v
theories/PropsRun.v
theories/ThmInst.v
theories/PropsInst.v
theories/ThmEnergy.v
theories/PropsEnergy.v
theories/ThmFall.v
theories/PropsFall.v
theories/ThmDensity.v
theories/PropsDensity.v
theories/ModelNT.v
theories/ThmNT.v
theories/ThmNTQ.v
theories/ThmAdvect.v
theories/ThmGsd.v
theories/PropsNT.v
theories/PropsNTQ.v
theories/PropsAdvect.v
theories/PropsGsd.v
theories/ThmLimits.v
theories/ThmLimitsQ.v
theories/PropsLimits.v
theories/PropsLimitsQ.v
theories/ThmFields.v
theories/ThmRheo.v
theories/ThmRheoX.v
theories/PropsFields.v
theories/PropsRheo.v
theories/PropsRheoX.v
theories/ThmClosed.v
theories/ThmClosedQ.v
theories/PropsClosed.v
theories/PropsClosedQ.v
theories/ProofsShift.v
theories/ThmGeo.v
theories/ThmShift.v
theories/PropsGeo.v
theories/PropsShift.v
theories/ThmBox.v
theories/PropsBox.v
theories/SpecScheme.v
theories/ProofsScheme.v
theories/ThmScheme.v
theories/PropsScheme.v
theories/ThmPk.v
theories/ThmPkQ.v
theories/SpecView.v
theories/ProofsView.v
theories/ThmView.v
theories/ThmViewQ.v
theories/PropsPk.v
theories/PropsPkQ.v
theories/PropsView.v
theories/PropsViewQ.v
theories/SpecFlow.v
theories/ThmFlow.v
theories/PropsFlow.v
theories/SpecRing.v
theories/ProofsRing.v
theories/ThmRing.v
theories/ThmSpin.v
theories/ThmTurn.v
theories/PropsRing.v
theories/PropsSpin.v
theories/PropsTurn.v
theories/ModelInputs.v
theories/ProofsFill.v
theories/ThmFill.v
theories/ProofsRest.v
theories/ThmRest.v
theories/ThmLoads.v
theories/PropsFill.v
theories/PropsRest.v
theories/PropsLoads.v
theories/ThmApart.v
theories/ProofsAffine.v
theories/ThmAffine.v
theories/PropsApart.v
theories/PropsAffine.v
theories/SpecLocal.v
theories/ProofsLocal.v
theories/ThmLocal.v
theories/ThmAlone.v
theories/PropsLocal.v
theories/PropsAlone.v
theories/ThmTotals.v
theories/PropsTotals.v
theories/ThmReach.v
theories/PropsReach.v
theories/SpecHoop.v
theories/ThmHoop.v
theories/PropsHoop.v
theories/ThmShown.v
theories/PropsShown.v
theories/SpecPace.v
theories/ThmPace.v
theories/ThmPaceQ.v
theories/PropsPace.v
theories/PropsPaceQ.v
theories/ThmSift.v
theories/ThmGrade.v
theories/PropsSift.v
theories/PropsGrade.v
theories/ThmSieve.v
theories/ThmSieveQ.v
theories/PropsSieve.v
theories/PropsSieveQ.v
theories/ThmSeam.v
theories/ThmSeamQ.v
theories/PropsSeam.v
theories/PropsSeamQ.v
theories/ThmGrist.v
theories/PropsGrist.v
theories/SpecRound.v
theories/NumRd.v
theories/ProofsRound.v
theories/ProofsRound2.v
theories/ProofsRound3.v
theories/ThmRound.v
theories/ThmRoundF.v
theories/PropsRound.v
theories/PropsRoundF.v
theories/ThmCases.v
theories/ThmCasesStep.v
theories/ThmCasesQ.v
theories/ThmCasesRun.v
theories/ThmCasesMore.v
theories/ThmCasesAff.v
theories/ThmCasesInit.v
theories/PropsCases.v
theories/PropsCasesStep.v
theories/PropsCasesQ.v
theories/PropsCasesRun.v
theories/PropsCasesMore.v
theories/PropsCasesAff.v
theories/PropsCasesInit.v
theories/ModelSave.v
theories/ProofsSave.v
theories/ThmSave.v
theories/ThmSaveQ.v
theories/PropsSave.v
theories/PropsSaveQ.v
theories/NumF0.v
theories/ThmStall.v
theories/ThmStallCase.v
theories/ThmStallF.v
theories/PropsStall.v
theories/PropsStallCase.v
theories/PropsStallF.v
theories/ModelDraw.v
theories/ThmDraw.v
theories/ThmDrawRun.v
theories/ThmDrawQ.v
theories/PropsDraw.v
theories/PropsDrawRun.v
theories/PropsDrawQ.v
theories/ThmDrawSize.v
theories/PropsDrawSize.v
theories/ModelRecord.v
theories/ThmRecord.v
theories/ThmRecordF.v
theories/PropsRecord.v
theories/PropsRecordF.v
theories/ThmDp.v
theories/PropsDp.v
theories/ThmBack.v
theories/PropsBack.v
theories/ThmYield.v
theories/PropsYield.v
theories/ThmBulk.v
theories/PropsBulk.v
theories/ThmMises.v
theories/PropsMises.v
theories/ThmCycle.v
theories/PropsCycle.v
theories/ThmAngular.v
theories/PropsAngular.v
theories/ThmSilent.v
theories/PropsSilent.v
theories/ThmMemory.v
theories/PropsMemory.v
theories/ThmStill.v
theories/PropsStill.v
theories/ThmRank.v
theories/PropsRank.v
theories/ThmBeat.v
theories/PropsBeat.v
theories/ThmPart.v
theories/PropsPart.v
theories/ThmSurface.v
theories/PropsSurface.v
theories/ThmObserver.v
theories/PropsObserver.v
theories/ThmCells.v
theories/PropsCells.v
theories/ThmMerge.v
theories/PropsMerge.v
theories/ThmReverse.v
theories/PropsReverse.v
theories/ThmJump.v
theories/PropsJump.v
theories/ThmNewton.v
theories/PropsNewton.v
theories/ThmDrop.v
theories/PropsDrop.v
theories/ThmStuck.v
theories/PropsStuck.v
theories/ThmLoss.v
theories/PropsLoss.v
theories/ThmStride.v
theories/PropsStride.v
theories/ThmGlide.v
theories/PropsGlide.v
theories/ThmAnyFall.v
theories/PropsAnyFall.v
theories/ThmFloor.v
theories/PropsFloor.v
theories/ThmReaction.v
theories/PropsReaction.v
