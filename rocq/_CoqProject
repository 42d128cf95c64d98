-Q theories Verif
theories/Base.v
theories/MAnalysis.v
theories/MAtk.v
theories/MBlocker.v
theories/MCallback.v
theories/MConfig.v
theories/MControl.v
theories/MEnd.v
theories/MEndXyz.v
theories/MFloat.v
theories/MHash.v
theories/MInteractions.v
theories/MLattice.v
theories/MMatch.v
theories/MMatcher.v
theories/MModel.v
theories/MMpi.v
theories/MMsd.v
theories/MMsdDev.v
theories/MMsdPrint.v
theories/MPerform.v
theories/MPrint.v
theories/MProcess.v
theories/MPy.v
theories/MPyInter.v
theories/MPyLattice.v
theories/MPyProcess.v
theories/MRandom.v
theories/MRateTable.v
theories/MRepeat.v
theories/MRun.v
theories/MRunArgs.v
theories/MScript.v
theories/MShared.v
theories/MSpmd.v
theories/MTimer.v
theories/MTrajectory.v
theories/MTypes.v
theories/MXyz.v
theories/PAgain.v
theories/PAnalysis.v
theories/PAtk.v
theories/PAtomNames.v
theories/PAtoms.v
theories/PBase.v
theories/PBucket.v
theories/PBuild.v
theories/PCache.v
theories/PCache2.v
theories/PChain.v
theories/PChain2.v
theories/PDrift.v
theories/PDrift2.v
theories/PEffect.v
theories/PEnd.v
theories/PEndFile.v
theories/PEndXyz.v
theories/PEnv.v
theories/PEvent.v
theories/PFloat.v
theories/PFormat.v
theories/PGeo.v
theories/PHash.v
theories/PIdeal.v
theories/PIdeal2.v
theories/PLattice.v
theories/PLaw.v
theories/PLedger.v
theories/PMatcher.v
theories/PMpi.v
theories/PMsd.v
theories/PMsdDev.v
theories/PMult.v
theories/PNear.v
theories/PNoUB.v
theories/PNoUB2.v
theories/PNoUB3.v
theories/POrder.v
theories/PPerform.v
theories/PPick.v
theories/PPlain.v
theories/PPossible.v
theories/PPrint.v
theories/PProcess.v
theories/PPyChain.v
theories/PPyChain2.v
theories/PPyChain3.v
theories/PPyChain4.v
theories/PPyChain5.v
theories/PPyProcess.v
theories/PPython.v
theories/PRandom.v
theories/PRateTable.v
theories/PRates.v
theories/PRecast.v
theories/PRegular.v
theories/PRematch.v
theories/PReverse.v
theories/PRoom.v
theories/PRow.v
theories/PRun.v
theories/PRunAll.v
theories/PRunFrames.v
theories/PRunLoop.v
theories/PScript.v
theories/PSelect.v
theories/PShared.v
theories/PShared2.v
theories/PShared3.v
theories/PShared4.v
theories/PShared5.v
theories/PSpmd.v
theories/PStep.v
theories/PStepInv.v
theories/PTotal.v
theories/PTrajFile.v
theories/PTrajectory.v
theories/PTranslate.v
theories/PTypes.v
theories/PWild.v
theories/SAnalysis.v
theories/SAtk.v
theories/SBlocker.v
theories/SBucket.v
theories/SBuild.v
theories/SCache.v
theories/SChain.v
theories/SControl.v
theories/SEnd.v
theories/SEvent.v
theories/SFloat.v
theories/SGeo.v
theories/SHash.v
theories/SIdeal.v
theories/SIdle.v
theories/SLattice.v
theories/SLaw.v
theories/SLedger.v
theories/SModel.v
theories/SMsd.v
theories/SMsdDev.v
theories/SMult.v
theories/SNoUB.v
theories/SOrder.v
theories/SPlain.v
theories/SPossible.v
theories/SPrint.v
theories/SPyChain.v
theories/SPyChain2.v
theories/SPyInter.v
theories/SPyLattice.v
theories/SPyProcess.v
theories/SPyRow.v
theories/SPython.v
theories/SRandom.v
theories/SRates.v
theories/SRecast.v
theories/SRepeat.v
theories/SReverse.v
theories/SRun.v
theories/SRunArgs.v
theories/SSaved.v
theories/SScript.v
theories/SShared.v
theories/SStep.v
theories/STrajFile.v
theories/STrajectory.v
theories/STranslate.v
theories/STypes.v
theories/SWild.v
theories/SXyz.v
theories/TAnalysis.v
theories/TAtk.v
theories/TAtoms.v
theories/TCache.v
theories/TChain.v
theories/TControl.v
theories/TEnd.v
theories/TEndXyz.v
theories/TFloat.v
theories/THash.v
theories/TIdeal.v
theories/TIdle.v
theories/TLattice.v
theories/TLaw.v
theories/TLedger.v
theories/TMatch.v
theories/TMove.v
theories/TMpi.v
theories/TMsd.v
theories/TMsdDev.v
theories/TMsdPrint.v
theories/TMult.v
theories/TNoUB.v
theories/TOnly.v
theories/TOrder.v
theories/TPossible.v
theories/TPrint.v
theories/TPyBucket.v
theories/TPyChain.v
theories/TPyChain2.v
theories/TPyInter.v
theories/TPyLattice.v
theories/TPyProcess.v
theories/TRandom.v
theories/TRandom2.v
theories/TRateTable.v
theories/TRates.v
theories/TRecast.v
theories/TRepeat.v
theories/TReverse.v
theories/TRun.v
theories/TRunArgs.v
theories/TScript.v
theories/TSelect.v
theories/TShared.v
theories/TStep.v
theories/TTimer.v
theories/TTrajFile.v
theories/TTrajectory.v
theories/TTranslate.v
theories/TTypes.v
theories/TWeights.v
theories/TWild.v
theories/TXyz.v
theories/XCheck.v
theories/XRows.v
theories/XSpmd.v
theories/XSystems.v
