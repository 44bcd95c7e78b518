-Q theories Verif
theories/Base.v
theories/Suite.v
theories/Types.v
theories/ModelDkg.v
theories/ModelSign.v
theories/Toy.v
theories/Spec.v
theories/SpecDkg.v
theories/Algebra.v
theories/BaseLemmas.v
theories/LemmasShare.v
theories/Demo.v
theories/PropsShare.v
theories/LemmasRound1.v
theories/DemoDkg.v
theories/PropsRound1.v
theories/LemmasRound2.v
theories/PropsRound2.v
theories/LemmasFinish.v
theories/PropsFinish.v
theories/LemmasBlame.v
theories/PropsBlame.v
theories/PropsReshare.v
theories/SpecSign.v
theories/LemmasSign.v
theories/DemoSign.v
theories/PropsSign.v
theories/LemmasAgg.v
theories/PropsAgg.v
theories/PropsHash.v
theories/ModelCodec.v
theories/SpecCodec.v
theories/LemmasCodec.v
theories/PropsCodec.v
theories/SpecRobust.v
theories/PropsRobust.v
theories/PropsView.v
theories/SpecRandom.v
theories/PropsRandom.v
theories/ModelCompare.v
theories/PropsCompare.v
theories/SpecEnd.v
theories/PropsEnd.v
theories/PropsAttack.v
theories/SpecEpoch.v
theories/PropsEpoch.v
theories/SpecPanic.v
theories/PropsPanic.v
theories/ModelErase.v
theories/SpecErase.v
theories/PropsErase.v
theories/SpecHist.v
theories/PropsHist.v
theories/SpecAuth.v
theories/PropsReflect.v
theories/PropsLeak.v
theories/PropsReplay.v
theories/PropsSteer.v
theories/PropsStale.v
theories/PropsHandover.v
theories/PropsShift.v
theories/PropsSession.v
theories/SpecSim.v
theories/PropsSim.v
theories/PropsSimSession.v
theories/PropsSimDealer.v
theories/PropsSpread.v
theories/PropsParams.v
theories/SpecLife.v
theories/PropsLife.v
theories/PropsPublic.v
theories/ModelDisplay.v
theories/PropsDisplay.v
theories/PropsIdentity.v
theories/PropsAnon.v
theories/SpecWallet.v
theories/PropsWallet.v
theories/PropsTwice.v
theories/ModelDebug.v
theories/SpecDebug.v
theories/PropsDebug.v
theories/SpecReveal.v
theories/PropsReveal.v
theories/PropsSimLife.v
theories/PropsRestore.v
theories/PropsTypes.v
theories/PropsRepeat.v
theories/PropsReport.v
theories/ModelDoc.v
theories/PropsDoc.v
theories/PropsDocBad.v
theories/ModelWire.v
theories/PropsWire.v
theories/PropsOrder.v
theories/ModelTests.v
theories/PropsTests.v
theories/PropsErrors.v
theories/PropsFormula.v
theories/PropsMix.v
theories/PropsAlter.v
theories/PropsTestComplaint.v
theories/PropsExcluded.v
theories/PropsSubset.v
theories/PropsTakeover.v
theories/ModelHash.v
theories/PropsLength.v
theories/PropsSplit.v
theories/PropsTamper.v
theories/PropsCanon.v
theories/ModelIncomplete.v
theories/PropsIncomplete.v
theories/ModelTrace.v
theories/PropsTrace.v
theories/ModelAlloc.v
theories/PropsAlloc.v
theories/SpecRfc.v
theories/PropsRfc.v
theories/PropsCommon.v
theories/ModelCost.v
theories/PropsCost.v
theories/ModelBench.v
theories/PropsBench.v
theories/PropsTestKeys.v
theories/ModelUnit.v
theories/PropsUnit.v
theories/PropsExtra.v
theories/SpecWorld.v
theories/PropsWorld.v
theories/SpecHall.v
theories/PropsHall.v
theories/SpecEra.v
theories/PropsEra.v
theories/PropsOwn.v
theories/PropsVolume.v
theories/ModelRead.v
theories/PropsRead.v
theories/PropsLikely.v
theories/ModelModes.v
theories/PropsModes.v
theories/PropsTraceBack.v
theories/PropsCombine.v
theories/PropsChance.v
theories/PropsMixChance.v
theories/SafeField.v
theories/SafeSuite.v
theories/ModelTraceCalls.v
theories/PropsTraceCalls.v
theories/PropsJoint.v
theories/PropsEpochCount.v
theories/PropsBias.v
theories/PropsBound.v
theories/PropsProofCount.v
theories/PropsEpochSign.v
theories/PropsGuess.v
theories/PropsCases.v
theories/PropsOldMsg.v
theories/PropsAttempts.v
theories/PropsGroups.v
