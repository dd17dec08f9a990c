-Q theories Verif
theories/Base.v
theories/MUtil.v
theories/MWires.v
theories/MCircuit.v
theories/MGarble.v
theories/SpecUtil.v
theories/SpecWires.v
theories/SpecCircuit.v
theories/SpecGarble.v
theories/PBase.v
theories/PUtil.v
theories/PWires.v
theories/PWiresSpec.v
theories/PGarble.v
theories/PCircuit.v
theories/PCircuit2.v
theories/PBuilder.v
theories/PGarbleSpec.v
theories/PBinKey.v
theories/CUtil.v
theories/CWires.v
theories/CCircuit.v
theories/CGarble.v
theories/MPoly.v
theories/MBitMatrix.v
theories/SpecPoly.v
theories/SpecBitMatrix.v
theories/PPoly.v
theories/PBitMatrix.v
theories/CPoly.v
theories/CBitMatrix.v
theories/MProc.v
theories/PProc.v
theories/CProc.v
theories/MBincode.v
theories/SpecBincode.v
theories/PBincode.v
theories/CBincode.v
theories/MOt.v
theories/SpecOt.v
theories/POt.v
theories/POtHide.v
theories/COt.v
theories/MPar.v
theories/PPar.v
theories/MApricot.v
theories/PHang.v
theories/PHangOt.v
theories/PApricotA.v
theories/SpecApricot.v
theories/PApricot.v
theories/PApricotRun.v
theories/PApricotRun2.v
theories/PLinDep.v
theories/SpecEvil.v
theories/PApricotEvil.v
theories/CApricot.v
theories/MMany.v
theories/SpecMany.v
theories/PMany.v
theories/CMany.v
theories/PHalf.v
theories/MFpake.v
theories/SpecFpake.v
theories/PFpake.v
theories/CFpake.v
theories/SpecMfpake.v
theories/CMfpake.v
theories/PFpake3.v
theories/CFpake3.v
theories/MLegacy.v
theories/SpecLegacy.v
theories/PLegacy.v
theories/CLegacy.v
theories/MChannel.v
theories/SpecChannel.v
theories/PChannel.v
theories/CChannel.v
theories/MMain.v
theories/SpecMain.v
theories/CMain.v
theories/SpecCrash.v
theories/PCrash.v
theories/CCrash.v
theories/MClassic.v
theories/SpecClassic.v
theories/PClassic.v
theories/PReturns.v
theories/CClassic.v
theories/SpecLong.v
theories/PLong.v
theories/CLong.v
theories/SpecPads.v
theories/PPads.v
theories/PPads2.v
theories/SpecManyHide.v
theories/PManyHide.v
theories/CPads.v
theories/PLeak.v
theories/SpecSteal.v
theories/PSteal.v
theories/PSteal2.v
theories/CSteal.v
theories/SpecProc.v
theories/SpecKey.v
theories/PKey.v
theories/PKey2.v
theories/PKey3.v
theories/PKey4.v
theories/CKey.v
theories/PNeg.v
theories/SpecEval.v
theories/PEval.v
theories/SpecHostile.v
theories/PHostile.v
theories/CHostile.v
theories/PField.v
theories/PApricotField.v
theories/CField.v
theories/PAnd.v
theories/CAnd.v
theories/SpecHide.v
theories/PHide.v
theories/CHide.v
theories/PHide2.v
theories/CHide2.v
theories/PIndex.v
theories/CIndex.v
theories/PGreedy.v
theories/CGreedy.v
theories/PSpan.v
theories/CSpan.v
theories/MBuffer.v
theories/PBuffer.v
theories/CBuffer.v
theories/MPolyType.v
theories/PPolyType.v
theories/CPolyType.v
theories/SpecMiddle.v
theories/PMiddle.v
theories/CMiddle.v
theories/SpecCoin.v
theories/CCoin.v
theories/SpecSpy.v
theories/PSpy.v
theories/PSpy2.v
theories/CSpy.v
theories/SpecPrivate.v
theories/PPrivate.v
theories/CPrivate.v
theories/SpecWires0.v
theories/PWires0.v
theories/CWires0.v
theories/SpecEnds.v
theories/PEnds.v
theories/CEnds.v
theories/PBitVector.v
theories/CBitVector.v
theories/PTranspose64.v
theories/CTranspose64.v
theories/SpecNothing.v
theories/PNothing.v
theories/CNothing.v
theories/SpecCatch.v
theories/PCatch.v
theories/CCatch.v
theories/SpecBounds.v
theories/PBounds.v
theories/PBounds2.v
theories/PBounds3.v
theories/CBounds.v
theories/SpecOffset.v
theories/POffset.v
theories/COffset.v
theories/CMixed.v
theories/SpecPicky.v
theories/PPicky.v
theories/CPicky.v
theories/CPicky2.v
theories/SpecText.v
theories/PText.v
theories/CText.v
theories/SpecWhole.v
theories/PWhole.v
theories/CWhole.v
theories/SpecCanon.v
theories/PCanon.v
theories/CCanon.v
theories/SpecSizes.v
theories/PSizes.v
theories/PSizes2.v
theories/CSizes.v
theories/MReserve.v
theories/PReserve.v
theories/CReserve.v
theories/SpecTurns.v
theories/PTurns.v
theories/PTurns2.v
theories/CTurns.v
theories/CCrash2.v
theories/SpecSteal3.v
theories/PSteal3.v
theories/CSteal3.v
theories/SpecTell.v
theories/PTell.v
theories/CTell.v
theories/SpecForce.v
theories/PForce.v
theories/CForce.v
theories/SpecFlat.v
theories/PFlat.v
theories/CFlat.v
theories/PBad.v
theories/CBad.v
theories/CRelease.v
theories/SpecMatch.v
theories/PMatch.v
theories/CMatch.v
theories/PTop.v
theories/CTop.v
theories/SpecUneven.v
theories/CUneven.v
theories/SpecTellMany.v
theories/CTellMany.v
theories/CCount.v
theories/SpecRole.v
theories/CRole.v
theories/SpecRoom.v
theories/PRoom.v
theories/PRoom2.v
theories/CRoom.v
theories/SpecTell3.v
theories/PTell3.v
theories/CTell3.v
theories/SpecWeak.v
theories/CWeak.v
theories/SpecPicky3.v
theories/PPicky3.v
theories/CPicky3.v
theories/SpecEnds2.v
theories/PEnds2.v
theories/CEnds2.v
theories/SpecKinds.v
theories/PKinds.v
theories/CKinds.v
theories/SpecTold.v
theories/PTold.v
theories/CTold.v
theories/SpecSizes3.v
theories/PSizes3.v
theories/CSizes3.v
theories/SpecSizes4.v
theories/CSizes4.v
theories/MLegacy2.v
theories/CLegacy2.v
theories/PVersions.v
theories/CVersions.v
theories/CCrash3.v
theories/SpecTurns2.v
theories/CTurns2.v
theories/CRoom3.v
theories/CRoom4.v
theories/MBench.v
theories/CBench.v
theories/SpecTotal.v
theories/PTotal.v
theories/PTotal2.v
theories/PTotal3.v
theories/CTotal.v
theories/MBench2.v
theories/CBench2.v
theories/PTotal4.v
theories/PTotal5.v
theories/CTotal2.v
theories/SpecProfile.v
theories/PProfile.v
theories/PProfile2.v
theories/CProfile.v
theories/SpecMachine.v
theories/PMachine.v
theories/PMachine2.v
theories/CMachine.v
theories/SpecAgree.v
theories/PAgree.v
theories/CAgree.v
theories/SpecEnds3.v
theories/PEnds3.v
theories/CEnds3.v
theories/CCount2.v
theories/SpecEnds4.v
theories/PEnds4.v
theories/CEnds4.v
theories/CUneven2.v
theories/SpecLazy.v
theories/CLazy.v
theories/PHideClassic.v
theories/CHideClassic.v
theories/PClassicMachine.v
theories/CClassicMachine.v
theories/CTurnsClassic.v
theories/CExtensions.v
