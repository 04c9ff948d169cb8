-Q theories Verif

theories/Outcome.v
theories/Num.v
theories/ModelCore.v
theories/ModelBasis.v
theories/ModelAlgo.v
theories/ModelCurve.v
theories/ModelSurface.v
theories/ModelSerial.v
theories/ThOutcome.v
theories/ThReal.v
theories/SpecCore.v
theories/ThKnots.v
theories/ThKnots2.v
theories/ThMath.v
theories/ThGrid.v
theories/ThBox.v
theories/ThB64.v
theories/ThMisc.v
theories/ThCoreWit.v
theories/PropCore.v
theories/SpecBasis.v
theories/SpecCurve.v
theories/ThSum.v
theories/ThSpline.v
theories/ThVec.v
theories/ThBasis.v
theories/ThCurve.v
theories/ThInsert.v
theories/ThCurveWit.v
theories/PropCurve.v
theories/SpecSurface.v
theories/ThSurface.v
theories/ThSurface2.v
theories/ThSurfWit.v
theories/ThGeom.v
theories/PropSurface.v
theories/ThDeriv.v
theories/ThDers.v
theories/SpecDeriv.v
theories/ThLeib.v
theories/ThDerivs.v
theories/ThDerivs2.v
theories/ThDerivWit.v
theories/PropDeriv.v
theories/ThDecide.v
theories/ThRemove.v
theories/ThRemove2.v
theories/SpecRemove.v
theories/ThRemove3.v
theories/ThRemoveWit.v
theories/ThSurfRemove.v
theories/ThSurfRemove2.v
theories/PropSurfRemove.v
theories/PropRemove.v
theories/SpecSerial.v
theories/ThSerial.v
theories/ThSerial2.v
theories/ThText.v
theories/ThTextNum.v
theories/ThTextBits.v
theories/ThTextFile.v
theories/SpecText.v
theories/ThTextSurf.v
theories/ThSerialWit.v
theories/PropSerial.v
theories/ThTextWit.v
theories/PropText.v
theories/SpecSearch.v
theories/ThSearch.v
theories/ThRound.v
theories/ThSearch64.v
theories/ThSearchWit.v
theories/PropSearch.v
theories/SpecBezier.v
theories/ThBezier.v
theories/ThBezier2.v
theories/ThBezierWit.v
theories/ThBBox.v
theories/ThBBox2.v
theories/ThBBox3.v
theories/ThBBox4.v
theories/ThBBox5.v
theories/ThBBoxWit.v
theories/PropBezier.v
theories/SpecAlign.v
theories/ThReverse.v
theories/ThAlign.v
theories/ThAlign2.v
theories/ThAlignWit.v
theories/PropAlign.v
theories/ThPolar.v
theories/ThElevKnots.v
theories/ThElevPos.v
theories/ThElevForm.v
theories/ThElevCode.v
theories/ThElevRemove.v
theories/ThElevLoop.v
theories/SpecElevate.v
theories/ThElevate.v
theories/ThElevSurf.v
theories/ThElevateWit.v
theories/PropElevate.v
theories/ThErr.v
theories/ThErrBasis.v
theories/ThErrSum.v
theories/SpecErr.v
theories/ThErrCurve.v
theories/ThErrSurf.v
theories/ThSafe.v
theories/ThSafe2.v
theories/ThSafe3.v
theories/ThSafe4.v
theories/ThErrWit.v
theories/PropErr.v
theories/ThLoad.v
theories/PropLoad.v
theories/SpecMeta.v
theories/ThUnique.v
theories/ThOrder.v
theories/ThOrder2.v
theories/ThSmooth.v
theories/ThLocal.v
theories/ThMeta.v
theories/ThMeta2.v
theories/ThMeta3.v
theories/PropMeta.v
theories/SpecIter.v
theories/ThIter.v
theories/ThIterWit.v
theories/ThConv.v
theories/PropIter.v
theories/ThSame.v
theories/ThPrefix.v
theories/ThPrefix2.v
theories/PropSame.v
theories/ThRemoveTol.v
theories/ThRemoveTolWit.v
theories/PropTol.v
theories/SpecVar.v
theories/ThVar.v
theories/PropVar.v
theories/SpecErrIns.v
theories/ThErrInsert.v
theories/ThErrInsert2.v
theories/ThErrInsert3.v
theories/ThErrInsert4.v
theories/ThErrInsertWit.v
theories/PropErrIns.v
theories/SpecRows.v
theories/ThRows.v
theories/ThRows2.v
theories/ThErrInsSurf.v
theories/ThErrInsSurf2.v
theories/ThRowsWit.v
theories/PropRows.v
theories/ThSafeRem.v
theories/ThSafeRem2.v
theories/ThRemRows.v
theories/ThRemRows2.v
theories/ThRemRowsWit.v
theories/PropSafeRem.v
theories/ThExtract64.v
theories/SpecBox64.v
theories/ThBBox64.v
theories/ThBBox64b.v
theories/ThBBox64c.v
theories/ThBBox64Wit.v
theories/PropExtract64.v
theories/SpecFan.v
theories/ThFan.v
theories/ThFanWit.v
theories/PropFan.v
theories/SpecGeom64.v
theories/ThUniform64.v
theories/ThGeom64.v
theories/ThGeom64Wit.v
theories/PropGeom64.v
theories/SpecReverse64.v
theories/ThReverse64.v
theories/ThReverse64Wit.v
theories/ThAlign64.v
theories/ThAlignDir64.v
theories/ThAlignDirWit.v
theories/PropReverse64.v
theories/ThElevSim.v
theories/ThElev64.v
theories/ThElev64Wit.v
theories/PropElev64.v
theories/ThElevBuf.v
theories/ThElevExact.v
theories/ThElevExactWit.v
theories/PropElevExact.v
theories/SpecMove.v
theories/ThSo.v
theories/ThSoGen.v
theories/ThCoord.v
theories/ThCoordWit.v
theories/PropCoord.v
theories/ThMove.v
theories/ThRigid.v
theories/ThMoveWit.v
theories/PropMove.v
theories/ThBoxMove.v
theories/ThBoxMoveWit.v
theories/PropBoxMove.v
theories/ThOpp.v
theories/ThCoordBy.v
theories/ThMirrorRm.v
theories/ThMirrorWit.v
theories/PropMirror.v
theories/SpecQuery.v
theories/ThQuery.v
theories/ThQueryWit.v
theories/PropQuery.v
theories/SpecTrans64.v
theories/ThTrans64.v
theories/PropTrans64.v
theories/SpecBoxOps64.v
theories/ThBoxOps64.v
theories/PropBoxOps64.v
theories/SpecEnd64.v
theories/ThEnd64.v
theories/ThEnd64b.v
theories/ThEnd64w.v
theories/PropEnd64.v
theories/SpecCorner64.v
theories/ThCorner64.v
theories/ThCorner64w.v
theories/PropCorner64.v
theories/SpecEndRel.v
theories/ThEndRel.v
theories/ThEndRelWit.v
theories/PropEndRel.v
theories/SpecEdge64.v
theories/ThEdge64.v
theories/ThEdge64w.v
theories/PropEdge64.v
theories/SpecSeam64.v
theories/ThSeam64.v
theories/PropSeam64.v
theories/SpecJoint64.v
theories/ThJoint64.v
theories/ThJoint64w.v
theories/PropJoint64.v
theories/TestRepo.v
