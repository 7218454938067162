-Q theories Verif
theories/Base.v
theories/F32.v
theories/F32Facts.v
theories/Intrin.v
theories/MLanes.v
theories/MMem.v
theories/SpecLanes.v
theories/PLanes.v
theories/PMem.v
theories/Properties_Lanes.v
theories/SpecF32.v
theories/PF32.v
theories/MCompare.v
theories/SpecCompare.v
theories/PCompare.v
theories/Properties_Compare.v
theories/Lane.v
theories/MVec.v
theories/MTrig.v
theories/MQuat.v
theories/MInterp.v
theories/MPlane.v
theories/MMatrix.v
theories/SpecGeom.v
theories/PReal.v
theories/PVec.v
theories/PAgree.v
theories/Properties_Vec.v
theories/SpecQuat.v
theories/SpecMat.v
theories/PQuat.v
theories/PRot.v
theories/PMatrix.v
theories/PTransf.v
theories/PPlane.v
theories/PBuild.v
theories/PView.v
theories/PDecomp.v
theories/PQuatProps.v
theories/Properties_Quat.v
theories/PMatProps.v
theories/Properties_Matrix.v
theories/PPlaneProps.v
theories/Properties_Plane.v
theories/PInterp.v
theories/Properties_Interp.v
theories/Shapes.v
theories/MCollide.v
theories/SpecShape.v
theories/PShape.v
theories/PSphere.v
theories/PSide.v
theories/PHull.v
theories/PBox.v
theories/POBox.v
theories/PSat.v
theories/PSolid.v
theories/PRay.v
theories/PColl.v
theories/Properties_Collide.v
theories/MFrustum.v
theories/PTri.v
theories/PTriBox.v
theories/PTriTri.v
theories/PFrust.v
theories/PFrustSat.v
theories/PFrustSph.v
theories/PFrustMake.v
theories/PFrustRay.v
theories/Properties_Frustum.v
theories/SpecRound.v
theories/PFloat.v
theories/MRound.v
theories/PRound.v
theories/PRoundAll.v
theories/Properties_Round.v
theories/SpecConvert.v
theories/MConvert.v
theories/PConvert.v
theories/PConvertInt.v
theories/Properties_Convert.v
theories/SpecHalf.v
theories/MHalf.v
theories/PHalf.v
theories/PHalfRound.v
theories/Properties_Half.v
theories/PPoly.v
theories/PTrigPoly.v
theories/SpecTrig.v
theories/PTrig.v
theories/PTrigFn.v
theories/Properties_Trig.v
theories/PArcPoly.v
theories/PArc.v
theories/Properties_Arc.v
theories/SpecSlerp.v
theories/PSlerp.v
theories/Properties_Slerp.v
theories/MEst.v
theories/SpecEst.v
theories/PEstPoly.v
theories/PEst.v
theories/Properties_Est.v
theories/MTan.v
theories/PTan.v
theories/Properties_Tan.v
theories/MExp.v
theories/PExpPoly.v
theories/PExp.v
theories/Properties_Exp.v
theories/PHyp.v
theories/Properties_Hyp.v
theories/SpecRot.v
theories/PRotFn.v
theories/Properties_Rot.v
theories/SpecAngle.v
theories/PAngle.v
theories/Properties_Angle.v
theories/PQuatFn.v
theories/PSquad.v
theories/PSetup.v
theories/Properties_QuatFn.v
theories/SpecErr.v
theories/PErr.v
theories/PErrVec.v
theories/PErrNorm.v
theories/PErrMat.v
theories/Properties_Err.v
theories/PFix.v
theories/PTrigF.v
theories/PArcF.v
theories/Properties_TrigF.v
theories/PEstF.v
theories/Properties_EstF.v
theories/PRotF.v
theories/Properties_RotF.v
theories/SpecArith.v
theories/PArith.v
theories/PMod.v
theories/PArithLanes.v
theories/Properties_Arith.v
theories/MMore.v
theories/PMore.v
theories/Properties_More.v
theories/SpecTol.v
theories/PCollF.v
theories/PSphF.v
theories/PPlaneF.v
theories/Properties_CollF.v
theories/MNames.v
theories/Properties_Names.v
theories/SpecEig.v
theories/PEig.v
theories/PEigVec.v
theories/Properties_Eig.v
theories/Properties_Helpers.v
theories/Properties_Forms.v
theories/SpecErrR.v
theories/PErrR.v
theories/PErrDet.v
theories/PErrInt.v
theories/PErrGeo.v
theories/Properties_ErrMore.v
theories/SpecErrI.v
theories/PErrInv.v
theories/PErrInvE.v
theories/PErrCoord.v
theories/Properties_ErrDiv.v
theories/SpecErrP.v
theories/PErrProj.v
theories/PErrRotQ.v
theories/PErrUnit.v
theories/PErrFov.v
theories/Properties_ErrProj.v
